(** Byte buffers: the encodings of lengths, names and pointers in the hash table buffer. *)
From Verif Require Import Base M_PackedArray M_HashTable.
From Coq Require Import ZifyBool FMapPositive.
Open Scope Z_scope.

Lemma u8_small v : 0 <= v < 256 -> u8 v = v.
Proof. intros H. apply wrap_small. exact H. Qed.
Lemma u8_range v : 0 <= u8 v < 256.
Proof. apply (wrap_range 8). lia. Qed.

Lemma bset_ok b i v : 0 <= i < alen b -> bset b i v = Ok (aupd b i (u8 v)).
Proof. intros H. unfold bset. apply aset_ok, H. Qed.
Lemma bget_upd E b i v j : 0 <= i < alen b -> bget E (aupd b i v) j = if j =? i then Ok v else bget E b j.
Proof.
  intros H. unfold bget. rewrite av_upd by assumption. unfold inb. rewrite alen_upd.
  destruct (Z.eqb_spec j i) as [->|Hne]; [|reflexivity].
  replace ((0 <=? i) && (i <? alen b)) with true by lia. reflexivity.
Qed.
Lemma bget_inb E b i v : bget E b i = Ok v -> 0 <= i < alen b.
Proof. unfold bget, inb. destruct ((0 <=? i) && (i <? alen b)) eqn:H; [lia|discriminate]. Qed.

(** * frame: b' is b except inside [lo, hi) *)
Definition bfr (E : env) (lo hi : Z) (b b' : arr Z) : Prop :=
  alen b' = alen b /\ forall i, ~ lo <= i < hi -> bget E b' i = bget E b i.
Lemma bfr_refl E lo hi b : bfr E lo hi b b.
Proof. split; auto. Qed.
Lemma bfr_trans E lo hi b1 b2 b3 : bfr E lo hi b1 b2 -> bfr E lo hi b2 b3 -> bfr E lo hi b1 b3.
Proof. intros [A1 B1] [A2 B2]. split; [congruence|]. intros i Hi. rewrite B2, B1 by assumption. reflexivity. Qed.
Lemma bfr_mono E lo hi lo' hi' b b' : bfr E lo hi b b' -> lo' <= lo -> hi <= hi' -> bfr E lo' hi' b b'.
Proof. intros [A B] H1 H2. split; [assumption|]. intros i Hi. apply B. lia. Qed.
Lemma bfr_upd E lo hi b i v : 0 <= i < alen b -> lo <= i < hi -> bfr E lo hi b (aupd b i v).
Proof.
  intros Hb Hi. split; [apply alen_upd|]. intros j Hj. rewrite bget_upd by assumption.
  replace (j =? i) with false by lia. reflexivity.
Qed.

(** never-written bytes beyond the end *)
Definition bclean (b : arr Z) : Prop := forall i, alen b <= i -> PositiveMap.find (key i) (adata b) = None.
Section Transp.
Local Transparent av aupd alen anew.
Lemma bclean_new : bclean (anew 0).
Proof. intros i _. apply PositiveMap.gempty. Qed.
Lemma bclean_upd b i v : 0 <= i < alen b -> bclean b -> bclean (aupd b i v).
Proof.
  intros Hi Hc j Hj. unfold aupd in *. cbn [alen adata] in *. rewrite PositiveMap.gso; [apply Hc, Hj|].
  intros He. apply key_inj in He; lia.
Qed.
Lemma alen_realloc b n : alen (brealloc b n) = n.
Proof. reflexivity. Qed.
Lemma bclean_realloc b n : alen b <= n -> bclean b -> bclean (brealloc b n).
Proof. intros H Hc i Hi. unfold brealloc in *. cbn [alen adata] in *. apply Hc. lia. Qed.
Lemma bget_realloc_old E b n i : alen b <= n -> 0 <= i < alen b -> bget E (brealloc b n) i = bget E b i.
Proof.
  intros Hn Hi. unfold bget, inb, av, brealloc, inb. cbn [alen adata].
  replace ((0 <=? i) && (i <? n)) with true by lia. replace ((0 <=? i) && (i <? alen b)) with true by lia. reflexivity.
Qed.
Lemma bget_realloc_new E b n i : bclean b -> 0 <= alen b -> alen b <= i < n ->
  bget E (brealloc b n) i = match fresh_byte E i with Some v => Ok (u8 v) | None => Err Uninit end.
Proof.
  intros Hc H0 Hi. unfold bget, inb, av, brealloc, inb. cbn [alen adata].
  replace ((0 <=? i) && (i <? n)) with true by lia. rewrite Hc by lia. reflexivity.
Qed.
End Transp.

(** * big-endian digits *)
Definition digit (v k j : Z) : Z := (v / 256 ^ (k - 1 - j)) mod 256.
Lemma digit_range v k j : 0 <= digit v k j < 256.
Proof. unfold digit. apply Z.mod_pos_bound. lia. Qed.
Lemma pow256_pos k : 0 <= k -> 0 < 256 ^ k.
Proof. intros. apply Z.pow_pos_nonneg; lia. Qed.
Lemma pow256_S k : 0 <= k -> 256 ^ (k + 1) = 256 ^ k * 256.
Proof. intros. rewrite Z.pow_add_r by lia. lia. Qed.

(** reading j digits of a k-digit number *)
Lemma digits_step v k j : 0 <= v < 256 ^ k -> 0 <= j < k ->
  v / 256 ^ (k - (j + 1)) = v / 256 ^ (k - j) * 256 + digit v k j.
Proof.
  intros Hv Hj. unfold digit. replace (k - 1 - j) with (k - (j + 1)) by lia.
  replace (k - j) with (k - (j + 1) + 1) by lia. rewrite pow256_S by lia.
  pose proof (pow256_pos (k - (j + 1)) ltac:(lia)). rewrite <- Z.div_div by lia.
  pose proof (Z.div_mod (v / 256 ^ (k - (j + 1))) 256 ltac:(lia)). lia.
Qed.

Lemma lor_shift8 x c : 0 <= x < 2 ^ 56 -> 0 <= c < 256 -> Z.lor (u64 (Z.shiftl x 8)) c = x * 256 + c.
Proof.
  intros Hx Hc. unfold u64. rewrite wrap_small by (rewrite Z.shiftl_mul_pow2 by lia; lia).
  assert (HL : Z.land (Z.shiftl x 8) c = 0).
  { apply Z.bits_inj'. intros k Hk. rewrite Z.land_spec, Z.shiftl_spec, Z.bits_0 by lia.
    destruct (Z_lt_ge_dec k 8); [rewrite Z.testbit_neg_r by lia; reflexivity|].
    rewrite (Z.bits_above_log2 c); [apply andb_false_r|lia|].
    destruct (Z.eq_dec c 0) as [->|]; [cbn; lia|]. apply Z.log2_lt_pow2; [lia|].
    apply Z.lt_le_trans with (2 ^ 8); [lia|apply Z.pow_le_mono_r; lia]. }
  rewrite <- Z.lxor_lor, <- Z.add_nocarry_lxor by assumption. rewrite Z.shiftl_mul_pow2 by lia. reflexivity.
Qed.

(** [enc E b p v k]: bytes p..p+k-1 hold v in big-endian order *)
Definition enc (E : env) (b : arr Z) (p v k : Z) : Prop :=
  forall j, 0 <= j < k -> bget E b (p + j) = Ok (digit v k j).

Lemma read_digits E b p v k i0 x0 : 0 <= i0 <= k -> k <= 8 -> 0 <= v < 256 ^ k -> x0 = v / 256 ^ (k - i0) ->
  enc E b p v k ->
  for_up i0 k (fun i x => c <- bget E b (p + i) ;; Ok (Z.lor (u64 (Z.shiftl x 8)) c)) x0 = Ok v.
Proof.
  intros Hi0 Hk Hv Hx Henc. apply wp_eq.
  eapply wp_mono.
  { apply (wp_for_up (fun i x => x = v / 256 ^ (k - i))); [lia|assumption|].
    intros i x Hi ->. rewrite (Henc i) by lia. cbn [bind wp].
    rewrite lor_shift8; [symmetry; apply digits_step; lia| |apply digit_range].
    assert (v / 256 ^ (k - i) < 256 ^ i).
    { apply Z.div_lt_upper_bound; [apply pow256_pos; lia|]. rewrite <- Z.pow_add_r by lia. replace (k - i + i) with k by lia. lia. }
    assert (256 ^ i <= 256 ^ 7) by (apply Z.pow_le_mono_r; lia).
    split; [apply Z.div_pos; [lia|apply pow256_pos; lia]|]. change (2 ^ 56) with (256 ^ 7). lia. }
  cbn beta. intros x ->. rewrite Z.sub_diag. rewrite Z.pow_0_r, Z.div_1_r. reflexivity.
Qed.

(** writing k digits, least significant first *)
Lemma write_digits E b q v k : 0 <= k -> 0 <= v ->
  0 <= q -> q + k <= alen b ->
  wp (for_up 0 k (fun i '(b, v) => b <- bset b (q + k - 1 - i) (Z.land v 255) ;; Ok (b, Z.shiftr v 8)) (b, v))
     (fun '(b', _) => bfr E q (q + k) b b' /\ enc E b' q v k /\ (bclean b -> bclean b')).
Proof.
  intros Hk Hv Hq Hl.
  eapply wp_mono.
  { apply (wp_for_up (fun i '(b', v') => v' = v / 256 ^ i /\ bfr E q (q + k) b b' /\
       (forall j, k - i <= j < k -> bget E b' (q + j) = Ok (digit v k j)) /\ (bclean b -> bclean b'))); [lia| |].
    - rewrite Z.pow_0_r, Z.div_1_r. split; [reflexivity|]. split; [apply bfr_refl|]. split; [intros; lia|auto].
    - intros i [b' v'] Hi (-> & Hf & He & Hc). pose proof (proj1 Hf) as Hlen.
      rewrite bset_ok by lia. cbn [bind wp].
      split.
      { rewrite Z.shiftr_div_pow2 by lia. rewrite Z.div_div; [|pose proof (pow256_pos i); lia|lia].
        f_equal. rewrite pow256_S by lia. reflexivity. }
      split; [eapply bfr_trans; [eassumption|apply bfr_upd; lia]|].
      split.
      + intros j Hj. rewrite bget_upd by lia. destruct (Z.eqb_spec (q + j) (q + k - 1 - i)) as [Heq|Hne].
        * f_equal. change 255 with (Z.ones 8). rewrite Z.land_ones by lia. change (2 ^ 8) with 256.
          unfold digit. replace (k - 1 - j) with i by lia. apply u8_small. apply Z.mod_pos_bound. lia.
        * apply He. lia.
      + intros H. apply bclean_upd; [lia|auto]. }
  cbn beta. intros [b' v'] (_ & Hf & He & Hc). split; [assumption|]. split; [|assumption].
  intros j Hj. apply He. lia.
Qed.

(** * number of length bytes *)
Definition lenlen (m : Z) : Z := Z.log2 m / 8 + 1.
Lemma lenlen_spec m : 1 <= m -> 1 <= lenlen m /\ 256 ^ (lenlen m - 1) <= m < 256 ^ lenlen m.
Proof.
  intros Hm. unfold lenlen. pose proof (Z.log2_nonneg m). pose proof (Z.log2_spec m ltac:(lia)) as [H1 H2].
  pose proof (Z.div_mod (Z.log2 m) 8 ltac:(lia)) as Hd. pose proof (Z.mod_pos_bound (Z.log2 m) 8 ltac:(lia)) as Hmb.
  set (q := Z.log2 m / 8) in *. assert (0 <= q) by (apply Z.div_pos; lia).
  split; [lia|]. change 256 with (2 ^ 8). rewrite <- !Z.pow_mul_r by lia.
  split.
  - apply Z.le_trans with (2 ^ Z.log2 m); [apply Z.pow_le_mono_r; lia|assumption].
  - apply Z.lt_le_trans with (2 ^ Z.succ (Z.log2 m)); [assumption|apply Z.pow_le_mono_r; lia].
Qed.
Lemma lenlen_le8 m : 1 <= m < 2 ^ 64 -> 1 <= lenlen m <= 8.
Proof.
  intros H. pose proof (lenlen_spec m ltac:(lia)) as [H1 [H2 _]]. split; [assumption|].
  destruct (Z_le_gt_dec (lenlen m) 8); [assumption|].
  assert (256 ^ 8 <= 256 ^ (lenlen m - 1)) by (apply Z.pow_le_mono_r; lia). change (256 ^ 8) with (2 ^ 64) in *. lia.
Qed.

Lemma top_byte_div v : 0 <= v < 2 ^ 64 -> top_byte v = v / 2 ^ 56.
Proof.
  intros Hv. unfold top_byte. rewrite Z.shiftr_land. rewrite Z.shiftr_div_pow2 by lia.
  change (Z.shiftr 18374686479671623680 56) with (Z.ones 8). rewrite Z.land_ones by lia.
  apply Z.mod_small. split; [apply Z.div_pos; lia|]. apply Z.div_lt_upper_bound; lia.
Qed.

(** after j shifts *)
Lemma shifts_small m j : 1 <= m < 2 ^ 64 -> 0 <= j <= 8 - lenlen m -> 1 <= m * 256 ^ j < 2 ^ 64.
Proof.
  intros Hm Hj. pose proof (lenlen_spec m ltac:(lia)) as (H1 & H2 & H3). pose proof (pow256_pos j ltac:(lia)).
  split; [nia|]. apply Z.lt_le_trans with (256 ^ lenlen m * 256 ^ j); [nia|]. rewrite <- Z.pow_add_r by lia.
  change (2 ^ 64) with (256 ^ 8). apply Z.pow_le_mono_r; lia.
Qed.
Lemma shifts_top m j : 1 <= m < 2 ^ 64 -> 0 <= j <= 8 - lenlen m ->
  (top_byte (m * 256 ^ j) =? 0) = negb (j =? 8 - lenlen m).
Proof.
  intros Hm Hj. pose proof (shifts_small m j Hm Hj). rewrite top_byte_div by lia.
  pose proof (lenlen_spec m ltac:(lia)) as (H1 & H2 & H3). pose proof (pow256_pos j ltac:(lia)).
  destruct (Z.eqb_spec j (8 - lenlen m)) as [->|Hne]; cbn [negb].
  - apply Z.eqb_neq. assert (2 ^ 56 <= m * 256 ^ (8 - lenlen m)).
    { apply Z.le_trans with (256 ^ (lenlen m - 1) * 256 ^ (8 - lenlen m)); [|nia].
      rewrite <- Z.pow_add_r by lia. replace (lenlen m - 1 + (8 - lenlen m)) with 7 by lia. reflexivity. }
    assert (1 <= m * 256 ^ (8 - lenlen m) / 2 ^ 56) by (apply Z.div_le_lower_bound; lia). lia.
  - apply Z.eqb_eq. apply Z.div_small. split; [lia|].
    apply Z.lt_le_trans with (256 ^ lenlen m * 256 ^ j); [nia|]. rewrite <- Z.pow_add_r by lia.
    change (2 ^ 56) with (256 ^ 7). apply Z.pow_le_mono_r; lia.
Qed.

Lemma shift8 v : u64 (Z.shiftl v 8) = (v * 256) mod 2 ^ 64.
Proof. unfold u64, wrap. rewrite Z.shiftl_mul_pow2 by lia. reflexivity. Qed.
Lemma shift_next m j : 1 <= m < 2 ^ 64 -> 0 <= j < 8 - lenlen m -> u64 (Z.shiftl (m * 256 ^ j) 8) = m * 256 ^ (j + 1).
Proof.
  intros Hm Hj. rewrite shift8. rewrite <- Z.mul_assoc, <- pow256_S by lia.
  apply Z.mod_small. pose proof (shifts_small m (j + 1) Hm ltac:(lia)). lia.
Qed.

Theorem calculate_lenlen_fuel_ok f m : (8 <= f)%nat -> 1 <= m < 2 ^ 64 -> calculate_lenlen_fuel f m = Ok (lenlen m).
Proof.
  intros Hf Hm. pose proof (lenlen_le8 m Hm) as Hl. unfold calculate_lenlen_fuel. apply wp_eq.
  apply (wp_loop (fun '(v, k) => 0 <= 8 - k <= 8 - lenlen m /\ v = m * 256 ^ (8 - k)) (fun '(v, k) => k - lenlen m)).
  - intros [v k] [H _]. lia.
  - intros [v k] [Hk ->]. rewrite shifts_top by assumption. destruct (Z.eqb_spec (8 - k) (8 - lenlen m)); cbn [negb wp]; [lia|].
    rewrite shift_next by lia. replace (u8 (k - 1)) with (k - 1) by (symmetry; apply u8_small; lia).
    replace (8 - (k - 1)) with (8 - k + 1) by lia. split; [split; [lia|reflexivity]|lia].
  - split; [lia|]. replace (8 - 8) with 0 by lia. lia.
  - lia.
Qed.
Theorem calculate_lenlen_ok m : 1 <= m < 2 ^ 64 -> calculate_lenlen m = Ok (lenlen m).
Proof. apply (calculate_lenlen_fuel_ok 10). lia. Qed.

(** length = 0: the loop never ends *)
Theorem calculate_lenlen_zero f : calculate_lenlen_fuel f 0 = Err Diverge.
Proof.
  unfold calculate_lenlen_fuel.
  assert (H : forall k, loop f (fun '(m, bytes) => if top_byte m =? 0 then Ok (inl (u64 (Z.shiftl m 8), u8 (bytes - 1)))
    else Ok (inr bytes)) (0, k) = Err Diverge); [|apply H].
  induction f as [|f IH]; intros k; [reflexivity|].
  cbn [loop]. change (top_byte 0 =? 0) with true. cbn [bind]. change (u64 (Z.shiftl 0 8)) with 0. apply IH.
Qed.

(** * the length field *)
(** what set_length leaves at p: the low zero bytes of the length are not written *)
Lemma rem_step m k l : 1 <= l -> l <= 8 -> 0 <= k < l ->
  (m * 256 ^ (8 - l) * 256 ^ k) mod 2 ^ 64 * 256 mod 2 ^ 64 = (m * 256 ^ (8 - l) * 256 ^ (k + 1)) mod 2 ^ 64.
Proof.
  intros. rewrite Z.mul_mod_idemp_l by lia. rewrite pow256_S by lia. f_equal. lia.
Qed.
Lemma rem_val m k l : 1 <= l <= 8 -> 0 <= k <= l -> 0 <= m ->
  (m * 256 ^ (8 - l) * 256 ^ k) mod 2 ^ 64 = (m mod 256 ^ (l - k)) * 256 ^ (8 - l + k).
Proof.
  intros Hl Hk Hm. rewrite <- Z.mul_assoc, <- Z.pow_add_r by lia.
  assert (He : 2 ^ 64 = 256 ^ (l - k) * 256 ^ (8 - l + k)).
  { rewrite <- Z.pow_add_r by lia. replace (l - k + (8 - l + k)) with 8 by lia. reflexivity. }
  rewrite He. pose proof (pow256_pos (l - k) ltac:(lia)). pose proof (pow256_pos (8 - l + k) ltac:(lia)).
  rewrite Z.mul_mod_distr_r by lia. reflexivity.
Qed.
Lemma rem_top m k l : 1 <= l <= 8 -> 0 <= k < l -> 0 <= m ->
  (m mod 256 ^ (l - k)) * 256 ^ (8 - l + k) / 2 ^ 56 = digit m l k.
Proof.
  intros Hl Hk Hm. unfold digit. replace (l - k) with (l - 1 - k + 1) by lia. rewrite pow256_S by lia.
  pose proof (pow256_pos (l - 1 - k) ltac:(lia)). rewrite Z.rem_mul_r by lia.
  assert (He : 2 ^ 56 = 256 ^ (l - 1 - k) * 256 ^ (8 - l + k)).
  { rewrite <- Z.pow_add_r by lia. replace (l - 1 - k + (8 - l + k)) with 7 by lia. reflexivity. }
  rewrite He. pose proof (pow256_pos (8 - l + k) ltac:(lia)).
  rewrite Z.div_mul_cancel_r by lia. rewrite (Z.mul_comm (256 ^ (l - 1 - k))), Z.div_add by lia.
  rewrite Z.div_small; [lia|]. apply Z.mod_pos_bound. lia.
Qed.
Lemma digit_rem0 m k l j : 1 <= l -> 0 <= k <= j -> j < l -> 0 <= m -> m mod 256 ^ (l - k) = 0 -> digit m l j = 0.
Proof.
  intros Hl Hk Hj Hm H0. unfold digit.
  apply Z.mod_divide in H0; [|pose proof (pow256_pos (l - k)); lia]. destruct H0 as [a Ha].
  rewrite Ha. replace (l - k) with ((l - 1 - j) + (j - k) + 1) by lia. rewrite !Z.pow_add_r by lia.
  pose proof (pow256_pos (l - 1 - j) ltac:(lia)).
  replace (a * (256 ^ (l - 1 - j) * 256 ^ (j - k) * 256 ^ 1)) with ((a * 256 ^ (j - k) * 256) * 256 ^ (l - 1 - j)) by (rewrite Z.pow_1_r; ring).
  rewrite Z.div_mul by lia. apply Z.mod_mul. lia.
Qed.

Theorem set_length_fuel_exact f E b p m : (9 <= f)%nat -> 1 <= m < 2 ^ 64 -> 0 <= p -> p + 1 + lenlen m <= alen b ->
  exists b', set_length_fuel f E b p m = Ok b' /\ bfr E p (p + 1 + lenlen m) b b' /\ (bclean b -> bclean b') /\
    bget E b' p = Ok (lenlen m) /\
    forall j, 0 <= j < lenlen m ->
      (m mod 256 ^ (lenlen m - j) <> 0 /\ bget E b' (p + 1 + j) = Ok (digit m (lenlen m) j)) \/
      (m mod 256 ^ (lenlen m - j) = 0 /\ digit m (lenlen m) j = 0 /\ bget E b' (p + 1 + j) = bget E b (p + 1 + j)).
Proof.
  intros Hf Hm Hp Hb. pose proof (lenlen_le8 m Hm) as Hl.
  pose proof (fun j => shifts_top m j Hm) as Htop. pose proof (fun j => shift_next m j Hm) as Hnext.
  pose proof (fun j => shifts_small m j Hm) as Hsm. set (l := lenlen m) in *.
  unfold set_length_fuel. rewrite bset_ok by lia. cbn [bind].
  assert (H1 : wp (loop f (fun '(b, length) =>
      if top_byte length =? 0 then
        x <- bget E b p ;; b <- bset b p (x - 1) ;; Ok (inl (b, u64 (Z.shiftl length 8)))
      else Ok (inr (b, length))) (aupd b p (u8 8), m))
     (fun '(b', v) => v = m * 256 ^ (8 - l) /\ bfr E p (p + 1) b b' /\ (bclean b -> bclean b') /\ bget E b' p = Ok l)).
  { apply (wp_loop (fun '(b', v) => exists k, 0 <= 8 - k <= 8 - l /\ v = m * 256 ^ (8 - k) /\ bfr E p (p + 1) b b' /\
       (bclean b -> bclean b') /\ bget E b' p = Ok k)
       (fun '(b', v) => match bget E b' p with Ok k => k - l | _ => 0 end)).
    - intros [b' v] (k & Hk & _ & _ & _ & Hg). rewrite Hg. lia.
    - intros [b' v] (k & Hk & -> & Hfr & Hc & Hg). rewrite Htop by assumption.
      destruct (Z.eqb_spec (8 - k) (8 - l)) as [He|Hne]; cbn [negb wp].
      + rewrite He. split; [reflexivity|]. split; [assumption|]. split; [assumption|]. rewrite Hg. f_equal. lia.
      + rewrite Hg. cbn [bind]. pose proof (proj1 Hfr). rewrite bset_ok by lia. cbn [bind wp].
        rewrite (bget_upd E b' p (u8 (k - 1)) p) by lia. rewrite Z.eqb_refl.
        replace (u8 (k - 1)) with (k - 1) by (symmetry; apply u8_small; lia).
        split; [|lia]. exists (k - 1). split; [lia|]. split; [rewrite Hnext by lia; f_equal; f_equal; lia|].
        split; [eapply bfr_trans; [eassumption|apply bfr_upd; lia]|]. split; [intros; apply bclean_upd; [lia|auto]|].
        reflexivity.
    - exists 8. split; [lia|]. split; [replace (8 - 8) with 0 by lia; lia|]. split; [apply bfr_upd; lia|].
      split; [intros; apply bclean_upd; [lia|assumption]|]. rewrite bget_upd by lia. rewrite Z.eqb_refl. reflexivity.
    - rewrite bget_upd by lia. rewrite Z.eqb_refl. change (u8 8) with 8. lia. }
  apply wp_inv in H1 as ([b1 v1] & Hloop & -> & Hfr1 & Hc1 & Hg1). cbn zeta in Hloop |- *. rewrite Hloop. cbn [bind].
  assert (H2 : wp (loop f (fun '(b, q, length) =>
      if length =? 0 then Ok (inr b) else
        b <- bset b q (top_byte length) ;;
        Ok (inl (b, q + 1, u64 (Z.shiftl length 8)))) (b1, p + 1, m * 256 ^ (8 - l)))
    (fun b' => bfr E (p + 1) (p + 1 + l) b1 b' /\ (bclean b1 -> bclean b') /\
      forall j, 0 <= j < l -> (m mod 256 ^ (l - j) <> 0 /\ bget E b' (p + 1 + j) = Ok (digit m l j)) \/
        (m mod 256 ^ (l - j) = 0 /\ digit m l j = 0 /\ bget E b' (p + 1 + j) = bget E b1 (p + 1 + j)))).
  { apply (wp_loop (fun '(b', q, v) => exists k, 0 <= k <= l /\ q = p + 1 + k /\ v = (m * 256 ^ (8 - l) * 256 ^ k) mod 2 ^ 64 /\
       bfr E (p + 1) (p + 1 + k) b1 b' /\ (bclean b1 -> bclean b') /\
       (forall j, 0 <= j < k -> m mod 256 ^ (l - j) <> 0 /\ bget E b' (p + 1 + j) = Ok (digit m l j)))
       (fun '(b', q, v) => p + 1 + l - q)).
    - intros [[b' q] v] (k & Hk & -> & _). lia.
    - intros [[b' q] v] (k & Hk & -> & Hv & Hfr & Hc & Hg).
      rewrite rem_val in Hv by lia. pose proof (pow256_pos (8 - l + k) ltac:(lia)).
      destruct (Z.eqb_spec v 0) as [Hv0|Hv0]; cbn [wp].
      + assert (Hm0 : m mod 256 ^ (l - k) = 0) by nia.
        split; [eapply bfr_mono; [eassumption|lia|lia]|]. split; [assumption|].
        intros j Hj. destruct (Z_lt_ge_dec j k); [left; apply Hg; lia|right].
        split; [|split].
        * apply Z.mod_divide in Hm0; [|pose proof (pow256_pos (l - k)); lia]. destruct Hm0 as [a Ha].
          rewrite Ha. replace (l - k) with ((j - k) + (l - j)) by lia. rewrite Z.pow_add_r by lia.
          rewrite Z.mul_assoc. apply Z.mod_mul. pose proof (pow256_pos (l - j)). lia.
        * apply (digit_rem0 m k); lia.
        * apply (proj2 Hfr). lia.
      + assert (k < l).
        { destruct (Z.eq_dec k l) as [->|]; [|lia]. rewrite Z.sub_diag, Z.pow_0_r, Z.mod_1_r in Hv. lia. }
        pose proof (proj1 Hfr). pose proof (proj1 Hfr1). rewrite bset_ok by lia. cbn [bind wp].
        split; [|lia]. exists (k + 1). split; [lia|]. split; [lia|].
        assert (0 <= v < 2 ^ 64).
        { rewrite Hv, <- rem_val by lia. apply Z.mod_pos_bound. lia. }
        split.
        { rewrite shift8. rewrite Hv, <- rem_val by lia. rewrite rem_step by lia. reflexivity. }
        rewrite top_byte_div by assumption. rewrite Hv, rem_top by lia. rewrite u8_small by apply digit_range.
        split; [eapply bfr_trans; [eapply bfr_mono; [eassumption|lia|lia]|apply bfr_upd; lia]|].
        split; [intros; apply bclean_upd; [lia|auto]|].
        intros j Hj. rewrite bget_upd by lia. destruct (Z.eqb_spec (p + 1 + j) (p + 1 + k)).
        { replace j with k by lia. split; [|reflexivity]. intros Hz. rewrite Hz in Hv. lia. }
        apply Hg. lia.
    - exists 0. split; [lia|]. split; [lia|]. split.
      { rewrite Z.pow_0_r, Z.mul_1_r. symmetry. apply Z.mod_small. pose proof (Hsm (8 - l) ltac:(lia)). lia. }
      split; [apply bfr_refl|]. split; [auto|]. intros; lia.
    - lia. }
  apply wp_inv in H2 as (b2 & Hloop2 & Hfr2 & Hc2 & Hg2). exists b2. split; [exact Hloop2|].
  split; [eapply bfr_trans; [eapply bfr_mono; [exact Hfr1|lia|lia]|eapply bfr_mono; [exact Hfr2|lia|lia]]|].
  split; [auto|]. split; [rewrite (proj2 Hfr2) by lia; exact Hg1|].
  intros j Hj. destruct (Hg2 j Hj) as [H|(H1 & H2 & H3)]; [left; exact H|right].
  split; [exact H1|]. split; [exact H2|]. rewrite H3. apply (proj2 Hfr1). lia.
Qed.

Theorem set_length_fuel_ok f E b p m : (9 <= f)%nat -> 1 <= m < 2 ^ 64 -> 0 <= p -> p + 1 + lenlen m <= alen b ->
  exists b', set_length_fuel f E b p m = Ok b' /\ bfr E p (p + 1 + lenlen m) b b' /\ (bclean b -> bclean b') /\
    bget E b' p = Ok (lenlen m) /\
    forall j, 0 <= j < lenlen m ->
      bget E b' (p + 1 + j) = Ok (digit m (lenlen m) j) \/
      (m mod 256 = 0 /\ digit m (lenlen m) j = 0 /\ bget E b' (p + 1 + j) = bget E b (p + 1 + j)).
Proof.
  intros Hf Hm Hp Hb. destruct (set_length_fuel_exact f E b p m Hf Hm Hp Hb) as (b' & H1 & H2 & H3 & H4 & H5).
  exists b'. split; [exact H1|]. split; [exact H2|]. split; [exact H3|]. split; [exact H4|].
  intros j Hj. destruct (H5 j Hj) as [[_ H]|(A1 & A2 & A3)]; [left; exact H|right]. split; [|split; assumption].
  apply Z.mod_divide in A1; [|pose proof (pow256_pos (lenlen m - j)); lia]. destruct A1 as [a Ha]. rewrite Ha.
  replace (lenlen m - j) with ((lenlen m - j - 1) + 1) by lia. rewrite pow256_S by lia. rewrite Z.mul_assoc. apply Z.mod_mul. lia.
Qed.

Theorem set_length_ok E b p m : 1 <= m < 2 ^ 64 -> 0 <= p -> p + 1 + lenlen m <= alen b ->
  exists b', set_length E b p m = Ok b' /\ bfr E p (p + 1 + lenlen m) b b' /\ (bclean b -> bclean b') /\
    bget E b' p = Ok (lenlen m) /\
    forall j, 0 <= j < lenlen m ->
      bget E b' (p + 1 + j) = Ok (digit m (lenlen m) j) \/
      (m mod 256 = 0 /\ digit m (lenlen m) j = 0 /\ bget E b' (p + 1 + j) = bget E b (p + 1 + j)).
Proof. apply set_length_fuel_ok. lia. Qed.

(** the length field at p holds m *)
Definition lenf (E : env) (b : arr Z) (p m : Z) : Prop :=
  bget E b p = Ok (lenlen m) /\ enc E b (p + 1) m (lenlen m).

Lemma get_length_ok E b p m : 1 <= m < 2 ^ 64 -> lenf E b p m -> get_length E b p = Ok m.
Proof.
  intros Hm [Hp He]. pose proof (lenlen_le8 m Hm) as Hl. pose proof (lenlen_spec m ltac:(lia)) as (_ & _ & Hlt).
  unfold get_length. rewrite Hp. cbn [bind]. replace (lenlen m =? 0) with false by lia.
  pose proof (He 0 ltac:(lia)) as H0. rewrite Z.add_0_r in H0. rewrite H0. cbn [bind].
  apply read_digits; try lia; [|assumption].
  unfold digit. replace (lenlen m - 1 - 0) with (lenlen m - 1) by lia. apply Z.mod_small.
  split; [apply Z.div_pos; [lia|apply pow256_pos; lia]|].
  apply Z.div_lt_upper_bound; [apply pow256_pos; lia|]. rewrite <- pow256_S by lia.
  replace (lenlen m - 1 + 1) with (lenlen m) by lia. lia.
Qed.
Lemma get_length_zero E b p : bget E b p = Ok 0 -> get_length E b p = Ok 0.
Proof. intros H. unfold get_length. rewrite H. reflexivity. Qed.

(** the cases in which the length field is read back *)
Definition len_safe (E : env) (b : arr Z) (p m : Z) : Prop :=
  m mod 256 <> 0 \/ forall j, 0 <= j < lenlen m -> bget E b (p + 1 + j) = Ok 0.
Lemma set_length_lenf E b p m : 1 <= m < 2 ^ 64 -> 0 <= p -> p + 1 + lenlen m <= alen b -> len_safe E b p m ->
  exists b', set_length E b p m = Ok b' /\ bfr E p (p + 1 + lenlen m) b b' /\ (bclean b -> bclean b') /\ lenf E b' p m.
Proof.
  intros Hm Hp Hb Hs. destruct (set_length_ok E b p m Hm Hp Hb) as (b' & H1 & H2 & H3 & H4 & H5).
  exists b'. split; [assumption|]. split; [assumption|]. split; [assumption|]. split; [assumption|].
  intros j Hj. destruct (H5 j Hj) as [H|(Ha & Hd & Hg)]; [assumption|].
  destruct Hs as [Hs|Hs]; [contradiction|]. rewrite Hg, Hs, Hd by assumption. reflexivity.
Qed.
Lemma set_length_divergent f E b p : 0 <= p < alen b -> set_length_fuel f E b p 0 = Err Diverge.
Proof.
  intros Hp. unfold set_length_fuel. rewrite bset_ok by assumption. cbn [bind].
  assert (H : forall b', alen b' = alen b -> (exists x, bget E b' p = Ok x) -> loop f (fun '(b, length) =>
      if top_byte length =? 0 then
        x <- bget E b p ;; b <- bset b p (x - 1) ;; Ok (inl (b, u64 (Z.shiftl length 8)))
      else Ok (inr (b, length))) (b', 0) = Err Diverge).
  { induction f as [|f IH]; intros b' Hl [x Hx]; [reflexivity|].
    cbn [loop]. change (top_byte 0 =? 0) with true. cbn iota. rewrite Hx. cbn [bind]. rewrite bset_ok by lia. cbn [bind].
    change (u64 (Z.shiftl 0 8)) with 0. apply IH; [rewrite alen_upd; assumption|].
    rewrite bget_upd by lia. rewrite Z.eqb_refl. eauto. }
  cbn zeta. rewrite H; [reflexivity|apply alen_upd|]. rewrite bget_upd by lia. rewrite Z.eqb_refl. eauto.
Qed.

(** * pointers *)
Definition ptrf (E : env) (b : arr Z) (p v : Z) : Prop :=
  bget E b p = Ok 1 /\ bget E b (p + 1) = Ok 2 /\ enc E b (p + 2) v 8.
Lemma set_pointer_ok E b p v : 0 <= p -> p + 10 <= alen b -> 0 <= v < 2 ^ 64 ->
  exists b', set_pointer b p v = Ok b' /\ bfr E p (p + 10) b b' /\ (bclean b -> bclean b') /\ ptrf E b' p v.
Proof.
  intros Hp Hb Hv. unfold set_pointer. rewrite bset_ok by lia. cbn [bind].
  rewrite bset_ok by (rewrite alen_upd; lia). cbn [bind]. change (u8 1) with 1. change (u8 2) with 2.
  set (b1 := aupd (aupd b p 1) (p + 1) 2).
  assert (Hl1 : alen b1 = alen b) by (unfold b1; rewrite !alen_upd; reflexivity).
  pose proof (write_digits E b1 (p + 2) v 8 ltac:(lia) ltac:(lia) ltac:(lia) ltac:(lia)) as H.
  rewrite (for_up_ext 0 8 _ (fun i '(b, v) => b <- bset b (p + 9 - i) (Z.land v 255) ;; Ok (b, Z.shiftr v 8))) in H.
  2: { intros i [b' v'] Hi. replace (p + 2 + 8 - 1 - i) with (p + 9 - i) by lia. reflexivity. }
  apply wp_inv in H as ([b2 v2] & H & Hf & He & Hc). rewrite H. cbn [bind]. exists b2. split; [reflexivity|].
  split.
  { eapply bfr_trans; [|eapply bfr_mono; [exact Hf|lia|lia]].
    eapply bfr_trans; apply bfr_upd; try (rewrite alen_upd); lia. }
  split.
  { intros Hcl. apply Hc. unfold b1. apply bclean_upd; [rewrite alen_upd; lia|]. apply bclean_upd; [lia|assumption]. }
  split; [|split; [|assumption]].
  - rewrite (proj2 Hf) by lia. unfold b1. rewrite bget_upd by (rewrite alen_upd; lia).
    replace (p =? p + 1) with false by lia. rewrite bget_upd by lia. rewrite Z.eqb_refl. reflexivity.
  - rewrite (proj2 Hf) by lia. unfold b1. rewrite bget_upd by (rewrite alen_upd; lia).
    rewrite Z.eqb_refl. reflexivity.
Qed.
Lemma get_pointer_ok E b p v : 0 <= v < 2 ^ 64 -> ptrf E b p v -> get_pointer E b p = Ok v.
Proof.
  intros Hv (_ & _ & He). unfold get_pointer. apply (read_digits E b (p + 2) v 8); try lia; [|assumption].
  symmetry. apply Z.div_small. exact Hv.
Qed.
Lemma ptrf_length E b p v : ptrf E b p v -> get_length E b p = Ok 2.
Proof.
  intros (H1 & H2 & _). unfold get_length. rewrite H1. cbn [bind]. change (1 =? 0) with false. cbn iota.
  rewrite H2. reflexivity.
Qed.

(** * names *)
Definition name_off (p m : Z) : Z := p + 1 + lenlen m + m + 1.
Lemma set_name_ok E h b p m name : 1 <= m < 2 ^ 64 -> lenf E b p m -> 0 <= NAME_BYTES h -> 0 <= p ->
  name_off p m + NAME_BYTES h <= alen b -> 0 <= name ->
  exists b', set_name E h b p name = Ok b' /\ bfr E (name_off p m) (name_off p m + NAME_BYTES h) b b' /\
    (bclean b -> bclean b') /\ enc E b' (name_off p m) name (NAME_BYTES h).
Proof.
  intros Hm Hlf Hnb Hp Hb Hn. unfold set_name. rewrite (get_length_ok E b p m) by assumption. cbn [bind].
  rewrite (proj1 Hlf). cbn [bind]. pose proof (lenlen_le8 m Hm).
  pose proof (write_digits E b (name_off p m) name (NAME_BYTES h) Hnb Hn ltac:(unfold name_off; lia) Hb) as H1.
  unfold name_off in *. cbn zeta.
  apply wp_inv in H1 as ([b2 v2] & H1 & Hf & He & Hc).
  rewrite H1. cbn [bind]. exists b2. auto.
Qed.
Lemma get_name_ok E h b p m name : 1 <= m < 2 ^ 64 -> lenf E b p m -> 0 <= NAME_BYTES h <= 8 ->
  0 <= name < 256 ^ NAME_BYTES h ->
  enc E b (name_off p m) name (NAME_BYTES h) -> get_name E h b p = Ok name.
Proof.
  intros Hm Hlf Hnb Hn He. unfold get_name. rewrite (get_length_ok E b p m) by assumption. cbn [bind].
  rewrite (proj1 Hlf). cbn [bind]. unfold name_off in He.
  apply (read_digits E b (p + 1 + lenlen m + m + 1) name (NAME_BYTES h)); try lia; [|assumption].
  symmetry. apply Z.div_small. rewrite Z.sub_0_r. exact Hn.
Qed.
Lemma get_first_ok E b p m : lenf E b p m -> get_first_character_pointer E b p = Ok (p + 1 + lenlen m + 1).
Proof. intros [H _]. unfold get_first_character_pointer. rewrite H. reflexivity. Qed.
Lemma string_info_ok E h b p m : 1 <= m < 2 ^ 62 -> lenf E b p m -> 0 <= NAME_BYTES h <= 8 ->
  string_info_length E h b p m = Ok (2 + lenlen m + m + NAME_BYTES h).
Proof.
  intros Hm [H _] Hn. unfold string_info_length. rewrite H. cbn [bind]. f_equal.
  pose proof (lenlen_le8 m ltac:(lia)). unfold u64. rewrite wrap_small by lia. lia.
Qed.

(** frames *)
Lemma enc_frame E b b' p v k : enc E b p v k -> (forall i, p <= i < p + k -> bget E b' i = bget E b i) -> enc E b' p v k.
Proof. intros H Hf j Hj. rewrite Hf by lia. apply H, Hj. Qed.
Lemma lenf_frame E b b' p m : 1 <= m -> lenf E b p m -> (forall i, p <= i < p + 1 + lenlen m -> bget E b' i = bget E b i) -> lenf E b' p m.
Proof.
  intros Hm [H1 H2] Hf. pose proof (lenlen_spec m Hm). split; [rewrite Hf by lia; assumption|].
  eapply enc_frame; [eassumption|]. intros; apply Hf; lia.
Qed.
Lemma ptrf_frame E b b' p v : ptrf E b p v -> (forall i, p <= i < p + 10 -> bget E b' i = bget E b i) -> ptrf E b' p v.
Proof.
  intros (H1 & H2 & H3) Hf. split; [rewrite Hf by lia; assumption|]. split; [rewrite Hf by lia; assumption|].
  eapply enc_frame; [eassumption|]. intros; apply Hf; lia.
Qed.
