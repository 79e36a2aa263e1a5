(** Proofs about M_PackedArray: a PackedArray is an array of b-bit integers. *)
From Verif Require Import Base M_PackedArray.
From Coq Require Import ZifyBool.
Open Scope Z_scope.
Ltac Zify.zify_post_hook ::= Z.div_mod_to_equations.

Lemma position_of_msb_ok n : 1 <= n -> position_of_msb n = Ok (Z.log2 n + 1).
Proof. intros H. unfold position_of_msb. destruct (Z.eqb_spec n 0); [lia|]. f_equal; lia. Qed.

Lemma ones64_eq : ones64 = Z.ones 64.
Proof. reflexivity. Qed.

Lemma shr64_ok E x k : 0 <= k < 64 -> shr64 E x k = Z.shiftr x k.
Proof. intros H. unfold shr64. replace ((0 <=? k) && (k <? 64)) with true by lia. reflexivity. Qed.
Lemma shl64_ok E x k : 0 <= k < 64 -> shl64 E x k = u64 (Z.shiftl x k).
Proof. intros H. unfold shl64. replace ((0 <=? k) && (k <? 64)) with true by lia. reflexivity. Qed.

Lemma bit_mask_ones E cnt : 0 <= cnt <= 64 -> bit_mask E cnt = Z.ones cnt.
Proof.
  intros H. unfold bit_mask. destruct (Z.eqb_spec cnt 0) as [->|Hne].
  - rewrite Z.land_0_l. reflexivity.
  - rewrite shr64_ok by lia. rewrite ones64_eq.
    apply Z.bits_inj'. intros k Hk.
    rewrite Z.land_spec, Z.shiftr_spec by lia.
    rewrite !Z.testbit_ones_nonneg by lia.
    lia.
Qed.

Lemma not64_bits x k : 0 <= x < 2 ^ 64 -> 0 <= k < 64 -> Z.testbit (not64 x) k = negb (Z.testbit x k).
Proof.
  intros Hx Hk. replace (not64 x) with ((Z.lnot x) mod 2 ^ 64).
  - rewrite Z.mod_pow2_bits_low by lia. rewrite Z.lnot_spec by lia. reflexivity.
  - unfold not64, Z.lnot. rewrite <- (Z.mod_add _ 1) by lia. rewrite Z.mod_small by lia. lia.
Qed.

Lemma u64_bits x k : 0 <= k -> Z.testbit (u64 x) k = (k <? 64) && Z.testbit x k.
Proof.
  intros Hk. unfold u64, wrap. destruct (Z.ltb_spec k 64).
  - rewrite Z.mod_pow2_bits_low by lia. reflexivity.
  - rewrite Z.mod_pow2_bits_high by lia. reflexivity.
Qed.

Lemma testbit_high x b k : 0 <= x < 2 ^ b -> b <= k -> 0 <= b -> Z.testbit x k = false.
Proof.
  intros Hx Hk Hb. destruct (Z.eq_dec x 0) as [->|Hne]; [apply Z.bits_0|].
  apply Z.bits_above_log2; [lia|]. assert (Z.log2 x < b); [|lia].
  apply Z.log2_lt_pow2; lia.
Qed.

Lemma bits_range x b : 0 <= b -> 0 <= x -> (forall k, b <= k -> Z.testbit x k = false) -> 0 <= x < 2 ^ b.
Proof.
  intros Hb H0 H. split; [lia|].
  destruct (Z.eq_dec x 0) as [->|Hne]; [apply Z.pow_pos_nonneg; lia|].
  destruct (Z_lt_ge_dec x (2 ^ b)) as [|Hge]; [assumption|exfalso].
  assert (Hl : b <= Z.log2 x) by (apply Z.log2_le_pow2; lia).
  specialize (H (Z.log2 x) Hl). rewrite Z.bit_log2 in H by lia. discriminate.
Qed.

Definition wfw (a : arr Z) : Prop := forall i v, av a i = Some v -> 0 <= v < 2 ^ 64.

(** the word a read returns *)
Definition wv (E : env) (a : arr Z) (i : Z) : Z :=
  match av a i with Some v => v | None => u64 (fresh_word E i) end.

Lemma wv_range E a i : wfw a -> 0 <= wv E a i < 2 ^ 64.
Proof.
  intros H. unfold wv. destruct (av a i) eqn:Ea; [eapply H; eassumption|].
  apply wrap_range; lia.
Qed.

Lemma rdw_ok E a i : 0 <= i < alen a -> rdw E a i = Ok (wv E a i).
Proof. intros H. unfold rdw. rewrite inb_true by lia. reflexivity. Qed.

Lemma wv_upd E a i j v : 0 <= i < alen a -> wv E (aupd a i v) j = if j =? i then v else wv E a j.
Proof. intros H. unfold wv. rewrite av_upd by lia. destruct (j =? i); reflexivity. Qed.

Lemma wfw_upd a i v : wfw a -> 0 <= i < alen a -> 0 <= v < 2 ^ 64 -> wfw (aupd a i v).
Proof.
  intros H Hi Hv j w. rewrite av_upd by lia. destruct (Z.eqb_spec j i).
  - intros [= <-]; lia.
  - apply H.
Qed.

(** bit number g of the array, most significant bit of word 0 first *)
Definition bitat (E : env) (a : arr Z) (g : Z) : bool := Z.testbit (wv E a (g / 64)) (63 - g mod 64).

Lemma get2_spec E a i d :
  wfw a -> 1 <= d <= 64 -> 0 <= i -> (i * d + d - 1) / 64 < alen a -> i * d + d <= 2 ^ 64 ->
  exists v, get2 E a i d = Ok v /\ 0 <= v < 2 ^ d /\
    forall k, 0 <= k < d -> Z.testbit v k = bitat E a (i * d + d - 1 - k).
Proof.
  intros Hwf Hd Hi Hlen Hov. unfold get2.
  replace (d * i) with (i * d) by lia.
  assert (Hu : u64 (i * d) = i * d) by (apply wrap_small; nia). rewrite Hu.
  set (g0 := i * d) in *. assert (Hg0 : 0 <= g0) by (unfold g0; nia).
  set (ai := g0 / 64) in *. set (bi := 63 - g0 mod 64) in *.
  assert (Hbi : 0 <= bi <= 63) by (unfold bi; lia).
  assert (Hg : g0 = 64 * ai + (63 - bi)) by (unfold ai, bi; lia).
  destruct (Z.leb_spec d (bi + 1)) as [Hle|Hgt].
  - rewrite rdw_ok by (unfold ai in *; lia). cbn [bind].
    eexists; split; [reflexivity|].
    pose proof (wv_range E a ai Hwf) as Hw.
    rewrite bit_mask_ones by lia. rewrite shr64_ok by lia.
    split.
    + rewrite Z.land_ones by lia. apply Z.mod_pos_bound. apply Z.pow_pos_nonneg; lia.
    + intros k Hk. rewrite Z.land_spec, Z.testbit_ones_nonneg, Z.shiftr_spec by lia.
      replace (k <? d) with true by lia. rewrite andb_true_r.
      unfold bitat. replace ((g0 + d - 1 - k) / 64) with ai by lia.
      f_equal. lia.
  - rewrite !rdw_ok by (unfold ai in *; lia). cbn [bind].
    eexists; split; [reflexivity|].
    pose proof (wv_range E a ai Hwf) as Hw. pose proof (wv_range E a (ai + 1) Hwf) as Hw2.
    rewrite bit_mask_ones by lia. rewrite shr64_ok, shl64_ok by lia.
    rewrite Z.land_ones by lia.
    set (v := Z.lor _ _).
    assert (Hb : forall k, 0 <= k -> Z.testbit v k = (k <? d) && bitat E a (g0 + d - 1 - k)).
    { intros k Hk. unfold v. rewrite Z.lor_spec, u64_bits, Z.shiftl_spec, Z.shiftr_spec by lia.
      unfold bitat.
      destruct (Z.ltb_spec k (d - bi - 1)) as [Hk1|Hk1].
      - rewrite (Z.testbit_neg_r _ (k - _)) by lia. rewrite andb_false_r. cbn [orb].
        replace (k <? d) with true by lia.
        replace ((g0 + d - 1 - k) / 64) with (ai + 1) by lia.
        cbn [andb]. f_equal. lia.
      - rewrite (testbit_high (wv E a (ai + 1)) 64) by lia. rewrite orb_false_r.
        destruct (Z.ltb_spec k d) as [Hk2|Hk2].
        + rewrite Z.mod_pow2_bits_low by lia. replace (k <? 64) with true by lia.
          replace ((g0 + d - 1 - k) / 64) with ai by lia. cbn [andb]. f_equal. lia.
        + rewrite Z.mod_pow2_bits_high by lia. apply andb_false_r. }
    split.
    + apply bits_range; [lia| |].
      * unfold v. apply Z.lor_nonneg. split; [apply wrap_range; lia | apply Z.shiftr_nonneg; lia].
      * intros k Hk. rewrite Hb by lia. replace (k <? d) with false by lia. reflexivity.
    + intros k Hk. rewrite Hb by lia. replace (k <? d) with true by lia. reflexivity.
Qed.

Lemma lor_lt64 x y : 0 <= x < 2 ^ 64 -> 0 <= y < 2 ^ 64 -> 0 <= Z.lor x y < 2 ^ 64.
Proof.
  intros Hx Hy. apply bits_range; [lia| |].
  - apply Z.lor_nonneg; lia.
  - intros k Hk. rewrite Z.lor_spec, !(testbit_high _ 64) by lia. reflexivity.
Qed.
Lemma land_lt64 x y : 0 <= x < 2 ^ 64 -> 0 <= y -> 0 <= Z.land x y < 2 ^ 64.
Proof.
  intros Hx Hy. apply bits_range; [lia| |].
  - apply Z.land_nonneg; lia.
  - intros k Hk. rewrite Z.land_spec, (testbit_high x 64) by lia. reflexivity.
Qed.

Lemma ones_range n : 0 <= n <= 64 -> 0 <= Z.ones n < 2 ^ 64.
Proof.
  intros H. rewrite Z.ones_equiv. assert (0 < 2 ^ n) by (apply Z.pow_pos_nonneg; lia).
  assert (2 ^ n <= 2 ^ 64) by (apply Z.pow_le_mono_r; lia). lia.
Qed.

Lemma bitat_upd E a i v g : 0 <= i < alen a ->
  bitat E (aupd a i v) g = if g / 64 =? i then Z.testbit v (63 - g mod 64) else bitat E a g.
Proof. intros H. unfold bitat. rewrite wv_upd by lia. destruct (g / 64 =? i); reflexivity. Qed.

Lemma pa_set_spec E p i v :
  let d := pa_bits p in
  wfw (pa_arr p) -> 1 <= d <= 64 -> 0 <= i -> (i * d + d - 1) / 64 < alen (pa_arr p) -> i * d + d <= 2 ^ 64 ->
  0 <= v < 2 ^ d ->
  exists p', pa_set E p i v = Ok p' /\ pa_bits p' = d /\ pa_len p' = pa_len p /\
    alen (pa_arr p') = alen (pa_arr p) /\ wfw (pa_arr p') /\
    forall g, 0 <= g -> bitat E (pa_arr p') g =
       if (i * d <=? g) && (g <? i * d + d) then Z.testbit v (d - 1 - (g - i * d)) else bitat E (pa_arr p) g.
Proof.
  intros d Hwf Hd Hi Hlen Hov Hv. unfold pa_set. fold d.
  replace (d * i) with (i * d) by lia.
  assert (Hu : u64 (i * d) = i * d) by (apply wrap_small; nia). rewrite Hu.
  set (g0 := i * d) in *. assert (Hg0 : 0 <= g0) by (unfold g0; nia).
  set (ai := g0 / 64) in *. set (bi := 63 - g0 mod 64) in *.
  assert (Hbi : 0 <= bi <= 63) by (unfold bi; lia).
  assert (Hg : g0 = 64 * ai + (63 - bi)) by (unfold ai, bi; lia).
  assert (Hai : 0 <= ai) by (unfold ai; lia).
  set (a := pa_arr p) in *.
  assert (Hv64 : 0 <= v < 2 ^ 64).
  { split; [lia|]. assert (2 ^ d <= 2 ^ 64) by (apply Z.pow_le_mono_r; lia). lia. }
  pose proof (wv_range E a ai Hwf) as Hw.
  destruct (Z.leb_spec d (bi + 1)) as [Hle|Hgt].
  - rewrite rdw_ok by lia. cbn [bind]. rewrite aset_ok by lia. cbn [bind].
    eexists; split; [reflexivity|]. cbn [pa_bits pa_len pa_arr].
    rewrite !bit_mask_ones by lia. rewrite shl64_ok by lia.
    set (m := Z.land (Z.ones (bi + 1)) (not64 (Z.ones (bi + 1 - d)))).
    pose proof (ones_range (bi + 1) ltac:(lia)) as Ho1.
    pose proof (ones_range (bi + 1 - d) ltac:(lia)) as Ho2.
    assert (Hm : 0 <= m < 2 ^ 64) by (apply land_lt64; [lia | unfold not64; lia]).
    assert (Hmb : forall k, 0 <= k < 64 -> Z.testbit m k = (k <? bi + 1) && negb (k <? bi + 1 - d)).
    { intros k Hk. unfold m. rewrite Z.land_spec, not64_bits, !Z.testbit_ones_nonneg by lia. reflexivity. }
    do 3 (split; [rewrite ?alen_upd; reflexivity|]). split.
    + apply wfw_upd; [assumption|lia|]. apply lor_lt64; [apply land_lt64; [lia | unfold not64; lia] | apply wrap_range; lia].
    + intros g Hgg. rewrite bitat_upd by lia.
      destruct (Z.eqb_spec (g / 64) ai) as [Hq|Hq].
      * rewrite Z.lor_spec, Z.land_spec, not64_bits, Hmb, u64_bits, Z.shiftl_spec by lia.
        destruct ((g0 <=? g) && (g <? g0 + d)) eqn:Hin.
        -- replace ((63 - g mod 64 <? bi + 1) && negb (63 - g mod 64 <? bi + 1 - d)) with true by lia.
           rewrite andb_false_r. cbn [orb]. replace (63 - g mod 64 <? 64) with true by lia.
           cbn [andb]. f_equal. lia.
        -- replace ((63 - g mod 64 <? bi + 1) && negb (63 - g mod 64 <? bi + 1 - d)) with false by lia.
           rewrite andb_true_r.
           replace ((63 - g mod 64 <? 64) && Z.testbit v (63 - g mod 64 - (bi + 1 - d))) with false.
           ++ rewrite orb_false_r. unfold bitat. rewrite Hq. reflexivity.
           ++ symmetry. apply andb_false_intro2.
              destruct (Z_lt_ge_dec (63 - g mod 64 - (bi + 1 - d)) 0).
              ** apply Z.testbit_neg_r; lia.
              ** apply (testbit_high v d); lia.
      * destruct ((g0 <=? g) && (g <? g0 + d)) eqn:Hin; [|reflexivity]. exfalso. lia.
  - rewrite rdw_ok by lia. cbn [bind]. rewrite aset_ok by lia. cbn [bind].
    rewrite rdw_ok by (rewrite alen_upd; lia). cbn [bind]. rewrite aset_ok by (rewrite alen_upd; lia). cbn [bind].
    eexists; split; [reflexivity|]. cbn [pa_bits pa_len pa_arr].
    rewrite !bit_mask_ones by lia. rewrite shr64_ok, !shl64_ok by lia.
    rewrite wv_upd by lia. replace (ai + 1 =? ai) with false by lia.
    pose proof (ones_range (bi + 1) ltac:(lia)) as Ho1.
    pose proof (wv_range E a (ai + 1) Hwf) as Hw2.
    set (m2 := u64 (Z.shiftl ones64 (64 - (d - (bi + 1))))).
    assert (Hm2 : 0 <= m2 < 2 ^ 64) by (apply wrap_range; lia).
    assert (Hm2b : forall k, 0 <= k < 64 -> Z.testbit m2 k = (64 - (d - (bi + 1)) <=? k)).
    { intros k Hk. unfold m2. rewrite u64_bits, Z.shiftl_spec by lia. rewrite ones64_eq.
      destruct (Z.leb_spec (64 - (d - (bi + 1))) k).
      - rewrite Z.testbit_ones_nonneg by lia. lia.
      - rewrite Z.testbit_neg_r by lia. apply andb_false_r. }
    assert (Hs : 0 <= Z.shiftr v (d - (bi + 1)) < 2 ^ 64).
    { rewrite Z.shiftr_div_pow2 by lia. assert (0 < 2 ^ (d - (bi + 1))) by (apply Z.pow_pos_nonneg; lia).
      split; [apply Z.div_pos; lia|]. apply Z.div_lt_upper_bound; nia. }
    do 3 (split; [rewrite ?alen_upd; reflexivity|]). split.
    + apply wfw_upd; [apply wfw_upd; [assumption|lia|] |rewrite alen_upd; lia|].
      apply lor_lt64; [apply land_lt64; [lia | unfold not64; lia] | lia].
      apply lor_lt64; [apply land_lt64; [lia | unfold not64; lia] | apply wrap_range; lia].
    + intros g Hgg. rewrite bitat_upd by (rewrite alen_upd; lia). rewrite bitat_upd by lia.
      destruct (Z.eqb_spec (g / 64) (ai + 1)) as [Hq|Hq].
      * rewrite Z.lor_spec, Z.land_spec, not64_bits, Hm2b, u64_bits, Z.shiftl_spec by lia.
        destruct ((g0 <=? g) && (g <? g0 + d)) eqn:Hin.
        -- replace (64 - (d - (bi + 1)) <=? 63 - g mod 64) with true by lia.
           rewrite andb_false_r. cbn [orb]. replace (63 - g mod 64 <? 64) with true by lia.
           cbn [andb]. f_equal. lia.
        -- replace (64 - (d - (bi + 1)) <=? 63 - g mod 64) with false by lia.
           rewrite (Z.testbit_neg_r v) by lia. rewrite andb_false_r, orb_false_r, andb_true_r.
           unfold bitat. rewrite Hq. reflexivity.
      * destruct (Z.eqb_spec (g / 64) ai) as [Hq2|Hq2].
        -- rewrite Z.lor_spec, Z.land_spec, not64_bits, Z.testbit_ones_nonneg, Z.shiftr_spec by lia.
           destruct ((g0 <=? g) && (g <? g0 + d)) eqn:Hin.
           ++ replace (63 - g mod 64 <? bi + 1) with true by lia. rewrite andb_false_r. cbn [orb].
              f_equal. lia.
           ++ replace (63 - g mod 64 <? bi + 1) with false by lia. rewrite andb_true_r.
              rewrite (testbit_high v d) by lia. rewrite orb_false_r.
              unfold bitat. rewrite Hq2. reflexivity.
        -- destruct ((g0 <=? g) && (g <? g0 + d)) eqn:Hin; [|reflexivity]. exfalso. lia.
Qed.

(** * The abstract view *)
(** well-formed packed array of [pa_len] elements of [pa_bits] bits *)
Record pa_wf (p : packed) : Prop := {
  wf_bits : 1 <= pa_bits p <= 64;
  wf_len : 0 <= pa_len p;
  wf_ov : pa_len p * pa_bits p < 2 ^ 64;
  wf_alen : alen (pa_arr p) = pa_len p * pa_bits p / 64 + 1;
  wf_words : wfw (pa_arr p) }.

Lemma pa_new_wf len bits : 1 <= bits <= 64 -> 0 <= len -> len * bits < 2 ^ 64 -> pa_wf (pa_new len bits).
Proof.
  intros Hb Hl Ho. unfold pa_new. assert (Hu : u64 (len * bits) = len * bits) by (apply wrap_small; nia).
  rewrite Hu. constructor; cbn [pa_bits pa_len pa_arr]; try lia.
  - rewrite alen_new. reflexivity.
  - intros i v. rewrite av_new. discriminate.
Qed.

(** value of element i: what get_value returns *)
Definition pa_val (E : env) (p : packed) (i : Z) : Z :=
  match pa_get E p i with Ok v => v | Err _ => -1 end.

Lemma idx_bound p i : pa_wf p -> 0 <= i < pa_len p ->
  0 <= i * pa_bits p /\ i * pa_bits p + pa_bits p <= pa_len p * pa_bits p.
Proof. intros [H1 H2 H3 H4 H5] Hi. nia. Qed.

Lemma pa_get_ok E p i : pa_wf p -> 0 <= i < pa_len p ->
  pa_get E p i = Ok (pa_val E p i) /\ 0 <= pa_val E p i < 2 ^ pa_bits p.
Proof.
  intros Hwf Hi. pose proof (idx_bound p i Hwf Hi) as Hb. destruct Hwf as [H1 H2 H3 H4 H5].
  destruct (get2_spec E (pa_arr p) i (pa_bits p)) as (v & Hg & Hr & _); try lia; try assumption.
  unfold pa_val, pa_get. rewrite Hg. auto.
Qed.

Theorem pa_set_ok E p i v : pa_wf p -> 0 <= i < pa_len p -> 0 <= v < 2 ^ pa_bits p ->
  exists p', pa_set E p i v = Ok p' /\ pa_wf p' /\ pa_bits p' = pa_bits p /\ pa_len p' = pa_len p /\
    forall j, 0 <= j < pa_len p -> pa_val E p' j = if j =? i then v else pa_val E p j.
Proof.
  intros Hwf Hi Hv. pose proof (idx_bound p i Hwf Hi) as Hb.
  pose proof Hwf as [H1 H2 H3 H4 H5].
  destruct (pa_set_spec E p i v) as (p' & Hs & Hbits & Hlen & Halen & Hw & Hbit); try lia; try assumption.
  assert (Hwf' : pa_wf p') by (constructor; try rewrite Hbits; try rewrite Hlen; try rewrite Halen; auto).
  exists p'. repeat (split; [assumption|]).
  intros j Hj. pose proof (idx_bound p j Hwf Hj) as Hbj.
  destruct (get2_spec E (pa_arr p') j (pa_bits p)) as (w & Hg & Hr & Hbw); try lia; try assumption.
  unfold pa_val at 1, pa_get. rewrite Hbits, Hg.
  destruct (Z.eqb_spec j i) as [->|Hne].
  - apply Z.bits_inj'. intros k Hk. destruct (Z_lt_ge_dec k (pa_bits p)).
    + rewrite Hbw, Hbit by lia.
      replace ((i * pa_bits p <=? i * pa_bits p + pa_bits p - 1 - k) && (i * pa_bits p + pa_bits p - 1 - k <? i * pa_bits p + pa_bits p)) with true by lia.
      f_equal. lia.
    + rewrite !(testbit_high _ (pa_bits p)) by lia. reflexivity.
  - destruct (get2_spec E (pa_arr p) j (pa_bits p)) as (u & Hg2 & Hr2 & Hbu); try lia; try assumption.
    unfold pa_val, pa_get. rewrite Hg2.
    apply Z.bits_inj'. intros k Hk. destruct (Z_lt_ge_dec k (pa_bits p)).
    + rewrite Hbw, Hbu, Hbit by lia.
      replace ((i * pa_bits p <=? j * pa_bits p + pa_bits p - 1 - k) && (j * pa_bits p + pa_bits p - 1 - k <? i * pa_bits p + pa_bits p)) with false; [reflexivity|].
      symmetry. destruct (Z_lt_ge_dec j i); [apply andb_false_intro1 | apply andb_false_intro2]; nia.
    + rewrite !(testbit_high _ (pa_bits p)) by lia. reflexivity.
Qed.
