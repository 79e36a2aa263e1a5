(** More corollaries used by Properties.v. *)
From Verif Require Import Base M_PackedArray M_HashTable M_Sais M_Induce M_Flbwt M_File Spec BlockSpec Count
  P_Bytes P_Bridge P_Spec P_Lists P_Blocks P_Flbwt P_File Histories P_HTHistory P_Api P_Props.
From Coq Require Import ZifyBool.
Open Scope Z_scope.

(** * bwt_string and bwt_file *)
Lemma string_returns E srt T l free_T :
  std_sort srt -> Forall is_byte l -> 3 <= Z.of_nat (length l) <= 2 ^ 58 -> string_at T 0 (l ++ [0]) -> fresh_good E 67777 l ->
  exists t r, bwt_string E srt (Some T) (Z.of_nat (length l)) free_T = Ok (t, Some r).
Proof.
  intros Hs Hb Hn HT Hf. destruct (bwt_string_list E srt 67777 T l free_T Hs ltac:(lia) Hb Hn HT Hf) as (r & H & _).
  eexists _, r. exact H.
Qed.
Lemma string_safe E srt T l free_T :
  std_sort srt -> Forall is_byte l -> 3 <= Z.of_nat (length l) <= 2 ^ 58 -> string_at T 0 (l ++ [0]) -> fresh_good E 67777 l ->
  forall e, In e [OutOfBounds; Uninit; NullDeref; BadPointer; BadBuiltin; Overflow; Diverge; InvalidArgument; RuntimeError] ->
  bwt_string E srt (Some T) (Z.of_nat (length l)) free_T <> Err e.
Proof.
  intros Hs Hb Hn HT Hf e _. destruct (string_returns E srt T l free_T Hs Hb Hn HT Hf) as (t & r & ->). discriminate.
Qed.
Lemma string_fresh E1 E2 srt T1 T2 l free_T :
  std_sort srt -> Forall is_byte l -> 3 <= Z.of_nat (length l) <= 2 ^ 58 ->
  string_at T1 0 (l ++ [0]) -> string_at T2 0 (l ++ [0]) -> ~ unwritten_length 67777 l ->
  exists t1 t2 r1 r2, bwt_string E1 srt (Some T1) (Z.of_nat (length l)) free_T = Ok (t1, Some r1) /\
    bwt_string E2 srt (Some T2) (Z.of_nat (length l)) free_T = Ok (t2, Some r2) /\
    r_last r1 = r_last r2 /\ alen (r_BWT r1) = alen (r_BWT r2) /\
    forall r, r <> r_last r1 -> av (r_BWT r1) r = av (r_BWT r2) r.
Proof.
  intros Hs Hb Hn HT1 HT2 Hf.
  destruct (string_two E1 E2 srt srt 67777 67777 T1 T2 l free_T free_T Hs Hs ltac:(lia) ltac:(lia) Hb Hn HT1 HT2 (or_intror Hf) (or_intror Hf))
    as (r1 & r2 & A & B & C). eexists _, _, r1, r2. split; [exact A|]. split; [exact B|exact C].
Qed.

Lemma file_run_inv hts E srt f out : fst (bwt_file_gen hts E srt f) = Ok tt -> snd (bwt_file_gen hts E srt f) = Some out ->
  in_open f = true /\ malloc_ok f = true /\ out_open f = true.
Proof. intros _ H. destruct (file_touched hts E srt f out H) as (A & B & _ & _ & C). auto. Qed.
Lemma file_out hts E srt f out : std_sort srt -> 1 <= hts <= 2 ^ 48 -> Forall is_byte (in_data f) ->
  3 <= Z.of_nat (length (in_data f)) <= 2 ^ 58 -> fresh_good E hts (in_data f) ->
  in_tell f = Z.of_nat (length (in_data f)) -> out_limit f = None ->
  bwt_file_gen hts E srt f = (Ok tt, Some out) -> out = file_output (in_data f).
Proof.
  intros H1 H2 H3 H4 H5 H6 H7 H. destruct (file_run_inv hts E srt f out) as (A & B & C); [rewrite H; reflexivity..|].
  rewrite (file_ok hts E srt f H1 H2 H3 H4 H5 A H6 B C H7) in H. congruence.
Qed.
Lemma file_inj hts1 hts2 E1 E2 srt1 srt2 f1 f2 out :
  std_sort srt1 -> std_sort srt2 -> 1 <= hts1 <= 2 ^ 48 -> 1 <= hts2 <= 2 ^ 48 ->
  Forall is_byte (in_data f1) -> Forall is_byte (in_data f2) ->
  3 <= Z.of_nat (length (in_data f1)) <= 2 ^ 58 -> 3 <= Z.of_nat (length (in_data f2)) <= 2 ^ 58 ->
  fresh_good E1 hts1 (in_data f1) -> fresh_good E2 hts2 (in_data f2) ->
  in_tell f1 = Z.of_nat (length (in_data f1)) -> in_tell f2 = Z.of_nat (length (in_data f2)) ->
  out_limit f1 = None -> out_limit f2 = None ->
  bwt_file_gen hts1 E1 srt1 f1 = (Ok tt, Some out) -> bwt_file_gen hts2 E2 srt2 f2 = (Ok tt, Some out) ->
  in_data f1 = in_data f2.
Proof.
  intros S1 S2 H1 H2 B1 B2 N1 N2 F1 F2 T1 T2 L1 L2 R1 R2.
  apply file_out in R1; try assumption. apply file_out in R2; try assumption.
  apply output_inj; [lia|lia|congruence].
Qed.
Lemma file_perm hts E srt f out :
  std_sort srt -> 1 <= hts <= 2 ^ 48 -> Forall is_byte (in_data f) -> 3 <= Z.of_nat (length (in_data f)) <= 2 ^ 58 ->
  fresh_good E hts (in_data f) -> in_tell f = Z.of_nat (length (in_data f)) -> out_limit f = None ->
  bwt_file_gen hts E srt f = (Ok tt, Some out) -> Permutation (skipn 8 out) (in_data f).
Proof.
  intros H1 H2 H3 H4 H5 H6 H7 H. apply file_out in H; try assumption. subst out. unfold file_output.
  change (skipn 8 (be64 (row_of (in_data f) 0) ++ somes (bwt_rows_of (in_data f)))) with (somes (bwt_rows_of (in_data f))).
  apply bwt_bytes_perm.
Qed.

(** bwt_file after an exception *)
Lemma fwrite_err lim out a off len e : fwrite lim out a off len = Err e -> e = OutOfBounds \/ e = Uninit.
Proof.
  unfold fwrite, aslice. intros H.
  match type of H with context [for_down ?a ?b ?c ?d] => destruct (for_down a b c d) eqn:Hm; [discriminate|] end.
  cbn [bind] in H. inversion H; subst e0; clear H.
  revert Hm. unfold for_down.
  match goal with |- ford_n ?c ?i ?f ?s = _ -> _ => generalize c; generalize i; generalize s end.
  intros s i c. revert s i. induction c as [|c IH]; intros s i H; cbn [ford_n] in H; [discriminate|].
  destruct (aget a i) eqn:Hg; cbn [bind] in H.
  - eapply IH; exact H.
  - inversion H; subst. clear - Hg. Local Transparent aget. unfold aget in Hg. destruct (inb a i); [|inversion Hg; auto].
    destruct (FMapPositive.PositiveMap.find _ _); inversion Hg; auto.
Qed.
Lemma ablit_err a i l e : ablit a i l = Err e -> e = OutOfBounds.
Proof.
  revert a i. induction l as [|x l IH]; intros a i H; cbn [ablit] in H; [discriminate|].
  Local Transparent aset. unfold aset in H. destruct (inb a i); [|inversion H; reflexivity]. cbn [bind] in H. eapply IH, H.
Qed.
Lemma write_err lim n B e : write_result lim n B = Err e -> e = OutOfBounds \/ e = Uninit.
Proof.
  unfold write_result. destruct B as [B|]; [|discriminate].
  destruct (ablit _ _ _) eqn:H1; [|intros H; inversion H; subst; left; eapply ablit_err; exact H1]. cbn [bind].
  destruct (fwrite lim [] a 0 8) eqn:H2; [|intros H; inversion H; subst; eapply fwrite_err; exact H2]. cbn [bind].
  destruct (r_last B =? 0); [apply fwrite_err|]. destruct (r_last B =? n); [apply fwrite_err|].
  destruct (fwrite lim a0 (r_BWT B) 0 (r_last B)) eqn:H3; [|intros H; inversion H; subst; eapply fwrite_err; exact H3]. cbn [bind]. apply fwrite_err.
Qed.
Lemma file_exception hts E srt f e : fst (bwt_file_gen hts E srt f) = Err e -> e = InvalidArgument \/ e = RuntimeError ->
  snd (bwt_file_gen hts E srt f) = None.
Proof.
  unfold bwt_file_gen. destruct (in_open f); [|reflexivity]. destruct (malloc_ok f); [|reflexivity]. cbn [negb].
  destruct (fread _ _ _) as [[T k]|]; [|reflexivity]. destruct (k <=? 0); [reflexivity|].
  destruct (aset T (u64 (in_tell f)) 0); [|reflexivity]. destruct (bwt_string_gen _ _ _ _ _ _) as [[? B]|]; [|reflexivity].
  destruct (out_open f); [|reflexivity]. cbn [negb]. destruct (write_result _ _ B) eqn:Hw; [discriminate|].
  cbn [fst snd]. intros [= <-] He. apply write_err in Hw. destruct Hw as [-> | ->], He; discriminate.
Qed.
(** a device that accepts only the first k bytes: bwt_file still returns normally *)
Lemma file_limited hts E srt f k : std_sort srt -> 1 <= hts <= 2 ^ 48 -> Forall is_byte (in_data f) ->
  3 <= Z.of_nat (length (in_data f)) <= 2 ^ 58 -> fresh_good E hts (in_data f) ->
  in_open f = true -> in_tell f = Z.of_nat (length (in_data f)) -> malloc_ok f = true -> out_open f = true -> out_limit f = Some k ->
  bwt_file_gen hts E srt f = (Ok tt, Some (firstn k (file_output (in_data f)))).
Proof. intros H1 H2 H3 H4 H5 H6 H7 H8 H9 H10. rewrite (bwt_file_ok hts E srt f) by assumption. rewrite H10. reflexivity. Qed.

(** * the stages *)
Lemma extract_stmt E hts T l :
  1 <= hts <= 2 ^ 48 -> Forall is_byte l -> 3 <= Z.of_nat (length l) <= 2 ^ 58 -> string_at T 0 (l ++ [0]) ->
  fresh_good E hts l ->
  exists co h qs recs, extract_LMS_strings E hts T (Z.of_nat (length l)) = Ok co /\
    (forall c, 0 <= c < 256 -> av (c_M co) (c + 1) = Some (Z.of_nat (count (fun x => x =? c) l))) /\
    (forall c, 0 <= c < 256 -> av (c_NL co) (c + 1) =
       Some (Z.of_nat (count (fun i => (nth i l 0 =? c) && negb (is_S l i)) (seq 0 (length l))))) /\
    (forall c, 0 <= c < 256 -> av (c_C co) (c + 1) = Some (Z.of_nat (count (fun i => nth i l 0 =? c) (lms_positions l)))) /\
    av (c_M co) 0 = Some 1 /\ av (c_C co) 0 = Some 1 /\
    c_num co = Z.of_nat (length (lms_positions l)) /\
    c_uniq co = Z.of_nat (length (distinct_stars l)) /\
    c_head_end co = Some (Z.of_nat (next_lms l 0)) /\
    c_ht co = Some h /\ ht_walk E h (c_uniq co) = Ok qs /\
    Forall2 (fun q s => read_record E (ht_buf h) q = Ok s) qs recs /\ Permutation recs (distinct_stars l).
Proof.
  intros Hts Hb Hn HT Hf. destruct (extract_list E hts T l Hts Hb Hn HT Hf) as (co & H1 & []).
  destruct es_ht as (h & qs & recs & K1 & K2 & K3 & K4 & K5 & K6). exists co, h, qs, recs.
  split; [exact H1|]. repeat (split; [solve [assumption|apply es_0]|]).
  apply NoDup_Permutation; [exact K4|apply NoDup_nodup|exact K5].
Qed.
Lemma extract_buffer E hts T l :
  1 <= hts <= 2 ^ 48 -> Forall is_byte l -> 3 <= Z.of_nat (length l) <= 2 ^ 58 -> string_at T 0 (l ++ [0]) -> fresh_good E hts l ->
  exists co h, extract_LMS_strings E hts T (Z.of_nat (length l)) = Ok co /\ c_ht co = Some h /\
    alen (ht_buf h) <= 531 * Z.of_nat (length (lms_positions l)) + Z.of_nat (length l).
Proof.
  intros Hts Hb Hn HT Hf. destruct (extract_list E hts T l Hts Hb Hn HT Hf) as (co & H1 & []).
  destruct es_ht as (h & qs & recs & K1 & K2 & K3 & K4 & K5 & K6). exists co, h. rewrite es_num in K6. auto.
Qed.
Lemma sort_stmt E srt hts T l co :
  std_sort srt -> 1 <= hts <= 2 ^ 48 -> Forall is_byte l -> 3 <= Z.of_nat (length l) <= 2 ^ 58 -> string_at T 0 (l ++ [0]) ->
  fresh_good E hts l ->
  extract_LMS_strings E hts T (Z.of_nat (length l)) = Ok co ->
  exists Sv co' h ol, sort_LMS_strings E srt T co = Ok (Sv, co') /\ c_ht co' = Some h /\
    Permutation ol (distinct_stars l) /\ StronglySorted (fun a b => star_lt a b = true) ol /\
    (forall k, (k < length ol)%nat -> exists q, av Sv (Z.of_nat k + 1) = Some q /\
       read_record E (ht_buf h) q = Ok (nth k ol []) /\ get_name E h (ht_buf h) q = Ok (Z.of_nat k + 1)) /\
    (exists q, av Sv (Z.of_nat (length ol) + 1) = Some q /\ read_record E (ht_buf h) q = Ok (head_string l)).
Proof.
  intros H1 H2 H3 H4 H5 H6 Hex. destruct (sort_list E srt hts T l H1 H2 H3 H4 H5 H6 co Hex) as (Sv & co' & A & []).
  destruct ss_recs as (h & ol & K). exists Sv, co', h, ol. split; [exact A|exact K].
Qed.

(** * the length field, exactly *)
Lemma be_snoc o x : be_value (o ++ [x]) = be_value o * 256 + x.
Proof. unfold be_value. rewrite fold_left_app. reflexivity. Qed.
Lemma be_bound o : Forall is_byte o -> 0 <= be_value o < 256 ^ Z.of_nat (length o).
Proof.
  induction o as [|x o IH] using rev_ind; intros H; [cbn; lia|]. apply Forall_app in H as [H1 H2]. inversion H2 as [|? ? Hx _]; subst.
  specialize (IH H1). rewrite be_snoc, app_length. cbn [length]. replace (Z.of_nat (length o + 1)) with (Z.of_nat (length o) + 1) by lia.
  rewrite pow256_S by lia. unfold is_byte in Hx. lia.
Qed.
Lemma be_digit o j : Forall is_byte o -> (j < length o)%nat -> digit (be_value o) (Z.of_nat (length o)) (Z.of_nat j) = nth j o 0.
Proof.
  revert j. induction o as [|x o IH] using rev_ind; intros j H Hj; [cbn in Hj; lia|]. apply Forall_app in H as [H1 H2].
  inversion H2 as [|? ? Hx _]; subst. rewrite be_snoc. rewrite app_length in *. cbn [length] in *.
  unfold digit in *. destruct (Nat.eq_dec j (length o)) as [->|Hne].
  - replace (Z.of_nat (length o + 1) - 1 - Z.of_nat (length o)) with 0 by lia. rewrite Z.pow_0_r, Z.div_1_r.
    rewrite app_nth2, Nat.sub_diag by lia. cbn [nth]. rewrite Z.add_comm, Z.mod_add by lia. apply Z.mod_small. exact Hx.
  - rewrite app_nth1 by lia. rewrite <- (IH j H1 ltac:(lia)).
    replace (Z.of_nat (length o + 1) - 1 - Z.of_nat j) with (Z.of_nat (length o) - 1 - Z.of_nat j + 1) by lia.
    rewrite pow256_S by lia. f_equal. pose proof (pow256_pos (zl o - 1 - Z.of_nat j) ltac:(lia)). rewrite (Z.mul_comm (256 ^ _) 256), <- Z.div_div by lia. f_equal.
    rewrite Z.add_comm, Z.div_add by lia. rewrite Z.div_small by exact Hx. lia.
Qed.
Lemma lenlen_unique m L : 1 <= L -> 256 ^ (L - 1) <= m < 256 ^ L -> lenlen m = L.
Proof.
  intros HL Hm. pose proof (pow256_pos (L - 1) ltac:(lia)). pose proof (lenlen_spec m ltac:(lia)) as (A & B & C).
  destruct (Z_lt_le_dec (lenlen m) L) as [Hlt|Hge].
  - assert (256 ^ lenlen m <= 256 ^ (L - 1)) by (apply Z.pow_le_mono_r; lia). lia.
  - destruct (Z.eq_dec (lenlen m) L) as [|Hne]; [assumption|].
    assert (256 ^ L <= 256 ^ (lenlen m - 1)) by (apply Z.pow_le_mono_r; lia). lia.
Qed.
(** m = q * 256^z with z zero bytes at the end of its L bytes: these keep their old content o *)
Lemma length_exact E b p L q o :
  let z := Z.of_nat (length o) in let m := q * 256 ^ z in
  q mod 256 <> 0 -> 1 <= L <= 8 -> 256 ^ (L - 1) <= m < 256 ^ L -> 0 <= p -> p + 1 + L <= alen b ->
  (forall j, (j < length o)%nat -> bget E b (p + 1 + L - z + Z.of_nat j) = Ok (nth j o 0)) -> Forall is_byte o ->
  exists b', set_length E b p m = Ok b' /\ bget E b' p = Ok L /\ get_length E b' p = Ok (m + be_value o) /\ alen b' = alen b /\
    forall i, i < p \/ p + 1 + L - z <= i -> bget E b' i = bget E b i.
Proof.
  intros z m Hq HL Hm Hp Hb Ho Hby.
  assert (Hz : 0 <= z) by (unfold z; lia). pose proof (pow256_pos z Hz) as Hpz. pose proof (pow256_pos (L - 1) ltac:(lia)) as HpL.
  assert (Hq1 : 1 <= q) by (unfold m in Hm; nia).
  assert (H64 : 256 ^ L <= 2 ^ 64) by (change (2 ^ 64) with (256 ^ 8); apply Z.pow_le_mono_r; lia).
  assert (Hll : lenlen m = L) by (apply lenlen_unique; [lia|exact Hm]).
  assert (HzL : z < L).
  { destruct (Z_lt_le_dec z L) as [|Hge]; [assumption|]. assert (256 ^ L <= 256 ^ z) by (apply Z.pow_le_mono_r; lia). unfold m in Hm. nia. }
  (* m mod 256^(L-j) = 0 iff j >= L - z *)
  assert (Hmod : forall j, 0 <= j < L -> (m mod 256 ^ (L - j) = 0 <-> L - z <= j)).
  { intros j Hj. pose proof (pow256_pos (L - j) ltac:(lia)) as Hpj. split; intros H.
    - destruct (Z_le_gt_dec (L - z) j); [assumption|]. exfalso. apply Z.mod_divide in H; [|lia]. destruct H as [a Ha].
      apply Hq. replace (L - j) with (z + 1 + (L - j - z - 1)) in Ha by lia. rewrite !Z.pow_add_r in Ha by lia.
      assert (q = a * 256 ^ (L - j - z - 1) * 256) by (unfold m in Ha; nia). subst q. apply Z.mod_mul. lia.
    - unfold m. replace z with ((z - (L - j)) + (L - j)) by lia. rewrite Z.pow_add_r by lia. rewrite Z.mul_assoc. apply Z.mod_mul. lia. }
  destruct (set_length_fuel_exact 10 E b p m ltac:(lia) ltac:(lia) Hp ltac:(lia)) as (b' & H1 & [H2 H2'] & _ & H3 & H4).
  rewrite Hll in *. exists b'. split; [exact H1|]. split; [exact H3|].
  pose proof (be_bound o Hby) as Hv. fold z in Hv. set (v := be_value o) in *.
  assert (Hm' : m + v < 256 ^ L).
  { assert (He : 256 ^ L = 256 ^ (L - z) * 256 ^ z) by (rewrite <- Z.pow_add_r by lia; f_equal; lia).
    assert (q < 256 ^ (L - z)) by (unfold m in Hm; nia). unfold m. nia. }
  assert (Hll' : lenlen (m + v) = L) by (apply lenlen_unique; lia).
  assert (Hd : forall j, 0 <= j < L -> bget E b' (p + 1 + j) = Ok (digit (m + v) L j)).
  { intros j Hj. destruct (H4 j Hj) as [[A1 A2]|(A1 & A2 & A3)].
    - rewrite A2. f_equal. assert (Hjz : j < L - z) by (rewrite Hmod in A1 by lia; lia). unfold digit. f_equal.
      replace (L - 1 - j) with (z + (L - 1 - j - z)) by lia. rewrite Z.pow_add_r by lia.
      pose proof (pow256_pos (L - 1 - j - z) ltac:(lia)). rewrite <- !Z.div_div by lia. f_equal.
      unfold m. rewrite Z.div_mul by lia. rewrite Z.add_comm, Z.div_add by lia. rewrite Z.div_small by lia. lia.
    - apply Hmod in A1; [|lia]. rewrite A3. replace (p + 1 + j) with (p + 1 + L - z + Z.of_nat (Z.to_nat (j - (L - z)))) by lia.
      rewrite Ho by lia. f_equal. rewrite <- (be_digit o _ Hby) by lia. fold z v. unfold digit.
      replace (z - 1 - Z.of_nat (Z.to_nat (j - (L - z)))) with (L - 1 - j) by lia.
      pose proof (pow256_pos (L - 1 - j) ltac:(lia)).
      assert (Hmm : m = q * 256 ^ (z - (L - 1 - j) - 1) * 256 * 256 ^ (L - 1 - j)).
      { unfold m. replace (256 ^ z) with (256 ^ (z - (L - 1 - j) - 1) * 256 ^ 1 * 256 ^ (L - 1 - j)) by (rewrite <- !Z.pow_add_r by lia; f_equal; lia). ring. }
      rewrite Hmm. rewrite (Z.add_comm _ v), Z.div_add by lia. rewrite Z.mod_add by lia. reflexivity. }
  split.
  - apply get_length_ok; [lia|]. split; [rewrite Hll'; exact H3|]. rewrite Hll'. intros j Hj. apply Hd, Hj.
  - split; [exact H2|]. intros i [Hi|Hi]; [apply H2'; lia|]. destruct (Z_le_gt_dec (p + 1 + L) i) as [Hi2|Hi2]; [apply H2'; lia|].
    destruct (H4 (i - p - 1) ltac:(lia)) as [[A1 A2]|(A1 & A2 & A3)].
    + rewrite Hmod in A1 by lia. lia.
    + replace (p + 1 + (i - p - 1)) with i in A3 by lia. exact A3.
Qed.

(** * termination *)
Lemma set_length_terminates fuel E b p m : (9 <= fuel)%nat -> 1 <= m < 2 ^ 64 -> 0 <= p -> p + 9 <= alen b ->
  exists b', set_length_fuel fuel E b p m = Ok b'.
Proof.
  intros Hf Hm Hp Hb. pose proof (lenlen_le8 m Hm). destruct (set_length_fuel_ok fuel E b p m Hf Hm Hp ltac:(lia)) as (b' & H1 & _). eauto.
Qed.
Lemma lenlen_terminates fuel m : (8 <= fuel)%nat -> 1 <= m < 2 ^ 64 ->
  exists k, calculate_lenlen_fuel fuel m = Ok k /\ 1 <= k <= 8 /\ 256 ^ (k - 1) <= m < 256 ^ k.
Proof.
  intros Hf Hm. exists (lenlen m). split; [apply calculate_lenlen_fuel_ok; assumption|]. split; [apply lenlen_le8, Hm|apply lenlen_spec; lia].
Qed.
Lemma zero_diverges fuel E b p : 0 <= p < alen b ->
  set_length_fuel fuel E b p 0 = Err Diverge /\ calculate_lenlen_fuel fuel 0 = Err Diverge.
Proof. intros H. split; [apply set_length_divergent, H|apply calculate_lenlen_zero]. Qed.

(** * widths *)
Lemma branch_widths E srt hts T l co Sv co' T1 W1 W2 :
  std_sort srt -> 1 <= hts <= 2 ^ 48 -> Forall is_byte l -> 3 <= Z.of_nat (length l) <= 2 ^ 58 -> string_at T 0 (l ++ [0]) -> fresh_good E hts l ->
  extract_LMS_strings E hts T (Z.of_nat (length l)) = Ok co -> sort_LMS_strings E srt T co = Ok (Sv, co') ->
  create_shortened_string E T (Z.of_nat (length l)) co' = Ok T1 ->
  In W1 [32; 40; 48; 56; 64] -> In W2 [32; 40; 48; 56; 64] ->
  c_num co' + 2 < 2 ^ (W1 - 1) -> c_sa_max co' < 2 ^ (W1 - 1) ->
  c_num co' + 2 < 2 ^ (W2 - 1) -> c_sa_max co' < 2 ^ (W2 - 1) ->
  exists r1 r2, bwt_branch E W1 Sv T1 co' = Ok r1 /\ bwt_branch E W2 Sv T1 co' = Ok r2 /\
    r_last r1 = r_last r2 /\ alen (r_BWT r1) = Z.of_nat (length l) + 1 /\ alen (r_BWT r2) = Z.of_nat (length l) + 1 /\
    (forall r, 0 <= r <= Z.of_nat (length l) -> r <> r_last r1 -> av (r_BWT r1) r = av (r_BWT r2) r) /\
    is_BWT l (av (r_BWT r1)) (r_last r1).
Proof.
  intros H1 H2 H3 H4 H5 H6 X1 X2 X3 I1 I2 A1 A2 B1 B2.
  destruct (branch_list E srt hts T l H1 H2 H3 H4 H5 H6 co Sv co' T1 W1 X1 X2 X3 I1 A1 A2) as (r1 & R1 & R2 & R3).
  destruct (branch_list E srt hts T l H1 H2 H3 H4 H5 H6 co Sv co' T1 W2 X1 X2 X3 I2 B1 B2) as (r2 & Q1 & Q2 & Q3).
  destruct (is_BWT_unique l _ _ _ _ R3 Q3) as [HL HR]. exists r1, r2. repeat (split; [assumption|]). exact R3.
Qed.

(** * sais workspace *)
Lemma sais_safe E W l k fs p fuel :
  1 <= W <= 64 -> (1 <= length l)%nat -> Forall (fun c => 0 <= c < k) l -> Z.of_nat (length l) < 2 ^ (W - 1) -> k <= 2 ^ (W - 1) ->
  0 <= fs -> Z.of_nat (length l) < 2 ^ Z.of_nat fuel -> pa_bits p <> W ->
  (forall i, 0 <= i < Z.of_nat (length l) -> pa_get E p (i + 1) = Ok (nth (Z.to_nat i) l 0)) ->
  exists s, sais E W fuel (mkst (anew (Z.of_nat (length l) + fs)) (anew 0)) (TPack (pa_arr p) (pa_bits p)) fs (Z.of_nat (length l)) k = Ok s.
Proof.
  intros H1 H2 H3 H4 H5 H6 H7 H8 H9.
  destruct (sais_list E W l k fs p (anew (Z.of_nat (length l) + fs)) (anew 0) fuel) as (s & sa & H & _); try assumption; [rewrite alen_new; lia|eauto].
Qed.
