(** Corollaries used by Properties.v. *)
From Verif Require Import Base M_PackedArray M_HashTable M_Sais M_Induce M_Flbwt M_File Spec BlockSpec Count Text Induced Keys P_PackedArray
  P_Bytes P_HashTable P_HashTable2 P_Extract P_Sort P_Names P_Create P_InduceBase P_Induce1 P_Induce2 P_Bridge P_Spec P_Lists P_Blocks P_Flbwt P_File
  Histories P_HTHistory P_Api P_Sorter.
From Verif Require Import P_PackedWide.
From Coq Require Import ZifyBool.
Open Scope Z_scope.

(** * bwt_file *)
Lemma file_ok hts E srt f : std_sort srt -> 1 <= hts <= 2 ^ 48 -> Forall is_byte (in_data f) ->
  3 <= zl (in_data f) <= 2 ^ 58 -> (forall i, fresh_byte E i = Some 0) \/ ~ unwritten_length hts (in_data f) ->
  in_open f = true -> in_tell f = zl (in_data f) -> malloc_ok f = true -> out_open f = true -> out_limit f = None ->
  bwt_file_gen hts E srt f = (Ok tt, Some (file_output (in_data f))).
Proof. intros H1 H2 H3 H4 H5 H6 H7 H8 H9 H10. rewrite (bwt_file_ok hts E srt f) by assumption. rewrite H10. reflexivity. Qed.

Lemma output_length T : length (file_output T) = (8 + length T)%nat.
Proof. unfold file_output. rewrite app_length, (Permutation_length (bwt_bytes_perm T)). reflexivity. Qed.

Lemma output_inj T1 T2 : Z.of_nat (length T1) < 2 ^ 64 -> Z.of_nat (length T2) < 2 ^ 64 -> file_output T1 = file_output T2 -> T1 = T2.
Proof. intros H1 H2 H. rewrite <- (decode_file_output T1 H1), <- (decode_file_output T2 H2), H. reflexivity. Qed.

Lemma file_null hts E srt f : in_open f = false -> bwt_file_gen hts E srt f = (Err InvalidArgument, None).
Proof. intros H. unfold bwt_file_gen. rewrite H. reflexivity. Qed.
Lemma file_nomem hts E srt f : in_open f = true -> malloc_ok f = false -> bwt_file_gen hts E srt f = (Err RuntimeError, None).
Proof. intros H1 H2. unfold bwt_file_gen. rewrite H1, H2. reflexivity. Qed.
Lemma file_empty hts E srt f : in_open f = true -> malloc_ok f = true -> in_data f = [] \/ in_tell f = 0 ->
  bwt_file_gen hts E srt f = (Err RuntimeError, None).
Proof.
  intros H1 H2 H3. unfold bwt_file_gen. rewrite H1, H2. cbn [negb]. unfold fread.
  replace (firstn (Z.to_nat (Z.min (u64 (in_tell f)) (Z.of_nat (length (in_data f))))) (in_data f)) with (@nil Z); [reflexivity|].
  destruct H3 as [-> | ->]; [rewrite firstn_nil; reflexivity|]. change (u64 0) with 0.
  replace (Z.min 0 (Z.of_nat (length (in_data f)))) with 0 by lia. reflexivity.
Qed.
Lemma file_noout hts E srt f : std_sort srt -> 1 <= hts <= 2 ^ 48 -> Forall is_byte (in_data f) ->
  3 <= zl (in_data f) <= 2 ^ 58 -> (forall i, fresh_byte E i = Some 0) \/ ~ unwritten_length hts (in_data f) ->
  in_open f = true -> in_tell f = zl (in_data f) -> malloc_ok f = true -> out_open f = false ->
  bwt_file_gen hts E srt f = (Err InvalidArgument, None).
Proof.
  intros Hs Hts Hb Hn Hf H1 H2 H3 H4.
  pose proof (bwt_file_ok hts E srt (mkio (in_open f) (in_tell f) (in_data f) (malloc_ok f) true (out_limit f)) Hs Hts Hb Hn Hf H1 H2 H3 eq_refl) as H.
  unfold bwt_file_gen in *. cbn [in_open in_tell in_data malloc_ok out_open out_limit] in H. rewrite H1, H3 in *. cbn [negb] in *.
  rewrite H4. cbn [negb].
  destruct (fread (anew (u64 (u64 (in_tell f) + 1))) (u64 (in_tell f)) (in_data f)) as [[T k]|]; [|discriminate].
  destruct (k <=? 0); [discriminate|]. destruct (aset T (u64 (in_tell f)) 0); [|discriminate].
  destruct (bwt_string_gen hts E srt (Some a) (u64 (in_tell f)) true) as [[? ?]|]; [reflexivity|discriminate].
Qed.
(** what must have gone well before the output file is opened *)
Lemma file_touched hts E srt f out : snd (bwt_file_gen hts E srt f) = Some out ->
  in_open f = true /\ malloc_ok f = true /\ in_data f <> [] /\ in_tell f mod 2 ^ 64 <> 0 /\ out_open f = true.
Proof.
  unfold bwt_file_gen. destruct (in_open f) eqn:H1; [|discriminate]. destruct (malloc_ok f) eqn:H2; [|discriminate]. cbn [negb].
  destruct (in_data f) as [|c d] eqn:H3.
  { unfold fread. rewrite firstn_nil. discriminate. }
  destruct (Z.eq_dec (u64 (in_tell f)) 0) as [H4|H4].
  { rewrite H4. unfold fread. replace (Z.min 0 (Z.of_nat (length (c :: d)))) with 0 by lia. discriminate. }
  destruct (fread _ _ _) as [[T k]|]; [|discriminate]. destruct (k <=? 0); [discriminate|].
  destruct (aset T (u64 (in_tell f)) 0); [|discriminate]. destruct (bwt_string_gen _ _ _ _ _ _) as [[? ?]|]; [|discriminate].
  destruct (out_open f) eqn:H5; [|discriminate]. intros _. repeat split; try reflexivity; [discriminate|exact H4].
Qed.
(** the only exceptions, for a normal return the output was written *)
Lemma file_ok_written hts E srt f : fst (bwt_file_gen hts E srt f) = Ok tt -> exists out, snd (bwt_file_gen hts E srt f) = Some out.
Proof.
  unfold bwt_file_gen. destruct (in_open f); [|discriminate]. destruct (malloc_ok f); [|discriminate]. cbn [negb].
  destruct (fread _ _ _) as [[T k]|]; [|discriminate]. destruct (k <=? 0); [discriminate|].
  destruct (aset T (u64 (in_tell f)) 0); [|discriminate]. destruct (bwt_string_gen _ _ _ _ _ _) as [[? ?]|]; [|discriminate].
  destruct (out_open f); [|discriminate]. cbn [negb]. destruct (write_result _ _ _); [intros _; eexists; reflexivity|discriminate].
Qed.

(** * bwt_string *)
Lemma string_null E srt hts n b : bwt_string_gen hts E srt None n b = Err InvalidArgument.
Proof. reflexivity. Qed.
Lemma string_zero E srt hts T b : bwt_string_gen hts E srt T 0 b = Err InvalidArgument.
Proof. destruct T; reflexivity. Qed.
Lemma string_short E srt hts T n b : 1 <= n <= 2 -> bwt_string_gen hts E srt (Some T) n b = Err NullDeref.
Proof.
  intros H. unfold bwt_string_gen, bwt_is, extract_LMS_strings. replace (n <=? 0) with false by lia.
  assert (Hc : exists co, cont_new n = Ok co /\ c_ht co = None).
  { unfold cont_new. destruct (wp_inv _ _ (azeros_ok 258 ltac:(lia))) as (z & Hz & _). rewrite Hz. cbn [bind]. eauto. }
  destruct Hc as (co & Hco & Hht). rewrite Hco. cbn [bind]. replace (n <=? 2) with true by lia. cbn [bind].
  unfold sort_LMS_strings. rewrite Hht. reflexivity.
Qed.

(** two runs on the same text *)
Lemma string_two E1 E2 srt1 srt2 hts1 hts2 T1 T2 l b1 b2 : std_sort srt1 -> std_sort srt2 -> 1 <= hts1 <= 2 ^ 48 -> 1 <= hts2 <= 2 ^ 48 ->
  Forall is_byte l -> 3 <= zl l <= 2 ^ 58 -> string_at T1 0 (l ++ [0]) -> string_at T2 0 (l ++ [0]) ->
  fresh_good E1 hts1 l -> fresh_good E2 hts2 l ->
  exists r1 r2, bwt_string_gen hts1 E1 srt1 (Some T1) (zl l) b1 = Ok (if b1 then None else Some T1, Some r1) /\
    bwt_string_gen hts2 E2 srt2 (Some T2) (zl l) b2 = Ok (if b2 then None else Some T2, Some r2) /\
    r_last r1 = r_last r2 /\ alen (r_BWT r1) = alen (r_BWT r2) /\
    forall r, r <> r_last r1 -> av (r_BWT r1) r = av (r_BWT r2) r.
Proof.
  intros S1 S2 H1 H2 Hb Hn HT1 HT2 F1 F2.
  destruct (bwt_string_list E1 srt1 hts1 T1 l b1 S1 H1 Hb Hn HT1 F1) as (r1 & A1 & A2 & A3).
  destruct (bwt_string_list E2 srt2 hts2 T2 l b2 S2 H2 Hb Hn HT2 F2) as (r2 & B1 & B2 & B3).
  exists r1, r2. destruct (is_BWT_unique l _ _ _ _ A3 B3) as [HL HR].
  split; [assumption|]. split; [assumption|]. split; [assumption|]. split; [congruence|].
  intros r Hr. destruct (Z_le_gt_dec 0 r) as [H0|H0].
  - destruct (Z_le_gt_dec r (zl l)) as [H3|H3]; [apply HR; [lia|assumption]|].
    destruct (av (r_BWT r1) r) eqn:X1; [apply av_bounds in X1; lia|]. destruct (av (r_BWT r2) r) eqn:X2; [apply av_bounds in X2; lia|reflexivity].
  - destruct (av (r_BWT r1) r) eqn:X1; [apply av_bounds in X1; lia|]. destruct (av (r_BWT r2) r) eqn:X2; [apply av_bounds in X2; lia|reflexivity].
Qed.

(** free_T *)
Lemma string_free E srt hts T n : 
  match bwt_string_gen hts E srt T n true, bwt_string_gen hts E srt T n false with
  | Ok (t1, r1), Ok (t2, r2) => r1 = r2 /\ t1 = None /\ t2 = T
  | Err e1, Err e2 => e1 = e2
  | _, _ => False
  end.
Proof.
  unfold bwt_string_gen. destruct T as [T|]; [|reflexivity]. destruct (n <=? 0); [reflexivity|]. unfold bwt_is.
  destruct (extract_LMS_strings E hts T n) as [co|]; [|reflexivity]. cbn [bind].
  destruct (sort_LMS_strings E srt T co) as [[Sv co']|]; [|reflexivity]. cbn [bind].
  destruct (create_shortened_string E T n co') as [T1|]; [|reflexivity]. cbn [bind].
  destruct (position_of_msb _) as [bits|]; [|reflexivity]. cbn [bind]. destruct (sa_width bits) as [W|]; [|auto].
  destruct (bwt_branch_of E W Sv T1 co') as [r|]; [|reflexivity]. cbn [bind]. auto.
Qed.

(** * PackedArray safety *)
Lemma pa_bounds bits index len : 1 <= bits <= 64 -> 0 <= index < len -> len * bits < 2 ^ 64 ->
  let g := bits * index in
  u64 g = g /\ 0 <= g / 64 <= len * bits / 64 /\ (63 - g mod 64 + 1 < bits -> g / 64 + 1 <= len * bits / 64).
Proof.
  intros Hb Hi Hl g. assert (Hg : 0 <= g /\ g + bits <= len * bits) by (unfold g; nia).
  split; [unfold u64; apply wrap_small; lia|].
  pose proof (Z.div_mod g 64 ltac:(lia)). pose proof (Z.mod_pos_bound g 64 ltac:(lia)).
  pose proof (Z.div_mod (len * bits) 64 ltac:(lia)). pose proof (Z.mod_pos_bound (len * bits) 64 ltac:(lia)).
  split; [split; [lia|]; apply Z.div_le_mono; lia|]. intros Hs. lia.
Qed.
Lemma pa_safe E p len bits index value : 1 <= bits <= 64 -> 0 <= len -> len * bits < 2 ^ 64 -> 0 <= index < len ->
  pa_bits p = bits -> pa_len p = len -> alen (pa_arr p) = len * bits / 64 + 1 ->
  (exists p', pa_set E p index value = Ok p' /\ pa_bits p' = bits /\ pa_len p' = len /\ alen (pa_arr p') = alen (pa_arr p)) /\
  (exists v, pa_get E p index = Ok v).
Proof.
  intros Hb Hl Ho Hi P1 P2 P3. destruct (pa_bounds bits index len Hb Hi Ho) as (Hu & Hr & Hs).
  unfold pa_set, pa_get, get2. rewrite P1, Hu. set (g := bits * index) in *. split.
  - destruct (Z.leb_spec bits (63 - g mod 64 + 1)).
    + rewrite rdw_ok by lia. cbn [bind]. rewrite aset_ok by lia. cbn [bind]. eexists. split; [reflexivity|].
      cbn [pa_bits pa_len pa_arr]. rewrite alen_upd. auto.
    + specialize (Hs ltac:(lia)). rewrite rdw_ok by lia. cbn [bind]. rewrite aset_ok by lia. cbn [bind].
      rewrite rdw_ok by (rewrite alen_upd; lia). cbn [bind]. rewrite aset_ok by (rewrite alen_upd; lia). cbn [bind].
      eexists. split; [reflexivity|]. cbn [pa_bits pa_len pa_arr]. rewrite !alen_upd. auto.
  - destruct (Z.leb_spec bits (63 - g mod 64 + 1)).
    + rewrite rdw_ok by lia. cbn [bind]. eauto.
    + specialize (Hs ltac:(lia)). rewrite rdw_ok by lia. cbn [bind]. rewrite rdw_ok by lia. cbn [bind]. eauto.
Qed.
(** every history of stores, values arbitrary *)
Lemma pa_safe_history E len bits : 1 <= bits <= 64 -> 0 <= len -> len * bits < 2 ^ 64 ->
  forall h, Forall (fun '(i, _) => 0 <= i < len) h ->
  exists p, run_sets E (pa_new len bits) h = Ok p /\ forall j, 0 <= j < len -> exists v, pa_get E p j = Ok v.
Proof.
  intros Hb Hl Ho.
  assert (Hg : forall h p, pa_bits p = bits -> pa_len p = len -> alen (pa_arr p) = len * bits / 64 + 1 ->
    Forall (fun '(i, _) => 0 <= i < len) h ->
    exists q, run_sets E p h = Ok q /\ forall j, 0 <= j < len -> exists v, pa_get E q j = Ok v).
  { induction h as [|[i v] h IH]; intros p P1 P2 P3 Hh; cbn [run_sets].
    - exists p. split; [reflexivity|]. intros j Hj. apply (pa_safe E p len bits j 0 Hb Hl Ho Hj P1 P2 P3).
    - inversion Hh as [|? ? Hi Hh']; subst. destruct (pa_safe E p (pa_len p) (pa_bits p) i v Hb Hl Ho Hi eq_refl eq_refl P3) as [(p' & A1 & A2 & A3 & A4) _].
      rewrite A1. cbn [bind]. destruct (IH p' A2 A3 ltac:(congruence) Hh') as (q & Hq & Hq2). exists q. split; assumption. }
  intros h Hh. destruct (Hg h (pa_new len bits)) as (p & H1 & H2); try reflexivity; try assumption; eauto.
  unfold pa_new. cbn [pa_arr]. rewrite alen_new. unfold u64. rewrite wrap_small by nia. reflexivity.
Qed.

(** shift amounts *)
(** The amounts by which set_value (src/packed_array.cpp:28-53) shifts, in program order,
    including the shifts inside the BIT_MASK macro (include/packed_array.hpp:8-10). *)
Definition pa_set_shifts (bits index : Z) : list Z :=
  let bit_index := 63 - u64 (bits * index) mod 64 in
  if bits <=? bit_index + 1 then
    [64 - (bit_index + 1); 64 - (bit_index + 1 - bits); bit_index + 1 - bits]
  else
    let wsp := bits - (bit_index + 1) in
    [64 - (bit_index + 1); wsp; 64 - wsp; 64 - wsp].
(** the same for get_value and get2 (src/packed_array.cpp:55-81, src/sais32bit.cpp:9-35) *)
Definition pa_get_shifts (bits index : Z) : list Z :=
  let bit_index := 63 - u64 (bits * index) mod 64 in
  if bits <=? bit_index + 1 then [64 - bits; bit_index + 1 - bits]
  else [64 - (bit_index + 1); bits - bit_index - 1; 64 - (bits - bit_index - 1)].
Lemma set_log E p index value : pa_set_log E p index value = (q <- pa_set E p index value ;; Ok (q, pa_set_shifts (pa_bits p) index)).
Proof.
  unfold pa_set_log, pa_set, pa_set_shifts, bit_mask_log, shl_log, shr_log. cbv zeta. destruct (_ <=? _).
  - destruct (rdw _ _ _); [|reflexivity]. cbn [bind]. destruct (aset _ _ _); reflexivity.
  - destruct (rdw _ _ _); [|reflexivity]. cbn [bind]. destruct (aset _ _ _); [|reflexivity]. cbn [bind].
    destruct (rdw _ _ _); [|reflexivity]. cbn [bind]. destruct (aset _ _ _); reflexivity.
Qed.
Lemma get_log E B i d : get2_log E B i d = (v <- get2 E B i d ;; Ok (v, pa_get_shifts d i)).
Proof.
  unfold get2_log, get2, pa_get_shifts, bit_mask_log, shl_log, shr_log. cbv zeta. destruct (_ <=? _).
  - destruct (rdw _ _ _); reflexivity.
  - destruct (rdw _ _ _); [|reflexivity]. cbn [bind]. destruct (rdw _ _ _); reflexivity.
Qed.
Lemma set_shifts_ok bits index : 1 <= bits <= 64 -> 0 <= index -> bits * index < 2 ^ 64 ->
  (Forall (fun k => 0 <= k < 64) (pa_set_shifts bits index) <-> (bits * (index + 1)) mod 64 <> 0).
Proof.
  intros Hb Hi Ho. unfold pa_set_shifts. replace (u64 (bits * index)) with (bits * index) by (unfold u64; rewrite wrap_small by nia; reflexivity).
  replace (bits * (index + 1)) with (bits * index + bits) by lia. set (g := bits * index).
  assert (Hg : 0 <= g) by (unfold g; nia).
  pose proof (Z.div_mod g 64 ltac:(lia)) as D1. pose proof (Z.mod_pos_bound g 64 ltac:(lia)) as D2.
  pose proof (Z.div_mod (g + bits) 64 ltac:(lia)) as D3. pose proof (Z.mod_pos_bound (g + bits) 64 ltac:(lia)) as D4.
  split.
  - intros H. destruct (Z.leb_spec bits (63 - g mod 64 + 1)).
    + apply Forall_inv_tail, Forall_inv in H. clearbody g. lia.
    + clear H; clearbody g; lia.
  - intros H. destruct (Z.leb_spec bits (63 - g mod 64 + 1)); repeat constructor; lia.
Qed.
Lemma get_shifts_ok bits index : 1 <= bits <= 64 -> 0 <= index -> bits * index < 2 ^ 64 ->
  Forall (fun k => 0 <= k < 64) (pa_get_shifts bits index).
Proof.
  intros Hb Hi Ho. unfold pa_get_shifts. replace (u64 (bits * index)) with (bits * index) by (unfold u64; rewrite wrap_small by nia; reflexivity).
  set (g := bits * index). pose proof (Z.mod_pos_bound g 64 ltac:(lia)) as D2.
  destruct (Z.leb_spec bits (63 - g mod 64 + 1)); repeat constructor; lia.
Qed.
Lemma set_shifts_log E p index value q log : 1 <= pa_bits p <= 64 -> 0 <= index -> pa_bits p * index < 2 ^ 64 -> pa_set_log E p index value = Ok (q, log) ->
  (Forall (fun k => 0 <= k < 64) log <-> (pa_bits p * (index + 1)) mod 64 <> 0).
Proof.
  intros H1 H2 H3. rewrite set_log. destruct (pa_set E p index value) as [x|]; [|discriminate]. cbn [bind]. intros H.
  assert (log = pa_set_shifts (pa_bits p) index) as -> by congruence. apply set_shifts_ok; assumption.
Qed.
Lemma get_shifts_log E B index d v log : 1 <= d <= 64 -> 0 <= index -> d * index < 2 ^ 64 -> get2_log E B index d = Ok (v, log) ->
  Forall (fun k => 0 <= k < 64) log.
Proof.
  intros H1 H2 H3. rewrite get_log. destruct (get2 E B index d) as [x|]; [|discriminate]. cbn [bind]. intros H.
  assert (log = pa_get_shifts d index) as -> by congruence. apply get_shifts_ok; assumption.
Qed.
Lemma byte7_set E : exists q, pa_set E (pa_new 8 8) 7 1 = Ok q.
Proof.
  assert (W : pa_wf (pa_new 8 8)) by (apply pa_new_wf; lia).
  destruct (wide_wf E (pa_new 8 8) 7 1 W) as (q & H & _); [change (0 <= 7 < 8); lia|lia|exists q; exact H].
Qed.
(** the overlong shift has no influence *)
Lemma set_shift_harmless E1 E2 p index value : (forall i, fresh_word E1 i = fresh_word E2 i) ->
  1 <= pa_bits p <= 64 -> pa_set E1 p index value = pa_set E2 p index value.
Proof.
  intros Hf Hb. assert (Hr : forall a i, rdw E1 a i = rdw E2 a i).
  { intros a i. unfold rdw. rewrite Hf. reflexivity. }
  unfold pa_set. set (g := u64 (pa_bits p * index)).
  pose proof (Z.mod_pos_bound g 64 ltac:(lia)) as D2.
  destruct (Z.leb_spec (pa_bits p) (63 - g mod 64 + 1)).
  - rewrite !bit_mask_ones by lia. rewrite !shl64_ok by lia. rewrite Hr. reflexivity.
  - rewrite !bit_mask_ones by lia. rewrite !shl64_ok by lia. rewrite !shr64_ok by lia. rewrite Hr.
    destruct (rdw E2 (pa_arr p) (g / 64)); [|reflexivity]. cbn [bind]. destruct (aset _ _ _); [|reflexivity]. cbn [bind]. rewrite Hr. reflexivity.
Qed.

(** * position_of_msb *)
Lemma msb_ok n : 1 <= n < 2 ^ 64 -> exists r, position_of_msb n = Ok r /\ 1 <= r <= 64 /\ 2 ^ (r - 1) <= n < 2 ^ r.
Proof.
  intros H. exists (Z.log2 n + 1). rewrite position_of_msb_ok by lia. split; [reflexivity|].
  pose proof (Z.log2_nonneg n). pose proof (Z.log2_spec n ltac:(lia)) as [H1 H2].
  assert (Z.log2 n < 64) by (apply Z.log2_lt_pow2; lia). split; [lia|].
  replace (Z.log2 n + 1 - 1) with (Z.log2 n) by lia. replace (Z.log2 n + 1) with (Z.succ (Z.log2 n)) by lia. lia.
Qed.

(** * Field round trips *)
Lemma length_roundtrip E b p m : 1 <= m < 2 ^ 64 -> 0 <= p -> p + 9 <= alen b ->
  m mod 256 <> 0 \/ (forall j, 1 <= j <= 8 -> bget E b (p + j) = Ok 0) ->
  exists b', set_length E b p m = Ok b' /\ get_length E b' p = Ok m /\ alen b' = alen b /\
    forall i, i < p \/ p + 9 <= i -> bget E b' i = bget E b i.
Proof.
  intros Hm Hp Hb Hs. pose proof (lenlen_le8 m Hm) as Hl.
  destruct (set_length_lenf E b p m Hm Hp ltac:(lia)) as (b' & H1 & [H2 H2'] & _ & H3).
  { destruct Hs as [Hs|Hs]; [left; exact Hs|right]. intros j Hj. replace (p + 1 + j) with (p + (j + 1)) by lia. apply Hs. lia. }
  exists b'. split; [exact H1|]. split; [apply get_length_ok; assumption|]. split; [exact H2|]. intros i Hi. apply H2'. lia.
Qed.
Lemma pointer_roundtrip E b p v : 0 <= p -> p + 10 <= alen b -> 0 <= v < 2 ^ 64 ->
  exists b', set_pointer b p v = Ok b' /\ get_pointer E b' p = Ok v /\ get_length E b' p = Ok 2 /\ alen b' = alen b /\
    forall i, i < p \/ p + 10 <= i -> bget E b' i = bget E b i.
Proof.
  intros Hp Hb Hv. destruct (set_pointer_ok E b p v Hp Hb Hv) as (b' & H1 & [H2 H2'] & _ & H3).
  exists b'. split; [exact H1|]. split; [apply get_pointer_ok; assumption|]. split; [eapply ptrf_length; exact H3|].
  split; [exact H2|]. intros i Hi. apply H2'. lia.
Qed.

(** * Names *)
Lemma for_n_ext {S} (f g : Z -> S -> res S) : forall c i s, (forall j x, i <= j < i + Z.of_nat c -> f j x = g j x) -> for_n c i f s = for_n c i g s.
Proof.
  induction c as [|c IH]; intros i s H; [reflexivity|]. cbn [for_n]. rewrite H by lia. destruct (g i s); [|reflexivity]. cbn [bind].
  apply IH. intros j x Hj. apply H. lia.
Qed.
Lemma for_up_ext {S} (f g : Z -> S -> res S) lo hi s : (forall j x, lo <= j < hi -> f j x = g j x) -> for_up lo hi f s = for_up lo hi g s.
Proof. intros H. apply for_n_ext. intros j x Hj. apply H. lia. Qed.
Lemma get_length_frame E b b' p k : bget E b p = Ok k -> (forall i, p <= i <= p + k -> bget E b' i = bget E b i) -> 0 <= k ->
  get_length E b' p = get_length E b p.
Proof.
  intros Hk Hf H0. unfold get_length. rewrite Hf by lia. rewrite Hk. cbn [bind]. destruct (Z.eqb_spec k 0); [reflexivity|].
  rewrite Hf by lia. destruct (bget E b (p + 1)); [|reflexivity]. cbn [bind]. apply for_up_ext. intros j x Hj. rewrite Hf by lia. reflexivity.
Qed.
Lemma name_roundtrip E h b p k m name : bget E b p = Ok k -> get_length E b p = Ok m -> 0 <= k -> 0 <= m -> 0 <= p ->
  0 <= NAME_BYTES h <= 8 -> p + 2 + k + m + NAME_BYTES h <= alen b -> 0 <= name < 256 ^ NAME_BYTES h ->
  exists b', set_name E h b p name = Ok b' /\ get_name E h b' p = Ok name /\ alen b' = alen b /\
    forall i, i < p + 2 + k + m \/ p + 2 + k + m + NAME_BYTES h <= i -> bget E b' i = bget E b i.
Proof.
  intros Hk Hm Hk0 Hm0 Hp Hnb Hb Hn. unfold set_name. rewrite Hm, Hk. cbn [bind].
  set (q := p + 1 + k + m + 1).
  pose proof (write_digits E b q name (NAME_BYTES h) ltac:(lia) ltac:(lia) ltac:(lia) ltac:(lia)) as H1.
  apply wp_inv in H1 as ([b2 v2] & H1 & [Hl Hf] & He & Hc). rewrite H1. cbn [bind]. exists b2. split; [reflexivity|].
  split; [|split; [assumption|]].
  - unfold get_name. rewrite (get_length_frame E b b2 p k Hk) by (try lia; intros i Hi; apply Hf; lia). rewrite Hm. cbn [bind].
    rewrite Hf by lia. rewrite Hk. cbn [bind]. fold q. apply (read_digits E b2 q name (NAME_BYTES h)); try lia; [|assumption].
    symmetry. apply Z.div_small. rewrite Z.sub_0_r. exact Hn.
  - intros i Hi. apply Hf. lia.
Qed.
Lemma name_width hb size n : 1 <= size -> 0 <= n < 2 ^ 62 ->
  exists h, ht_new_hb hb size n = Ok h /\ 1 <= NAME_BYTES h <= 8 /\ n / 2 + 1 < 256 ^ NAME_BYTES h.
Proof.
  intros Hs Hn. destruct (wp_inv _ _ (ht_new_ok (mkenv (fun _ => None) (fun _ => 0) (fun _ _ => 0)) 13 size n Hs ltac:(lia) Hn)) as (h & H & _ & _ & Hnb & _).
  unfold ht_new_hb in *. destruct (azeros size) as [a|]; [|discriminate]. cbn [bind] in *.
  destruct (position_of_msb (u64 (n / 2 + 1))) as [bits|]; [|discriminate]. cbn [bind] in *. inversion H; subst h. cbn [NAME_BYTES] in Hnb.
  eexists. split; [reflexivity|]. cbn [NAME_BYTES]. rewrite Hnb. apply name_bytes_ok, Hn.
Qed.

(** * The comparison function *)
Lemma get_length_nonneg E b p m : (forall i c, bget E b i = Ok c -> is_byte c) -> get_length E b p = Ok m -> 0 <= m.
Proof.
  intros Hby. unfold get_length. destruct (bget E b p) as [k|] eqn:Hk; [|discriminate]. cbn [bind].
  destruct (k =? 0); [intros [= <-]; lia|]. destruct (bget E b (p + 1)) as [c|] eqn:Hc; [|discriminate]. cbn [bind].
  assert (Hg : forall cn i x, 0 <= x -> for_n cn i (fun i length => c <- bget E b (p + 1 + i) ;; Ok (Z.lor (u64 (Z.shiftl length 8)) c)) x = Ok m -> 0 <= m).
  { induction cn as [|cn IH]; intros i x Hx; cbn [for_n]; [intros [= <-]; exact Hx|].
    destruct (bget E b (p + 1 + i)) as [d|] eqn:Hd; [|discriminate]. cbn [bind]. apply IH. apply Z.lor_nonneg.
    split; [apply (wrap_range 64); lia|apply (Hby _ _ Hd)]. }
  apply Hg. apply (Hby _ _ Hc).
Qed.
Lemma read_inv E b q s : (forall i c, bget E b i = Ok c -> is_byte c) -> read_record E b q = Ok s ->
  exists p, get_length E b q = Ok (zln s) /\ get_first_character_pointer E b q = Ok p /\
    (forall i, 0 <= i < zln s -> bget E b (p + i) = Ok (nth (Z.to_nat i) s 0)) /\ Forall is_byte s.
Proof.
  intros Hby. unfold read_record. destruct (get_length E b q) as [m|] eqn:Hm; [|discriminate]. cbn [bind].
  destruct (get_first_character_pointer E b q) as [p|]; [|discriminate]. cbn [bind]. intros H. exists p.
  pose proof (get_length_nonneg E b q m Hby Hm) as Hm0.
  assert (Hg : forall c acc r, ford_n c (Z.of_nat c - 1) (fun i l => c <- bget E b (p + i) ;; Ok (c :: l)) acc = Ok r ->
    Forall is_byte acc ->
    exists l, r = l ++ acc /\ length l = c /\ Forall is_byte r /\ forall i, 0 <= i < Z.of_nat c -> bget E b (p + i) = Ok (nth (Z.to_nat i) l 0)).
  { induction c as [|c IH]; intros acc r Hr Ha; cbn [ford_n] in Hr.
    - inversion Hr; subst. exists []. repeat split; [assumption|]. intros; lia.
    - replace (Z.of_nat (S c) - 1) with (Z.of_nat c) in Hr by lia. destruct (bget E b (p + Z.of_nat c)) as [x|] eqn:Hx; [|discriminate]. cbn [bind] in Hr.
      apply IH in Hr; [|constructor; [apply (Hby _ _ Hx)|assumption]]. destruct Hr as (l & -> & Hl & Hf & Hn).
      exists (l ++ [x]). split; [rewrite <- app_assoc; reflexivity|]. split; [rewrite app_length, Hl; cbn; lia|]. split; [assumption|].
      intros i Hi. destruct (Z.eq_dec i (Z.of_nat c)) as [->|Hne].
      + rewrite Hx, Nat2Z.id, app_nth2, Hl, Nat.sub_diag by lia. reflexivity.
      + rewrite Hn by lia. rewrite app_nth1 by lia. reflexivity. }
  unfold for_down in H. replace (Z.to_nat (m - 1 - 0 + 1)) with (Z.to_nat m) in H by lia.
  replace (m - 1) with (Z.of_nat (Z.to_nat m) - 1) in H by lia.
  apply Hg in H; [|constructor]. destruct H as (l & -> & Hl & Hf & Hn). rewrite app_nil_r in *.
  split; [f_equal; lia|]. split; [reflexivity|]. split; [|assumption]. intros i Hi. apply Hn. lia.
Qed.
Lemma comparison_records E b q1 s1 q2 s2 : (forall i c, bget E b i = Ok c -> is_byte c) ->
  read_record E b q1 = Ok s1 -> read_record E b q2 = Ok s2 -> LMS_comparison E b q1 q2 = Ok (star_lt s1 s2).
Proof.
  intros Hby H1 H2. destruct (read_inv E b q1 s1 Hby H1) as (p1 & A1 & A2 & A3 & A4).
  destruct (read_inv E b q2 s2 Hby H2) as (p2 & B1 & B2 & B3 & B4).
  unfold LMS_comparison. rewrite A1. cbn [bind]. rewrite B1. cbn [bind]. rewrite A2. cbn [bind]. rewrite B2. cbn [bind].
  apply cmp_loop; try assumption. lia.
Qed.
Lemma comparison_order E b qs strs : (forall i c, bget E b i = Ok c -> is_byte c) ->
  Forall2 (fun q s => read_record E b q = Ok s) qs strs -> NoDup strs ->
  (forall q, In q qs -> LMS_comparison E b q q = Ok false) /\
  (forall q1 q2 q3, In q1 qs -> In q2 qs -> In q3 qs ->
     LMS_comparison E b q1 q2 = Ok true -> LMS_comparison E b q2 q3 = Ok true -> LMS_comparison E b q1 q3 = Ok true) /\
  (forall i j, (i < length qs)%nat -> (j < length qs)%nat -> i <> j ->
     (LMS_comparison E b (nth i qs 0) (nth j qs 0) = Ok true /\ LMS_comparison E b (nth j qs 0) (nth i qs 0) = Ok false) \/
     (LMS_comparison E b (nth i qs 0) (nth j qs 0) = Ok false /\ LMS_comparison E b (nth j qs 0) (nth i qs 0) = Ok true)).
Proof.
  intros Hby HF Hnd.
  assert (Hin : forall q, In q qs -> exists s, read_record E b q = Ok s).
  { clear - HF. induction HF as [|q s qs strs H HF IH]; [intros ? []|]. intros q' [<-|Hq]; eauto. }
  assert (Hnth : forall i, (i < length qs)%nat -> read_record E b (nth i qs 0) = Ok (nth i strs [])).
  { clear - HF. induction HF as [|q s qs strs H HF IH]; intros i Hi; cbn [length] in Hi; [lia|]. destruct i as [|i]; cbn [nth]; [exact H|apply IH; lia]. }
  assert (Hlen : length qs = length strs) by (clear - HF; induction HF; cbn [length]; congruence).
  split; [|split].
  - intros q Hq. destruct (Hin q Hq) as (s & Hs). rewrite (comparison_records E b q s q s) by assumption. rewrite star_lt_irr. reflexivity.
  - intros q1 q2 q3 H1 H2 H3. destruct (Hin _ H1) as (s1 & A1). destruct (Hin _ H2) as (s2 & A2). destruct (Hin _ H3) as (s3 & A3).
    rewrite (comparison_records E b q1 s1 q2 s2), (comparison_records E b q2 s2 q3 s3), (comparison_records E b q1 s1 q3 s3) by assumption.
    intros [= H12] [= H23]. f_equal. eapply star_lt_trans; eassumption.
  - intros i j Hi Hj Hne. pose proof (Hnth i Hi) as A1. pose proof (Hnth j Hj) as A2.
    rewrite (comparison_records E b _ _ _ _ Hby A1 A2), (comparison_records E b _ _ _ _ Hby A2 A1).
    set (s1 := nth i strs []) in *. set (s2 := nth j strs []) in *.
    assert (Hs : s1 <> s2) by (intros He; apply Hne; eapply (NoDup_nth strs []); try eassumption; lia).
    destruct (star_lt s1 s2) eqn:E1, (star_lt s2 s1) eqn:E2; auto.
    + pose proof (star_lt_trans _ _ _ E1 E2) as H. rewrite star_lt_irr in H. discriminate.
    + destruct (star_lt_total s1 s2 Hs); congruence.
Qed.

(** * Hash function *)
Lemma hash_spec h T1 p1 T2 p2 s : 1 <= HTSIZE h -> string_at T1 p1 s -> string_at T2 p2 s ->
  exists v, hash_function h T1 (zln s) p1 = Ok v /\ hash_function h T2 (zln s) p2 = Ok v /\ 0 <= v < HTSIZE h.
Proof.
  intros Hs H1 H2. apply string_at_tseg in H1, H2. exists (hash_of (HTSIZE h) s).
  split; [apply hash_ok, H1|]. split; [apply hash_ok, H2|apply hash_range, Hs].
Qed.

(** * Number of S* substrings *)
Lemma lms_half l : (2 * length (lms_positions l) <= length l)%nat.
Proof.
  destruct l as [|c l0] eqn:Hl; [cbn; lia|]. rewrite <- Hl. pose proof (LMS_half (tl_ l) (zl l) ltac:(rewrite Hl; cbn [length]; lia)) as H.
  rewrite lms_count in H. lia.
Qed.
Lemma lms_gap l i j : In i (lms_positions l) -> In j (lms_positions l) -> (i < j)%nat -> (i + 2 <= j)%nat.
Proof.
  intros Hi Hj H. apply lms_pos in Hi as [Hi1 Hi2], Hj as [Hj1 Hj2].
  destruct (Nat.eq_dec j (S i)) as [->|]; [|lia]. replace (Z.of_nat (S i)) with (Z.of_nat i + 1) in Hj2 by lia.
  rewrite LMS_not_adjacent in Hj2 by assumption. discriminate.
Qed.
Lemma star_len l i : In i (lms_positions l) -> (3 <= length (star_sub l i) <= length l)%nat.
Proof.
  intros Hi. pose proof Hi as Hi0. apply lms_pos in Hi as [Hi1 Hi2]. rewrite <- (sub_list l i Hi0).
  pose proof (sub_len_LMS (tl_ l) (zl l) (Z.of_nat i) Hi2). lia.
Qed.

(** * The terminator byte is always read *)
Ltac binv H := match type of H with
  | bind ?m _ = Ok _ => let X := fresh "B" in destruct m eqn:X; [cbn [bind] in H|discriminate H]
  end.
Lemma ford_inv {S} (I : S -> Prop) (body : Z -> S -> res S) lo : (forall i s s', lo <= i -> I s -> body i s = Ok s' -> I s') ->
  forall c i s r, lo <= i - Z.of_nat c + 1 -> I s -> ford_n c i body s = Ok r -> I r.
Proof.
  intros Hb. induction c as [|c IH]; intros i s r Hi HI H; cbn [ford_n] in H; [inversion H; subst; exact HI|].
  binv H. apply (IH (i - 1) a r); [lia| |exact H]. eapply Hb; [|exact HI|exact B]. lia.
Qed.
Lemma for_reads {S} (f : Z -> S -> res S) (P : Z -> Prop) : (forall i s r, f i s = Ok r -> P i) ->
  forall c i s r, for_n c i f s = Ok r -> forall j, i <= j < i + Z.of_nat c -> P j.
Proof.
  intros Hf. induction c as [|c IH]; intros i s r H j Hj; [lia|]. cbn [for_n] in H. binv H.
  destruct (Z.eq_dec j i) as [->|Hne]; [eapply Hf; exact B|]. eapply IH; [exact H|lia].
Qed.
Lemma hash_reads h T m p v : hash_function h T m p = Ok v -> forall i, 0 <= i < m -> exists c, av T (p + i) = Some c.
Proof.
  unfold hash_function. intros H. binv H. clear H. unfold for_up in B.
  intros i Hi. apply (for_reads _ (fun j => exists c, av T (p + j) = Some c)) with (j := i) in B; [exact B| |lia].
  intros k s r Hk. binv Hk. eexists. eapply aget_inv; exact B0.
Qed.
Lemma extract_reads E hts T n co : 3 <= n < 2 ^ 64 -> extract_LMS_strings E hts T n = Ok co ->
  c_head_end co = Some n \/ exists c, av T n = Some c.
Proof.
  intros Hn H. unfold extract_LMS_strings in H. binv H. replace (n <=? 2) with false in H by lia.
  binv H. binv H. binv H. binv H. binv H. binv H. binv H. inversion H; subst co; clear H. cbn [c_head_end].
  unfold for_down in B6.
  assert (HI : (x_p a6 = n /\ x_q a6 = n) \/ exists c, av T n = Some c).
  { match type of B6 with ford_n ?c0 _ _ _ = _ =>
      apply (ford_inv (fun s => (x_p s = n /\ x_q s = n) \/ exists c, av T n = Some c) (fun i s => if i <=? n - 2 then extract_step E T i s else Ok s) 0) with (c := c0) (i := n - 2) (s := mkxst a0 a3 a5 a4 0 0 false n n)
    end.
    - intros i s s' Hi HI H. destruct (Z.leb_spec i (n - 2)) as [Hin|]; [|inversion H; subst; exact HI].
      destruct HI as [[HI1 HI2]|HI]; [|right; exact HI]. unfold extract_step in H. binv H. binv H. binv H.
      destruct (a7 <? a8); [inversion H; subst; left; auto|]. destruct (a8 <? a7).
      + binv H. destruct a10 as [[[[[ht C] num] uniq] p] q]. binv H. inversion H; subst s'. cbn [x_p x_q].
        destruct (x_prevS s); [|inversion B10; subst; left; auto].
        cbn zeta in B10. binv B10. binv B10. right.
        unfold insert_string in B13. binv B13. rewrite HI2 in B14. unfold u64 in B14. rewrite wrap_small in B14 by lia.
        pose proof (hash_reads _ _ _ _ _ B14 (n - i - 1) ltac:(lia)) as Hr. replace (i + 1 + (n - i - 1)) with n in Hr by lia. exact Hr.
      + binv H. inversion H; subst s'. left. auto.
    - lia.
    - left. split; reflexivity.
    - rewrite <- B6.
      assert (Hx : forall c i s, i <= n - 2 -> ford_n c i (fun i s => if i <=? n - 2 then extract_step E T i s else Ok s) s = ford_n c i (extract_step E T) s).
      { induction c as [|c IH]; intros i s Hi; [reflexivity|]. cbn [ford_n]. replace (i <=? n - 2) with true by lia.
        destruct (extract_step E T i s); [|reflexivity]. cbn [bind]. apply IH. lia. }
      apply Hx. lia. }
  destruct HI as [[HI _]|HI]; [left; congruence|right; exact HI].
Qed.
Lemma sort_reads E srt T co n x : 0 <= n -> c_head_end co = Some n -> sort_LMS_strings E srt T co = Ok x -> exists c, av T n = Some c.
Proof.
  intros Hn Hh H. unfold sort_LMS_strings in H. destruct (c_ht co) as [h|]; [|discriminate]. rewrite Hh in H.
  binv H. binv H. destruct a0 as [s j]. binv H.
  destruct (negb _); [discriminate|]. binv H. binv H. binv H. binv H. binv H. binv H. binv H. binv H. binv H. binv H.
  clear - Hn B10. unfold for_up in B10.
  apply (for_reads _ (fun j => exists c, av T j = Some c)) with (j := n) in B10; [exact B10| |lia].
  intros k s r Hk. binv Hk. eexists. eapply aget_inv; exact B.
Qed.
Lemma terminator_read E srt hts T n b x : 3 <= n < 2 ^ 64 -> bwt_string_gen hts E srt (Some T) n b = Ok x -> exists c, av T n = Some c.
Proof.
  intros Hn H. unfold bwt_string_gen in H. replace (n <=? 0) with false in H by lia. unfold bwt_is in H. binv H. binv H.
  destruct (extract_reads E hts T n a Hn B) as [Hh|Hc]; [|exact Hc]. eapply sort_reads; [lia|exact Hh|exact B0].
Qed.

(** * Files whose size changes or is unknown *)
Lemma file_pipe hts E srt f : in_open f = true -> malloc_ok f = true -> in_tell f = -1 -> in_data f <> [] -> Z.of_nat (length (in_data f)) < 2 ^ 64 ->
  bwt_file_gen hts E srt f = (Err OutOfBounds, None).
Proof.
  intros H1 H2 H3 H4 H5. unfold bwt_file_gen. rewrite H1, H2, H3. cbn [negb].
  change (u64 (-1)) with (2 ^ 64 - 1). change (u64 (2 ^ 64 - 1 + 1)) with 0. unfold fread.
  replace (Z.to_nat (Z.min (2 ^ 64 - 1) (Z.of_nat (length (in_data f))))) with (length (in_data f)) by lia. rewrite firstn_all.
  destruct (in_data f) as [|c d]; [congruence|]. cbn [ablit]. rewrite aset_oob by (rewrite alen_new; lia). reflexivity.
Qed.
Lemma file_grown hts E srt f : 0 <= in_tell f < 2 ^ 63 -> in_tell f <= Z.of_nat (length (in_data f)) ->
  bwt_file_gen hts E srt f = bwt_file_gen hts E srt (mkio (in_open f) (in_tell f) (firstn (Z.to_nat (in_tell f)) (in_data f)) (malloc_ok f) (out_open f) (out_limit f)).
Proof.
  intros H1 H2. unfold bwt_file_gen. cbn [in_open in_tell in_data malloc_ok out_open out_limit].
  assert (Hu : u64 (in_tell f) = in_tell f) by (unfold u64; apply wrap_small; lia). rewrite Hu.
  assert (Hf : forall T, fread T (in_tell f) (in_data f) = fread T (in_tell f) (firstn (Z.to_nat (in_tell f)) (in_data f))).
  { intros T. unfold fread. cbn zeta. replace (Z.min (in_tell f) (zl (in_data f))) with (in_tell f) by lia.
    assert (Hl : zl (firstn (Z.to_nat (in_tell f)) (in_data f)) = in_tell f) by (rewrite firstn_length; lia).
    rewrite Hl, Z.min_id, firstn_firstn, Nat.min_id, Hl. reflexivity. }
  rewrite Hf. reflexivity.
Qed.
Lemma file_short hts E srt f : 1 <= hts -> in_open f = true -> malloc_ok f = true -> in_data f <> [] ->
  3 <= in_tell f < 2 ^ 62 -> Z.of_nat (length (in_data f)) < in_tell f ->
  bwt_file_gen hts E srt f = (Err Uninit, None).
Proof.
  intros Hts H1 H2 H3 H4 H5. unfold bwt_file_gen. rewrite H1, H2. cbn [negb].
  assert (Hu : u64 (in_tell f) = in_tell f) by (unfold u64; apply wrap_small; lia). rewrite Hu.
  assert (Hu1 : u64 (in_tell f + 1) = in_tell f + 1) by (unfold u64; apply wrap_small; lia). rewrite Hu1.
  unfold fread. replace (Z.to_nat (Z.min (in_tell f) (Z.of_nat (length (in_data f))))) with (length (in_data f)) by lia. rewrite firstn_all.
  destruct (ablit_ok (in_data f) (anew (in_tell f + 1)) 0) as (T & HT & Hl & Hat & Ho); [lia|rewrite alen_new; lia|].
  rewrite HT. cbn [bind]. rewrite alen_new in Hl.
  replace (Z.of_nat (length (in_data f)) <=? 0) with false by (destruct (in_data f); [congruence|cbn [length]; lia]).
  rewrite aset_ok by lia.
  assert (Hav : av (aupd T (in_tell f) 0) (in_tell f - 1) = None).
  { rewrite av_upd by lia. replace (in_tell f - 1 =? in_tell f) with false by lia. rewrite Ho by lia. apply av_new. }
  set (T' := aupd T (in_tell f) 0) in *. assert (Hl' : alen T' = in_tell f + 1) by (unfold T'; rewrite alen_upd; exact Hl).
  set (n := in_tell f) in *.
  assert (Hx : bwt_string_gen hts E srt (Some T') n true = Err Uninit); [|rewrite Hx; reflexivity].
  unfold bwt_string_gen. replace (n <=? 0) with false by lia. unfold bwt_is, extract_LMS_strings, cont_new.
  destruct (wp_inv _ _ (azeros_ok 258 ltac:(lia))) as (z & Hz & Hz1 & Hz2). rewrite Hz. cbn [bind].
  replace (n <=? 2) with false by lia.
  destruct (wp_inv _ _ (ht_new_ok E 512 hts n Hts ltac:(lia) ltac:(lia))) as (h & Hh & _). unfold ht_new. rewrite Hh. cbn [bind c_M].
  unfold aincr at 1. rewrite (aget_ok _ _ _ (Hz2 0 ltac:(lia))). cbn [bind]. rewrite aset_ok by lia. cbn [bind].
  rewrite aget_uninit by (assumption || lia). reflexivity.
Qed.
