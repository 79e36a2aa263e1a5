(** Property-level statements about the split-cell variants. *)
From Verif Require Import Base M_PackedArray M_HashTable M_Cells M_Sais M_Split M_Induce M_Flbwt
  Spec BlockSpec Histories P_Bridge P_Blocks P_Flbwt P_Split P_SplitBranch P_Props2.
Open Scope Z_scope.

(** an array with given contents *)
Lemma array_of (f : Z -> option Z) N : 0 <= N -> exists a : arr Z, alen a = N /\ forall i, av a i = if (0 <=? i) && (i <? N) then f i else None.
Proof.
  intros HN. assert (H : forall k : nat, Z.of_nat k <= N -> exists a : arr Z, alen a = N /\ forall i, av a i = if (0 <=? i) && (i <? Z.of_nat k) then f i else None).
  { induction k as [|k IH]; intros Hk.
    - exists (anew N). split; [apply alen_new|]. intros i. rewrite av_new. destruct (Z.leb_spec 0 i), (Z.ltb_spec i (Z.of_nat 0)); cbn; try reflexivity; lia.
    - destruct (IH ltac:(lia)) as (a & Ha & Hv). destruct (f (Z.of_nat k)) as [v|] eqn:Hf.
      + exists (aupd a (Z.of_nat k) v). split; [rewrite alen_upd; exact Ha|]. intros i. rewrite av_upd by lia. rewrite Hv.
        destruct (Z.eqb_spec i (Z.of_nat k)) as [->|Hn].
        * destruct (Z.leb_spec 0 (Z.of_nat k)), (Z.ltb_spec (Z.of_nat k) (Z.of_nat (S k))); cbn; try lia. symmetry. exact Hf.
        * destruct (Z.leb_spec 0 i), (Z.ltb_spec i (Z.of_nat (S k))), (Z.ltb_spec i (Z.of_nat k)); cbn; try reflexivity; lia.
      + exists a. split; [exact Ha|]. intros i. rewrite Hv.
        destruct (Z.eqb_spec i (Z.of_nat k)) as [->|Hn].
        * destruct (Z.leb_spec 0 (Z.of_nat k)), (Z.ltb_spec (Z.of_nat k) (Z.of_nat (S k))), (Z.ltb_spec (Z.of_nat k) (Z.of_nat k)); cbn; try reflexivity; try lia; symmetry; exact Hf.
        * destruct (Z.leb_spec 0 i), (Z.ltb_spec i (Z.of_nat (S k))), (Z.ltb_spec i (Z.of_nat k)); cbn; try reflexivity; lia. }
  destruct (H (Z.to_nat N) ltac:(lia)) as (a & Ha & Hv). exists a. split; [exact Ha|]. intros i. rewrite Hv. rewrite Z2Nat.id by lia. reflexivity.
Qed.
Lemma parts2 uw l u : 1 <= uw <= 32 -> 0 <= l < 2 ^ 32 -> - 2 ^ (uw - 1) <= u < 2 ^ (uw - 1) ->
  - 2 ^ (31 + uw) <= l + u * 2 ^ 32 < 2 ^ (31 + uw) /\ lo32 (l + u * 2 ^ 32) = l /\ hi2 uw (l + u * 2 ^ 32) = u.
Proof.
  intros Hu Hl Hv. replace (31 + uw) with (uw - 1 + 32) by lia. rewrite Z.pow_add_r by lia. split; [nia|]. split.
  - rewrite lo32_mod, Z.mod_add by lia. apply Z.mod_small, Hl.
  - unfold hi2. rewrite Z.shiftr_div_pow2, Z.div_add by lia. rewrite (Z.div_small l) by exact Hl. apply swrap_small; [lia|]. cbn [Z.add]. lia.
Qed.
Lemma parts3 l m u : 0 <= l < 2 ^ 32 -> 0 <= m < 2 ^ 16 -> - 2 ^ 7 <= u < 2 ^ 7 ->
  - 2 ^ 55 <= l + m * 2 ^ 32 + u * 2 ^ 48 < 2 ^ 55 /\ lo32 (l + m * 2 ^ 32 + u * 2 ^ 48) = l /\
  mid3 (l + m * 2 ^ 32 + u * 2 ^ 48) = m /\ hi3 (l + m * 2 ^ 32 + u * 2 ^ 48) = u.
Proof.
  intros Hl Hm Hu. split; [lia|]. replace (l + m * 2 ^ 32 + u * 2 ^ 48) with (l + (m + u * 2 ^ 16) * 2 ^ 32) by lia. split; [|split].
  - rewrite lo32_mod, Z.mod_add by lia. apply Z.mod_small, Hl.
  - unfold mid3, wrap. rewrite Z.shiftr_div_pow2, Z.div_add by lia. rewrite (Z.div_small l) by exact Hl. cbn [Z.add].
    rewrite Z.mod_add by lia. apply Z.mod_small, Hm.
  - unfold hi3. rewrite Z.shiftr_div_pow2 by lia. change (2 ^ 48) with (2 ^ 32 * 2 ^ 16). rewrite <- Z.div_div, Z.div_add by lia.
    rewrite (Z.div_small l) by exact Hl. cbn [Z.add]. rewrite Z.div_add, (Z.div_small m) by (exact Hm || lia). apply swrap_small; [lia|]. cbn [Z.add]. lia.
Qed.

Lemma sais_2part_list E uw l k fs p L0 U0 fuel :
  1 <= uw <= 32 -> (1 <= length l)%nat -> Forall (fun c => 0 <= c < k) l -> Z.of_nat (length l) < 2 ^ (31 + uw) -> k <= 2 ^ (31 + uw) ->
  0 <= fs -> Z.of_nat (length l) + fs <= alen L0 -> alen U0 = alen L0 ->
  (forall i, av L0 i = None <-> av U0 i = None) ->
  (forall i v, av L0 i = Some v -> 0 <= v < 2 ^ 32) -> (forall i v, av U0 i = Some v -> - 2 ^ (uw - 1) <= v < 2 ^ (uw - 1)) ->
  Z.of_nat (length l) < 2 ^ Z.of_nat fuel -> pa_bits p <> 32 + uw ->
  (forall i, 0 <= i < Z.of_nat (length l) -> pa_get E p (i + 1) = Ok (nth (Z.to_nat i) l 0)) ->
  exists s sa, ssais E (32 + uw) (ops2 uw) fuel (mkst2 L0 U0 (anew 0) (anew 0)) (TPack (pa_arr p) (pa_bits p)) fs (Z.of_nat (length l)) k = Ok s /\
    is_suffix_array l sa /\
    (forall i, 0 <= i < Z.of_nat (length l) -> get_2part (m2L s) (m2U s) i = Ok (nth (Z.to_nat i) sa 0)) /\
    alen (m2L s) = alen L0 /\ alen (m2U s) = alen L0 /\
    (forall i, Z.of_nat (length l) + fs <= i -> av (m2L s) i = av L0 i /\ av (m2U s) i = av U0 i).
Proof.
  intros Hu H1 H2 H3 H3k H4 H5 H5u HI HL HU H6 H7 H8.
  destruct (array_of (fun i => match av L0 i, av U0 i with Some x, Some y => Some (x + y * 2 ^ 32) | _, _ => None end) (alen L0) ltac:(lia)) as (a0 & Ha0 & Hv0).
  assert (Hrel : crel2 uw L0 U0 a0).
  { split; [congruence|]. split; [congruence|]. intros i. rewrite Hv0. destruct (av L0 i) as [x|] eqn:Hx.
    - destruct (av U0 i) as [y|] eqn:Hy; [|apply HI in Hy; congruence]. right. exists (x + y * 2 ^ 32).
      pose proof (av_bounds _ _ _ Hx). destruct (parts2 uw x y Hu (HL _ _ Hx) (HU _ _ Hy)) as (P1 & P2 & P3). split; [exact P1|].
      destruct (Z.leb_spec 0 i), (Z.ltb_spec i (alen L0)); cbn [andb]; try lia. rewrite P2, P3. auto.
    - left. rewrite (proj1 (HI i) Hx). split; [destruct (_ && _); reflexivity|auto]. }
  destruct (sais_list E (32 + uw) l k fs p a0 (anew 0) fuel) as (s' & sa & Hr & Hsa & Hv & Hlen & Hfr);
    try assumption; try lia.
  { replace (32 + uw - 1) with (31 + uw) by lia. exact H3. }
  { replace (32 + uw - 1) with (31 + uw) by lia. exact H3k. }
  pose proof (sim_2part E uw Hu fuel (mkst2 L0 U0 (anew 0) (anew 0)) (mkst a0 (anew 0))
    (TPack (pa_arr p) (pa_bits p)) fs (Z.of_nat (length l)) k) as Hsim.
  rewrite Hr in Hsim. specialize (Hsim ltac:(split; cbn; [exact Hrel|apply crel2_new])).
  destruct (ssais _ _ _ _ _ _ _ _ _) as [s|e]; [|destruct Hsim]. cbn in Hsim. destruct Hsim as [Hs _].
  exists s, sa. split; [reflexivity|]. split; [exact Hsa|]. split.
  { intros i Hi. rewrite (crel2_get uw _ _ _ i Hu Hs). apply aget_ok, Hv, Hi. }
  destruct Hs as (S1 & S2 & S3). destruct Hrel as (R1 & R2 & R3). split; [congruence|]. split; [congruence|]. intros i Hi.
  specialize (Hfr i (or_intror Hi)). destruct (S3 i) as [(A1 & A2 & A3)|(v & _ & A1 & A2 & A3)], (R3 i) as [(B1 & B2 & B3)|(w & _ & B1 & B2 & B3)]; try congruence.
  - split; congruence.
  - assert (v = w) by congruence. subst w. split; congruence.
Qed.

Lemma sais_3part_list E l k fs p L0 M0 U0 fuel :
  (1 <= length l)%nat -> Forall (fun c => 0 <= c < k) l -> Z.of_nat (length l) < 2 ^ 55 -> k <= 2 ^ 55 ->
  0 <= fs -> Z.of_nat (length l) + fs <= alen L0 -> alen M0 = alen L0 -> alen U0 = alen L0 ->
  (forall i, (av L0 i = None <-> av M0 i = None) /\ (av L0 i = None <-> av U0 i = None)) ->
  (forall i v, av L0 i = Some v -> 0 <= v < 2 ^ 32) -> (forall i v, av M0 i = Some v -> 0 <= v < 2 ^ 16) ->
  (forall i v, av U0 i = Some v -> - 2 ^ 7 <= v < 2 ^ 7) ->
  Z.of_nat (length l) < 2 ^ Z.of_nat fuel -> pa_bits p <> 56 ->
  (forall i, 0 <= i < Z.of_nat (length l) -> pa_get E p (i + 1) = Ok (nth (Z.to_nat i) l 0)) ->
  exists s sa, sais_56bit E fuel (mkst3 L0 M0 U0 (anew 0) (anew 0) (anew 0)) (TPack (pa_arr p) (pa_bits p)) fs (Z.of_nat (length l)) k = Ok s /\
    is_suffix_array l sa /\
    (forall i, 0 <= i < Z.of_nat (length l) -> get_3part (m3L s) (m3M s) (m3U s) i = Ok (nth (Z.to_nat i) sa 0)) /\
    alen (m3L s) = alen L0 /\ alen (m3M s) = alen L0 /\ alen (m3U s) = alen L0 /\
    (forall i, Z.of_nat (length l) + fs <= i -> av (m3L s) i = av L0 i /\ av (m3M s) i = av M0 i /\ av (m3U s) i = av U0 i).
Proof.
  intros H1 H2 H3 H3k H4 H5 H5m H5u HI HL HM HU H6 H7 H8.
  destruct (array_of (fun i => match av L0 i, av M0 i, av U0 i with Some x, Some z, Some y => Some (x + z * 2 ^ 32 + y * 2 ^ 48) | _, _, _ => None end) (alen L0) ltac:(lia)) as (a0 & Ha0 & Hv0).
  assert (Hrel : crel3 L0 M0 U0 a0).
  { split; [congruence|]. split; [congruence|]. split; [congruence|]. intros i. rewrite Hv0. destruct (HI i) as [HI1 HI2]. destruct (av L0 i) as [x|] eqn:Hx.
    - destruct (av M0 i) as [z|] eqn:Hz; [|discriminate (proj2 HI1 eq_refl)]. destruct (av U0 i) as [y|] eqn:Hy; [|discriminate (proj2 HI2 eq_refl)].
      right. exists (x + z * 2 ^ 32 + y * 2 ^ 48).
      pose proof (av_bounds _ _ _ Hx). destruct (parts3 x z y (HL _ _ Hx) (HM _ _ Hz) (HU _ _ Hy)) as (P1 & P2 & P3 & P4). split; [exact P1|].
      destruct (Z.leb_spec 0 i), (Z.ltb_spec i (alen L0)); cbn [andb]; try lia. rewrite P2, P3, P4. auto.
    - left. rewrite (proj1 HI1 eq_refl), (proj1 HI2 eq_refl). split; [destruct (_ && _); reflexivity|auto]. }
  destruct (sais_list E 56 l k fs p a0 (anew 0) fuel) as (s' & sa & Hr & Hsa & Hv & Hlen & Hfr);
    try assumption; try lia.
  pose proof (sim_3part E fuel (mkst3 L0 M0 U0 (anew 0) (anew 0) (anew 0)) (mkst a0 (anew 0))
    (TPack (pa_arr p) (pa_bits p)) fs (Z.of_nat (length l)) k) as Hsim.
  rewrite Hr in Hsim. specialize (Hsim ltac:(split; cbn; [exact Hrel|apply crel3_new])). unfold sais_56bit.
  destruct (ssais _ _ _ _ _ _ _ _ _) as [s|e]; [|destruct Hsim]. cbn in Hsim. destruct Hsim as [Hs _].
  exists s, sa. split; [reflexivity|]. split; [exact Hsa|]. split.
  { intros i Hi. rewrite (crel3_get _ _ _ _ i Hs). apply aget_ok, Hv, Hi. }
  destruct Hs as (S1 & S2 & S2' & S3). destruct Hrel as (R1 & R2 & R2' & R3). split; [congruence|]. split; [congruence|]. split; [congruence|]. intros i Hi.
  specialize (Hfr i (or_intror Hi)).
  destruct (S3 i) as [(A1 & A2 & A3 & A4)|(v & _ & A1 & A2 & A3 & A4)], (R3 i) as [(B1 & B2 & B3 & B4)|(w & _ & B1 & B2 & B3 & B4)]; try congruence.
  - split; [congruence|]. split; congruence.
  - assert (v = w) by congruence. subst w. split; [congruence|]. split; congruence.
Qed.

Lemma branch_of_widths E srt hts T l co Sv co' T1 W1 W2 :
  std_sort srt -> 1 <= hts <= 2 ^ 48 -> Forall is_byte l -> 3 <= Z.of_nat (length l) <= 2 ^ 58 -> string_at T 0 (l ++ [0]) -> fresh_good E hts l ->
  extract_LMS_strings E hts T (Z.of_nat (length l)) = Ok co -> sort_LMS_strings E srt T co = Ok (Sv, co') ->
  create_shortened_string E T (Z.of_nat (length l)) co' = Ok T1 ->
  In W1 [32; 40; 48; 56; 64] -> In W2 [32; 40; 48; 56; 64] ->
  c_num co' + 2 < 2 ^ (W1 - 1) -> c_sa_max co' < 2 ^ (W1 - 1) ->
  c_num co' + 2 < 2 ^ (W2 - 1) -> c_sa_max co' < 2 ^ (W2 - 1) ->
  exists r1 r2, bwt_branch_of E W1 Sv T1 co' = Ok r1 /\ bwt_branch_of E W2 Sv T1 co' = Ok r2 /\
    r_last r1 = r_last r2 /\ alen (r_BWT r1) = Z.of_nat (length l) + 1 /\ alen (r_BWT r2) = Z.of_nat (length l) + 1 /\
    (forall r, 0 <= r <= Z.of_nat (length l) -> r <> r_last r1 -> av (r_BWT r1) r = av (r_BWT r2) r) /\
    is_BWT l (av (r_BWT r1)) (r_last r1).
Proof. rewrite !branch_of_eq. apply branch_widths. Qed.

(** nesting of the recursion *)
Lemma depth_pow n : 1 <= n -> n < 2 ^ Z.of_nat (S (Z.to_nat (Z.log2 n))).
Proof.
  intros H. pose proof (Z.log2_nonneg n). rewrite Nat2Z.inj_succ, Z2Nat.id by lia. apply Z.log2_spec. lia.
Qed.
Lemma sais_depth E W l k fs p :
  1 <= W <= 64 -> (1 <= length l)%nat -> Forall (fun c => 0 <= c < k) l -> Z.of_nat (length l) < 2 ^ (W - 1) -> k <= 2 ^ (W - 1) ->
  0 <= fs -> pa_bits p <> W ->
  (forall i, 0 <= i < Z.of_nat (length l) -> pa_get E p (i + 1) = Ok (nth (Z.to_nat i) l 0)) ->
  exists s, sais E W (S (Z.to_nat (Z.log2 (Z.of_nat (length l))))) (mkst (anew (Z.of_nat (length l) + fs)) (anew 0)) (TPack (pa_arr p) (pa_bits p)) fs (Z.of_nat (length l)) k = Ok s.
Proof. intros. apply sais_safe; try assumption. apply depth_pow. lia. Qed.
Lemma sais_depth2 E uw l k fs p :
  1 <= uw <= 32 -> (1 <= length l)%nat -> Forall (fun c => 0 <= c < k) l -> Z.of_nat (length l) < 2 ^ (31 + uw) -> k <= 2 ^ (31 + uw) ->
  0 <= fs -> pa_bits p <> 32 + uw ->
  (forall i, 0 <= i < Z.of_nat (length l) -> pa_get E p (i + 1) = Ok (nth (Z.to_nat i) l 0)) ->
  let N := Z.of_nat (length l) + fs in
  exists s, ssais E (32 + uw) (ops2 uw) (S (Z.to_nat (Z.log2 (Z.of_nat (length l))))) (mkst2 (anew N) (anew N) (anew 0) (anew 0)) (TPack (pa_arr p) (pa_bits p)) fs (Z.of_nat (length l)) k = Ok s.
Proof.
  intros Hu H1 H2 H3 H4 H5 H6 H7 N.
  destruct (sais_2part_list E uw l k fs p (anew N) (anew N) (S (Z.to_nat (Z.log2 (Z.of_nat (length l)))))) as (s & sa & H & _); try assumption.
  - rewrite alen_new. unfold N. lia.
  - reflexivity.
  - intros i. rewrite !av_new. split; reflexivity.
  - intros i v. rewrite av_new. discriminate.
  - intros i v. rewrite av_new. discriminate.
  - apply depth_pow. lia.
  - exists s. exact H.
Qed.
Lemma sais_depth3 E l k fs p :
  (1 <= length l)%nat -> Forall (fun c => 0 <= c < k) l -> Z.of_nat (length l) < 2 ^ 55 -> k <= 2 ^ 55 ->
  0 <= fs -> pa_bits p <> 56 ->
  (forall i, 0 <= i < Z.of_nat (length l) -> pa_get E p (i + 1) = Ok (nth (Z.to_nat i) l 0)) ->
  let N := Z.of_nat (length l) + fs in
  exists s, sais_56bit E (S (Z.to_nat (Z.log2 (Z.of_nat (length l))))) (mkst3 (anew N) (anew N) (anew N) (anew 0) (anew 0) (anew 0)) (TPack (pa_arr p) (pa_bits p)) fs (Z.of_nat (length l)) k = Ok s.
Proof.
  intros H1 H2 H3 H4 H5 H6 H7 N.
  destruct (sais_3part_list E l k fs p (anew N) (anew N) (anew N) (S (Z.to_nat (Z.log2 (Z.of_nat (length l)))))) as (s & sa & H & _); try assumption.
  - rewrite alen_new. unfold N. lia.
  - reflexivity.
  - reflexivity.
  - intros i. rewrite !av_new. split; split; reflexivity.
  - intros i v. rewrite av_new. discriminate.
  - intros i v. rewrite av_new. discriminate.
  - intros i v. rewrite av_new. discriminate.
  - apply depth_pow. lia.
  - exists s. exact H.
Qed.
