(** The quadratic order of the bytes copied by realloc is reached. *)
From Verif Require Import Base Spec BlockSpec Count Text Keys M_PackedArray M_Queue M_HashTable M_Cells M_Sais M_Split M_Induce M_Flbwt M_Moves
  P_PackedArray P_Bytes P_Cells P_HashTable P_HashTable2 Sums P_Insert P_Buffer P_Extract P_Sort P_Names P_Create P_Spec P_Lists P_SplitBranch P_Bridge P_Blocks P_Flbwt
  P_CostNN P_CostLower P_CostText P_CostWorst P_Moves.
From Coq Require Import ZifyBool.
Open Scope Z_scope.

(** the bytes written and not counted in rest *)
Definition used (h : htable) : Z := alen (ht_buf h) - rsum (ht_rest h).
Lemma insert_account E hts h T m p : hb hts h -> 1 <= m < 2 ^ 60 -> alen (ht_buf h) < 2 ^ 63 ->
  ens (insert_string E h T m p) (fun x => snd x = 0 /\ fst x = h \/
    snd x = 1 /\ used h + (m + 2) <= used (fst x) /\
    (alen (ht_buf (fst x)) = alen (ht_buf h) \/ alen (ht_buf h) + 512 <= alen (ht_buf (fst x)) <= alen (ht_buf h) + 530 + m)).
Proof.
  intros Hh Hm Hlt. unfold insert_string. apply ens_skip. intros hv _. apply ens_skip. intros q0 _. apply ens_skip. intros sc _.
  destruct sc as [q|q]; [apply ens_ok; left; split; reflexivity|].
  rewrite calculate_lenlen_ok by lia. cbn [bind]. pose proof (lenlen_le8 m ltac:(lia)) as Hl.
  destruct Hh as [H1 H2 H3 H4 H5].
  set (sp := 1 + 1 + lenlen m + m + NAME_BYTES h). assert (Hu : u64 sp = sp) by (unfold u64; apply wrap_small; subst sp; lia). rewrite Hu.
  apply ens_skip. intros rest Hr.
  assert (Hc : cell (ht_rest h) hv = rest) by (unfold cell; rewrite (aget_inv _ _ _ Hr); reflexivity).
  pose proof (H4 hv) as H4v. rewrite Hc in H4v. rewrite !swrap_small by (cbn [Z.sub]; change (2 ^ (64 - 1)) with (2 ^ 63); subst sp; lia).
  eapply ens_bind with (P := fun x => sp <= cell (ht_rest (fst x)) hv <= 512 + sp /\ used h <= used (fst x) /\
    (alen (ht_buf (fst x)) = alen (ht_buf h) \/ alen (ht_buf h) + 512 <= alen (ht_buf (fst x)) <= alen (ht_buf h) + 530 + m)).
  - destruct (Z.leb_spec (rest - 12) sp) as [Hle|Hgt].
    + rewrite H1. apply ens_skip. intros rest' Hr'. destruct (rsum_set _ _ _ _ Hr') as (A1 & A2 & A3 & A4). rewrite Hc in A2.
      assert (Hu2 : u64 (512 + sp) = 512 + sp) by (unfold u64; apply wrap_small; subst sp; lia). rewrite Hu2 in *.
      assert (Hu3 : u64 (alen (ht_buf h) + 512 + sp) = alen (ht_buf h) + 512 + sp) by (unfold u64; apply wrap_small; subst sp; lia). rewrite Hu3.
      assert (Hcv : sp <= cell rest' hv <= 512 + sp) by (rewrite A4, Z.eqb_refl; lia).
      assert (Hsp : 0 <= sp <= 18 + m) by (subst sp; lia).
      destruct (q =? 0).
      * apply ens_skip. intros head' _. apply ens_ok. unfold used. cbn [fst ht_rest ht_buf].
        change (alen (brealloc (ht_buf h) (alen (ht_buf h) + 512 + sp))) with (alen (ht_buf h) + 512 + sp).
        split; [exact Hcv|]. split; [lia|]. right. lia.
      * eapply ens_bind; [apply ens_set_pointer|]. cbn beta. intros b' _ Hb'. apply ens_ok. unfold used. cbn [fst ht_rest ht_buf].
        rewrite Hb'. change (alen (brealloc (ht_buf h) (alen (ht_buf h) + 512 + sp))) with (alen (ht_buf h) + 512 + sp).
        split; [exact Hcv|]. split; [lia|]. right. lia.
    + apply ens_ok. cbn [fst]. split; [lia|]. split; [lia|]. left. reflexivity.
  - intros [h1 r] _ (B6 & B7 & B8). cbn [fst] in *.
    eapply ens_bind; [apply ens_write_record|]. cbn beta. intros b _ Hb. apply ens_skip. intros rest1 Hr1.
    assert (Hc1 : cell (ht_rest h1) hv = rest1) by (unfold cell; rewrite (aget_inv _ _ _ Hr1); reflexivity).
    rewrite Hc1 in B6. assert (Hu3 : u64 (rest1 - sp) = rest1 - sp) by (unfold u64; apply wrap_small; subst sp; lia). rewrite Hu3.
    apply ens_skip. intros rest2 Hr2. destruct (rsum_set _ _ _ _ Hr2) as (A1 & A2 & A3 & A4). rewrite Hc1 in A2.
    apply ens_ok. right. unfold used in *. cbn [fst snd ht_rest ht_buf]. split; [reflexivity|]. rewrite Hb. split; [|exact B8].
    subst sp. lia.
Qed.
Lemma extract_step_account E hts T n i s m : n <= 2 ^ 58 -> 0 <= hts <= 2 ^ 48 -> 0 <= i -> xb hts n i s -> 0 <= x_uniq s < 2 ^ 60 ->
  (forall ti ti1, aget T i = Ok ti -> aget T (i + 1) = Ok ti1 -> ti1 < ti -> x_prevS s = true -> x_q s - i = m) ->
  ens (extract_step E T i s) (fun s' => used (x_ht s) + (m + 2) * (x_uniq s' - x_uniq s) <= used (x_ht s') /\ x_uniq s <= x_uniq s' /\
    (alen (ht_buf (x_ht s')) = alen (ht_buf (x_ht s)) \/ alen (ht_buf (x_ht s)) + 512 <= alen (ht_buf (x_ht s')) <= alen (ht_buf (x_ht s)) + 530 + m)).
Proof.
  intros Hn Ht Hi Hx Hq Hm. pose proof (xb_bound hts n i s Hx ltac:(lia) ltac:(lia)) as HB. assert (HB2 : buf_bound hts n < 2 ^ 63) by (unfold buf_bound; lia).
  pose proof Hx as [H1 H2 H3 H4]. unfold extract_step. apply ens_skip. intros ti Hti. apply ens_skip. intros ti1 Hti1. apply ens_skip. intros M _.
  destruct (ti <? ti1); [apply ens_ok; cbn [x_ht x_uniq]; rewrite Z.sub_diag, Z.mul_0_r; split; [lia|split; [lia|left; reflexivity]]|].
  destruct (Z.ltb_spec ti1 ti); [|apply ens_skip; intros NL _; apply ens_ok; cbn [x_ht x_uniq]; rewrite Z.sub_diag, Z.mul_0_r; split; [lia|split; [lia|left; reflexivity]]].
  eapply ens_bind with (P := fun '(ht, C, num, uniq, p, q) => used (x_ht s) + (m + 2) * (uniq - x_uniq s) <= used ht /\ x_uniq s <= uniq /\
    (alen (ht_buf ht) = alen (ht_buf (x_ht s)) \/ alen (ht_buf (x_ht s)) + 512 <= alen (ht_buf ht) <= alen (ht_buf (x_ht s)) + 530 + m)).
  - destruct (x_prevS s) eqn:Hp; [|apply ens_ok; rewrite Z.sub_diag, Z.mul_0_r; split; [lia|split; [lia|left; reflexivity]]].
    cbv zeta. apply ens_skip. intros tp _. apply ens_skip. intros C _.
    specialize (Hm ti ti1 Hti Hti1 ltac:(lia) eq_refl).
    assert (Hu : u64 (x_q s - (i + 1) + 1) = m) by (unfold u64; rewrite wrap_small; lia). rewrite Hu.
    eapply ens_bind; [apply (insert_account E hts); [exact H1|lia|unfold buf_bound in *; lia]|]. cbn beta. intros [ht r] _ [[A1 A2]|(A1 & A2 & A3)]; cbn [fst snd] in *; subst r; apply ens_ok.
    + subst ht. cbn [Z.eqb]. rewrite Z.sub_diag, Z.mul_0_r. split; [lia|split; [lia|left; reflexivity]].
    + cbn [Z.eqb]. assert (Hu1 : u64 (x_uniq s + 1) = x_uniq s + 1) by (unfold u64; apply wrap_small; lia). rewrite Hu1.
      replace (x_uniq s + 1 - x_uniq s) with 1 by lia. rewrite Z.mul_1_r. split; [lia|]. split; [lia|exact A3].
  - intros [[[[[ht C] num] uniq] p] q] _ A. apply ens_skip. intros NL _. apply ens_ok. exact A.
Qed.

(** after reallocating up to a buffer of L bytes with the steps of the texts of P_CostText *)
Definition mvlow (L : Z) (k : moves) : Prop := 0 <= mv_calls k /\ 512 * mv_calls k <= L <= 562 * mv_calls k /\ 256 * (mv_calls k * (mv_calls k - 1)) <= mv_bytes k.
Lemma mvlow_grow L L' k : mvlow L k -> L + 512 <= L' <= L + 562 -> mvlow L' (moved k L).
Proof.
  intros (A & B & D) H. unfold mvlow, moved. cbn [mv_calls mv_bytes]. split; [lia|]. split; [lia|].
  replace ((mv_calls k + 1) * (mv_calls k + 1 - 1)) with (mv_calls k * (mv_calls k - 1) + 2 * mv_calls k) by ring. lia.
Qed.
Section Low.
Context (E : env) (hts : Z) (T : arr Z) (t : Z -> Z) (n : Z).
Context (Hts : 1 <= hts <= 2 ^ 48) (Hn : 3 <= n <= 2 ^ 58).
Context (HT : forall i, 0 <= i <= n -> av T i = Some (t i)).
Context (Hb : forall i, 0 <= i < n -> 0 <= t i < 256) (Hz : t n = 0).
Notation LMS := (LMS t n).
Notation sub := (sub t n).
Context (Hfr : forall e, LMS e = true -> fresh_ok E (zln (sub e))).
Context (hv : Z) (Hhv : 0 <= hv < hts).
Context (Hinj : forall e e', LMS e = true -> LMS e' = true -> sub e = sub e' -> e = e').
Context (Hhash : forall e, LMS e = true -> hash_of hts (sub e) = hv).
Context (H32 : forall e, LMS e = true -> zln (sub e) = 32).

Lemma step_32 i s : 0 <= i <= n - 2 -> xinv E hts t n i s ->
  forall ti ti1, aget T i = Ok ti -> aget T (i + 1) = Ok ti1 -> ti1 < ti -> x_prevS s = true -> x_q s - i = 32.
Proof.
  intros Hi HX ti ti1 Hti Hti1 Hlt Hp.
  rewrite (aget_ok _ _ _ (HT i ltac:(lia))) in Hti. rewrite (aget_ok _ _ _ (HT (i + 1) ltac:(lia))) in Hti1.
  assert (Ht0 : ti = t i) by congruence. assert (Ht1 : ti1 = t (i + 1)) by congruence. subst ti ti1.
  rewrite (xi_prev _ _ _ _ _ _ HX) in Hp. pose proof (isS_step t n i ltac:(lia)) as Hst.
  assert (HL : LMS (i + 1) = true).
  { unfold Text.LMS. replace (i + 1 - 1) with i by lia. rewrite Hp, Hst. lia. }
  destruct (sub_len_LMS t n (i + 1) HL) as [Hsl1 Hsl]. replace (i + 1 + 1) with (i + 2) in Hsl1 by lia.
  rewrite (xi_q _ _ _ _ _ _ HX). pose proof (H32 _ HL). lia.
Qed.
Lemma chain_all h own role ch en lo u : hinv E h own role ch en -> has_strings t n h ch lo -> HTSIZE h = hts -> u = zln (allrec ch hts) ->
  cnt LMS lo n <= u.
Proof.
  intros HI Hs Hh ->. pose proof (chain_has E hts t n hv Hinj Hhash h own role ch en lo HI Hs Hh) as Hc.
  etransitivity; [exact Hc|]. unfold allrec.
  assert (Hin : In hv (zseq 0 hts)) by (apply in_zseq; lia).
  induction (zseq 0 hts) as [|x l IH]; [destruct Hin|]. cbn [flat_map]. rewrite app_length. destruct Hin as [-> |Hin]; [lia|]. specialize (IH Hin). lia.
Qed.
Theorem extract_moves_low co k : extract_moves E hts T n = Ok (co, k) ->
  34 * cnt LMS 0 n <= 562 * mv_calls k /\ 256 * (mv_calls k * (mv_calls k - 1)) <= mv_bytes k /\ 0 <= mv_calls k.
Proof.
  unfold extract_moves. intros H.
  binv H. destruct (Z.leb_spec n 2); [lia|]. binv H. binv H. binv H. binv H. binv H. binv H.
  destruct (ht_new_xb hts n a0 a3 a5 a4 ltac:(lia) ltac:(lia) B0) as [Hx Hl0].
  pose proof (xinv_init E hts T t n Hts Hn HT Hb a a0 a1 a3 a4 a5 a2 B B0 B1 B2 B3 B4 B5) as Hex0. binv H. destruct a6 as [s6 k6]. assert (Hk : k6 = k) by (injection H; intros; assumption). subst k6. clear H.
  assert (HI : xinv E hts t n (-1) s6 /\ xb hts n (-1) s6 /\ mvlow (alen (ht_buf (x_ht s6))) k /\ 34 * x_uniq s6 <= used (x_ht s6)).
  { refine (ens_for_down (fun i (x : xst * moves) => xinv E hts t n i (fst x) /\ xb hts n i (fst x) /\ mvlow (alen (ht_buf (x_ht (fst x)))) (snd x) /\
      34 * x_uniq (fst x) <= used (x_ht (fst x))) (n - 2) 0
      (extract_step_moves E T) (mkxst a0 a3 a5 a4 0 0 false n n, mkmoves 0 0) ltac:(lia) _ _ (s6, k) B6).
    - cbn [fst snd]. split; [exact Hex0|]. split; [exact Hx|]. pose proof (xb_len _ _ _ _ Hx) as Hlen. cbn [x_ht x_num x_q x_uniq] in *. rewrite Hl0.
      split; [split; [cbn; lia|split; cbn; lia]|]. unfold used. rewrite Hl0.
      unfold ht_new, ht_new_hb in B0. binv B0. binv B0. inversion B0; subst a0; clear B0. cbn [ht_rest].
      destruct (wp_inv _ _ (azeros_ok hts ltac:(lia))) as (a' & Ha & Hla & Hza). rewrite Ha in B7. inversion B7; subst a'. clear B7.
      assert (Hr0 : rsum a6 <= 0); [|lia].
      unfold rsum. rewrite (sum_ext _ (fun i => 0 * 0 + 0)); [rewrite (sum_lin (fun _ => 0) 0 0); lia|]. intros i _. unfold cell.
      destruct (av a6 i) as [v|] eqn:Hv; [|reflexivity]. pose proof (av_bounds _ _ _ Hv). rewrite Hza in Hv by lia. assert (v = 0) by congruence. lia.
    - intros i [s k'] Hi (HX & HB & HM & HU) [s' k2] Hs'. cbn [fst snd] in *. unfold extract_step_moves in Hs'.
      destruct (extract_step E T i s) as [s1|e] eqn:B7; [cbn [bind] in Hs'|discriminate Hs'].
      pose proof (xb_bound hts n i s HB ltac:(lia) ltac:(lia)) as Hbd.
      pose proof (extract_step_ok E hts T t n Hts Hn HT Hb (zb _ Hz) Hfr i s ltac:(lia) Hbd HX) as Hw. rewrite B7 in Hw. cbn [wp] in Hw.
      pose proof (LMS_cnt_bound t n Hn (i + 2) ltac:(lia)) as Hc. pose proof (xi_ub _ _ _ _ _ _ HX) as Hub.
      destruct (xi_ht _ _ _ _ _ _ HX) as (own & role & ch & en & _ & _ & Hun).
      destruct (extract_step_account E hts T n i s 32 ltac:(lia) ltac:(lia) ltac:(lia) HB ltac:(lia) (step_32 i s ltac:(lia) HX) s1 B7) as (A1 & A2 & A3).
      assert (E1 : s' = s1) by congruence. subst s'. split; [exact Hw|]. split; [exact (extract_step_xb E hts T n i s ltac:(lia) ltac:(lia) HB s1 B7)|].
      split; [|lia]. destruct (Z.eqb_spec (alen (ht_buf (x_ht s1))) (alen (ht_buf (x_ht s)))) as [He|He].
      + rewrite He. replace k2 with k' by congruence. exact HM.
      + replace k2 with (moved k' (alen (ht_buf (x_ht s)))) by congruence. destruct A3 as [A3|A3]; [contradiction|]. apply mvlow_grow; [exact HM|lia]. }
  destruct HI as (HX & HB & (M1 & M2 & M3) & HU).
  destruct (xi_ht _ _ _ _ _ _ HX) as (own & role & ch & en & HI & Hs & Hun). change (-1 + 2) with (0 + 1) in *.
  pose proof (chain_all _ _ _ _ _ _ _ HI Hs (xi_hts _ _ _ _ _ _ HX) Hun) as Hc.
  assert (Hc1 : cnt LMS (0 + 1) n = cnt LMS 0 n) by (rewrite (cnt_cons LMS 0) by lia; rewrite LMS0; lia). rewrite Hc1 in Hc.
  assert (Hr : 0 <= rsum (ht_rest (x_ht s6))).
  { unfold rsum. transitivity (sum (fun i => 0 * 0 + 0) (upto (alen (ht_rest (x_ht s6))))); [rewrite (sum_lin (fun _ => 0) 0 0); lia|].
    apply sum_le. intros i _. pose proof (hb_cell _ _ (xb_ht _ _ _ _ HB) i). lia. }
  unfold used in HU. split; [lia|]. split; assumption.
Qed.
End Low.

(** for every u there is a text of 31u+1 bytes for which realloc copies u(u-17)/2 bytes in the scan alone *)
Theorem bwt_string_moves_quadratic hts u : 1 <= hts <= 2 ^ 48 -> 1 <= u <= 2 ^ 53 -> u * hts <= 2 ^ 90 ->
  exists l, Forall is_byte l /\ zl l = 31 * u + 1 /\
    forall E srt T, std_sort srt -> holds T (l ++ [0]) ->
      exists Sv co calls bytes, bwt_string_moves E srt hts T (zl l) = Ok (Sv, co, mkmoves calls bytes) /\
        u * (u - 17) <= 2 * bytes.
Proof.
  intros Hts Hu Huh. destruct (colliding_words hts u ltac:(lia) ltac:(lia) ltac:(lia)) as (hv & ws & Hnd & Hl & Hw & Hhash).
  set (l := bad_text ws). exists l.
  pose proof (bad_len ws Hw) as Hn. fold l in Hn. rewrite Hl in Hn.
  split; [exact (bad_bytes ws Hw)|]. split; [exact Hn|]. intros E srt T Hs HT.
  assert (Hfr : forall e, LMS (tl_ l) (zl l) e = true -> fresh_ok E (zl (sub (tl_ l) (zl l) e))).
  { intros e He. left. pose proof (bad_sub_len ws Hw e He) as H32. fold l in H32. rewrite H32. discriminate. }
  pose proof (bad_sub_len ws Hw) as H32. fold l in H32.
  assert (Hn' : 3 <= zl l <= 2 ^ 58) by lia.
  assert (Hfh : fresh_ok E (nx (tl_ l) (zl l) 0 + 1)).
  { left. pose proof (bad_head ws Hw ltac:(lia)) as H1. fold l in H1. rewrite H1. discriminate. }
  destruct (wp_inv _ _ (bwt_is_ok E srt hts T (tl_ l) (zl l) Hs Hts Hn' (holds_tl T l HT) (tl_byte l (bad_bytes ws Hw)) (tl_n_byte l) (P_Names.star_slt (tl_ l) (zl l) (tl_byte l (bad_bytes ws Hw)) (tl_n l)) Hfr Hfh true)) as (x & Hx & _).
  unfold bwt_is in Hx.
  destruct (extract_LMS_strings E hts T (zl l)) as [co|e] eqn:Ee; [cbn [bind] in Hx|discriminate Hx].
  destruct (sort_LMS_strings E srt T co) as [[Sv co']|e] eqn:Es; [clear Hx|discriminate Hx].
  destruct (extract_moves_ok E hts T (zl l) co ltac:(lia) ltac:(lia) Ee) as (k & h & Hm & Hh & _).
  assert (Hhash' : forall e, LMS (tl_ l) (zl l) e = true -> hash_of hts (sub (tl_ l) (zl l) e) = hv).
  { intros e He. destruct (bad_LMS_inv ws Hw e He) as (j & Hj & ->). pose proof (bad_sub ws Hw j Hj) as Hsb. fold l in Hsb. rewrite Hsb.
    apply Hhash, nth_In. lia. }
  assert (Hhv : 0 <= hv < hts).
  { destruct ws as [|w0 ws0]; [cbn [length] in Hl; lia|]. rewrite <- (Hhash w0 (or_introl eq_refl)). apply hash_range. lia. }
  destruct (extract_moves_low E hts T (tl_ l) (zl l) Hts Hn' (holds_tl T l HT) (tl_byte l (bad_bytes ws Hw)) (tl_n l) Hfr hv Hhv (fun e e' => bad_inj ws Hw e e' Hnd) Hhash' H32 co k Hm) as (A & B & C).
  destruct k as [calls bytes]. cbn [mv_calls mv_bytes] in *.
  exists Sv, co', (calls + 1), (bytes + alen (ht_buf h)).
  split; [unfold bwt_string_moves; rewrite Hm; cbn [bind]; rewrite Es; cbn [bind]; rewrite Hh; reflexivity|].
  pose proof (bad_cnt ws Hw) as Hc. fold l in Hc. rewrite Hl in Hc.
  pose proof (P_Extract.extract_ok E hts T (tl_ l) (zl l) Hts Hn' (holds_tl T l HT) (tl_byte l (bad_bytes ws Hw)) (tl_n_byte l) Hfr) as Hxt.
  rewrite Ee in Hxt. cbn [wp] in Hxt.
  assert (Hal : 0 <= alen (ht_buf h)).
  { destruct (ex_ht _ _ _ _ _ Hxt) as (h' & own & role & ch & en & Xht & HI & _). replace h' with h in * by congruence. exact (proj1 (hi_buf _ _ _ _ _ _ HI)). }
  assert (H1 : u <= 17 * calls) by lia.
  remember (calls * (calls - 1)) as X eqn:HX.
  assert (HX0 : 0 <= X) by (subst X; destruct (Z.eqb_spec calls 0) as [-> |]; [lia|apply Z.mul_nonneg_nonneg; lia]).
  destruct (Z.leb_spec u 17).
  - assert (0 <= u * (17 - u)) by (apply Z.mul_nonneg_nonneg; lia). replace (u * (u - 17)) with (- (u * (17 - u))) by ring. lia.
  - assert (Hm2 : u * (u - 17) <= (17 * calls) * (17 * (calls - 1))) by (apply Z.mul_le_mono_nonneg; lia).
    replace (17 * calls * (17 * (calls - 1))) with (289 * X) in Hm2 by (subst X; ring). lia.
Qed.
