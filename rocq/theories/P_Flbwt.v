(** Composition: bwt_is and bwt_string. *)
From Verif Require Import Base M_PackedArray M_HashTable M_Sais M_Induce M_Flbwt Spec Count Text Induced Keys P_PackedArray
  P_Bytes P_HashTable P_HashTable2 P_Extract P_Sort P_Names P_Create P_InduceBase P_Induce1 P_Induce2 P_Bridge P_Spec P_Lists P_Blocks P_SplitBranch.
From Coq Require Import ZifyBool.
Open Scope Z_scope.

Lemma sa_width_ok v bits W : 0 < v -> bits = Z.log2 v + 1 -> sa_width bits = Some W -> In W [32; 40; 48; 56; 64] /\ v < 2 ^ (W - 1).
Proof.
  intros Hv -> HW.
  assert (Hlt : v < 2 ^ (Z.log2 v + 1)) by (apply Z.log2_spec; lia).
  assert (H0 : 0 <= Z.log2 v) by apply Z.log2_nonneg.
  unfold sa_width in HW.
  repeat match type of HW with context [?a <? ?b] => destruct (Z.ltb_spec a b) end; inversion HW; subst W;
    (split; [cbn; tauto|]); eapply Z.lt_le_trans; try exact Hlt; apply Z.pow_le_mono_r; lia.
Qed.
Lemma sa_width_some v : 0 < v < 2 ^ 63 -> exists W, sa_width (Z.log2 v + 1) = Some W.
Proof.
  intros Hv. assert (Z.log2 v < 63) by (apply Z.log2_lt_pow2; lia).
  unfold sa_width. repeat match goal with |- context [?a <? ?b] => destruct (Z.ltb_spec a b) end; eauto; lia.
Qed.

Section Flbwt.
Context (E : env) (srt : sorter) (hts : Z) (T : arr Z) (t : Z -> Z) (n : Z).
Context (Hsrt : std_sort srt).
Context (Hts : 1 <= hts <= 2 ^ 48) (Hn : 3 <= n <= 2 ^ 58).
Context (HT : forall i, 0 <= i <= n -> av T i = Some (t i)).
Context (Hb : forall i, 0 <= i < n -> 0 <= t i < 256) (Hz : 0 <= t n < 256).
Context (Hstar : star_order t n).
Notation LMS := (LMS t n).
Notation sub := (sub t n).
Context (Hfr : forall e, LMS e = true -> fresh_ok E (zln (sub e))).
Context (Hfh : fresh_ok E (nx t n 0 + 1)).

(** induce_bwt on what sort_LMS_strings left *)
Lemma induce_after_sort co co' Sv h own role ch en ol pos mn SA star :
  extracted E hts t n co -> sorted_st E hts t n co co' Sv h own role ch en ol pos mn -> star_seq t n star ->
  (forall i, 0 <= i <= cnt LMS 0 n -> av SA i = Some (ptr t n ol pos (star i) - c_bwp_base co')) ->
  wp (induce_bwt E SA co') (bwt_rows t n).
Proof.
  intros Hex Hso Hss HSA.
  pose proof (so_max _ _ _ _ _ _ _ _ _ _ _ _ _ _ _ Hso) as Hmax.
  pose proof (so_mn _ _ _ _ _ _ _ _ _ _ _ _ _ _ _ Hso) as Hmn.
  pose proof (so_pos _ _ _ _ _ _ _ _ _ _ _ _ _ _ _ Hso) as Hpos.
  assert (Hnum : c_num co' = cnt LMS 0 n).
  { rewrite (so_num _ _ _ _ _ _ _ _ _ _ _ _ _ _ _ Hso). apply (ex_num _ _ _ _ _ Hex). }
  set (w := Z.log2 (pos + hsize t n - mn + 2) + 1).
  assert (HP : ptrs E (ht_buf h) t n (ptr t n ol pos) (mn - 1) (c_lastptr co') w).
  { constructor.
    - intros x Hx. eapply ptr_chr; try eassumption. lia.
    - intros x Hx. eapply ptr_prev; eassumption.
    - intros x Hx Hl. apply ptr_pred; assumption.
    - intros x Hx Hl. eapply ptr_sent; eassumption.
    - intros x Hx. eapply ptr_lastptr; eassumption.
    - intros x Hx Hl. eapply ptr_dead; eassumption.
    - intros x Hx. destruct (ptr_range E hts t n Hn co co' Sv h own role ch en ol pos mn Hso x Hx) as [H1 H2].
      split; [lia|]. assert (pos + hsize t n - mn + 2 < 2 ^ w) by (unfold w; apply Z.log2_spec; lia). lia.
    - unfold w. destruct (ptr_range E hts t n Hn co co' Sv h own role ch en ol pos mn Hso 0 ltac:(lia)) as [H1 H2].
      pose proof (Z.log2_nonneg (pos + hsize t n - mn + 2)).
      assert (Z.log2 (pos + hsize t n - mn + 2) < 63) by (apply Z.log2_lt_pow2; lia). lia. }
  eapply (induce_ok E (ht_buf h) t n (ptr t n ol pos) (mn - 1) (c_lastptr co') w ltac:(lia) Hb HP (c_M co') (c_NL co') (c_C co')).
  - rewrite (so_M _ _ _ _ _ _ _ _ _ _ _ _ _ _ _ Hso). apply (ex_M _ _ _ _ _ Hex).
  - rewrite (so_NL _ _ _ _ _ _ _ _ _ _ _ _ _ _ _ Hso). apply (ex_NL _ _ _ _ _ Hex).
  - rewrite (so_C _ _ _ _ _ _ _ _ _ _ _ _ _ _ _ Hso). apply (ex_C _ _ _ _ _ Hex).
  - destruct Hss. constructor; eassumption.
  - apply (so_ht _ _ _ _ _ _ _ _ _ _ _ _ _ _ _ Hso).
  - reflexivity.
  - apply (so_base _ _ _ _ _ _ _ _ _ _ _ _ _ _ _ Hso).
  - apply (so_width _ _ _ _ _ _ _ _ _ _ _ _ _ _ _ Hso).
  - reflexivity.
  - exact Hnum.
  - rewrite (so_n _ _ _ _ _ _ _ _ _ _ _ _ _ _ _ Hso). apply (ex_n _ _ _ _ _ Hex).
  - reflexivity.
  - reflexivity.
  - reflexivity.
  - rewrite (so_base _ _ _ _ _ _ _ _ _ _ _ _ _ _ _ Hso) in HSA. exact HSA.
Qed.

Theorem bwt_is_any b : wp (extract_LMS_strings E hts T n) (extracted E hts t n) -> wp (bwt_is E srt hts T n b) (fun x => exists r, x = (if b then None else Some T, Some r) /\ bwt_rows t n r).
Proof.
  intros Hextr. unfold bwt_is.
  eapply wp_bind_mono. { exact Hextr. }
  intros co Hex. eapply wp_bind_mono. { apply (sort_ok E srt hts T t n Hsrt Hts Hn HT Hb Hz Hfh co Hex). }
  intros [Sv co'] (h & own & role & ch & en & ol & pos & mn & Hso).
  eapply wp_bind_mono. { eapply (create_ok E hts T t n); eassumption. }
  intros T1 (Hwf & Hbits & Hlen & HT0 & HTl & HTn). cbn beta zeta.
  pose proof (so_max _ _ _ _ _ _ _ _ _ _ _ _ _ _ _ Hso) as Hmax.
  pose proof (so_samax _ _ _ _ _ _ _ _ _ _ _ _ _ _ _ Hso) as Hsm.
  pose proof (so_mn _ _ _ _ _ _ _ _ _ _ _ _ _ _ _ Hso) as Hmn.
  pose proof (so_pos _ _ _ _ _ _ _ _ _ _ _ _ _ _ _ Hso) as Hpos.
  pose proof (LMS_cnt_bound t n Hn 0 ltac:(lia)) as Hm.
  pose proof (cnt_nonneg LMS 0 n) as Hm0.
  assert (Hnum : c_num co' = cnt LMS 0 n).
  { rewrite (so_num _ _ _ _ _ _ _ _ _ _ _ _ _ _ _ Hso). apply (ex_num _ _ _ _ _ Hex). }
  rewrite Hnum. rewrite (wrap_small 64) by lia.
  set (v := if c_sa_max co' <? cnt LMS 0 n + 2 then cnt LMS 0 n + 2 else c_sa_max co').
  assert (Hv : cnt LMS 0 n + 2 <= v /\ c_sa_max co' <= v) by (unfold v; destruct (Z.ltb_spec (c_sa_max co') (cnt LMS 0 n + 2)); lia).
  assert (Hv63 : v < 2 ^ 63) by (unfold v; destruct (Z.ltb_spec (c_sa_max co') (cnt LMS 0 n + 2)); lia).
  rewrite position_of_msb_ok by lia. cbn [bind].
  destruct (sa_width_some v ltac:(lia)) as [W HW]. rewrite HW.
  destruct (sa_width_ok v _ W ltac:(lia) eq_refl HW) as [HWin HWv].
  rewrite branch_of_eq. eapply wp_bind_mono with (P := bwt_rows t n).
  2:{ intros r Hr. exists r. split; [reflexivity|exact Hr]. }
  eapply (branch_ok E hts t n Hn Hstar co co' Sv h own role ch en ol pos mn Hex Hso W T1); try assumption; try lia.
  intros SA star Hss HSA.
  eapply induce_after_sort; eassumption.
Qed.
Theorem bwt_is_ok b : wp (bwt_is E srt hts T n b) (fun x => exists r, x = (if b then None else Some T, Some r) /\ bwt_rows t n r).
Proof using Hsrt Hts Hn HT Hb Hz Hstar Hfr Hfh. apply bwt_is_any. apply (extract_ok E hts T t n); assumption. Qed.
End Flbwt.

(** * List level *)
Lemma extract_fresh E hts T l : 1 <= hts <= 2 ^ 48 -> Forall is_byte l -> 3 <= zl l <= 2 ^ 58 -> holds T (l ++ [0]) -> fresh_good E hts l ->
  wp (extract_LMS_strings E hts T (zl l)) (extracted E hts (tl_ l) (zl l)).
Proof.
  intros Hts Hl Hn HT Hf. apply (extract_good E hts T (tl_ l) (zl l) Hts Hn (holds_tl T l HT) (tl_byte l Hl) (tl_n_byte l)).
  intros s. apply fresh_good_firsts, Hf.
Qed.

Theorem string_from E srt hts T l b : std_sort srt -> 1 <= hts <= 2 ^ 48 -> Forall is_byte l -> 3 <= zl l <= 2 ^ 58 ->
  holds T (l ++ [0]) -> fresh_ok E (nx (tl_ l) (zl l) 0 + 1) -> wp (extract_LMS_strings E hts T (zl l)) (extracted E hts (tl_ l) (zl l)) ->
  exists r, bwt_string_gen hts E srt (Some T) (zl l) b = Ok (if b then None else Some T, Some r) /\
    alen (r_BWT r) = zl l + 1 /\ is_BWT l (av (r_BWT r)) (r_last r).
Proof.
  intros Hs Hts Hl Hn HT Hfh Hex. unfold bwt_string_gen. destruct (Z.leb_spec (zl l) 0); [lia|].
  destruct (wp_inv _ _ (bwt_is_any E srt hts T (tl_ l) (zl l) Hs Hts Hn (holds_tl T l HT) (tl_byte l Hl) (tl_n_byte l) (star_slt (tl_ l) (zl l) (tl_byte l Hl) (tl_n l)) Hfh b Hex)) as (x & Hx & r & -> & Hr).
  exists r. split; [exact Hx|]. destruct Hr as [H1 H2 H3 H4]. split; [assumption|]. split.
  - rewrite H4. change 0 with (Z.of_nat 0). apply rk_row. lia.
  - intros i Hi. destruct (Nat.eq_dec i (length l)) as [->|Hne].
    + rewrite row_n, H2. unfold tl_. do 2 f_equal. lia.
    + rewrite <- rk_row by lia. rewrite H3 by lia. unfold tl_. do 2 f_equal. lia.
Qed.
Theorem bwt_string_list E srt hts T l b : std_sort srt -> 1 <= hts <= 2 ^ 48 -> Forall is_byte l -> 3 <= zl l <= 2 ^ 58 ->
  holds T (l ++ [0]) -> fresh_good E hts l ->
  exists r, bwt_string_gen hts E srt (Some T) (zl l) b = Ok (if b then None else Some T, Some r) /\
    alen (r_BWT r) = zl l + 1 /\ is_BWT l (av (r_BWT r)) (r_last r).
Proof.
  intros Hs Hts Hl Hn HT Hf. apply string_from; try assumption; [exact (fresh_good_head E hts l Hf)|].
  exact (extract_fresh E hts T l Hts Hl Hn HT Hf).
Qed.
