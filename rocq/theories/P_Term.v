(** The byte behind the text need not be 0: when the transform is still right. *)
From Verif Require Import Base M_HashTable M_Induce M_Flbwt Spec TermSpec Count Text Induced Keys P_HashTable P_Extract P_Sort P_Names P_Create P_Induce2 P_Bridge P_Spec P_Lists P_Flbwt.
From Coq Require Import ZifyBool.
Open Scope Z_scope.

(** * the text with its terminator as a function *)
Section Order.
Context (t : Z -> Z) (n : Z).
Context (Hn : 1 <= n).
Context (Hb : forall i, 0 <= i < n -> 0 <= t i < 256) (Hz : 0 <= t n < 256).
Notation isS := (isS t n).
Notation LMS := (LMS t n).
Notation nx := (nx t n).
Notation sub := (sub t n).
Notation slt := (slt t n).
(** a string that begins like the last piece p continues with a byte above t n, or ends there with t n *)
Definition term_ok : Prop := forall e p, LMS e = true -> LMS p = true -> nx (p + 1) = n -> e <> p ->
  (forall d, 0 <= d < n - p -> t (e + d) = t (p + d)) -> e + (n - p) <= nx (e + 1) ->
  t n < t (e + (n - p)) \/ (t n = t (e + (n - p)) /\ e + (n - p) = nx (e + 1)).
Context (Hterm : term_ok).

Theorem star_slt_any : star_order t n.
Proof.
  intros e f He Hf H.
  pose proof (LMS_bound t n e He) as Be. pose proof (LMS_bound t n f Hf) as Bf.
  pose proof (nx_gt t n e He) as Ge. pose proof (nx_gt t n f Hf) as Gf.
  assert (Hby : forall e, LMS e = true -> Forall is_byte (sub e)).
  { intros x Hx. apply Forall_forall. intros z Hz'. unfold P_Extract.sub in Hz'. apply in_map_iff in Hz' as (y & <- & Hy).
    apply in_zseq in Hy. pose proof (nx_gt t n x Hx). pose proof (LMS_bound t n x Hx). unfold is_byte.
    destruct (Z.eq_dec y n) as [->|]; [lia|]. apply Hb. lia. }
  assert (Le : zln (sub e) = nx (e + 1) + 1 - e) by (rewrite sub_len; lia).
  assert (Lf : zln (sub f) = nx (f + 1) + 1 - f) by (rewrite sub_len; lia).
  assert (Nth : forall e d, Z.of_nat d < zln (sub e) -> nth d (sub e) 0 = t (e + Z.of_nat d)).
  { intros x d Hd. rewrite <- (sub_nth t n x (Z.of_nat d)) by lia. rewrite Nat2Z.id. reflexivity. }
  destruct (star_split _ _ (Hby e He) (Hby f Hf) H) as [(k & K1 & K2 & K3 & K4)|[K1 K2]].
  - assert (Heq : forall d, 0 <= d < Z.of_nat k -> t (e + d) = t (f + d)).
    { intros d Hd. specialize (K3 (Z.to_nat d) ltac:(lia)). rewrite !Nth in K3 by lia. rewrite Z2Nat.id in K3 by lia. exact K3. }
    rewrite !Nth in K4 by lia. rewrite (slt_strip t n k e f Heq) by lia.
    destruct (Z.eq_dec (f + Z.of_nat k) n) as [Hfn|].
    + exfalso. assert (Hk : Z.of_nat k = n - f) by lia. rewrite Hfn in K4. destruct (Z.eq_dec e f) as [->|Hne]; [rewrite Hfn in K4; lia|].
      rewrite Hk in *. destruct (Hterm e f He Hf ltac:(lia) Hne ltac:(intros d Hd; apply Heq; lia) ltac:(lia)) as [H1|[H1 _]]; lia.
    + destruct (Z.eq_dec (e + Z.of_nat k) n) as [Hen|]; [rewrite Hen; apply slt_n_l; lia|].
      rewrite slt_step by lia. lia.
  - set (L := nx (f + 1) - f) in *.
    assert (Heq : forall d, 0 <= d <= L -> t (e + d) = t (f + d)).
    { intros d Hd. specialize (K2 (Z.to_nat d) ltac:(lia)). rewrite !Nth in K2 by lia. rewrite Z2Nat.id in K2 by lia. exact K2. }
    assert (Hlt : e + L < nx (e + 1)) by lia.
    pose proof (no_LMS_inside t n e (e + L) He ltac:(lia)) as HnL.
    destruct (nx_spec t n (f + 1) ltac:(lia)) as (_ & [Hfn|HfL] & _).
    + exfalso. assert (HL : L = n - f) by lia. assert (Hne : e <> f) by (intros ->; lia).
      pose proof (Heq L ltac:(lia)) as HeL. replace (f + L) with n in HeL by lia. rewrite HL in *.
      destruct (Hterm e f He Hf Hfn Hne ltac:(intros d Hd; apply Heq; lia) ltac:(lia)) as [H1|[_ H1]]; lia.
    + replace (nx (f + 1)) with (f + L) in HfL by lia.
      assert (HL : isS (e + L) = false).
      { destruct (isS (e + L)) eqn:HS; [|reflexivity]. exfalso.
        assert (HS1 : isS (e + L - 1) = true).
        { destruct (isS (e + L - 1)) eqn:HX; [reflexivity|].
          assert (LMS (e + L) = true); [apply LMS_spec; split; [lia|]; split; assumption|congruence]. }
        pose proof (S_le t n (e + L - 1) ltac:(lia) HS1) as Hle. replace (e + L - 1 + 1) with (e + L) in Hle by lia.
        pose proof (LMS_chr t n (f + L) HfL) as Hc. pose proof (Heq L ltac:(lia)). pose proof (Heq (L - 1) ltac:(lia)) as H1.
        replace (e + (L - 1)) with (e + L - 1) in H1 by lia. replace (f + (L - 1)) with (f + L - 1) in H1 by lia. lia. }
      assert (Heq' : forall d, 0 <= d < Z.of_nat (Z.to_nat L) -> t (e + d) = t (f + d)) by (intros; apply Heq; lia).
      rewrite (slt_strip t n (Z.to_nat L) e f Heq') by lia.
      pose proof (LMS_bound t n _ HfL). rewrite Z2Nat.id by lia. apply L_before_S; try lia; try assumption; [apply Heq; lia|].
      apply LMS_spec in HfL. tauto.
Qed.
End Order.

(** ** a byte that is at most every byte of the text *)
Section Least.
Context (t : Z -> Z) (n c : Z).
Context (Hc : forall i, 0 <= i < n -> c <= t i).
Notation isS := (isS t n).
Notation LMS := (LMS t n).
Notation nx := (nx t n).
Lemma least_tail : forall i, (forall j, i <= j < n -> t j = c) -> i < n -> isS i = false.
Proof.
  apply (up_ind n (fun i => (forall j, i <= j < n -> t j = c) -> i < n -> isS i = false)); [intros; lia|].
  intros i Hi IH H _. destruct (Z.eq_dec i (n - 1)) as [->|]; [apply isS_last|].
  rewrite same_type by (lia || (rewrite !H; lia)). apply IH; [|lia]. intros; apply H; lia.
Qed.
Lemma least_L : forall i, 0 <= i < n -> isS i = false -> t i = c -> forall j, i <= j < n -> t j = c /\ isS j = false.
Proof.
  apply (up_ind n (fun i => 0 <= i < n -> isS i = false -> t i = c -> forall j, i <= j < n -> t j = c /\ isS j = false)); [intros; lia|].
  intros i Hi IH Hi0 HL H0 j Hj. destruct (Z.eq_dec j i) as [->|]; [split; assumption|].
  pose proof (L_ge t n i ltac:(lia) HL). pose proof (Hc (i + 1) ltac:(lia)). apply IH; try lia.
  rewrite <- same_type by lia. assumption.
Qed.
Lemma least_back e : LMS e = true -> forall k p, p = e + Z.of_nat k -> p < n ->
  (forall x, e < x <= p -> LMS x = false) -> isS p = true -> t p = c -> forall j, e <= j <= p -> t j = c.
Proof.
  intros He. pose proof (LMS_bound t n e He). induction k as [|k IH]; intros p Hp Hpn HnL HS H0 j Hj.
  - replace j with p by lia. assumption.
  - destruct (Z.eq_dec j p) as [->|]; [assumption|].
    assert (HS1 : isS (p - 1) = true).
    { destruct (isS (p - 1)) eqn:HX; [reflexivity|]. specialize (HnL p ltac:(lia)).
      assert (LMS p = true); [apply LMS_spec; split; [lia|]; split; assumption|congruence]. }
    pose proof (S_le t n (p - 1) ltac:(lia) HS1) as Hle. replace (p - 1 + 1) with p in Hle by lia.
    pose proof (Hc (p - 1) ltac:(lia)). apply (IH (p - 1)); try lia; try assumption. intros; apply HnL; lia.
Qed.
Theorem least_term : t n = c -> term_ok t n.
Proof.
  intros Hz e f He Hf Hfn Hne Heq Hle.
  pose proof (LMS_bound t n e He) as Be. pose proof (LMS_bound t n f Hf) as Bf.
  pose proof (nx_gt t n e He) as Ge. set (L := n - f) in *.
  pose proof (Hc (e + L) ltac:(lia)) as Hcl. destruct (Z.eq_dec (t (e + L)) c) as [H0|]; [|left; lia].
  destruct (Z.eq_dec (e + L) (nx (e + 1))) as [|Hlt]; [right; split; lia|]. exfalso.
  pose proof (no_LMS_inside t n e (e + L) He ltac:(lia)) as HnL.
  destruct (isS (e + L)) eqn:HS.
  - assert (Hall : forall j, e <= j <= e + L -> t j = c).
    { apply (least_back e He (Z.to_nat L)); try lia; try assumption. intros x Hx. apply (no_LMS_inside t n e); [assumption|lia]. }
    assert (isS f = false).
    { apply least_tail; [|lia]. intros j Hj. replace j with (f + (j - f)) by lia. rewrite <- Heq by lia. apply Hall. lia. }
    apply LMS_spec in Hf. destruct Hf as (_ & Hf & _). congruence.
  - pose proof (least_L (e + L) ltac:(lia) HS H0) as HzL.
    destruct (Z_lt_ge_dec f (e + L)).
    + assert (e < f) by lia. pose proof (no_LMS_inside t n e f He ltac:(lia)). congruence.
    + destruct (HzL f ltac:(lia)) as [_ Hx]. apply LMS_spec in Hf. destruct Hf as (_ & Hf & _). congruence.
Qed.
End Least.

(** ** two functions that agree below n *)
Section Agree.
Context (t t' : Z -> Z) (n : Z) (Ha : forall i, i < n -> t i = t' i).
Lemma suf_agree i : suf t n i = suf t' n i.
Proof. unfold suf. apply map_ext_in. intros x Hx. apply in_zseq in Hx. apply Ha. lia. Qed.
Lemma slt_agree i j : slt t n i j = slt t' n i j.
Proof. unfold slt. rewrite !suf_agree. reflexivity. Qed.
Lemma isS_agree i : isS t n i = isS t' n i.
Proof. apply slt_agree. Qed.
Lemma LMS_agree i : LMS t n i = LMS t' n i.
Proof. unfold LMS. rewrite !isS_agree. reflexivity. Qed.
Lemma nx_agree x : nx t n x = nx t' n x.
Proof. unfold nx. generalize (Z.to_nat (n - x)) as f. intros f. revert x. induction f as [|f IH]; intros x; [reflexivity|]. cbn [nxf]. rewrite LMS_agree, IH. reflexivity. Qed.
Lemma rk_agree j : rk n (slt t n) j = rk n (slt t' n) j.
Proof. unfold rk. apply cnt_ext. intros i _. apply slt_agree. Qed.
Lemma sub_len_agree e : zln (sub t n e) = zln (sub t' n e).
Proof. rewrite !sub_len, nx_agree. reflexivity. Qed.
Lemma rows_agree r : 1 <= n -> bwt_rows t n r -> bwt_rows t' n r.
Proof.
  intros Hn [H1 H2 H3 H4]. constructor.
  - exact H1.
  - rewrite <- Ha by lia. exact H2.
  - intros j Hj. rewrite <- rk_agree, <- Ha by lia. apply H3, Hj.
  - rewrite <- rk_agree. exact H4.
Qed.
End Agree.

(** * lists *)
Definition tc (l : list Z) (c : Z) (i : Z) : Z := nth (Z.to_nat i) (l ++ [c]) 0.
Lemma tc_agree l c i : (1 <= length l)%nat -> i < zl l -> tc l c i = tl_ l i.
Proof. intros Hl Hi. unfold tc, tl_. rewrite app_nth1 by lia. reflexivity. Qed.
Lemma tc_n l c : tc l c (zl l) = c.
Proof. unfold tc. rewrite app_nth2, Nat2Z.id, Nat.sub_diag by lia. reflexivity. Qed.
Lemma holds_tc T l c : holds T (l ++ [c]) -> forall i, 0 <= i <= zl l -> av T i = Some (tc l c i).
Proof. intros H i Hi. replace i with (Z.of_nat (Z.to_nat i)) at 1 by lia. apply H. rewrite app_length. cbn [length]. lia. Qed.

(** an S* substring that is not the last lies inside the text *)
Lemma star_inner l i : In i (lms_positions l) -> next_lms l (S i) <> length l ->
  length (star_sub l i) = S (next_lms l (S i) - i) /\ forall d, (d <= next_lms l (S i) - i)%nat -> nth d (star_sub l i) 0 = nth (i + d) l 0.
Proof.
  intros Hi Hne. pose proof Hi as Hi'. apply filter_In in Hi' as [Hr _]. apply in_seq in Hr.
  pose proof (next_lms_le l (S i) ltac:(lia)) as Hle. unfold star_sub, suffix. split.
  - rewrite firstn_length, skipn_length, app_length. cbn [length]. lia.
  - intros d Hd. assert (Hf : forall (m d : nat) (x : list Z), (d < m)%nat -> nth d (firstn m x) 0 = nth d x 0).
    { induction m as [|m IH]; intros d0 x Hm; [lia|]. destruct x as [|a x]; [destruct d0; reflexivity|]. destruct d0; [reflexivity|]. cbn [firstn nth]. apply IH. lia. }
    rewrite Hf by lia. assert (Hs : forall (m d : nat) (x : list Z), nth d (skipn m x) 0 = nth (m + d) x 0).
    { induction m as [|m IH]; intros d0 x; [reflexivity|]. destruct x as [|a x]; [destruct d0; reflexivity|]. apply IH. }
    rewrite Hs, app_nth1 by lia. reflexivity.
Qed.

Lemma term_list l c : (1 <= length l)%nat -> terminator_ok l c -> term_ok (tc l c) (zl l).
Proof.
  intros Hl Hc e p He Hp Hnx Hne Heq Hle.
  assert (Hag : forall i, i < zl l -> tc l c i = tl_ l i) by (intros; apply tc_agree; assumption).
  rewrite (LMS_agree _ _ _ Hag) in He, Hp. rewrite (nx_agree _ _ _ Hag) in *. rewrite tc_n.
  destruct (LMS_to_list l e He) as (_ & He2 & Hie). destruct (LMS_to_list l p Hp) as (_ & Hp2 & Hip).
  set (i := Z.to_nat e) in *. set (q := Z.to_nat p) in *.
  pose proof (LMS_bound _ _ _ He) as Bi. pose proof (LMS_bound _ _ _ Hp) as Bq.
  replace (e + 1) with (Z.of_nat (S i)) in * by lia. replace (p + 1) with (Z.of_nat (S q)) in Hnx by lia. rewrite nx_list in *.
  pose proof (next_lms_le l (S i) ltac:(lia)) as Hi1.
  assert (Hin : next_lms l (S i) <> length l).
  { intros Hx. pose proof (nx_list l (S i)) as N1. pose proof (nx_list l (S q)) as N2. destruct (Z_lt_ge_dec e p).
    - pose proof (nx_spec (tl_ l) (zl l) (Z.of_nat (S i)) ltac:(lia)) as (_ & _ & Hcn). pose proof (cnt_pos (LMS (tl_ l) (zl l)) p (Z.of_nat (S i)) (nx (tl_ l) (zl l) (Z.of_nat (S i))) ltac:(lia) Hp). lia.
    - pose proof (nx_spec (tl_ l) (zl l) (Z.of_nat (S q)) ltac:(lia)) as (_ & _ & Hcn). pose proof (cnt_pos (LMS (tl_ l) (zl l)) e (Z.of_nat (S q)) (nx (tl_ l) (zl l) (Z.of_nat (S q))) ltac:(lia) He). lia. }
  destruct (star_inner l i Hie Hin) as [Hsl Hsn].
  set (m := (length l - q)%nat) in *.
  assert (Hm : (m <= next_lms l (S i) - i)%nat) by lia.
  assert (Hsplit : star_sub l i = suffix l q ++ nth m (star_sub l i) 0 :: skipn (S m) (star_sub l i)).
  { rewrite <- (firstn_skipn m (star_sub l i)) at 1. f_equal.
    - apply (nth_ext _ _ 0 0).
      + rewrite firstn_length, Hsl. unfold suffix. rewrite skipn_length. lia.
      + intros d Hd. rewrite firstn_length, Hsl in Hd. assert (Hf : forall (m d : nat) (x : list Z), (d < m)%nat -> nth d (firstn m x) 0 = nth d x 0).
        { induction m0 as [|m0 IH]; intros d0 x Hm0; [lia|]. destruct x as [|a x]; [destruct d0; reflexivity|]. destruct d0; [reflexivity|]. cbn [firstn nth]. apply IH. lia. }
        rewrite Hf by lia. rewrite Hsn by lia. assert (Hs : forall (m d : nat) (x : list Z), nth d (skipn m x) 0 = nth (m + d) x 0).
        { induction m0 as [|m0 IH]; intros d0 x; [reflexivity|]. destruct x as [|a x]; [destruct d0; reflexivity|]. apply IH. }
        unfold suffix. rewrite Hs. specialize (Heq (Z.of_nat d) ltac:(lia)). rewrite !Hag in Heq by lia. unfold tl_ in Heq.
        replace (i + d)%nat with (Z.to_nat (e + Z.of_nat d)) by lia. replace (q + d)%nat with (Z.to_nat (p + Z.of_nat d)) by lia. exact Heq.
    - assert (Hsk : forall (k : nat) (x : list Z), (k < length x)%nat -> skipn k x = nth k x 0 :: skipn (S k) x).
      { induction k as [|k IH]; intros [|a x] Hk; cbn [length] in Hk; try lia; [reflexivity|]. cbn [nth]. apply (IH x). lia. }
      apply Hsk. lia. }
  destruct (Hc i q (suffix l q) (nth m (star_sub l i) 0) (skipn (S m) (star_sub l i)) Hie Hip ltac:(lia) ltac:(lia) eq_refl Hsplit) as [H|[H H']].
  - left. rewrite Hsn in H by lia. rewrite Hag by lia. unfold tl_. replace (Z.to_nat (e + (zl l - p))) with (i + m)%nat by lia. exact H.
  - right. rewrite Hsn in H by lia. rewrite Hag by lia. unfold tl_. replace (Z.to_nat (e + (zl l - p))) with (i + m)%nat by lia. split; [symmetry; exact H|].
    apply (f_equal (@length Z)) in H'. rewrite skipn_length, Hsl in H'. cbn [length] in H'. lia.
Qed.

Theorem string_term E srt hts T l c b : std_sort srt -> 1 <= hts <= 2 ^ 48 -> Forall is_byte l -> 3 <= zl l <= 2 ^ 58 -> is_byte c ->
  holds T (l ++ [c]) -> term_ok (tc l c) (zl l) -> (forall i, fresh_byte E i = Some 0) \/ safe_lengths l ->
  exists r, bwt_string_gen hts E srt (Some T) (zl l) b = Ok (if b then None else Some T, Some r) /\
    alen (r_BWT r) = zl l + 1 /\ is_BWT l (av (r_BWT r)) (r_last r).
Proof.
  intros Hs Hts Hl Hn Hc HT Hok Hf. unfold bwt_string_gen. destruct (Z.leb_spec (zl l) 0); [lia|].
  assert (Hag : forall i, i < zl l -> tc l c i = tl_ l i) by (intros; apply tc_agree; lia).
  assert (Hbt : forall i, 0 <= i < zl l -> 0 <= tc l c i < 256) by (intros i Hi; rewrite Hag by lia; apply tl_byte; assumption).
  assert (Hzt : 0 <= tc l c (zl l) < 256) by (rewrite tc_n; exact Hc).
  assert (Hfr : forall e, LMS (tc l c) (zl l) e = true -> fresh_ok E (zln (sub (tc l c) (zl l) e))).
  { intros e He. rewrite (LMS_agree _ _ _ Hag) in He. rewrite (sub_len_agree _ _ _ Hag). destruct Hf as [Hf|[Hf _]]; [right; exact Hf|left].
    destruct (LMS_to_list l e He) as (_ & He2 & Hin). rewrite He2, sub_list by assumption. apply Hf, Hin. }
  assert (Hfh : fresh_ok E (nx (tc l c) (zl l) 0 + 1)).
  { rewrite (nx_agree _ _ _ Hag). destruct Hf as [Hf|[_ Hf]]; [right; exact Hf|left]. change 0 with (Z.of_nat 0) at 1. rewrite nx_list.
    replace (Z.of_nat (next_lms l 0) + 1) with (Z.of_nat (next_lms l 0 + 1)) by lia. exact Hf. }
  destruct (wp_inv _ _ (bwt_is_ok E srt hts T (tc l c) (zl l) Hs Hts Hn (holds_tc T l c HT) Hbt Hzt
    (star_slt_any (tc l c) (zl l) Hbt Hzt Hok) Hfr Hfh b)) as (x & Hx & r & -> & Hr).
  apply (rows_agree _ _ _ Hag r ltac:(lia)) in Hr.
  exists r. split; [exact Hx|]. destruct Hr as [H1 H2 H3 H4]. split; [assumption|]. split.
  - rewrite H4. change 0 with (Z.of_nat 0). apply rk_row. lia.
  - intros i Hi. destruct (Nat.eq_dec i (length l)) as [->|Hne].
    + rewrite row_n, H2. unfold tl_. do 2 f_equal. lia.
    + rewrite <- rk_row by lia. rewrite H3 by lia. unfold tl_. do 2 f_equal. lia.
Qed.
Theorem string_terminator E srt hts T l c b : std_sort srt -> 1 <= hts <= 2 ^ 48 -> Forall is_byte l -> 3 <= zl l <= 2 ^ 58 -> is_byte c ->
  holds T (l ++ [c]) -> terminator_ok l c -> (forall i, fresh_byte E i = Some 0) \/ safe_lengths l ->
  exists r, bwt_string_gen hts E srt (Some T) (zl l) b = Ok (if b then None else Some T, Some r) /\
    alen (r_BWT r) = zl l + 1 /\ is_BWT l (av (r_BWT r)) (r_last r).
Proof.
  intros Hs Hts Hl Hn Hc HT Hok Hf. apply (string_term E srt hts T l c b); try assumption. apply term_list; [lia|exact Hok].
Qed.
Theorem string_least E srt hts T l c b : std_sort srt -> 1 <= hts <= 2 ^ 48 -> Forall is_byte l -> 3 <= zl l <= 2 ^ 58 -> is_byte c ->
  holds T (l ++ [c]) -> Forall (fun x => c <= x) l -> (forall i, fresh_byte E i = Some 0) \/ safe_lengths l ->
  exists r, bwt_string_gen hts E srt (Some T) (zl l) b = Ok (if b then None else Some T, Some r) /\
    alen (r_BWT r) = zl l + 1 /\ is_BWT l (av (r_BWT r)) (r_last r).
Proof.
  intros Hs Hts Hl Hn Hc HT Hok Hf. apply (string_term E srt hts T l c b); try assumption. apply (least_term _ _ c); [|apply tc_n].
  intros i Hi. rewrite tc_agree by lia. rewrite Forall_forall in Hok. apply Hok, nth_In. lia.
Qed.
