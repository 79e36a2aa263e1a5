(** Counting over integer intervals, selection, ranks in a finite strict total order. *)
From Coq Require Export List ZArith Lia Bool.
From Coq Require Import ZifyBool.
Export ListNotations.
Open Scope Z_scope.

Fixpoint zseq_n (c : nat) (lo : Z) : list Z :=
  match c with O => [] | S c => lo :: zseq_n c (lo + 1) end.
(** [lo; lo+1; ...; hi-1] *)
Definition zseq (lo hi : Z) : list Z := zseq_n (Z.to_nat (hi - lo)) lo.

Lemma zseq_nil lo hi : hi <= lo -> zseq lo hi = [].
Proof. intros H. unfold zseq. replace (Z.to_nat (hi - lo)) with O by lia. reflexivity. Qed.
Lemma zseq_cons lo hi : lo < hi -> zseq lo hi = lo :: zseq (lo + 1) hi.
Proof.
  intros H. unfold zseq. replace (Z.to_nat (hi - lo)) with (S (Z.to_nat (hi - (lo + 1)))) by lia. reflexivity.
Qed.
Lemma zseq_n_in c : forall lo x, In x (zseq_n c lo) <-> lo <= x < lo + Z.of_nat c.
Proof.
  induction c as [|c IH]; intros lo x; cbn [zseq_n In]; [lia|]. rewrite IH. lia.
Qed.
Lemma in_zseq lo hi x : In x (zseq lo hi) <-> lo <= x < hi.
Proof. unfold zseq. rewrite zseq_n_in. lia. Qed.
Lemma zseq_n_length c : forall lo, length (zseq_n c lo) = c.
Proof. induction c as [|c IH]; intros lo; cbn [zseq_n length]; [reflexivity|]. rewrite IH. reflexivity. Qed.
Lemma zseq_length lo hi : length (zseq lo hi) = Z.to_nat (hi - lo).
Proof. apply zseq_n_length. Qed.
Lemma zseq_n_NoDup c : forall lo, NoDup (zseq_n c lo).
Proof.
  induction c as [|c IH]; intros lo; cbn [zseq_n]; constructor; [|apply IH]. rewrite zseq_n_in. lia.
Qed.
Lemma zseq_NoDup lo hi : NoDup (zseq lo hi).
Proof. apply zseq_n_NoDup. Qed.
Lemma zseq_n_nth c : forall lo k d, (k < c)%nat -> nth k (zseq_n c lo) d = lo + Z.of_nat k.
Proof.
  induction c as [|c IH]; intros lo k d H; [lia|]. destruct k; cbn [zseq_n nth]; [lia|]. rewrite IH by lia. lia.
Qed.

Definition cnt (P : Z -> bool) (lo hi : Z) : Z := Z.of_nat (length (filter P (zseq lo hi))).

Section Cnt.
Implicit Types P Q : Z -> bool.

Lemma cnt_nil P lo hi : hi <= lo -> cnt P lo hi = 0.
Proof. intros H. unfold cnt. rewrite zseq_nil by lia. reflexivity. Qed.
Lemma cnt_cons P lo hi : lo < hi -> cnt P lo hi = (if P lo then 1 else 0) + cnt P (lo + 1) hi.
Proof.
  intros H. unfold cnt. rewrite zseq_cons by lia. cbn [filter]. destruct (P lo); cbn [length]; lia.
Qed.

Lemma cnt_ind (G : Z -> Prop) hi :
  (forall lo, hi <= lo -> G lo) -> (forall lo, lo < hi -> G (lo + 1) -> G lo) -> forall lo, G lo.
Proof.
  intros H0 HS lo. destruct (Z_le_gt_dec hi lo); [apply H0; lia|].
  assert (H : forall k lo, hi - lo <= Z.of_nat k -> G lo).
  { induction k as [|k IH]; intros x Hx; [apply H0; lia|].
    destruct (Z_le_gt_dec hi x); [apply H0; lia|]. apply HS; [lia|]. apply IH. lia. }
  apply (H (Z.to_nat (hi - lo))). lia.
Qed.

Lemma cnt_range P hi : forall lo, 0 <= cnt P lo hi <= Z.max 0 (hi - lo).
Proof.
  apply (cnt_ind (fun lo => 0 <= cnt P lo hi <= Z.max 0 (hi - lo)) hi).
  - intros lo H. rewrite cnt_nil by lia. lia.
  - intros lo H IH. rewrite cnt_cons by lia. destruct (P lo); lia.
Qed.
Lemma cnt_nonneg P lo hi : 0 <= cnt P lo hi.
Proof. apply cnt_range. Qed.

Lemma cnt_split P mid hi : mid <= hi -> forall lo, lo <= mid -> cnt P lo hi = cnt P lo mid + cnt P mid hi.
Proof.
  intros Hm. apply (cnt_ind (fun lo => lo <= mid -> cnt P lo hi = cnt P lo mid + cnt P mid hi) mid).
  - intros lo H H1. replace lo with mid by lia. rewrite (cnt_nil P mid mid) by lia. lia.
  - intros lo H IH H1. rewrite (cnt_cons P lo hi), (cnt_cons P lo mid) by lia. rewrite IH by lia. lia.
Qed.
Lemma cnt_snoc P lo hi : lo <= hi -> cnt P lo (hi + 1) = cnt P lo hi + (if P hi then 1 else 0).
Proof.
  intros H. rewrite (cnt_split P hi) by lia. rewrite (cnt_cons P hi) by lia. rewrite (cnt_nil P (hi + 1)) by lia. lia.
Qed.

Lemma cnt_ext P Q hi : forall lo, (forall i, lo <= i < hi -> P i = Q i) -> cnt P lo hi = cnt Q lo hi.
Proof.
  apply (cnt_ind (fun lo => (forall i, lo <= i < hi -> P i = Q i) -> cnt P lo hi = cnt Q lo hi) hi).
  - intros lo H _. rewrite !cnt_nil by lia. reflexivity.
  - intros lo H IH He. rewrite !(cnt_cons _ lo) by lia. rewrite He by lia. rewrite IH; [reflexivity|]. intros; apply He; lia.
Qed.

Lemma cnt_le P Q hi : forall lo, (forall i, lo <= i < hi -> P i = true -> Q i = true) -> cnt P lo hi <= cnt Q lo hi.
Proof.
  apply (cnt_ind (fun lo => (forall i, lo <= i < hi -> P i = true -> Q i = true) -> cnt P lo hi <= cnt Q lo hi) hi).
  - intros lo H _. rewrite !cnt_nil by lia. lia.
  - intros lo H IH He. rewrite !(cnt_cons _ lo) by lia.
    assert (cnt P (lo + 1) hi <= cnt Q (lo + 1) hi) by (apply IH; intros; apply He; [lia|assumption]).
    destruct (P lo) eqn:HP; [rewrite (He lo) by (try lia; assumption)|destruct (Q lo)]; lia.
Qed.

Lemma cnt_add P Q hi : forall lo,
  cnt P lo hi + cnt Q lo hi = cnt (fun i => P i || Q i) lo hi + cnt (fun i => P i && Q i) lo hi.
Proof.
  apply (cnt_ind (fun lo => cnt P lo hi + cnt Q lo hi = cnt (fun i => P i || Q i) lo hi + cnt (fun i => P i && Q i) lo hi) hi).
  - intros lo H. rewrite !cnt_nil by lia. lia.
  - intros lo H IH. rewrite !(cnt_cons _ lo) by lia. destruct (P lo), (Q lo); cbn [orb andb]; lia.
Qed.

Lemma cnt_false P lo hi : (forall i, lo <= i < hi -> P i = false) -> cnt P lo hi = 0.
Proof.
  intros H. rewrite (cnt_ext P (fun _ => false)) by assumption.
  revert lo H. apply (cnt_ind (fun lo => _ -> cnt (fun _ => false) lo hi = 0) hi).
  - intros; apply cnt_nil; lia.
  - intros lo H IH H1. rewrite cnt_cons by lia. rewrite IH by (intros; apply H1; lia). lia.
Qed.

Lemma cnt_true P lo hi : lo <= hi -> (forall i, lo <= i < hi -> P i = true) -> cnt P lo hi = hi - lo.
Proof.
  intros Hl H. rewrite (cnt_ext P (fun _ => true)) by assumption. clear H. revert lo Hl.
  apply (cnt_ind (fun lo => lo <= hi -> cnt (fun _ => true) lo hi = hi - lo) hi).
  - intros lo H H1. rewrite cnt_nil; lia.
  - intros lo H IH H1. rewrite cnt_cons by lia. rewrite IH by lia. lia.
Qed.

(** split by a predicate *)
Lemma cnt_by P Q lo hi : cnt P lo hi = cnt (fun i => P i && Q i) lo hi + cnt (fun i => P i && negb (Q i)) lo hi.
Proof.
  rewrite cnt_add. rewrite (cnt_false (fun i => _ && _)).
  - rewrite Z.add_0_r. apply cnt_ext. intros i _. destruct (P i), (Q i); reflexivity.
  - intros i _. destruct (P i), (Q i); reflexivity.
Qed.

(** disjoint union *)
Lemma cnt_disj P Q R lo hi :
  (forall i, lo <= i < hi -> R i = P i || Q i) -> (forall i, lo <= i < hi -> P i && Q i = false) ->
  cnt R lo hi = cnt P lo hi + cnt Q lo hi.
Proof.
  intros HR HD. rewrite cnt_add. rewrite (cnt_false (fun i => P i && Q i)) by assumption.
  rewrite Z.add_0_r. apply cnt_ext. assumption.
Qed.

Lemma cnt_eq1 x lo hi : lo <= x < hi -> cnt (fun i => i =? x) lo hi = 1.
Proof.
  intros H. rewrite (cnt_split _ x) by lia. rewrite (cnt_cons _ x) by lia.
  rewrite !cnt_false by (intros; lia). rewrite Z.eqb_refl. lia.
Qed.

Lemma cnt_strict P Q x lo hi : (forall i, lo <= i < hi -> P i = true -> Q i = true) ->
  lo <= x < hi -> Q x = true -> P x = false -> cnt P lo hi < cnt Q lo hi.
Proof.
  intros H Hx HQ HP.
  assert (cnt (fun i => P i || (i =? x)) lo hi <= cnt Q lo hi).
  { apply cnt_le. intros i Hi He. destruct (Z.eqb_spec i x); [subst; assumption|].
    apply H; [assumption|]. rewrite orb_false_r in He. assumption. }
  assert (cnt (fun i => P i || (i =? x)) lo hi = cnt P lo hi + cnt (fun i => i =? x) lo hi).
  { apply cnt_disj; [reflexivity|]. intros i Hi. destruct (Z.eqb_spec i x); [subst; rewrite HP|]; [reflexivity|apply andb_false_r]. }
  rewrite cnt_eq1 in * by lia. lia.
Qed.

Lemma cnt_pos P x lo hi : lo <= x < hi -> P x = true -> 0 < cnt P lo hi.
Proof.
  intros Hx HP. rewrite <- (cnt_false (fun _ => false) lo hi) by reflexivity.
  apply (cnt_strict _ _ x); auto; discriminate.
Qed.

(** adding one element *)
Lemma cnt_add1 P Q x lo hi : lo <= x < hi -> P x = false ->
  (forall i, lo <= i < hi -> Q i = P i || (i =? x)) -> cnt Q lo hi = cnt P lo hi + 1.
Proof.
  intros Hx HP HQ. rewrite (cnt_disj P (fun i => i =? x)); [rewrite cnt_eq1 by lia; reflexivity|assumption|].
  intros i Hi. destruct (Z.eqb_spec i x); [subst; rewrite HP; reflexivity|apply andb_false_r].
Qed.

Lemma cnt_exists P lo hi : 0 < cnt P lo hi -> exists x, lo <= x < hi /\ P x = true.
Proof.
  intros H. unfold cnt in H. destruct (filter P (zseq lo hi)) as [|x l] eqn:Hf; cbn [length] in H; [lia|].
  assert (Hin : In x (filter P (zseq lo hi))) by (rewrite Hf; left; reflexivity).
  apply filter_In in Hin as [Hz HP]. apply in_zseq in Hz. eauto.
Qed.

Lemma exists_dec P lo hi : (exists x, lo <= x < hi /\ P x = true) \/ (forall x, lo <= x < hi -> P x = false).
Proof.
  destruct (Z_lt_ge_dec 0 (cnt P lo hi)) as [H|H].
  - left. apply cnt_exists. assumption.
  - right. intros x Hx. destruct (P x) eqn:HP; [|reflexivity]. exfalso. pose proof (cnt_pos P x lo hi Hx HP). lia.
Qed.

(** monotone in the upper bound, strictly across members *)
Lemma cnt_mono_hi P lo a b : lo <= a <= b -> cnt P lo a <= cnt P lo b.
Proof. intros H. rewrite (cnt_split P a b) by lia. pose proof (cnt_nonneg P a b). lia. Qed.
Lemma cnt_lt_hi P lo a b : lo <= a < b -> P a = true -> cnt P lo a < cnt P lo b.
Proof.
  intros H HP. rewrite (cnt_split P a b) by lia. pose proof (cnt_pos P a a b ltac:(lia) HP). lia.
Qed.
Lemma cnt_inj P lo a b : lo <= a -> lo <= b -> P a = true -> P b = true -> cnt P lo a = cnt P lo b -> a = b.
Proof.
  intros Ha Hb HPa HPb He. destruct (Z.lt_trichotomy a b) as [H|[H|H]]; [|assumption|].
  - pose proof (cnt_lt_hi P lo a b ltac:(lia) HPa). lia.
  - pose proof (cnt_lt_hi P lo b a ltac:(lia) HPb). lia.
Qed.
End Cnt.

(** * Selection: the j-th element satisfying P *)
Definition sel (P : Z -> bool) (lo hi j : Z) : Z := nth (Z.to_nat j) (filter P (zseq lo hi)) hi.

Lemma sel_spec P hi : forall lo j, 0 <= j < cnt P lo hi ->
  lo <= sel P lo hi j < hi /\ P (sel P lo hi j) = true /\ cnt P lo (sel P lo hi j) = j.
Proof.
  apply (cnt_ind (fun lo => forall j, 0 <= j < cnt P lo hi ->
    lo <= sel P lo hi j < hi /\ P (sel P lo hi j) = true /\ cnt P lo (sel P lo hi j) = j) hi).
  - intros lo H j Hj. rewrite cnt_nil in Hj by lia. lia.
  - intros lo H IH j Hj. unfold sel in *. rewrite zseq_cons by lia. cbn [filter].
    rewrite cnt_cons in Hj by lia. destruct (P lo) eqn:HP.
    + destruct (Z.eq_dec j 0) as [->|Hne].
      * cbn [Z.to_nat nth]. rewrite cnt_nil by lia. repeat split; (lia || assumption).
      * replace (Z.to_nat j) with (S (Z.to_nat (j - 1))) by lia. cbn [nth].
        destruct (IH (j - 1) ltac:(lia)) as (H1 & H2 & H3).
        split; [lia|]. split; [assumption|]. rewrite cnt_cons by lia. rewrite HP, H3. lia.
    + destruct (IH j ltac:(lia)) as (H1 & H2 & H3).
      split; [lia|]. split; [assumption|]. rewrite cnt_cons by lia. rewrite HP, H3. lia.
Qed.

Lemma sel_cnt P lo hi e : lo <= e < hi -> P e = true -> sel P lo hi (cnt P lo e) = e.
Proof.
  intros He HP. destruct (sel_spec P hi lo (cnt P lo e)) as (H1 & H2 & H3).
  - split; [apply cnt_nonneg|apply cnt_lt_hi; [lia|assumption]].
  - apply (cnt_inj P lo); (lia || assumption).
Qed.

(** * Ranks in a strict total order on the members of P *)
Section Rank.
Context (P : Z -> bool) (lt : Z -> Z -> bool) (lo hi : Z).
Definition mem_ (i : Z) : Prop := lo <= i < hi /\ P i = true.
Context (irr : forall i, mem_ i -> lt i i = false).
Context (tr : forall i j k, mem_ i -> mem_ j -> mem_ k -> lt i j = true -> lt j k = true -> lt i k = true).
Context (tot : forall i j, mem_ i -> mem_ j -> i <> j -> lt i j = true \/ lt j i = true).

Definition rank (j : Z) : Z := cnt (fun i => P i && lt i j) lo hi.

Lemma rank_range j : mem_ j -> 0 <= rank j < cnt P lo hi.
Proof.
  intros Hj. unfold rank. split; [apply cnt_nonneg|].
  apply (cnt_strict _ _ j); [|apply Hj|apply Hj|].
  - intros i _ H. apply andb_true_iff in H. apply H.
  - rewrite irr by assumption. apply andb_false_r.
Qed.

Lemma rank_lt i j : mem_ i -> mem_ j -> lt i j = true -> rank i < rank j.
Proof.
  intros Hi Hj H. unfold rank. apply (cnt_strict _ _ i); [|apply Hi| |].
  - intros k Hk Hk2. apply andb_true_iff in Hk2 as [Hp Hl]. rewrite Hp. cbn [andb].
    apply (tr k i j); auto. split; assumption.
  - destruct Hi as [_ ->]. assumption.
  - rewrite irr by assumption. apply andb_false_r.
Qed.

Lemma rank_lt_iff i j : mem_ i -> mem_ j -> (lt i j = true <-> rank i < rank j).
Proof.
  intros Hi Hj. split; [apply rank_lt; assumption|]. intros H.
  destruct (Z.eq_dec i j) as [->|Hne]; [lia|].
  destruct (tot i j Hi Hj Hne) as [|H2]; [assumption|]. apply rank_lt in H2; (assumption || lia).
Qed.

Lemma rank_inj i j : mem_ i -> mem_ j -> rank i = rank j -> i = j.
Proof.
  intros Hi Hj H. destruct (Z.eq_dec i j) as [|Hne]; [assumption|].
  destruct (tot i j Hi Hj Hne) as [H2|H2]; apply rank_lt in H2; (assumption || lia).
Qed.

Lemma rank_surj q : 0 <= q < cnt P lo hi -> exists j, mem_ j /\ rank j = q.
Proof.
  intros Hq. set (l := filter P (zseq lo hi)).
  assert (Hl : forall x, In x l <-> mem_ x).
  { intros x. unfold l. rewrite filter_In, in_zseq. reflexivity. }
  assert (HN : NoDup (map rank l)).
  { assert (Hnd : NoDup l) by (apply NoDup_filter, zseq_NoDup).
    assert (Hall : forall x, In x l -> mem_ x) by (intros; apply Hl; assumption). clear Hl. revert Hnd Hall.
    generalize l. induction l0 as [|x l0 IH]; intros Hnd Hall; cbn [map]; constructor.
    - rewrite in_map_iff. intros (y & Hy & Hin). inversion Hnd; subst.
      apply rank_inj in Hy; [subst; contradiction|apply Hall; right; assumption|apply Hall; left; reflexivity].
    - inversion Hnd; subst. apply IH; [assumption|]. intros; apply Hall; right; assumption. }
  assert (Hincl : incl (zseq 0 (cnt P lo hi)) (map rank l)).
  { apply NoDup_length_incl; [assumption| |].
    - rewrite map_length, zseq_length. unfold cnt. fold l. lia.
    - intros r Hr. apply in_map_iff in Hr as (x & <- & Hx). apply in_zseq. apply rank_range, Hl. assumption. }
  specialize (Hincl q ltac:(apply in_zseq; assumption)). apply in_map_iff in Hincl as (j & Hj & Hin).
  exists j. split; [apply Hl; assumption|assumption].
Qed.
End Rank.

(** injections do not decrease counts *)
Lemma cnt_map_le (P Q : Z -> bool) (g : Z -> Z) lo hi lo' hi' :
  (forall i, lo <= i < hi -> P i = true -> lo' <= g i < hi' /\ Q (g i) = true) ->
  (forall i j, lo <= i < hi -> lo <= j < hi -> P i = true -> P j = true -> g i = g j -> i = j) ->
  cnt P lo hi <= cnt Q lo' hi'.
Proof.
  intros Hg Hinj. unfold cnt. set (l := filter P (zseq lo hi)).
  assert (Hl : forall x, In x l -> lo <= x < hi /\ P x = true).
  { intros x Hx. apply filter_In in Hx as [Hz HP]. apply in_zseq in Hz. auto. }
  assert (HN : NoDup (map g l)).
  { assert (Hnd : NoDup l) by (apply NoDup_filter, zseq_NoDup). revert Hnd Hl. generalize l.
    induction l0 as [|x l0 IH]; intros Hnd Hl; cbn [map]; constructor.
    - rewrite in_map_iff. intros (y & Hy & Hin). inversion Hnd; subst.
      destruct (Hl x (or_introl eq_refl)). destruct (Hl y (or_intror Hin)).
      assert (y = x) by (apply Hinj; assumption). subst. contradiction.
    - inversion Hnd; subst. apply IH; [assumption|]. intros; apply Hl; right; assumption. }
  assert (Hlen : (length (map g l) <= length (filter Q (zseq lo' hi')))%nat).
  { apply NoDup_incl_length; [assumption|]. intros y Hy. apply in_map_iff in Hy as (x & <- & Hx).
    destruct (Hl x Hx) as [H1 H2]. destruct (Hg x H1 H2) as [H3 H4]. apply filter_In. split; [apply in_zseq; assumption|assumption]. }
  rewrite map_length in Hlen. lia.
Qed.
