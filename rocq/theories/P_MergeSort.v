(** Merge sort as an instance of SortSpec.v: a std_sort in which no element pays for more than log2 k comparisons. *)
From Verif Require Import Base Spec SortSpec.
From Coq Require Import Permutation ZifyBool.
Open Scope Z_scope.

(** * The algorithm, in continuation passing style *)
Fixpoint mmerge (l1 : list Z) : list Z -> (list Z -> cmp_tree) -> cmp_tree :=
  match l1 with
  | [] => fun l2 k => k l2
  | x :: r1 => fix aux l2 k :=
      match l2 with
      | [] => k (x :: r1)
      | y :: r2 => Ask y x (aux r2 (fun r => k (y :: r))) (mmerge r1 (y :: r2) (fun r => k (x :: r)))
      end
  end.
Fixpoint msort (fuel : nat) (l : list Z) (k : list Z -> cmp_tree) : cmp_tree :=
  match fuel with
  | O => k l
  | S f => let h := Nat.div2 (length l) in
      msort f (firstn h l) (fun a => msort f (skipn h l) (fun b => mmerge a b k))
  end.
Definition merge_sort : sort_alg := fun l => msort (Nat.log2_up (length l)) l Sorted.

(** * The same without trees *)
Section Pure.
Context (c : Z -> Z -> bool).
Fixpoint pmerge (l1 : list Z) : list Z -> list Z :=
  match l1 with
  | [] => fun l2 => l2
  | x :: r1 => fix aux l2 :=
      match l2 with
      | [] => x :: r1
      | y :: r2 => if c y x then y :: aux r2 else x :: pmerge r1 (y :: r2)
      end
  end.
Fixpoint qmerge (l1 : list Z) : list Z -> list (Z * Z) :=
  match l1 with
  | [] => fun l2 => []
  | x :: r1 => fix aux l2 :=
      match l2 with
      | [] => []
      | y :: r2 => (y, x) :: (if c y x then aux r2 else qmerge r1 (y :: r2))
      end
  end.
Fixpoint psort (fuel : nat) (l : list Z) : list Z :=
  match fuel with
  | O => l
  | S f => let h := Nat.div2 (length l) in pmerge (psort f (firstn h l)) (psort f (skipn h l))
  end.
Fixpoint qsort (fuel : nat) (l : list Z) : list (Z * Z) :=
  match fuel with
  | O => []
  | S f => let h := Nat.div2 (length l) in
      qsort f (firstn h l) ++ qsort f (skipn h l) ++ qmerge (psort f (firstn h l)) (psort f (skipn h l))
  end.

Lemma mmerge_run l1 : forall l2 k, answer c (mmerge l1 l2 k) = answer c (k (pmerge l1 l2)) /\
  asked c (mmerge l1 l2 k) = qmerge l1 l2 ++ asked c (k (pmerge l1 l2)).
Proof.
  induction l1 as [|x r1 IH1]; [intros; split; reflexivity|].
  induction l2 as [|y r2 IH2]; intros k; [split; reflexivity|]. cbn [mmerge pmerge qmerge answer asked].
  destruct (c y x).
  - destruct (IH2 (fun r => k (y :: r))) as [A B]. split; [exact A|]. cbn [app]. f_equal. exact B.
  - destruct (IH1 (y :: r2) (fun r => k (x :: r))) as [A B]. split; [exact A|]. cbn [app]. f_equal. exact B.
Qed.
Lemma msort_run fuel : forall l k, answer c (msort fuel l k) = answer c (k (psort fuel l)) /\
  asked c (msort fuel l k) = qsort fuel l ++ asked c (k (psort fuel l)).
Proof.
  induction fuel as [|f IH]; intros l k; [split; reflexivity|]. cbn [msort psort qsort]. cbn zeta.
  set (h := Nat.div2 (length l)).
  destruct (IH (firstn h l) (fun a => msort f (skipn h l) (fun b => mmerge a b k))) as [A1 B1].
  destruct (IH (skipn h l) (fun b => mmerge (psort f (firstn h l)) b k)) as [A2 B2].
  destruct (mmerge_run (psort f (firstn h l)) (psort f (skipn h l)) k) as [A3 B3].
  split; [rewrite A1, A2; exact A3|]. rewrite B1, B2, B3, <- !app_assoc. reflexivity.
Qed.

Lemma pmerge_perm l1 : forall l2, Permutation (pmerge l1 l2) (l1 ++ l2).
Proof.
  induction l1 as [|x r1 IH1]; [reflexivity|]. induction l2 as [|y r2 IH2]; [cbn [pmerge]; rewrite app_nil_r; reflexivity|].
  cbn [pmerge]. destruct (c y x).
  - rewrite IH2. change ((x :: r1) ++ y :: r2) with ((x :: r1) ++ [y] ++ r2). rewrite app_assoc.
    apply (Permutation_app_tail r2 (l := y :: x :: r1)). apply (Permutation_cons_append (x :: r1) y).
  - cbn [app]. apply perm_skip. apply (IH1 (y :: r2)).
Qed.
Lemma psort_perm fuel : forall l, Permutation (psort fuel l) l.
Proof.
  induction fuel as [|f IH]; intros l; [reflexivity|]. cbn [psort]. cbn zeta. rewrite pmerge_perm, !IH, firstn_skipn. reflexivity.
Qed.

Context (U : list Z) (HU : strict_weak_order c U).
Notation le := (fun x y => c y x = false).
Lemma sw_asym x y : In x U -> In y U -> c x y = true -> c y x = false.
Proof.
  destruct HU as (Hirr & Htr & _). intros Hx Hy H. destruct (c y x) eqn:H2; [|reflexivity]. rewrite <- (Hirr x Hx). symmetry. eapply Htr; try eassumption.
Qed.
Lemma sw_le x y z : In x U -> In y U -> In z U -> c y x = false -> c z y = false -> c z x = false.
Proof.
  destruct HU as (Hirr & Htr & Heq). intros Hx Hy Hz H1 H2. destruct (c z x) eqn:H3; [|reflexivity].
  destruct (c x y) eqn:H4.
  - pose proof (Htr z x y Hz Hx Hy H3 H4). congruence.
  - destruct (c y z) eqn:H5.
    + pose proof (Htr y z x Hy Hz Hx H5 H3). congruence.
    + destruct (Heq x y z Hx Hy Hz H4 H1 H5 H2). congruence.
Qed.
Lemma pmerge_sorted l1 : forall l2, incl l1 U -> incl l2 U -> StronglySorted le l1 -> StronglySorted le l2 -> StronglySorted le (pmerge l1 l2).
Proof.
  induction l1 as [|x r1 IH1]; [intros; assumption|]. induction l2 as [|y r2 IH2]; intros Hi1 Hi2 Hs1 Hs2; [exact Hs1|].
  assert (Hx : In x U) by (apply Hi1; left; reflexivity). assert (Hy : In y U) by (apply Hi2; left; reflexivity).
  assert (Hr1 : incl r1 U) by (intros z Hz; apply Hi1; right; exact Hz). assert (Hr2 : incl r2 U) by (intros z Hz; apply Hi2; right; exact Hz).
  apply StronglySorted_inv in Hs1 as Hs1'. destruct Hs1' as [Hs1r Hx1]. apply StronglySorted_inv in Hs2 as Hs2'. destruct Hs2' as [Hs2r Hy2].
  rewrite Forall_forall in Hx1, Hy2. cbn [pmerge]. destruct (c y x) eqn:Hc.
  - constructor; [apply IH2; assumption|]. apply Forall_forall. intros z Hz.
    apply (Permutation_in _ (pmerge_perm (x :: r1) r2)) in Hz. apply in_app_iff in Hz as [[<-|Hz]|Hz].
    + apply sw_asym; assumption.
    + apply (sw_le y x z); auto. apply sw_asym; assumption.
    + auto.
  - constructor; [apply IH1; assumption|]. apply Forall_forall. intros z Hz.
    apply (Permutation_in _ (pmerge_perm r1 (y :: r2))) in Hz. apply in_app_iff in Hz as [Hz|[<-|Hz]].
    + auto.
    + exact Hc.
    + apply (sw_le x y z); auto.
Qed.
Lemma div2_half m f : (m <= 2 ^ S f)%nat -> (Nat.div2 m <= 2 ^ f)%nat /\ (m - Nat.div2 m <= 2 ^ f)%nat.
Proof.
  intros Hm. change (2 ^ S f)%nat with (2 ^ f + (2 ^ f + 0))%nat in Hm. pose proof (Nat.div2_odd m) as H. destruct (Nat.odd m); cbn [Nat.b2n] in H; lia.
Qed.
Lemma psort_sorted fuel : forall l, incl l U -> (length l <= 2 ^ fuel)%nat -> StronglySorted le (psort fuel l).
Proof.
  induction fuel as [|f IH]; intros l Hi Hl.
  - cbn [psort]. destruct l as [|x [|y l]]; [constructor|repeat constructor|cbn in Hl; lia].
  - cbn [psort]. cbn zeta. destruct (div2_half _ _ Hl) as [H1 H2].
    set (h := Nat.div2 (length l)) in *.
    assert (Hif : incl (firstn h l) U) by (intros z Hz; apply Hi; rewrite <- (firstn_skipn h l); apply in_app_iff; left; exact Hz).
    assert (His : incl (skipn h l) U) by (intros z Hz; apply Hi; rewrite <- (firstn_skipn h l); apply in_app_iff; right; exact Hz).
    apply pmerge_sorted.
    + intros z Hz. apply (Permutation_in _ (psort_perm f _)) in Hz. auto.
    + intros z Hz. apply (Permutation_in _ (psort_perm f _)) in Hz. auto.
    + apply IH; [assumption|]. rewrite firstn_length. lia.
    + apply IH; [assumption|]. rewrite skipn_length. lia.
Qed.

(** * Who pays: the element that is moved to the output *)
Notation occ := (count_occ Z.eq_dec).
Definition pays (l : list Z) (qs : list (Z * Z)) (d : nat) (ps : list Z) : Prop :=
  Forall2 (fun '(x, y) p => In x l /\ In y l /\ (p = x \/ p = y)) qs ps /\ forall x, (occ ps x <= d * occ l x)%nat.
Lemma pay_incl (l l' : list Z) (qs : list (Z * Z)) (ps : list Z) : incl l l' ->
  Forall2 (fun '(x, y) p => In x l /\ In y l /\ (p = x \/ p = y)) qs ps -> Forall2 (fun '(x, y) p => In x l' /\ In y l' /\ (p = x \/ p = y)) qs ps.
Proof. intros Hi H. induction H as [|[x y] p qs ps (A & B & C) H IH]; constructor; [|exact IH]. auto. Qed.
Lemma qmerge_pays l1 : forall l2, exists ps, pays (l1 ++ l2) (qmerge l1 l2) 1 ps.
Proof.
  induction l1 as [|x r1 IH1]; [intros l2; exists []; split; [constructor|cbn; lia]|].
  induction l2 as [|y r2 IH2]; [exists []; split; [constructor|cbn; lia]|]. cbn [qmerge].
  assert (Hix : In x ((x :: r1) ++ y :: r2)) by (left; reflexivity).
  assert (Hiy : In y ((x :: r1) ++ y :: r2)) by (apply in_app_iff; right; left; reflexivity).
  destruct (c y x).
  - destruct IH2 as (ps & H1 & H2). exists (y :: ps). split.
    + constructor; [auto|]. eapply pay_incl; [|exact H1]. intros z Hz. apply in_app_iff in Hz. apply in_app_iff. destruct Hz; [left|right; right]; assumption.
    + intros z. specialize (H2 z). rewrite count_occ_app in *. cbn [count_occ] in *. destruct (Z.eq_dec y z); destruct (Z.eq_dec x z); lia.
  - destruct (IH1 (y :: r2)) as (ps & H1 & H2). exists (x :: ps). split.
    + constructor; [auto|]. eapply pay_incl; [|exact H1]. intros z Hz. right. exact Hz.
    + intros z. specialize (H2 z). rewrite count_occ_app in *. cbn [count_occ] in *. destruct (Z.eq_dec y z); destruct (Z.eq_dec x z); lia.
Qed.
Lemma occ_perm l l' x : Permutation l l' -> occ l x = occ l' x.
Proof. intros H. apply (proj1 (Permutation_count_occ Z.eq_dec l l') H). Qed.
Lemma qsort_pays fuel : forall l, exists ps, pays l (qsort fuel l) fuel ps.
Proof.
  induction fuel as [|f IH]; intros l; [exists []; split; [constructor|cbn; lia]|]. cbn [qsort]. cbn zeta.
  set (h := Nat.div2 (length l)). destruct (IH (firstn h l)) as (p1 & A1 & B1). destruct (IH (skipn h l)) as (p2 & A2 & B2).
  destruct (qmerge_pays (psort f (firstn h l)) (psort f (skipn h l))) as (p3 & A3 & B3).
  assert (Hp : Permutation (psort f (firstn h l) ++ psort f (skipn h l)) l).
  { rewrite !psort_perm, firstn_skipn. reflexivity. }
  exists (p1 ++ p2 ++ p3). split.
  - apply Forall2_app; [|apply Forall2_app].
    + eapply pay_incl; [|exact A1]. intros z Hz. rewrite <- (firstn_skipn h l). apply in_app_iff; left; exact Hz.
    + eapply pay_incl; [|exact A2]. intros z Hz. rewrite <- (firstn_skipn h l). apply in_app_iff; right; exact Hz.
    + eapply pay_incl; [|exact A3]. intros z Hz. exact (Permutation_in _ Hp Hz).
  - intros z. rewrite !count_occ_app. specialize (B1 z). specialize (B2 z). specialize (B3 z).
    rewrite (occ_perm _ _ z Hp) in B3. assert (He : occ l z = (occ (firstn h l) z + occ (skipn h l) z)%nat) by (rewrite <- count_occ_app, firstn_skipn; reflexivity).
    rewrite He in *. lia.
Qed.
End Pure.

Theorem merge_sort_ok : std_sort (sort_of merge_sort).
Proof.
  intros c l HU. unfold sort_of, merge_sort. destruct (msort_run c (Nat.log2_up (length l)) l Sorted) as [A _]. rewrite A. cbn [answer].
  split; [apply psort_perm|]. apply (psort_sorted c l HU); [intros z Hz; exact Hz|].
  destruct (length l) as [|k] eqn:E; [lia|]. destruct k as [|k]; [cbn; lia|]. apply Nat.log2_up_spec. lia.
Qed.
Theorem merge_sort_charged : charged merge_sort (fun k => Z.of_nat (Nat.log2_up k)).
Proof.
  intros c l _ Hnd. unfold merge_sort. destruct (msort_run c (Nat.log2_up (length l)) l Sorted) as [_ A]. rewrite A. cbn [asked]. rewrite app_nil_r.
  destruct (qsort_pays c (Nat.log2_up (length l)) l) as (ps & H1 & H2). exists ps. split; [exact H1|]. intros x. specialize (H2 x).
  pose proof (proj1 (NoDup_count_occ Z.eq_dec l) Hnd x). nia.
Qed.
(** the logarithm on Z *)
Lemma log2_up_Z k : 0 <= k -> Z.of_nat (Nat.log2_up (Z.to_nat k)) = Z.log2_up k.
Proof.
  intros Hk. destruct (Z.le_gt_cases k 1) as [H|H].
  - rewrite Z.log2_up_eqn0 by lia. rewrite Nat.log2_up_eqn0 by lia. reflexivity.
  - assert (Hp : (0 < Nat.log2_up (Z.to_nat k))%nat) by (apply Nat.log2_up_pos; lia).
    symmetry. apply Z.log2_up_unique; [lia|]. destruct (Nat.log2_up_spec (Z.to_nat k) ltac:(lia)) as [A B].
    apply Nat2Z.inj_lt in A. apply Nat2Z.inj_le in B. rewrite Nat2Z.inj_pow in A, B.
    rewrite Z2Nat.id in A, B by lia. rewrite Nat2Z.inj_pred in A by lia. split; assumption.
Qed.
