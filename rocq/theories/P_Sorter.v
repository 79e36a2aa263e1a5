(** An instance of the std::sort contract: the examples need a concrete sorting function. *)
From Verif Require Import Base M_Flbwt Spec.
Open Scope Z_scope.

(** * A sorting function meeting the contract *)
Fixpoint ins (c : Z -> Z -> bool) (x : Z) (l : list Z) : list Z :=
  match l with [] => [x] | y :: r => if c y x then y :: ins c x r else x :: y :: r end.
Definition isort : sorter := fun c l => fold_right (ins c) [] l.

Lemma ins_perm c x l : Permutation (ins c x l) (x :: l).
Proof.
  induction l as [|y l IH]; [reflexivity|]. cbn [ins]. destruct (c y x); [|reflexivity].
  rewrite IH. apply perm_swap.
Qed.
Lemma isort_perm c l : Permutation (isort c l) l.
Proof. induction l as [|x l IH]; [reflexivity|]. cbn [isort fold_right]. rewrite ins_perm. apply perm_skip, IH. Qed.

Lemma isort_ok : std_sort isort.
Proof.
  intros c l (Hirr & Htr & Heq). split; [apply isort_perm|].
  assert (Hasym : forall x y, In x l -> In y l -> c x y = true -> c y x = false).
  { intros x y Hx Hy H. destruct (c y x) eqn:H2; [|reflexivity]. rewrite <- (Hirr x Hx). symmetry. eapply Htr; try eassumption. }
  (* transitivity of "not greater" *)
  assert (Hle : forall x y z, In x l -> In y l -> In z l -> c y x = false -> c z y = false -> c z x = false).
  { intros x y z Hx Hy Hz H1 H2. destruct (c z x) eqn:H3; [|reflexivity].
    destruct (c x y) eqn:H4.
    - pose proof (Htr z x y Hz Hx Hy H3 H4). congruence.
    - destruct (c y z) eqn:H5.
      + pose proof (Htr y z x Hy Hz Hx H5 H3). congruence.
      + destruct (Heq x y z Hx Hy Hz H4 H1 H5 H2). congruence. }
  assert (Hins : forall x L, In x l -> incl L l -> StronglySorted (fun x y => c y x = false) L ->
    StronglySorted (fun x y => c y x = false) (ins c x L)).
  { intros x L Hx. induction L as [|y L IH]; intros Hin Hs; cbn [ins]; [repeat constructor|].
    inversion Hs as [|? ? Hs' Hall]; subst. rewrite Forall_forall in Hall.
    assert (Hy : In y l) by (apply Hin; left; reflexivity).
    assert (HL : incl L l) by (intros z Hz; apply Hin; right; exact Hz).
    destruct (c y x) eqn:Hc.
    - constructor; [apply IH; assumption|]. apply Forall_forall. intros z Hz.
      apply (Permutation_in _ (ins_perm c x L)) in Hz. destruct Hz as [<-|Hz]; [apply Hasym; assumption|apply Hall, Hz].
    - constructor; [assumption|]. apply Forall_forall. intros z [<-|Hz]; [exact Hc|].
      apply (Hle x y z); auto. }
  assert (Hg : forall L, incl L l -> StronglySorted (fun x y => c y x = false) (isort c L)).
  { induction L as [|x L IH]; intros Hin; [constructor|]. cbn [isort fold_right].
    apply Hins; [apply Hin; left; reflexivity| |apply IH; intros z Hz; apply Hin; right; exact Hz].
    intros z Hz. apply (Permutation_in _ (isort_perm c L)) in Hz. apply Hin. right. exact Hz. }
  apply Hg. intros z Hz. exact Hz.
Qed.

