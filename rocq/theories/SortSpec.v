(** Specification for the running time of std::sort (C48): a sort is a decision tree over the comparisons it
    makes.  Independent of the model: only lists, a comparison and the time of a comparison. *)
From Verif Require Import Base Spec.
Open Scope Z_scope.

(** what a sort does with a given list: it is finished with a result, or compares two elements and goes on *)
Inductive cmp_tree := Sorted (l : list Z) | Ask (x y : Z) (yes no : cmp_tree).
(** the result, and the comparisons made in their order, if the comparison is [cmp] *)
Fixpoint answer (cmp : Z -> Z -> bool) (t : cmp_tree) : list Z :=
  match t with Sorted l => l | Ask x y yes no => answer cmp (if cmp x y then yes else no) end.
Fixpoint asked (cmp : Z -> Z -> bool) (t : cmp_tree) : list (Z * Z) :=
  match t with Sorted _ => [] | Ask x y yes no => (x, y) :: (if cmp x y then asked cmp yes else asked cmp no) end.

(** a sorting algorithm: the tree for each list; as a function from a comparison and a list *)
Definition sort_alg := list Z -> cmp_tree.
Definition sort_of (alg : sort_alg) (cmp : Z -> Z -> bool) (l : list Z) : list Z := answer cmp (alg l).

(** the time of a sort is a function of the comparison, of the time of comparing any two elements, and of the list *)
Definition sort_time := (Z -> Z -> bool) -> (Z -> Z -> Z) -> list Z -> Z.
(** ... for a sorting algorithm: the comparisons that it makes *)
Definition asked_time (alg : sort_alg) : sort_time := fun cmp time l =>
  fold_right (fun '(x, y) s => time x y + s) 0 (asked cmp (alg l)).
(** ... left out of account *)
Definition untimed : sort_time := fun _ _ _ => 0.

(** Sorting k distinct elements, [alg] compares only elements of the list, and every comparison can be charged to
    one of the two elements so that nothing is charged more than d k times.  (A sort that makes at most D k
    comparisons of elements of the list satisfies this with d = D; merge sort with d k = log2 k.) *)
Definition charged (alg : sort_alg) (d : nat -> Z) : Prop :=
  forall cmp l, strict_weak_order cmp l -> NoDup l ->
    exists payers : list Z,
      Forall2 (fun '(x, y) p => In x l /\ In y l /\ (p = x \/ p = y)) (asked cmp (alg l)) payers /\
      forall x, Z.of_nat (count_occ Z.eq_dec payers x) <= d (length l).
