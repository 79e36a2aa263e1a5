(** Which bytes may stand behind the text. *)
From Coq Require Import ZArith List.
From Verif Require Import Spec.
Import ListNotations.
Open Scope Z_scope.

(** Let w be the part of T from its last S* position to its end. The byte c behind the text is taken for the byte after w; it
    does no harm if every other S* substring that begins with w goes on with a byte above c, or ends with c there. *)
Definition terminator_ok (T : list Z) (c : Z) : Prop :=
  forall i p w d rest, In i (lms_positions T) -> In p (lms_positions T) -> next_lms T (S p) = length T -> i <> p ->
  w = suffix T p -> star_sub T i = w ++ d :: rest -> c < d \/ (d = c /\ rest = []).
