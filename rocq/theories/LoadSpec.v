(** How full the buckets of the hash table are, and a bound for walking along their chains, as functions of the text alone (C48). *)
From Coq Require Import ZArith List.
From Verif Require Import Spec BlockSpec.
Import ListNotations.
Open Scope Z_scope.

(** number of different S* substrings of T in bucket b of hts buckets *)
Definition bucket_load (hts : Z) (T : list Z) (b : Z) : Z :=
  Z.of_nat (length (filter (fun s => bucket hts s =? b) (distinct_stars T))).
(** for every S* substring of T: its length, times the number of records and pointers in its bucket *)
Definition chain_walks (hts : Z) (T : list Z) : Z :=
  fold_right Z.add 0 (map (fun s => (3 * Z.of_nat (length s) + 7) * (2 * bucket_load hts T (bucket hts s) + 1)) (map (star_sub T) (lms_positions T))).
