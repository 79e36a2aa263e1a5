(** The specification: lexicographic order, suffixes, the Burrows-Wheeler transform, its
    inverse, and the file format.  Nothing here refers to the model of the code. *)
From Coq Require Export List ZArith Lia Bool Permutation Sorted.
Export ListNotations.
Open Scope Z_scope.

(** strict lexicographic order, a proper prefix is smaller *)
Fixpoint lexlt (a b : list Z) : bool :=
  match a, b with
  | _, [] => false
  | [], _ :: _ => true
  | x :: a', y :: b' => (x <? y) || ((x =? y) && lexlt a' b')
  end.

(** the suffix of T starting at position i; suffix n is the empty string, which stands for
    the unique smallest terminator *)
Definition suffix (T : list Z) (i : nat) : list Z := skipn i T.

(** row of suffix i in the sorted table of all n + 1 suffixes *)
Definition row_of (T : list Z) (i : nat) : Z :=
  Z.of_nat (length (filter (fun j => lexlt (suffix T j) (suffix T i)) (seq 0 (S (length T))))).

(** [row] (n + 1 rows) and [last] form the Burrows-Wheeler transform of T: the row of every
    suffix but the whole string holds the preceding byte, [last] is the row of the whole string *)
Definition is_BWT (T : list Z) (row : Z -> option Z) (last : Z) : Prop :=
  last = row_of T 0 /\
  forall i, (1 <= i <= length T)%nat -> row (row_of T i) = Some (nth (i - 1) T 0).

(** bytes *)
Definition is_byte (c : Z) : Prop := 0 <= c < 256.

(** [sa] lists the starting positions of all suffixes of [l] in increasing order *)
Definition is_suffix_array (l : list Z) (sa : list Z) : Prop :=
  Permutation sa (map Z.of_nat (seq 0 (length l))) /\
  StronglySorted (fun i j => lexlt (suffix l (Z.to_nat i)) (suffix l (Z.to_nat j)) = true) sa.

(** The contract of std::sort(begin, end, cmp): if cmp is a strict weak order on the elements
    then the result is a sorted rearrangement of them. *)
Definition strict_weak_order (cmp : Z -> Z -> bool) (l : list Z) : Prop :=
  (forall x, In x l -> cmp x x = false) /\
  (forall x y z, In x l -> In y l -> In z l -> cmp x y = true -> cmp y z = true -> cmp x z = true) /\
  (forall x y z, In x l -> In y l -> In z l ->
     cmp x y = false -> cmp y x = false -> cmp y z = false -> cmp z y = false -> cmp x z = false /\ cmp z x = false).
Definition std_sort (srt : (Z -> Z -> bool) -> list Z -> list Z) : Prop :=
  forall cmp l, strict_weak_order cmp l ->
    Permutation (srt cmp l) l /\ StronglySorted (fun x y => cmp y x = false) (srt cmp l).

(** and it learns about cmp only by comparing elements *)
Definition comparison_sort (srt : (Z -> Z -> bool) -> list Z -> list Z) : Prop :=
  forall cmp cmp' l, (forall x y, In x l -> In y l -> cmp x y = cmp' x y) -> srt cmp l = srt cmp' l.

(** order of the S* substrings: lexicographic, but a proper prefix is larger than its extensions *)
Definition star_lt (a b : list Z) : bool := lexlt (a ++ [256]) (b ++ [256]).

(** * Types, S* (LMS) positions and S* substrings of a string *)
(** S type: the suffix is smaller than the next one; the last position is L type *)
Definition is_S (T : list Z) (i : nat) : bool := lexlt (suffix T i) (suffix T (S i)).
Definition is_LMS (T : list Z) (i : nat) : bool :=
  (0 <? i)%nat && (i <? length T)%nat && is_S T i && negb (is_S T (i - 1)).
Definition lms_positions (T : list Z) : list nat := filter (is_LMS T) (seq 0 (length T)).
(** first S* position at or after i; n, the terminator, if there is none *)
Definition next_lms (T : list Z) (i : nat) : nat :=
  match find (is_LMS T) (seq i (length T - i)) with Some j => j | None => length T end.
(** S* substring starting at i: up to and including the next S* position (the terminator is 0) *)
Definition star_sub (T : list Z) (i : nat) : list Z :=
  firstn (S (next_lms T (S i) - i)) (suffix (T ++ [0]) i).

(** no S* substring, and not the head string, has a length divisible by 256 *)
Definition safe_lengths (T : list Z) : Prop :=
  (forall i, In i (lms_positions T) -> Z.of_nat (length (star_sub T i)) mod 256 <> 0) /\
  Z.of_nat (next_lms T 0 + 1) mod 256 <> 0.

(** * The Burrows-Wheeler transform as a function *)
(** the byte in row r: None in the row of the whole string *)
Definition bwt_row (T : list Z) (r : nat) : option Z :=
  match find (fun i => row_of T i =? Z.of_nat r) (seq 0 (S (length T))) with
  | Some (S j) => Some (nth j T 0)
  | _ => None
  end.
Definition bwt_rows_of (T : list Z) : list (option Z) := map (bwt_row T) (seq 0 (S (length T))).
Definition somes (l : list (option Z)) : list Z :=
  flat_map (fun x => match x with Some c => [c] | None => [] end) l.

(** 64-bit big-endian *)
Definition be64 (v : Z) : list Z := map (fun k => (v / 256 ^ k) mod 256) [7; 6; 5; 4; 3; 2; 1; 0].
Definition be_value (l : list Z) : Z := fold_left (fun a c => a * 256 + c) l 0.

(** the output file for input T *)
Definition file_output (T : list Z) : list Z := be64 (row_of T 0) ++ somes (bwt_rows_of T).

(** * Decoding *)
Definition lt_opt (x : option Z) (c : Z) : bool := match x with Some d => d <? c | None => false end.
Definition eq_opt (x : option Z) (c : Z) : bool := match x with Some d => d =? c | None => false end.
Definition count {A} (f : A -> bool) (l : list A) : nat := length (filter f l).
(** last-to-first mapping *)
Definition LF (B : list (option Z)) (i : nat) (c : Z) : nat :=
  1 + count (fun x => lt_opt x c) B + count (fun x => eq_opt x c) (firstn i B).
(** walk k steps backwards from row i, prepending to acc *)
Fixpoint unbwt (B : list (option Z)) (k : nat) (i : nat) (acc : list Z) : list Z :=
  match k with
  | O => acc
  | S k => match nth i B None with
           | Some c => unbwt B k (LF B i c) (c :: acc)
           | None => acc
           end
  end.
Definition decode_rows (B : list (option Z)) : list Z := unbwt B (length B - 1) 0 [].
Definition decode (out : list Z) : list Z :=
  let last := Z.to_nat (be_value (firstn 8 out)) in
  let bytes := skipn 8 out in
  decode_rows (map Some (firstn last bytes) ++ [None] ++ map Some (skipn last bytes)).

(** * Names of S* substrings *)
Definition distinct_stars (T : list Z) : list (list Z) :=
  nodup (list_eq_dec Z.eq_dec) (map (star_sub T) (lms_positions T)).
(** the name of an S* substring: its place, from 1, among the distinct ones in increasing order *)
Definition star_name (T : list Z) (s : list Z) : Z := 1 + Z.of_nat (count (fun x => star_lt x s) (distinct_stars T)).
(** the head string: from the start up to and including the first S* position *)
Definition head_string (T : list Z) : list Z := firstn (S (next_lms T 0)) (T ++ [0]).
(** last S* position before x *)
Definition prev_lms (T : list Z) (x : nat) : option nat := find (fun y => (y <? x)%nat) (rev (lms_positions T)).
(** name of the piece that ends at S* position (or terminator) x *)
Definition name_before (T : list Z) (x : nat) : Z :=
  match prev_lms T x with
  | None => Z.of_nat (length (distinct_stars T)) + 1
  | Some y => star_name T (star_sub T y)
  end.
