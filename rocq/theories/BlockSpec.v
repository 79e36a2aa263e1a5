(** How the records of the hash table are laid out in the string buffer, as a function of the text alone:
    which S* substrings begin a new block. *)
From Coq Require Import ZArith List.
From Verif Require Import Spec.
Import ListNotations.
Open Scope Z_scope.

(** number of bytes of v >= 1 in base 256 *)
Definition byte_len (v : Z) : Z := Z.log2 v / 8 + 1.
(** the bucket of a string among hts buckets: the string as a polynomial at 101, modulo 2^64, modulo hts *)
Definition bucket (hts : Z) (s : list Z) : Z := (fold_left (fun x c => x * 101 + c) s 0) mod 2 ^ 64 mod hts.
(** bytes of the record of s, for a text of n bytes: number of length bytes, length, sentinel, string, name *)
Definition record_bytes (n : Z) (s : list Z) : Z :=
  1 + byte_len (Z.of_nat (length s)) + 1 + Z.of_nat (length s) + byte_len (n / 2 + 1).

(** strings stored, bytes left in the current block of each bucket, strings that began a block *)
Record layout := mklayout { stored : list (list Z); room : Z -> Z; firsts : list (list Z) }.
(** a new string goes into the rest of its bucket's current block if at least 13 bytes remain behind it; otherwise it
    begins a new block, in which B bytes remain behind it *)
Definition store_in (B hts n : Z) (L : layout) (s : list Z) : layout :=
  if in_dec (list_eq_dec Z.eq_dec) s (stored L) then L else
  let b := bucket hts s in
  if record_bytes n s + 12 <? room L b
  then mklayout (s :: stored L) (fun x => if x =? b then room L b - record_bytes n s else room L x) (firsts L)
  else mklayout (s :: stored L) (fun x => if x =? b then B else room L x) (s :: firsts L).
Definition empty_layout : layout := mklayout [] (fun _ => 0) [].
(** the code's blocks leave 512 bytes *)
Definition store (hts n : Z) : layout -> list Z -> layout := store_in 512 hts n.
(** the S* substrings of T are stored from right to left *)
Definition text_layout (hts : Z) (T : list Z) : layout :=
  fold_left (store hts (Z.of_nat (length T))) (rev (map (star_sub T) (lms_positions T))) empty_layout.

(** some record at the beginning of a block, or the head, has a length divisible by 256 *)
Definition unwritten_length (hts : Z) (T : list Z) : Prop :=
  Z.of_nat (next_lms T 0 + 1) mod 256 = 0 \/
  exists s, In s (firsts (text_layout hts T)) /\ Z.of_nat (length s) mod 256 = 0.
