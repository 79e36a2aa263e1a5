(** Model of src/sais{32,64}bit.cpp.
    The five sais files are the same program over cells of width W (compared with diff;
    the differences are the cell accessors and the integer type of some locals).  This
    file has plain cells; the 40/48/56 variants, whose cells are split over two or three
    arrays, are modelled in M_Split.v.  Line numbers refer to sais32bit.cpp.

    Memory: the caller's array SA together with its fs spare cells is [mem]; pointers
    C, B, RA, and at deeper levels T, point into it.  The bucket array obtained by
    new int32_t[k] is the separate block [tmp].  A cell holds
    an intW_t; storing any other value is the error Overflow.
    The locals that receive characters (c0, c1, prev) have their C types: see [lw].  The
    other locals hold positions, lengths, counts and cell values and are unbounded integers
    (each is a cell value or is bounded by n + fs or k). *)
From Verif Require Import Base M_PackedArray.
Open Scope Z_scope.

Record st := mkst { mem : arr Z; tmp : arr Z }.

(** int*_t pointers: into SA's block or into the new'ed block *)
Inductive space := InMem | InTmp.
Definition space_eqb (a b : space) : bool :=
  match a, b with InMem, InMem => true | InTmp, InTmp => true | _, _ => false end.
Record ptr := mkptr { sp : space; off : Z }.
Definition ptr_eqb (p q : ptr) : bool := space_eqb (sp p) (sp q) && (off p =? off q).
Definition padd (p : ptr) (i : Z) : ptr := mkptr (sp p) (off p + i).

Definition rd (s : st) (p : ptr) (i : Z) : res Z :=
  match sp p with InMem => aget (mem s) (off p + i) | InTmp => aget (tmp s) (off p + i) end.
(** storing a value that a cell cannot hold is an error: no cell is ever truncated *)
Definition wr (W : Z) (s : st) (p : ptr) (i v : Z) : res st :=
  _ <- fits W v ;;
  match sp p with
  | InMem => a <- aset (mem s) (off p + i) v ;; Ok (mkst a (tmp s))
  | InTmp => a <- aset (tmp s) (off p + i) v ;; Ok (mkst (mem s) a)
  end.
Definition SA : ptr := mkptr InMem 0.

(** The text: the raw words of a PackedArray with cs-bit elements (level 0), or an array of
    W-bit cells inside SA's block (recursive levels, cs == W). *)
Inductive text := TPack (words : arr Z) (cs : Z) | TCells (base : Z).

(** :38 macro chr(i).  At level 0 element i + 1 of the packed array is read (element 0 is the
    head string).  The value has type uint64_t; a 32-bit cell is read as uint32_t.
    The macro tells the two representations apart by cs == W: packed words with cs = W would be
    read as cells (through a NULL pointer in the 40/48/56 variants), an error here. *)
Definition chr (E : env) (W : Z) (s : st) (T : text) (i : Z) : res Z :=
  match T with
  | TPack words cs => if cs =? W then Err NullDeref else get2 E words (i + 1) cs
  | TCells base => v <- rd s (mkptr InMem base) i ;; Ok (wrap (if W =? 32 then 32 else 64) v)
  end.

(** type of c0, c1 in induce_SA (:83-84) and of prev (:219): int32_t in sais32bit.cpp, int64_t
    in the others *)
Definition lw (W : Z) : Z := if W =? 32 then 32 else 64.
(** c0 = chr(i) for such a local *)
Definition chrl (E : env) (W : Z) (s : st) (T : text) (i : Z) : res Z :=
  c <- chr E W s T i ;; Ok (swrap (lw W) c).
(** c0 = chr(i) for an int64_t local (:160-162) *)
Definition chr64 (E : env) (W : Z) (s : st) (T : text) (i : Z) : res Z :=
  c <- chr E W s T i ;; Ok (swrap 64 c).

Section Sais.
Context (E : env) (W : Z).
Notation chr := (chr E W).
Notation chrl := (chrl E W).
Notation chr64 := (chr64 E W).
Notation wr := (wr W).

(** :43-50 get_counts *)
Definition get_counts (s : st) (T : text) (C : ptr) (n k : Z) : res st :=
  s <- for_up 0 k (fun i s => wr s C i 0) s ;;
  for_up 0 n (fun i s => c <- chr s T i ;; v <- rd s C c ;; wr s C c (v + 1)) s.

(** :55-75 get_buckets *)
Definition get_buckets (s : st) (C B : ptr) (k : Z) (e : bool) : res st :=
  '(s, _) <- for_up 0 k (fun i '(s, sum) =>
      c <- rd s C i ;;
      let sum' := sum + c in
      s <- wr s B i (if e then sum' else sum' - c) ;;
      Ok (s, sum')) (s, 0) ;;
  Ok s.

(** ~j on int *)
Definition lnot (j : Z) : Z := - j - 1.

(** :108-118 and :135-147 : make b point at the bucket of character c0, saving the old one *)
Definition switch_bucket (s : st) (B : ptr) (c0 c1 b : Z) : res (st * Z * Z) :=
  if c0 =? c1 then Ok (s, c1, b)
  else s <- wr s B c1 b ;; b' <- rd s B c0 ;; Ok (s, c0, b').

(** :99, :117 ((0 < j) && (chr(j - 1) < (uint32_t)c1)) ? ~j : j *)
Definition markL (s : st) (T : text) (j c1 : Z) : res Z :=
  if 0 <? j then (c <- chr s T (j - 1) ;; Ok (if c <? wrap (lw W) c1 then lnot j else j)) else Ok j.
(** :146 ((j == 0) || (chr(j - 1) > (uint32_t)c1)) ? ~j : j *)
Definition markS (s : st) (T : text) (j c1 : Z) : res Z :=
  if j =? 0 then Ok (lnot j) else (c <- chr s T (j - 1) ;; Ok (if wrap (lw W) c1 <? c then lnot j else j)).

(** :101-119 body of the left-to-right scan; state: memory, c1, b (as an index of SA) *)
Definition stepL (T : text) (B : ptr) (i : Z) (x : st * Z * Z) : res (st * Z * Z) :=
  let '(s, c1, b) := x in
  j <- rd s SA i ;;
  s <- wr s SA i (lnot j) ;;
  if 0 <? j then
    let j := j - 1 in
    c0 <- chrl s T j ;;
    '(s, c1, b) <- switch_bucket s B c0 c1 b ;;
    v <- markL s T j c1 ;;
    s <- wr s SA b v ;;
    Ok (s, c1, b + 1)
  else Ok (s, c1, b).

(** :131-152 body of the right-to-left scan *)
Definition stepS (T : text) (B : ptr) (i : Z) (x : st * Z * Z) : res (st * Z * Z) :=
  let '(s, c1, b) := x in
  j <- rd s SA i ;;
  if 0 <? j then
    let j := j - 1 in
    c0 <- chrl s T j ;;
    '(s, c1, b) <- switch_bucket s B c0 c1 b ;;
    v <- markS s T j c1 ;;
    let b := b - 1 in
    s <- wr s SA b v ;;
    Ok (s, c1, b)
  else
    s <- wr s SA i (lnot j) ;; Ok (s, c1, b).

(** :87-119 first half of induce_SA *)
Definition induce_L (s : st) (T : text) (C B : ptr) (n k : Z) : res st :=
  s <- (if ptr_eqb C B then get_counts s T C n k else Ok s) ;;
  s <- get_buckets s C B k false ;;
  let j := n - 1 in
  c1 <- chrl s T j ;;
  b <- rd s B c1 ;;
  v <- markL s T j c1 ;;
  s <- wr s SA b v ;;
  '(s, _, _) <- for_up 0 n (stepL T B) (s, c1, b + 1) ;;
  Ok s.

(** :121-152 second half of induce_SA *)
Definition induce_S (s : st) (T : text) (C B : ptr) (n k : Z) : res st :=
  s <- (if ptr_eqb C B then get_counts s T C n k else Ok s) ;;
  s <- get_buckets s C B k true ;;
  b <- rd s B 0 ;;
  '(s, _, _) <- for_down (n - 1) 0 (stepS T B) (s, 0, b) ;;
  Ok s.

(** :80-153 induce_SA *)
Definition induce_SA (s : st) (T : text) (C B : ptr) (n k : Z) : res st :=
  s <- induce_L s T C B n k ;;
  induce_S s T C B n k.

(** :173-181 (and :325-333) choice of the bucket arrays.  new int32_t[k]: fresh block [tmp] *)
Definition choose_buckets (s : st) (n k fs : Z) : st * ptr * ptr :=
  if k <=? fs then
    (s, mkptr InMem n, if k <=? fs - k then mkptr InMem (n + k) else mkptr InMem n)
  else (mkst (mem s) (anew k), mkptr InTmp 0, mkptr InTmp 0).

(** :208-209 (and :351-352) if (fs < k) delete[] C: [tmp] becomes an empty block, so that any later
    access is an error *)
Definition delete_buckets (s : st) (k fs : Z) : st := if fs <? k then mkst (mem s) (anew 0) else s.

(** Right-to-left LMS scan shared by :189-204, :242-259 and :306-318: calls [f i s] at every
    i such that i + 1 is an LMS position. State of the scan: c (0/1), c1. *)
Definition lms_scan {A} (chrf : A -> Z -> res Z) (n : Z)
    (f : Z -> Z -> A -> res A) (a : A) : res A :=
  c1 <- chrf a (n - 1) ;;
  '(a, _, _) <- for_down (n - 2) 0 (fun i '(a, c, c1) =>
      c0 <- chrf a i ;;
      if c0 <? c1 + c then Ok (a, 1, c0)
      else if negb (c =? 0) then (a <- f i c1 a ;; Ok (a, 0, c0))
      else Ok (a, c, c0)) (a, 0, c1) ;;
  Ok a.

(** :224-229 first j > p with chr(j) <> c0 (j = n if none); returns j and the last chr read *)
Definition skip_equal (s : st) (T : text) (n p c0 : Z) : res (Z * Z) :=
  loop (S (Z.to_nat n)) (fun '(j, c1) =>
    if j <? n then
      c1 <- chr64 s T j ;;
      if c0 =? c1 then Ok (inl (j + 1, c1)) else Ok (inr (j, c1))
    else Ok (inr (j, c1))) (p + 1, 0).

(** :212-235 compact the sorted LMS positions into SA[0..m) *)
Definition compact_lms (s : st) (T : text) (n : Z) : res (st * Z) :=
  for_up 0 n (fun i '(s, m) =>
    p <- rd s SA i ;;
    if 0 <? p then
      prev <- chrl s T (p - 1) ;;
      c0 <- chr64 s T p ;;
      if c0 <? prev then
        '(j, c1) <- skip_equal s T n p c0 ;;
        if (j <? n) && (c0 <? c1) then (s <- wr s SA m p ;; Ok (s, m + 1)) else Ok (s, m)
      else Ok (s, m)
    else Ok (s, m)) (s, 0).

(** :274-278 are the two substrings of length plen at p and q equal? *)
Definition same_sub (s : st) (T : text) (p q plen : Z) : res bool :=
  loop (S (Z.to_nat plen)) (fun j =>
    if j <? plen then
      a <- chr s T (p + j) ;; b <- chr s T (q + j) ;;
      if a =? b then Ok (inl (j + 1)) else Ok (inr false)
    else Ok (inr true)) 0.

(** :261-292 names *)
Definition name_lms (s : st) (T : text) (n m : Z) : res (st * Z) :=
  '(s, name, _, _) <- for_up 0 m (fun i '(s, name, q, qlen) =>
      p <- rd s SA i ;;
      let index := m + Z.shiftr p 1 in
      plen <- rd s SA index ;;
      same <- (if plen =? qlen then same_sub s T p q plen else Ok false) ;;
      let '(name, q, qlen) := if (same : bool) then (name, q, qlen) else (name + 1, p, plen) in
      s <- wr s SA index name ;;
      Ok (s, name, q, qlen)) (s, 0, n, 0) ;;
  Ok (s, name).

Definition zero_range (s : st) (lo hi : Z) : res st :=
  for_up lo hi (fun i s => wr s SA i 0) s.

(** :183-292 stage 1: returns memory, number m of LMS positions, number of names *)
Definition stage1 (s : st) (T : text) (fs n k : Z) : res (st * Z * Z) :=
  let '(s, C, B) := choose_buckets s n k fs in
  s <- get_counts s T C n k ;;
  s <- get_buckets s C B k true ;;
  s <- zero_range s 0 n ;;
  s <- lms_scan (fun s i => chr64 s T i) n (fun i c1 s =>
         b <- rd s B c1 ;; s <- wr s B c1 (b - 1) ;; wr s SA (b - 1) (i + 1)) s ;;
  s <- induce_SA s T C B n k ;;
  let s := delete_buckets s k fs in
  '(s, m) <- compact_lms s T n ;;
  s <- zero_range s m n ;;
  '(s, _) <- lms_scan (fun x i => chr64 (fst x) T i) n (fun i _ '(s, j) =>
         s <- wr s SA (m + Z.shiftr (i + 1) 1) (j - i - 1) ;; Ok (s, i + 1)) (s, n) ;;
  '(s, name) <- name_lms s T n m ;;
  Ok (s, m, name).

(** :297-302 copy the names of the LMS substrings, in text order, to RA *)
Definition collect_names (s : st) (fs n m : Z) : res st :=
  let RA := mkptr InMem (n + fs - m) in
  '(s, _) <- for_down (n - 1) m (fun i '(s, j) =>
      v <- rd s SA i ;;
      if v =? 0 then Ok (s, j) else (s <- wr s RA j (v - 1) ;; Ok (s, j - 1))) (s, m - 1) ;;
  Ok s.

(** :306-321 translate the suffix array of RA into LMS positions *)
Definition translate (s : st) (T : text) (fs n m : Z) : res st :=
  let RA := mkptr InMem (n + fs - m) in
  '(s, _) <- lms_scan (fun x i => chr64 (fst x) T i) n (fun i _ '(s, j) =>
         s <- wr s RA j (i + 1) ;; Ok (s, j - 1)) (s, m - 1) ;;
  for_up 0 m (fun i s => x <- rd s SA i ;; v <- rd s RA x ;; wr s SA i v) s.

(** :324-352 stage 3 *)
Definition stage3 (s : st) (T : text) (fs n k m : Z) : res st :=
  let '(s, C, B) := choose_buckets s n k fs in
  s <- get_counts s T C n k ;;
  s <- get_buckets s C B k true ;;
  s <- zero_range s m n ;;
  s <- for_down (m - 1) 0 (fun i s =>
         j <- rd s SA i ;;
         s <- wr s SA i 0 ;;
         c <- chr s T j ;;
         b <- rd s B c ;;
         s <- wr s B c (b - 1) ;;
         wr s SA (b - 1) j) s ;;
  s <- induce_SA s T C B n k ;;
  Ok (delete_buckets s k fs).

(** :155-353 sais_32bit.  [fuel] bounds the recursion depth (n halves at every level). *)
Fixpoint sais (fuel : nat) (s : st) (T : text) (fs n k : Z) : res st :=
  match fuel with
  | O => Err Diverge
  | S f =>
    '(s, m, name) <- stage1 s T fs n k ;;
    s <- (if name <? m then
            s <- collect_names s fs n m ;;
            s <- sais f s (TCells (n + fs - m)) (fs + n - m * 2) m name ;;
            translate s T fs n m
          else Ok s) ;;
    stage3 s T fs n k m
  end.
End Sais.
(** the number of nested calls of sais_XXbit that bwt_is is given in the model; more would be the
    error Diverge.  The theorems show that it is never reached. *)
Definition DEPTH : nat := 64.
