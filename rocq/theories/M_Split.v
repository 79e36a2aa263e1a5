(** Model of src/sais{40,48,56}bit.cpp, where a cell is split over two or three arrays.
    The three files are the same program over different accessors; the program is written
    once over the accessors [ops] and then instantiated.  Line numbers refer to
    sais40bit.cpp.  A pair (or triple) of pointers P_L, P_U always has a common offset and
    is one [ptr].  Locals are as in M_Sais.v; c0, c1 and prev are int64_t. *)
From Verif Require Import Base M_PackedArray M_Cells M_Sais.
Open Scope Z_scope.

(** The cell accesses of the program text:
    [o_get P i] is get_XXbit_value(P_L, P_U, i); [o_put P i v] is set_XXbit_value(P_L, P_U, i, v);
    [o_zero P i] is P_L[i] = P_U[i] = 0; [o_nz P i] is P_L[i] != 0 || P_U[i] != 0;
    [o_new k] is new uint32_t[k] and new int8_t[k]; [o_del] is delete[] of these arrays, which
    become empty so that any later access is an error. *)
Record ops := mkops {
  o_st : Type;
  o_get : o_st -> ptr -> Z -> res Z;
  o_put : o_st -> ptr -> Z -> Z -> res o_st;
  o_zero : o_st -> ptr -> Z -> res o_st;
  o_nz : o_st -> ptr -> Z -> res bool;
  o_new : o_st -> Z -> o_st;
  o_del : o_st -> o_st }.

(** * Two parts: sais40bit.cpp (uw = 8) and sais48bit.cpp (uw = 16) *)
(** the caller's arrays SA_L, SA_U and the new'ed bucket arrays *)
Record st2 := mkst2 { m2L : arr Z; m2U : arr Z; t2L : arr Z; t2U : arr Z }.
(** include/sais40bit.hpp:20-23, include/sais48bit.hpp:20-23 *)
Definition get2p (s : st2) (p : ptr) (i : Z) : res Z :=
  match sp p with
  | InMem => get_2part (m2L s) (m2U s) (off p + i)
  | InTmp => get_2part (t2L s) (t2U s) (off p + i)
  end.
(** include/sais40bit.hpp:14-18, include/sais48bit.hpp:14-18 *)
Definition put2p (uw : Z) (s : st2) (p : ptr) (i v : Z) : res st2 :=
  _ <- fits (32 + uw) v ;;
  match sp p with
  | InMem => '(L, U) <- set_2part uw (m2L s) (m2U s) (off p + i) v ;; Ok (mkst2 L U (t2L s) (t2U s))
  | InTmp => '(L, U) <- set_2part uw (t2L s) (t2U s) (off p + i) v ;; Ok (mkst2 (m2L s) (m2U s) L U)
  end.
(** src/sais40bit.cpp:46,218,275,388,393 L[i] = U[i] = 0 *)
Definition zero2p (s : st2) (p : ptr) (i : Z) : res st2 :=
  match sp p with
  | InMem => U <- aset (m2U s) (off p + i) 0 ;; L <- aset (m2L s) (off p + i) 0 ;; Ok (mkst2 L U (t2L s) (t2U s))
  | InTmp => U <- aset (t2U s) (off p + i) 0 ;; L <- aset (t2L s) (off p + i) 0 ;; Ok (mkst2 (m2L s) (m2U s) L U)
  end.
(** src/sais40bit.cpp:337 SA_L[i] != 0 || SA_U[i] != 0 *)
Definition nz2p (s : st2) (p : ptr) (i : Z) : res bool :=
  let '(L, U) := match sp p with InMem => (m2L s, m2U s) | InTmp => (t2L s, t2U s) end in
  l <- aget L (off p + i) ;;
  if negb (l =? 0) then Ok true else (u <- aget U (off p + i) ;; Ok (negb (u =? 0))).
(** src/sais40bit.cpp:210-211, 379-380 *)
Definition new2p (s : st2) (k : Z) : st2 := mkst2 (m2L s) (m2U s) (anew k) (anew k).
(** src/sais40bit.cpp:241-245, 402-406 *)
Definition del2p (s : st2) : st2 := mkst2 (m2L s) (m2U s) (anew 0) (anew 0).
Definition ops2 (uw : Z) : ops := mkops st2 get2p (put2p uw) zero2p nz2p new2p del2p.

(** * Three parts: sais56bit.cpp *)
Record st3 := mkst3 { m3L : arr Z; m3M : arr Z; m3U : arr Z; t3L : arr Z; t3M : arr Z; t3U : arr Z }.
(** include/sais56bit.hpp:21-24 *)
Definition get3p (s : st3) (p : ptr) (i : Z) : res Z :=
  match sp p with
  | InMem => get_3part (m3L s) (m3M s) (m3U s) (off p + i)
  | InTmp => get_3part (t3L s) (t3M s) (t3U s) (off p + i)
  end.
(** include/sais56bit.hpp:14-19 *)
Definition put3p (s : st3) (p : ptr) (i v : Z) : res st3 :=
  _ <- fits 56 v ;;
  match sp p with
  | InMem => '(L, M, U) <- set_3part (m3L s) (m3M s) (m3U s) (off p + i) v ;; Ok (mkst3 L M U (t3L s) (t3M s) (t3U s))
  | InTmp => '(L, M, U) <- set_3part (t3L s) (t3M s) (t3U s) (off p + i) v ;; Ok (mkst3 (m3L s) (m3M s) (m3U s) L M U)
  end.
(** src/sais56bit.cpp:46,232,290,407,412 L[i] = M[i] = U[i] = 0 *)
Definition zero3p (s : st3) (p : ptr) (i : Z) : res st3 :=
  match sp p with
  | InMem => U <- aset (m3U s) (off p + i) 0 ;; M <- aset (m3M s) (off p + i) 0 ;; L <- aset (m3L s) (off p + i) 0 ;;
             Ok (mkst3 L M U (t3L s) (t3M s) (t3U s))
  | InTmp => U <- aset (t3U s) (off p + i) 0 ;; M <- aset (t3M s) (off p + i) 0 ;; L <- aset (t3L s) (off p + i) 0 ;;
             Ok (mkst3 (m3L s) (m3M s) (m3U s) L M U)
  end.
(** src/sais56bit.cpp:353 *)
Definition nz3p (s : st3) (p : ptr) (i : Z) : res bool :=
  let '(L, M, U) := match sp p with InMem => (m3L s, m3M s, m3U s) | InTmp => (t3L s, t3M s, t3U s) end in
  l <- aget L (off p + i) ;;
  if negb (l =? 0) then Ok true else
  m <- aget M (off p + i) ;;
  if negb (m =? 0) then Ok true else (u <- aget U (off p + i) ;; Ok (negb (u =? 0))).
(** src/sais56bit.cpp:223-225, 397-399 *)
Definition new3p (s : st3) (k : Z) : st3 := mkst3 (m3L s) (m3M s) (m3U s) (anew k) (anew k) (anew k).
(** src/sais56bit.cpp:255-260, 421-426 *)
Definition del3p (s : st3) : st3 := mkst3 (m3L s) (m3M s) (m3U s) (anew 0) (anew 0) (anew 0).
Definition ops3 : ops := mkops st3 get3p put3p zero3p nz3p new3p del3p.

Section Split.
Context (E : env) (W : Z) (OP : ops).
Notation st := (o_st OP).
Notation get := (o_get OP).
Notation put := (o_put OP).
Notation zero := (o_zero OP).

(** :37 macro chr(i): cells (TA_L, TA_U) if cs == W, else the packed words T (T is NULL at the
    recursive levels, TA_L and TA_U are NULL at level 0).  The value is a uint64_t. *)
Definition schr (s : st) (T : text) (i : Z) : res Z :=
  match T with
  | TPack words cs => if cs =? W then Err NullDeref else M_PackedArray.get2 E words (i + 1) cs
  | TCells base => v <- get s (mkptr InMem base) i ;; Ok (wrap 64 v)
  end.

(** c0 = chr(i) for an int64_t local *)
Definition schr64 (s : st) (T : text) (i : Z) : res Z := c <- schr s T i ;; Ok (swrap 64 c).

(** :42-54 *)
Definition sget_counts (s : st) (T : text) (C : ptr) (n k : Z) : res st :=
  s <- for_up 0 k (fun i s => zero s C i) s ;;
  for_up 0 n (fun i s => index <- schr s T i ;; v <- get s C index ;; put s C index (v + 1)) s.

(** :59-83 *)
Definition sget_buckets (s : st) (C B : ptr) (k : Z) (e : bool) : res st :=
  '(s, _) <- (if e then
      for_up 0 k (fun i '(s, sum) => v <- get s C i ;; s <- put s B i (sum + v) ;; Ok (s, sum + v)) (s, 0)
    else
      for_up 0 k (fun i '(s, sum) => v <- get s C i ;; s <- put s B i sum ;; Ok (s, sum + v)) (s, 0)) ;;
  Ok s.

(** :124-131 and :158-165; b is b_L - SA_L *)
Definition sswitch_bucket (s : st) (B : ptr) (c0 c1 b : Z) : res (st * Z * Z) :=
  if c0 =? c1 then Ok (s, c1, b)
  else s <- put s B c1 b ;; b' <- get s B c0 ;; Ok (s, c0, b').

(** :111, :133 ((0 < j) && (chr(j - 1) < (uint64_t)c1)) ? ~j : j *)
Definition smarkL (s : st) (T : text) (j c1 : Z) : res Z :=
  if 0 <? j then (c <- schr s T (j - 1) ;; Ok (if c <? wrap 64 c1 then lnot j else j)) else Ok j.
(** :167 ((j == 0) || (chr(j - 1) > (uint64_t)c1)) ? ~j : j *)
Definition smarkS (s : st) (T : text) (j c1 : Z) : res Z :=
  if j =? 0 then Ok (lnot j) else (c <- schr s T (j - 1) ;; Ok (if wrap 64 c1 <? c then lnot j else j)).

(** :114-136 loop body *)
Definition sstepL (T : text) (B : ptr) (i : Z) (x : st * Z * Z) : res (st * Z * Z) :=
  let '(s, c1, b) := x in
  j <- get s SA i ;;
  s <- put s SA i (lnot j) ;;
  if 0 <? j then
    let j := j - 1 in
    c0 <- schr64 s T j ;;
    '(s, c1, b) <- sswitch_bucket s B c0 c1 b ;;
    v <- smarkL s T j c1 ;;
    s <- put s SA b v ;;
    Ok (s, c1, b + 1)
  else Ok (s, c1, b).

(** :150-176 loop body *)
Definition sstepS (T : text) (B : ptr) (i : Z) (x : st * Z * Z) : res (st * Z * Z) :=
  let '(s, c1, b) := x in
  j <- get s SA i ;;
  if 0 <? j then
    let j := j - 1 in
    c0 <- schr64 s T j ;;
    '(s, c1, b) <- sswitch_bucket s B c0 c1 b ;;
    v <- smarkS s T j c1 ;;
    let b := b - 1 in
    s <- put s SA b v ;;
    Ok (s, c1, b)
  else
    s <- put s SA i (lnot j) ;; Ok (s, c1, b).

(** :88-177 induce_SA, the two halves :97-136 and :138-176 *)
Definition sinduce_L (s : st) (T : text) (C B : ptr) (n k : Z) : res st :=
  s <- (if ptr_eqb C B then sget_counts s T C n k else Ok s) ;;
  s <- sget_buckets s C B k false ;;
  let j := n - 1 in
  c1 <- schr64 s T j ;;
  b <- get s B c1 ;;
  v <- smarkL s T j c1 ;;
  s <- put s SA b v ;;
  '(s, _, _) <- for_up 0 n (sstepL T B) (s, c1, b + 1) ;;
  Ok s.
Definition sinduce_S (s : st) (T : text) (C B : ptr) (n k : Z) : res st :=
  s <- (if ptr_eqb C B then sget_counts s T C n k else Ok s) ;;
  s <- sget_buckets s C B k true ;;
  b <- get s B 0 ;;
  '(s, _, _) <- for_down (n - 1) 0 (sstepS T B) (s, 0, b) ;;
  Ok s.
Definition sinduce_SA (s : st) (T : text) (C B : ptr) (n k : Z) : res st :=
  s <- sinduce_L s T C B n k ;;
  sinduce_S s T C B n k.

(** :201-212 and :370-381 *)
Definition schoose_buckets (s : st) (n k fs : Z) : st * ptr * ptr :=
  if k <=? fs then
    (s, mkptr InMem n, if k <=? fs - k then mkptr InMem (n + k) else mkptr InMem n)
  else (o_new OP s k, mkptr InTmp 0, mkptr InTmp 0).

(** :241-245 and :402-406 *)
Definition sdelete_buckets (s : st) (k fs : Z) : st := if fs <? k then o_del OP s else s.

(** :260-265 *)
Definition sskip_equal (s : st) (T : text) (n p c0 : Z) : res (Z * Z) :=
  loop (S (Z.to_nat n)) (fun '(j, c1) =>
    if j <? n then
      c1 <- schr64 s T j ;;
      if c0 =? c1 then Ok (inl (j + 1, c1)) else Ok (inr (j, c1))
    else Ok (inr (j, c1))) (p + 1, 0).

(** :248-271 *)
Definition scompact_lms (s : st) (T : text) (n : Z) : res (st * Z) :=
  for_up 0 n (fun i '(s, m) =>
    p <- get s SA i ;;
    if 0 <? p then
      prev <- schr64 s T (p - 1) ;;
      c0 <- schr64 s T p ;;
      if c0 <? prev then
        '(j, c1) <- sskip_equal s T n p c0 ;;
        if (j <? n) && (c0 <? c1) then (s <- put s SA m p ;; Ok (s, m + 1)) else Ok (s, m)
      else Ok (s, m)
    else Ok (s, m)) (s, 0).

(** :310-317 *)
Definition ssame_sub (s : st) (T : text) (p q plen : Z) : res bool :=
  loop (S (Z.to_nat plen)) (fun j =>
    if j <? plen then
      a <- schr s T (p + j) ;; b <- schr s T (q + j) ;;
      if a =? b then Ok (inl (j + 1)) else Ok (inr false)
    else Ok (inr true)) 0.

(** :297-328 *)
Definition sname_lms (s : st) (T : text) (n m : Z) : res (st * Z) :=
  '(s, name, _, _) <- for_up 0 m (fun i '(s, name, q, qlen) =>
      p <- get s SA i ;;
      let index := m + Z.shiftr p 1 in
      plen <- get s SA index ;;
      same <- (if plen =? qlen then ssame_sub s T p q plen else Ok false) ;;
      let '(name, q, qlen) := if (same : bool) then (name, q, qlen) else (name + 1, p, plen) in
      s <- put s SA index name ;;
      Ok (s, name, q, qlen)) (s, 0, n, 0) ;;
  Ok (s, name).

(** :217-218, :274-275, :387-388 *)
Definition szero_range (s : st) (lo hi : Z) : res st :=
  for_up lo hi (fun i s => zero s SA i) s.

(** :200-328 stage 1; [lms_scan] (M_Sais.v) is the loop shape of :220-237, :278-295, :346-359 *)
Definition sstage1 (s : st) (T : text) (fs n k : Z) : res (st * Z * Z) :=
  let '(s, C, B) := schoose_buckets s n k fs in
  s <- sget_counts s T C n k ;;
  s <- sget_buckets s C B k true ;;
  s <- szero_range s 0 n ;;
  s <- lms_scan (fun s i => schr64 s T i) n (fun i c1 s =>
         b <- get s B c1 ;; s <- put s B c1 (b - 1) ;; put s SA (b - 1) (i + 1)) s ;;
  s <- sinduce_SA s T C B n k ;;
  let s := sdelete_buckets s k fs in
  '(s, m) <- scompact_lms s T n ;;
  s <- szero_range s m n ;;
  '(s, _) <- lms_scan (fun x i => schr64 (fst x) T i) n (fun i _ '(s, j) =>
         s <- put s SA (m + Z.shiftr (i + 1) 1) (j - i - 1) ;; Ok (s, i + 1)) (s, n) ;;
  '(s, name) <- sname_lms s T n m ;;
  Ok (s, m, name).

(** :333-342 *)
Definition scollect_names (s : st) (fs n m : Z) : res st :=
  let RA := mkptr InMem (n + fs - m) in
  '(s, _) <- for_down (n - 1) m (fun i '(s, j) =>
      nz <- o_nz OP s SA i ;;
      if (nz : bool) then (v <- get s SA i ;; s <- put s RA j (v - 1) ;; Ok (s, j - 1)) else Ok (s, j)) (s, m - 1) ;;
  Ok s.

(** :346-366 *)
Definition stranslate (s : st) (T : text) (fs n m : Z) : res st :=
  let RA := mkptr InMem (n + fs - m) in
  '(s, _) <- lms_scan (fun x i => schr64 (fst x) T i) n (fun i _ '(s, j) =>
         s <- put s RA j (i + 1) ;; Ok (s, j - 1)) (s, m - 1) ;;
  for_up 0 m (fun i s => x <- get s SA i ;; v <- get s RA x ;; put s SA i v) s.

(** :369-406 *)
Definition sstage3 (s : st) (T : text) (fs n k m : Z) : res st :=
  let '(s, C, B) := schoose_buckets s n k fs in
  s <- sget_counts s T C n k ;;
  s <- sget_buckets s C B k true ;;
  s <- szero_range s m n ;;
  s <- for_down (m - 1) 0 (fun i s =>
         j <- get s SA i ;;
         s <- zero s SA i ;;
         c <- schr s T j ;;
         b <- get s B c ;;
         s <- put s B c (b - 1) ;;
         put s SA (b - 1) j) s ;;
  s <- sinduce_SA s T C B n k ;;
  Ok (sdelete_buckets s k fs).

(** :179-407 sais_40bit *)
Fixpoint ssais (fuel : nat) (s : st) (T : text) (fs n k : Z) : res st :=
  match fuel with
  | O => Err Diverge
  | S f =>
    '(s, m, name) <- sstage1 s T fs n k ;;
    s <- (if name <? m then
            s <- scollect_names s fs n m ;;
            s <- ssais f s (TCells (n + fs - m)) (fs + n - m * 2) m name ;;
            stranslate s T fs n m
          else Ok s) ;;
    sstage3 s T fs n k m
  end.
End Split.

(** src/sais40bit.cpp:179-407 *)
Definition sais_40bit (E : env) := ssais E 40 (ops2 8).
(** src/sais48bit.cpp:179-407 *)
Definition sais_48bit (E : env) := ssais E 48 (ops2 16).
(** src/sais56bit.cpp:187-426 *)
Definition sais_56bit (E : env) := ssais E 56 ops3.
(** src/sais32bit.cpp:155-353, src/sais64bit.cpp:155-352 (M_Sais.v) *)
Definition sais_32bit (E : env) := sais E 32.
Definition sais_64bit (E : env) := sais E 64.
