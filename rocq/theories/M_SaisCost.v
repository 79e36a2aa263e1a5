(** The five programs src/sais{32,40,48,56,64}bit.cpp with a counter of executed steps.
    The text is that of M_Sais.v / M_Split.v, statement by statement; every access to a cell of SA
    or of a bucket array, every character read and every evaluation of a loop condition counts as
    one step (each takes a bounded number of machine instructions), as do new[] and delete[] (the
    cells they create are not initialised).  Arithmetic on locals is attributed to the access or
    loop test next to it.
    P_SaisCost.v shows that dropping the counter gives the programs of M_Sais.v and M_Split.v.
    Line numbers refer to sais32bit.cpp. *)
From Verif Require Import Base M_PackedArray M_Sais M_Split.
Open Scope Z_scope.

(** a result with the number of steps taken *)
Definition cres (A : Type) : Type := res (A * Z).
Definition cret {A} (a : A) : cres A := Ok (a, 0).
Definition tick {A} (m : res A) : cres A := a <- m ;; Ok (a, 1).
Definition cbind {A B} (m : cres A) (f : A -> cres B) : cres B :=
  '(a, c) <- m ;; '(b, d) <- f a ;; Ok (b, c + d).
Notation "x <~ m ;; k" := (cbind m (fun x => k)) (at level 61, m at next level, right associativity).
Notation "' p <~ m ;; k" := (cbind m (fun p => k)) (at level 61, p pattern, m at next level, right associativity).

(** loops: one step for every evaluation of the condition *)
Fixpoint cfor_n {S} (cnt : nat) (i : Z) (body : Z -> S -> cres S) (s : S) : cres S :=
  match cnt with
  | O => tick (Ok s)
  | S c => _ <~ tick (Ok tt) ;; s' <~ body i s ;; cfor_n c (i + 1) body s'
  end.
Definition cfor_up {S} (lo hi : Z) (body : Z -> S -> cres S) (s : S) : cres S :=
  cfor_n (Z.to_nat (hi - lo)) lo body s.
Fixpoint cford_n {S} (cnt : nat) (i : Z) (body : Z -> S -> cres S) (s : S) : cres S :=
  match cnt with
  | O => tick (Ok s)
  | S c => _ <~ tick (Ok tt) ;; s' <~ body i s ;; cford_n c (i - 1) body s'
  end.
Definition cfor_down {S} (hi lo : Z) (body : Z -> S -> cres S) (s : S) : cres S :=
  cford_n (Z.to_nat (hi - lo + 1)) hi body s.
Fixpoint cloop {S R} (fuel : nat) (step : S -> cres (S + R)) (s : S) : cres R :=
  match fuel with
  | O => Err Diverge
  | S f => _ <~ tick (Ok tt) ;; x <~ step s ;;
           match x with inl s' => cloop f step s' | inr r => cret r end
  end.

(** the plain cells of sais32bit.cpp and sais64bit.cpp (M_Sais.v) as accessors *)
Definition ops1 (W : Z) : ops :=
  mkops M_Sais.st rd (wr W) (fun s p i => wr W s p i 0)
    (fun s p i => v <- rd s p i ;; Ok (negb (v =? 0)))
    (fun s k => mkst (mem s) (anew k)) (fun s => mkst (mem s) (anew 0)).

Section Cost.
Context (E : env) (W : Z) (OP : ops).
Notation st := (o_st OP).

(** one step each *)
Definition get (s : st) (p : ptr) (i : Z) : cres Z := tick (o_get OP s p i).
Definition put (s : st) (p : ptr) (i v : Z) : cres st := tick (o_put OP s p i v).
Definition zero (s : st) (p : ptr) (i : Z) : cres st := tick (o_zero OP s p i).
Definition nz (s : st) (p : ptr) (i : Z) : cres bool := tick (o_nz OP s p i).

(** :38 macro chr(i) *)
Definition chr0 (s : st) (T : text) (i : Z) : res Z :=
  match T with
  | TPack words cs => if cs =? W then Err NullDeref else M_PackedArray.get2 E words (i + 1) cs
  | TCells base => v <- o_get OP s (mkptr InMem base) i ;; Ok (wrap (lw W) v)
  end.
Definition cchr (s : st) (T : text) (i : Z) : cres Z := tick (chr0 s T i).
Definition cchrl (s : st) (T : text) (i : Z) : cres Z := c <~ cchr s T i ;; cret (swrap (lw W) c).
Definition cchr64 (s : st) (T : text) (i : Z) : cres Z := c <~ cchr s T i ;; cret (swrap 64 c).

(** :43-50 get_counts *)
Definition cget_counts (s : st) (T : text) (C : ptr) (n k : Z) : cres st :=
  s <~ cfor_up 0 k (fun i s => zero s C i) s ;;
  cfor_up 0 n (fun i s => c <~ cchr s T i ;; v <~ get s C c ;; put s C c (v + 1)) s.

(** :55-75 get_buckets *)
Definition cget_buckets (s : st) (C B : ptr) (k : Z) (e : bool) : cres st :=
  '(s, _) <~ cfor_up 0 k (fun i '(s, sum) =>
      v <~ get s C i ;;
      s <~ put s B i (if e then sum + v else sum) ;;
      cret (s, sum + v)) (s, 0) ;;
  cret s.

(** :108-118 and :135-147 *)
Definition cswitch_bucket (s : st) (B : ptr) (c0 c1 b : Z) : cres (st * Z * Z) :=
  if c0 =? c1 then cret (s, c1, b)
  else s <~ put s B c1 b ;; b' <~ get s B c0 ;; cret (s, c0, b').

(** :99, :117 *)
Definition cmarkL (s : st) (T : text) (j c1 : Z) : cres Z :=
  if 0 <? j then (c <~ cchr s T (j - 1) ;; cret (if c <? wrap (lw W) c1 then lnot j else j)) else cret j.
(** :146 *)
Definition cmarkS (s : st) (T : text) (j c1 : Z) : cres Z :=
  if j =? 0 then cret (lnot j) else (c <~ cchr s T (j - 1) ;; cret (if wrap (lw W) c1 <? c then lnot j else j)).

(** :101-119 *)
Definition cstepL (T : text) (B : ptr) (i : Z) (x : st * Z * Z) : cres (st * Z * Z) :=
  let '(s, c1, b) := x in
  j <~ get s SA i ;;
  s <~ put s SA i (lnot j) ;;
  if 0 <? j then
    let j := j - 1 in
    c0 <~ cchrl s T j ;;
    '(s, c1, b) <~ cswitch_bucket s B c0 c1 b ;;
    v <~ cmarkL s T j c1 ;;
    s <~ put s SA b v ;;
    cret (s, c1, b + 1)
  else cret (s, c1, b).

(** :131-152 *)
Definition cstepS (T : text) (B : ptr) (i : Z) (x : st * Z * Z) : cres (st * Z * Z) :=
  let '(s, c1, b) := x in
  j <~ get s SA i ;;
  if 0 <? j then
    let j := j - 1 in
    c0 <~ cchrl s T j ;;
    '(s, c1, b) <~ cswitch_bucket s B c0 c1 b ;;
    v <~ cmarkS s T j c1 ;;
    let b := b - 1 in
    s <~ put s SA b v ;;
    cret (s, c1, b)
  else
    s <~ put s SA i (lnot j) ;; cret (s, c1, b).

(** :87-119 *)
Definition cinduce_L (s : st) (T : text) (C B : ptr) (n k : Z) : cres st :=
  s <~ (if ptr_eqb C B then cget_counts s T C n k else cret s) ;;
  s <~ cget_buckets s C B k false ;;
  let j := n - 1 in
  c1 <~ cchrl s T j ;;
  b <~ get s B c1 ;;
  v <~ cmarkL s T j c1 ;;
  s <~ put s SA b v ;;
  '(s, _, _) <~ cfor_up 0 n (cstepL T B) (s, c1, b + 1) ;;
  cret s.

(** :121-152 *)
Definition cinduce_S (s : st) (T : text) (C B : ptr) (n k : Z) : cres st :=
  s <~ (if ptr_eqb C B then cget_counts s T C n k else cret s) ;;
  s <~ cget_buckets s C B k true ;;
  b <~ get s B 0 ;;
  '(s, _, _) <~ cfor_down (n - 1) 0 (cstepS T B) (s, 0, b) ;;
  cret s.

(** :80-153 *)
Definition cinduce_SA (s : st) (T : text) (C B : ptr) (n k : Z) : cres st :=
  s <~ cinduce_L s T C B n k ;;
  cinduce_S s T C B n k.

(** :173-181 (and :325-333), :208-209 (and :351-352): one step each *)
Definition cchoose_buckets (s : st) (n k fs : Z) : cres (st * ptr * ptr) := tick (Ok (schoose_buckets OP s n k fs)).
Definition cdelete_buckets (s : st) (k fs : Z) : cres st := tick (Ok (sdelete_buckets OP s k fs)).

(** :189-204, :242-259 and :306-318 *)
Definition clms_scan {A} (chrf : A -> Z -> cres Z) (n : Z)
    (f : Z -> Z -> A -> cres A) (a : A) : cres A :=
  c1 <~ chrf a (n - 1) ;;
  '(a, _, _) <~ cfor_down (n - 2) 0 (fun i '(a, c, c1) =>
      c0 <~ chrf a i ;;
      if c0 <? c1 + c then cret (a, 1, c0)
      else if negb (c =? 0) then (a <~ f i c1 a ;; cret (a, 0, c0))
      else cret (a, c, c0)) (a, 0, c1) ;;
  cret a.

(** :224-229 *)
Definition cskip_equal (s : st) (T : text) (n p c0 : Z) : cres (Z * Z) :=
  cloop (S (Z.to_nat n)) (fun '(j, c1) =>
    if j <? n then
      c1 <~ cchr64 s T j ;;
      if c0 =? c1 then cret (inl (j + 1, c1)) else cret (inr (j, c1))
    else cret (inr (j, c1))) (p + 1, 0).

(** :212-235 *)
Definition ccompact_step (T : text) (n : Z) (i : Z) (x : st * Z) : cres (st * Z) :=
  let '(s, m) := x in
  p <~ get s SA i ;;
  if 0 <? p then
    prev <~ cchrl s T (p - 1) ;;
    c0 <~ cchr64 s T p ;;
    if c0 <? prev then
      '(j, c1) <~ cskip_equal s T n p c0 ;;
      if (j <? n) && (c0 <? c1) then (s <~ put s SA m p ;; cret (s, m + 1)) else cret (s, m)
    else cret (s, m)
  else cret (s, m).
Definition ccompact_lms (s : st) (T : text) (n : Z) : cres (st * Z) :=
  cfor_up 0 n (ccompact_step T n) (s, 0).

(** :274-278 *)
Definition csame_sub (s : st) (T : text) (p q plen : Z) : cres bool :=
  cloop (S (Z.to_nat plen)) (fun j =>
    if j <? plen then
      a <~ cchr s T (p + j) ;; b <~ cchr s T (q + j) ;;
      if a =? b then cret (inl (j + 1)) else cret (inr false)
    else cret (inr true)) 0.

(** :261-292 *)
Definition cname_step (T : text) (m : Z) (i : Z) (x : st * Z * Z * Z) : cres (st * Z * Z * Z) :=
  let '(s, name, q, qlen) := x in
  p <~ get s SA i ;;
  let index := m + Z.shiftr p 1 in
  plen <~ get s SA index ;;
  same <~ (if plen =? qlen then csame_sub s T p q plen else cret false) ;;
  let '(name, q, qlen) := if (same : bool) then (name, q, qlen) else (name + 1, p, plen) in
  s <~ put s SA index name ;;
  cret (s, name, q, qlen).
Definition cname_lms (s : st) (T : text) (n m : Z) : cres (st * Z) :=
  '(s, name, _, _) <~ cfor_up 0 m (cname_step T m) (s, 0, n, 0) ;;
  cret (s, name).

Definition czero_range (s : st) (lo hi : Z) : cres st :=
  cfor_up lo hi (fun i s => zero s SA i) s.

(** :183-292 *)
Definition cstage1 (s : st) (T : text) (fs n k : Z) : cres (st * Z * Z) :=
  '(s, C, B) <~ cchoose_buckets s n k fs ;;
  s <~ cget_counts s T C n k ;;
  s <~ cget_buckets s C B k true ;;
  s <~ czero_range s 0 n ;;
  s <~ clms_scan (fun s i => cchr64 s T i) n (fun i c1 s =>
         b <~ get s B c1 ;; s <~ put s B c1 (b - 1) ;; put s SA (b - 1) (i + 1)) s ;;
  s <~ cinduce_SA s T C B n k ;;
  s <~ cdelete_buckets s k fs ;;
  '(s, m) <~ ccompact_lms s T n ;;
  s <~ czero_range s m n ;;
  '(s, _) <~ clms_scan (fun x i => cchr64 (fst x) T i) n (fun i _ '(s, j) =>
         s <~ put s SA (m + Z.shiftr (i + 1) 1) (j - i - 1) ;; cret (s, i + 1)) (s, n) ;;
  '(s, name) <~ cname_lms s T n m ;;
  cret (s, m, name).

(** :297-302 *)
Definition ccollect_names (s : st) (fs n m : Z) : cres st :=
  let RA := mkptr InMem (n + fs - m) in
  '(s, _) <~ cfor_down (n - 1) m (fun i '(s, j) =>
      z <~ nz s SA i ;;
      if (z : bool) then (v <~ get s SA i ;; s <~ put s RA j (v - 1) ;; cret (s, j - 1)) else cret (s, j)) (s, m - 1) ;;
  cret s.

(** :306-321 *)
Definition ctranslate (s : st) (T : text) (fs n m : Z) : cres st :=
  let RA := mkptr InMem (n + fs - m) in
  '(s, _) <~ clms_scan (fun x i => cchr64 (fst x) T i) n (fun i _ '(s, j) =>
         s <~ put s RA j (i + 1) ;; cret (s, j - 1)) (s, m - 1) ;;
  cfor_up 0 m (fun i s => x <~ get s SA i ;; v <~ get s RA x ;; put s SA i v) s.

(** :324-352 *)
Definition cstage3 (s : st) (T : text) (fs n k m : Z) : cres st :=
  '(s, C, B) <~ cchoose_buckets s n k fs ;;
  s <~ cget_counts s T C n k ;;
  s <~ cget_buckets s C B k true ;;
  s <~ czero_range s m n ;;
  s <~ cfor_down (m - 1) 0 (fun i s =>
         j <~ get s SA i ;;
         s <~ zero s SA i ;;
         c <~ cchr s T j ;;
         b <~ get s B c ;;
         s <~ put s B c (b - 1) ;;
         put s SA (b - 1) j) s ;;
  s <~ cinduce_SA s T C B n k ;;
  cdelete_buckets s k fs.

(** :155-353 *)
Fixpoint csais (fuel : nat) (s : st) (T : text) (fs n k : Z) : cres st :=
  match fuel with
  | O => Err Diverge
  | S f =>
    '(s, m, name) <~ cstage1 s T fs n k ;;
    s <~ (if name <? m then
            s <~ ccollect_names s fs n m ;;
            s <~ csais f s (TCells (n + fs - m)) (fs + n - m * 2) m name ;;
            ctranslate s T fs n m
          else cret s) ;;
    cstage3 s T fs n k m
  end.
End Cost.

(** the five programs with their step counters *)
Definition sais_32bit_steps (E : env) := csais E 32 (ops1 32).
Definition sais_40bit_steps (E : env) := csais E 40 (ops2 8).
Definition sais_48bit_steps (E : env) := csais E 48 (ops2 16).
Definition sais_56bit_steps (E : env) := csais E 56 ops3.
Definition sais_64bit_steps (E : env) := csais E 64 (ops1 64).
