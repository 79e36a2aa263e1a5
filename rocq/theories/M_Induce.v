(** Model of src/induce{32,40,48,56,64}bit.cpp (identical up to the SA cell accessor [rdSA];
    line numbers of induce32bit.cpp) and of the Container fields it uses
    (include/container.hpp:14-34). *)
From Verif Require Import Base M_PackedArray M_Queue M_HashTable.
Open Scope Z_scope.

(** include/container.hpp:14-34.  Pointers into the hash buffer are offsets; [bwp_base] is
    min_ptr - 1 and may be -1.  M2, M3, C2 are only used inside induce_bwt and are local there. *)
Record container := mkcont {
  c_ht : option htable;   (* hashtable; NULL if not allocated *)
  c_M : arr Z; c_C : arr Z; c_NL : arr Z;
  c_num : Z; c_uniq : Z; c_n : Z;
  c_head_end : option Z;  (* uninitialised until extract_LMS_strings sets it *)
  c_bwp_base : Z; c_bwp_width : Z; c_sa_max : Z; c_lastptr : Z }.

Definition TYPE_S := 0.
Definition TYPE_L := 1.
Definition TYPE_LMS := 2.

(** Q[t][c] of flbwt::Queue *Q[3][256 + 2] *)
Definition qidx (t c : Z) : Z := t * 258 + c.
Definition q_add (E : env) (Q : arr queue) (t c x : Z) : res (arr queue) :=
  if (0 <=? c) && (c <? 258) then
    q <- aget Q (qidx t c) ;; q' <- enqueue E q x ;; aset Q (qidx t c) q'
  else Err OutOfBounds.
Definition q_addl (E : env) (Q : arr queue) (t c x : Z) : res (arr queue) :=
  if (0 <=? c) && (c <? 258) then
    q <- aget Q (qidx t c) ;; q' <- enqueue_l E q x ;; aset Q (qidx t c) q'
  else Err OutOfBounds.
Definition q_pop (E : env) (Q : arr queue) (t c : Z) : res (Z * arr queue) :=
  q <- aget Q (qidx t c) ;; '(x, q') <- dequeue E q ;;
  Q <- aset Q (qidx t c) q' ;; Ok (x, Q).

(** src/induce32bit.cpp:166-177: struct BWT_result *)
Record bwt_result := mkres { r_last : Z; r_BWT : arr Z }.

(** working state of induce_bwt *)
Record ist := mkist { i_Q : arr queue; i_BWT : arr Z; i_M2 : arr Z; i_C2 : arr Z; i_last : option Z }.

Definition with_Q (s : ist) (Q : arr queue) := mkist Q (i_BWT s) (i_M2 s) (i_C2 s) (i_last s).
Definition with_last (s : ist) (l : Z) := mkist (i_Q s) (i_BWT s) (i_M2 s) (i_C2 s) (Some l).

(** BWT[M2[c]++] = v *)
Definition put_M2_up (s : ist) (c v : Z) : res ist :=
  m <- aget (i_M2 s) c ;;
  M2 <- aset (i_M2 s) c (u64 (m + 1)) ;;
  B <- aset (i_BWT s) m v ;;
  Ok (mkist (i_Q s) B M2 (i_C2 s) (i_last s)).
(** BWT[C2[c]++] = v *)
Definition put_C2_up (s : ist) (c v : Z) : res ist :=
  m <- aget (i_C2 s) c ;;
  C2 <- aset (i_C2 s) c (u64 (m + 1)) ;;
  B <- aset (i_BWT s) m v ;;
  Ok (mkist (i_Q s) B (i_M2 s) C2 (i_last s)).

(** :20-25 *)
Definition init_queues (w : Z) : res (arr queue) :=
  for_up 0 (3 * 258) (fun i Q => aset Q i (q_new w)) (anew (3 * 258)).

(** :31-45 put the sorted S* pointers into the LMS queues; [rdSA i] reads cell i of the suffix
    array: SA[i], or get_40bit_value(SA_L, SA_U, i) and so on (induce40bit.cpp:34,
    induce48bit.cpp:34, induce56bit.cpp:34) *)
Definition fill_lms (E : env) (buf : arr Z) (base num : Z) (rdSA : Z -> res Z) (Q : arr queue) : res (arr queue) :=
  for_down num 0 (fun i Q =>
    v <- rdSA i ;;
    let q := v + base in
    c <- (if i =? 0 then Ok (-1) else bget E buf q) ;;
    q_addl E Q TYPE_LMS (c + 1) (q - base)) Q.

(** :53-58 M3 = M2 = start of bucket *)
Definition bucket_starts (M : arr Z) : res (arr Z) :=
  '(M2, _) <- for_up 0 258 (fun i '(M2, cc) =>
      M2 <- aset M2 i (u64 cc) ;; m <- aget M i ;; Ok (M2, swrap 64 (cc + m))) (anew 258, 0) ;;
  Ok M2.

(** :61-62 *)
Definition stype_starts (M2 NL : arr Z) : res (arr Z) :=
  for_up 0 258 (fun i C2 => m <- aget M2 i ;; l <- aget NL i ;; aset C2 i (u64 (m + l))) (anew 258).

(** :70-77 the sentinel suffix *)
Definition induce_first (E : env) (buf : arr Z) (base : Z) (s : ist) : res ist :=
  '(x, Q) <- q_pop E (i_Q s) TYPE_LMS 0 ;;
  let q := base + x in
  c1 <- bget E buf (q - 1) ;;
  B <- aset (i_BWT s) 0 c1 ;;
  Q <- q_add E Q TYPE_L (c1 + 1) (q - 1 - base) ;;
  c2 <- bget E buf (q - 2) ;;
  s <- put_M2_up (mkist Q B (i_M2 s) (i_C2 s) (i_last s)) (c1 + 1) c2 ;;
  put_C2_up s 0 c1.

(** m++ on an int64_t: overflow is undefined *)
Definition inc64 (m : Z) : res Z := if m <? 2 ^ 63 - 1 then Ok (m + 1) else Err Overflow.

(** :92-121 one iteration of the first inducing loop for queue (t,c); m is the row *)
Definition induce_step1 (E : env) (buf : arr Z) (base lastptr t c : Z) (x : ist * Z) : res (ist * Z + ist) :=
  let '(s, m) := x in
  qq <- aget (i_Q s) (qidx t c) ;;
  if q_is_empty qq then Ok (inr s) else
  '(v, Q) <- q_pop E (i_Q s) t c ;;
  let s := with_Q s Q in
  let q := base + v in
  s <- (if q =? lastptr then Ok (with_last s (u64 m)) else
        c1 <- bget E buf (q - 1) ;;
        if c - 1 <=? c1 then
          Q <- q_add E (i_Q s) TYPE_L (c1 + 1) (q - 1 - base) ;;
          c2 <- bget E buf (q - 2) ;;
          s <- put_M2_up (with_Q s Q) (c1 + 1) c2 ;;
          if t =? TYPE_LMS then put_C2_up s c c1 else Ok s
        else
          Q <- q_addl E (i_Q s) TYPE_S c (q - base) ;; Ok (with_Q s Q)) ;;
  m <- inc64 m ;;
  Ok (inl (s, m)).

(** :83-123 *)
Definition induce_pass1 (E : env) (fuel : nat) (buf : arr Z) (base lastptr : Z)
    (M M3 C : arr Z) (s : ist) : res ist :=
  for_up 1 258 (fun c s =>
    for_up 1 3 (fun t s =>
      m3 <- aget M3 c ;;
      m <- (if t =? TYPE_LMS then (mc <- aget M c ;; cc <- aget C c ;; Ok (swrap 64 (m3 + (mc - cc)))) else Ok (swrap 64 m3)) ;;
      loop fuel (induce_step1 E buf base lastptr t c) (s, m)) s) s.

(** :131-132 fresh TYPE_L queues *)
Definition reset_L (w : Z) (Q : arr queue) : res (arr queue) :=
  for_up 0 258 (fun c Q => aset Q (qidx TYPE_L c) (q_new w)) Q.

(** :134-136 M2 = last row of each bucket *)
Definition bucket_ends (M M2 : arr Z) : res (arr Z) :=
  M2 <- aset M2 0 0 ;;
  for_up 1 258 (fun c M2 => a <- aget M2 (c - 1) ;; m <- aget M c ;; aset M2 c (u64 (a + m))) M2.

(** :143-162 one iteration of the second inducing loop *)
Definition induce_step2 (E : env) (buf : arr Z) (base lastptr t c : Z) (s : ist) : res (ist + ist) :=
  qq <- aget (i_Q s) (qidx t c) ;;
  if q_is_empty qq then Ok (inr s) else
  '(v, Q) <- q_pop E (i_Q s) t c ;;
  let s := with_Q s Q in
  let q := base + v in
  c1 <- bget E buf (q - 1) ;;
  if c1 <=? c - 1 then
    Q <- q_add E (i_Q s) TYPE_L (c1 + 1) (q - 1 - base) ;;
    let s := with_Q s Q in
    m <- aget (i_M2 s) (c1 + 1) ;;
    M2 <- aset (i_M2 s) (c1 + 1) (u64 (m - 1)) ;;
    let s := mkist (i_Q s) (i_BWT s) M2 (i_C2 s) (i_last s) in
    if q - 1 =? lastptr then Ok (inl (with_last s m))
    else
      c0 <- bget E buf (q - 2) ;;
      '(x, C2) <- (if c0 <=? c1 then Ok (c0, i_C2 s) else
            p <- aget (i_C2 s) (c1 + 1) ;;
            C2 <- aset (i_C2 s) (c1 + 1) (u64 (p - 1)) ;;
            x <- aget (i_BWT s) (u64 (p - 1)) ;; Ok (x, C2)) ;;
      B <- aset (i_BWT s) m x ;;
      Ok (inl (mkist (i_Q s) B (i_M2 s) C2 (i_last s)))
  else Ok (inl s).

(** :139-164 *)
Definition induce_pass2 (E : env) (fuel : nat) (buf : arr Z) (base lastptr : Z) (s : ist) : res ist :=
  for_down 257 0 (fun c s =>
    for_down 1 0 (fun t s => loop fuel (induce_step2 E buf base lastptr t c) s) s) s.

(** :11-178 induce_bwt_32bit.  The row counters M2, M3, C2, last are uint64_t (arithmetic modulo 2^64), cc and m are int64_t. *)
Definition induce_bwt_rd (E : env) (rdSA : Z -> res Z) (co : container) : res bwt_result :=
  match c_ht co with
  | None => Err NullDeref
  | Some h =>
    let buf := ht_buf h in
    let base := c_bwp_base co in
    let w := c_bwp_width co in
    let fuel := S (S (Z.to_nat (c_n co))) in
    Q <- init_queues w ;;
    Q <- fill_lms E buf base (c_num co) rdSA Q ;;
    M2 <- bucket_starts (c_M co) ;;
    C2 <- stype_starts M2 (c_NL co) ;;
    let s := mkist Q (anew (c_n co + 1)) M2 C2 None in
    s <- induce_first E buf base s ;;
    s <- induce_pass1 E fuel buf base (c_lastptr co) (c_M co) M2 (c_C co) s ;;
    Q <- reset_L w (i_Q s) ;;
    M2' <- bucket_ends (c_M co) (i_M2 s) ;;
    s <- induce_pass2 E fuel buf base (c_lastptr co) (mkist Q (i_BWT s) M2' (i_C2 s) (i_last s)) ;;
    match i_last s with
    | None => Err Uninit
    | Some l => Ok (mkres l (i_BWT s))
    end
  end.
(** src/induce32bit.cpp:11-178, src/induce64bit.cpp: the suffix array is one array *)
Definition induce_bwt (E : env) (SA : arr Z) (co : container) : res bwt_result := induce_bwt_rd E (aget SA) co.
