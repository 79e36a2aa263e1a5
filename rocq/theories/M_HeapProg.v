(** bwt_string and bwt_file with every allocation and release.

    The heap records which blocks are live and how each was obtained (M_Heap.v).  Queues live
    in the heap completely; for the other blocks only the address, the kind and the size are
    recorded here, their contents are the arrays of M_Flbwt.v, M_HashTable.v, M_Sais.v and
    M_Split.v.  [uses] checks that the blocks a step works on are alive and as large as these arrays are.  Sizes are those of an
    LP64 platform.  FILE objects are blocks of kind KFile; they are counted with size 0. *)
From Verif Require Import Base M_PackedArray M_Queue M_HashTable M_Cells M_Sais M_Split M_Induce M_Flbwt M_File M_Heap.
Open Scope Z_scope.

Section HeapProg.
Context (al : allocator).

(** the blocks are alive and large enough: NULL and released blocks may not be accessed, nor bytes after the end *)
Fixpoint uses (h : heap) (l : list (pointer * Z)) : res unit :=
  match l with [] => Ok tt | p :: l => _ <- huse h (fst p) (snd p) ;; uses h l end.

(** realloc(p, size), whose result is used without a check.  The new block is obtained before the
    old one is released, as when the block has to move. *)
Definition hrealloc (h : heap) (p : pointer) (size : Z) : res (pointer * heap) :=
  let '(a, h) := hmalloc al h (OOther (KMalloc, size)) in
  a <- deref a ;; h <- hfree KMalloc h p ;; Ok (Some a, h).

(** * HashTable and Container *)
(** a HashTable object: its address and its pointer fields (include/hashtable.hpp) *)
Record htptr := mkhtp { hp_obj : pointer; hp_rest : pointer; hp_head : pointer; hp_buf : pointer }.
(** a Container object: its address and its field hashtable *)
Record cptr := mkcp { cp_obj : pointer; cp_ht : option htptr }.
(** the blocks read through a Container: itself, the HashTable, rest, head, buf, with the bytes of their contents
    (include/hashtable.hpp: uint64_t *rest, *head; unsigned char *buf) *)
Definition cont_blocks (co : container) (p : cptr) : list (pointer * Z) :=
  (cp_obj p, 12472) :: match cp_ht p, c_ht co with
                       | Some q, Some ht => [(hp_obj q, 64); (hp_rest q, 8 * alen (ht_rest ht)); (hp_head q, 8 * alen (ht_head ht)); (hp_buf q, alen (ht_buf ht))]
                       | _, _ => []
                       end.

(** src/flbwt.cpp:328 new HashTable; src/hashtable.cpp:10-14: uint64_t rest[hts], head[hts] *)
Definition h_ht_new (h : heap) (hts : Z) : res (htptr * heap) :=
  '(o, h) <- hnew al h (OOther (KNew, 64)) ;;
  '(r, h) <- hnew al h (OOther (KNewArray, 8 * hts)) ;;
  '(d, h) <- hnew al h (OOther (KNewArray, 8 * hts)) ;;
  Ok (mkhtp (Some o) (Some r) (Some d) None, h).
(** src/hashtable.cpp:344-353 and the release of the object *)
Definition h_ht_delete (h : heap) (p : htptr) : res heap :=
  h <- hfree KNewArray h (hp_rest p) ;;
  h <- hfree KNewArray h (hp_head p) ;;
  h <- (match hp_buf p with None => Ok h | Some _ => hfree KMalloc h (hp_buf p) end) ;;
  hfree KNew h (hp_obj p).
(** src/flbwt.cpp:311 delete container; src/container.cpp:22-26 *)
Definition h_cont_delete (h : heap) (p : cptr) : res heap :=
  h <- (match cp_ht p with None => Ok h | Some q => h_ht_delete h q end) ;;
  hfree KNew h (cp_obj p).

(** src/flbwt.cpp:342-373 the scan; the realloc of src/hashtable.cpp:90 is executed exactly when
    the buffer grows; it is NULL, and not accessed, until the first string is stored.  [live]: T, the Container, the
    HashTable; [r], [d]: rest and head *)
Definition h_extract_step (E : env) (live : list (pointer * Z)) (r d : pointer) (T : arr Z) (i : Z) (x : xst * pointer * heap) : res (xst * pointer * heap) :=
  let '(s, buf, h) := x in
  s' <- extract_step E T i s ;;
  '(buf, h) <- (if alen (ht_buf (x_ht s')) =? alen (ht_buf (x_ht s)) then Ok (buf, h) else hrealloc h buf (alen (ht_buf (x_ht s')))) ;;
  _ <- uses h (live ++ [(r, 8 * alen (ht_rest (x_ht s'))); (d, 8 * alen (ht_head (x_ht s')))]) ;;
  _ <- uses h (if alen (ht_buf (x_ht s')) =? 0 then [] else [(buf, alen (ht_buf (x_ht s')))]) ;;
  Ok (s', buf, h).
(** src/flbwt.cpp:318-379 *)
Definition h_extract (E : env) (hts : Z) (h : heap) (pT : pointer) (T : arr Z) (n : Z) : res (container * cptr * heap) :=
  '(ca, h) <- hnew al h (OOther (KNew, 12472)) ;;
  co <- cont_new n ;;
  if n <=? 2 then Ok (co, mkcp (Some ca) None, h) else
  ht <- ht_new hts n ;;
  '(hp, h) <- h_ht_new h hts ;;
  let live := [(pT, alen T); (Some ca, 12472); (hp_obj hp, 64)] in
  M <- aincr (c_M co) 0 ;;
  t <- aget T (n - 1) ;;
  M <- aincr M (t + 1) ;;
  NL <- aincr (c_NL co) (t + 1) ;;
  C <- aincr (c_C co) 0 ;;
  '(s, buf, h) <- for_down (n - 2) 0 (h_extract_step E live (hp_rest hp) (hp_head hp) T) (mkxst ht M C NL 0 0 false n n, hp_buf hp, h) ;;
  Ok (mkcont (Some (x_ht s)) (x_M s) (x_C s) (x_NL s) (x_num s) (x_uniq s) n (Some (x_p s)) 0 0 0 0,
      mkcp (Some ca) (Some (mkhtp (hp_obj hp) (hp_rest hp) (hp_head hp) buf)), h).

(** src/flbwt.cpp:381-507: malloc of s (:384), realloc of the buffer (:394).  A null s is first used
    after the realloc; the outcome is the same. *)
Definition h_sort (E : env) (srt : sorter) (h : heap) (pT : pointer) (T : arr Z) (co : container) (cp : cptr)
  : res (arr Z * pointer * container * cptr * heap) :=
  let '(ps, h) := hmalloc al h (OOther (KMalloc, 8 * u64 (c_uniq co + 2))) in
  ps <- deref ps ;;
  match cp_ht cp with
  | None => Err NullDeref
  | Some q =>
    '(Sv, co) <- sort_LMS_strings E srt T co ;;
    '(buf, h) <- hrealloc h (hp_buf q) (match c_ht co with None => 0 | Some ht => alen (ht_buf ht) end) ;;
    let cp := mkcp (cp_obj cp) (Some (mkhtp (hp_obj q) (hp_rest q) (hp_head q) buf)) in
    _ <- uses h ((pT, alen T) :: (Some ps, 8 * alen Sv) :: cont_blocks co cp) ;;
    Ok (Sv, Some ps, co, cp, h)
  end.

(** * sais: the bucket arrays *)
(** one new[] for each of the sizes: one array, or the two or three parts *)
Fixpoint h_new_arrays (szs : list Z) (h : heap) : res (list pointer * heap) :=
  match szs with
  | [] => Ok ([], h)
  | sz :: szs => '(a, h) <- hnew al h (OOther (KNewArray, sz)) ;;
                 '(l, h) <- h_new_arrays szs h ;; Ok (Some a :: l, h)
  end.
Fixpoint h_delete_arrays (h : heap) (l : list pointer) : res heap :=
  match l with [] => Ok h | p :: l => h <- hfree KNewArray h p ;; h_delete_arrays h l end.
(** C = new ... or C = SA + n; None: a pointer into the block of SA, which cannot be deleted.
    [cs]: the number of bytes of a cell in each part *)
Definition h_buckets (cs : list Z) (h : heap) (k fs : Z) : res (option (list pointer) * heap) :=
  if k <=? fs then Ok (None, h) else '(l, h) <- h_new_arrays (map (fun c => c * k) cs) h ;; Ok (Some l, h).
Definition bucket_blocks (C : option (list pointer)) : list pointer := match C with None => [] | Some l => l end.
(** if (fs < k) delete[] C *)
Definition h_delete_buckets (h : heap) (C : option (list pointer)) (k fs : Z) : res heap :=
  if fs <? k then match C with None => Err BadPointer | Some l => h_delete_arrays h l end else Ok h.

(** src/sais32bit.cpp:155-353 and the other four: the recursion with its allocations; the stages
    are those of M_Sais.v or M_Split.v.  [live]: the blocks of T1; [SAs]: the parts of SA, [need]: their bytes;
    [choose]: the choice of the bucket arrays at the beginning of a stage, [bneed]: the bytes of the parts of new'ed ones *)
Section Sais.
Context (St : Type) (cs : list Z) (live : list (pointer * Z)) (SAs : list pointer) (need bneed : St -> list Z)
  (choose : St -> Z -> Z -> Z -> St)
  (stage1 : St -> text -> Z -> Z -> Z -> res (St * Z * Z))
  (collect : St -> Z -> Z -> Z -> res St)
  (translate : St -> text -> Z -> Z -> Z -> res St)
  (stage3 : St -> text -> Z -> Z -> Z -> Z -> res St).
Fixpoint h_sais (fuel : nat) (h : heap) (s : St) (T : text) (fs n k : Z) : res (St * heap) :=
  match fuel with
  | O => Err Diverge
  | S f =>
    '(C, h) <- h_buckets cs h k fs ;;
    _ <- uses h (live ++ combine SAs (need s) ++ combine (bucket_blocks C) (bneed (choose s n k fs))) ;;
    '(s, m, name) <- stage1 s T fs n k ;;
    h <- h_delete_buckets h C k fs ;;
    '(s, h) <- (if name <? m then
            s <- collect s fs n m ;;
            '(s, h) <- h_sais f h s (TCells (n + fs - m)) (fs + n - m * 2) m name ;;
            s <- translate s T fs n m ;; Ok (s, h)
          else Ok (s, h)) ;;
    '(C, h) <- h_buckets cs h k fs ;;
    _ <- uses h (live ++ combine SAs (need s) ++ combine (bucket_blocks C) (bneed (choose s n k fs))) ;;
    s <- stage3 s T fs n k m ;;
    h <- h_delete_buckets h C k fs ;;
    Ok (s, h)
  end.
End Sais.
(** int32_t or int64_t cells *)
Definition need1 (W : Z) (s : st) : list Z := [W / 8 * alen (mem s)].
Definition bneed1 (W : Z) (s : st) : list Z := [W / 8 * alen (tmp s)].
(** uint32_t, and int8_t or int16_t *)
Definition need2 (uw : Z) (s : st2) : list Z := [4 * alen (m2L s); uw / 8 * alen (m2U s)].
Definition bneed2 (uw : Z) (s : st2) : list Z := [4 * alen (t2L s); uw / 8 * alen (t2U s)].
(** uint32_t, uint16_t, int8_t *)
Definition need3 (s : st3) : list Z := [4 * alen (m3L s); 2 * alen (m3M s); 1 * alen (m3U s)].
Definition bneed3 (s : st3) : list Z := [4 * alen (t3L s); 2 * alen (t3M s); 1 * alen (t3U s)].
Definition h_sais1 (E : env) (W : Z) (live : list (pointer * Z)) (SAs : list pointer) :=
  h_sais st [W / 8] live SAs (need1 W) (bneed1 W) (fun s n k fs => fst (fst (choose_buckets s n k fs))) (stage1 E W) (collect_names W) (translate E W) (stage3 E W).
Definition h_sais2 (E : env) (W : Z) (OP : ops) (cs : list Z) (need bneed : o_st OP -> list Z) (live : list (pointer * Z)) (SAs : list pointer) :=
  h_sais (o_st OP) cs live SAs need bneed (fun s n k fs => fst (fst (schoose_buckets OP s n k fs))) (sstage1 E W OP) (scollect_names OP) (stranslate E W OP) (sstage3 E W OP).

(** * induce *)
(** working state of induce_bwt: as [ist], with the Queue pointers of Q[3][258] *)
Record his := mkhis { hi_h : heap; hi_Q : arr pointer; hi_BWT : arr Z; hi_M2 : arr Z; hi_C2 : arr Z; hi_last : option Z }.
Definition hwith_h (s : his) (h : heap) := mkhis h (hi_Q s) (hi_BWT s) (hi_M2 s) (hi_C2 s) (hi_last s).
Definition hwith_last (s : his) (l : Z) := mkhis (hi_h s) (hi_Q s) (hi_BWT s) (hi_M2 s) (hi_C2 s) (Some l).

(** Q[t][c]->enqueue(x), enqueue_l(x), dequeue(), is_empty() *)
Definition h_add (E : env) (h : heap) (Q : arr pointer) (t c x : Z) : res heap :=
  if (0 <=? c) && (c <? 258) then p <- aget Q (qidx t c) ;; p_enqueue al E h p x else Err OutOfBounds.
Definition h_addl (E : env) (h : heap) (Q : arr pointer) (t c x : Z) : res heap :=
  if (0 <=? c) && (c <? 258) then p <- aget Q (qidx t c) ;; p_enqueue_l al E h p x else Err OutOfBounds.
Definition h_pop (E : env) (h : heap) (Q : arr pointer) (t c : Z) : res (Z * heap) :=
  p <- aget Q (qidx t c) ;; p_dequeue E h p.
Definition h_empty (h : heap) (Q : arr pointer) (t c : Z) : res bool :=
  p <- aget Q (qidx t c) ;; p_is_empty h p.
(** Q[t][c] = new Queue(w) *)
Definition h_newq (h : heap) (Q : arr pointer) (t c w : Z) : res (heap * arr pointer) :=
  '(a, h) <- new_queue al h w ;; Q <- aset Q (qidx t c) (Some a) ;; Ok (h, Q).
(** delete Q[t][c] *)
Definition h_delq (h : heap) (Q : arr pointer) (t c : Z) : res heap :=
  p <- aget Q (qidx t c) ;; delete_queue h p.

Definition hput_M2_up (s : his) (c v : Z) : res his :=
  m <- aget (hi_M2 s) c ;;
  M2 <- aset (hi_M2 s) c (u64 (m + 1)) ;;
  B <- aset (hi_BWT s) m v ;;
  Ok (mkhis (hi_h s) (hi_Q s) B M2 (hi_C2 s) (hi_last s)).
Definition hput_C2_up (s : his) (c v : Z) : res his :=
  m <- aget (hi_C2 s) c ;;
  C2 <- aset (hi_C2 s) c (u64 (m + 1)) ;;
  B <- aset (hi_BWT s) m v ;;
  Ok (mkhis (hi_h s) (hi_Q s) B (hi_M2 s) C2 (hi_last s)).

(** src/induce32bit.cpp:20-25 *)
Definition h_init_queues (h : heap) (w : Z) : res (heap * arr pointer) :=
  for_up 0 258 (fun i '(h, Q) =>
    '(h, Q) <- h_newq h Q TYPE_LMS i w ;;
    '(h, Q) <- h_newq h Q TYPE_L i w ;;
    h_newq h Q TYPE_S i w) (h, anew (3 * 258)).
(** :31-45 *)
Definition h_fill_lms (E : env) (buf : arr Z) (base num : Z) (rdSA : Z -> res Z) (Q : arr pointer) (h : heap) : res heap :=
  for_down num 0 (fun i h =>
    v <- rdSA i ;;
    let q := v + base in
    c <- (if i =? 0 then Ok (-1) else bget E buf q) ;;
    h_addl E h Q TYPE_LMS (c + 1) (q - base)) h.
(** :70-77 *)
Definition h_induce_first (E : env) (buf : arr Z) (base : Z) (s : his) : res his :=
  '(x, h) <- h_pop E (hi_h s) (hi_Q s) TYPE_LMS 0 ;;
  let q := base + x in
  c1 <- bget E buf (q - 1) ;;
  B <- aset (hi_BWT s) 0 c1 ;;
  h <- h_add E h (hi_Q s) TYPE_L (c1 + 1) (q - 1 - base) ;;
  c2 <- bget E buf (q - 2) ;;
  s <- hput_M2_up (mkhis h (hi_Q s) B (hi_M2 s) (hi_C2 s) (hi_last s)) (c1 + 1) c2 ;;
  hput_C2_up s 0 c1.
(** :92-121 *)
Definition h_induce_step1 (E : env) (buf : arr Z) (base lastptr t c : Z) (x : his * Z) : res (his * Z + his) :=
  let '(s, m) := x in
  e <- h_empty (hi_h s) (hi_Q s) t c ;;
  if (e : bool) then Ok (inr s) else
  '(v, h) <- h_pop E (hi_h s) (hi_Q s) t c ;;
  let s := hwith_h s h in
  let q := base + v in
  s <- (if q =? lastptr then Ok (hwith_last s (u64 m)) else
        c1 <- bget E buf (q - 1) ;;
        if c - 1 <=? c1 then
          h <- h_add E (hi_h s) (hi_Q s) TYPE_L (c1 + 1) (q - 1 - base) ;;
          c2 <- bget E buf (q - 2) ;;
          s <- hput_M2_up (hwith_h s h) (c1 + 1) c2 ;;
          if t =? TYPE_LMS then hput_C2_up s c c1 else Ok s
        else
          h <- h_addl E (hi_h s) (hi_Q s) TYPE_S c (q - base) ;; Ok (hwith_h s h)) ;;
  m <- inc64 m ;;
  Ok (inl (s, m)).
(** :83-123 *)
Definition h_induce_pass1 (E : env) (fuel : nat) (buf : arr Z) (base lastptr : Z)
    (M M3 C : arr Z) (s : his) : res his :=
  for_up 1 258 (fun c s =>
    for_up 1 3 (fun t s =>
      m3 <- aget M3 c ;;
      m <- (if t =? TYPE_LMS then (mc <- aget M c ;; cc <- aget C c ;; Ok (swrap 64 (m3 + (mc - cc)))) else Ok (swrap 64 m3)) ;;
      loop fuel (h_induce_step1 E buf base lastptr t c) (s, m)) s) s.
(** :125-132 *)
Definition h_reset_L (w : Z) (h : heap) (Q : arr pointer) : res (heap * arr pointer) :=
  h <- for_up 0 258 (fun c h => h <- h_delq h Q TYPE_LMS c ;; h_delq h Q TYPE_L c) h ;;
  for_up 0 258 (fun c '(h, Q) => h_newq h Q TYPE_L c w) (h, Q).
(** :143-162 *)
Definition h_induce_step2 (E : env) (buf : arr Z) (base lastptr t c : Z) (s : his) : res (his + his) :=
  e <- h_empty (hi_h s) (hi_Q s) t c ;;
  if (e : bool) then Ok (inr s) else
  '(v, h) <- h_pop E (hi_h s) (hi_Q s) t c ;;
  let s := hwith_h s h in
  let q := base + v in
  c1 <- bget E buf (q - 1) ;;
  if c1 <=? c - 1 then
    h <- h_add E (hi_h s) (hi_Q s) TYPE_L (c1 + 1) (q - 1 - base) ;;
    let s := hwith_h s h in
    m <- aget (hi_M2 s) (c1 + 1) ;;
    M2 <- aset (hi_M2 s) (c1 + 1) (u64 (m - 1)) ;;
    let s := mkhis (hi_h s) (hi_Q s) (hi_BWT s) M2 (hi_C2 s) (hi_last s) in
    if q - 1 =? lastptr then Ok (inl (hwith_last s m))
    else
      c0 <- bget E buf (q - 2) ;;
      '(x, C2) <- (if c0 <=? c1 then Ok (c0, hi_C2 s) else
            p <- aget (hi_C2 s) (c1 + 1) ;;
            C2 <- aset (hi_C2 s) (c1 + 1) (u64 (p - 1)) ;;
            x <- aget (hi_BWT s) (u64 (p - 1)) ;; Ok (x, C2)) ;;
      B <- aset (hi_BWT s) m x ;;
      Ok (inl (mkhis (hi_h s) (hi_Q s) B (hi_M2 s) C2 (hi_last s)))
  else Ok (inl s).
(** :139-164 *)
Definition h_induce_pass2 (E : env) (fuel : nat) (buf : arr Z) (base lastptr : Z) (s : his) : res his :=
  for_down 257 0 (fun c s =>
    for_down 1 0 (fun t s => loop fuel (h_induce_step2 E buf base lastptr t c) s) s) s.

(** :11-178 induce_bwt_32bit and the other four; [SAs]: the block, or the parts, of SA, deleted here; [need]: their bytes.
    The blocks read are checked between the phases, since a phase only changes queues.
    Result: the value, the address of the BWT_result (malloc) and of its field BWT (new[]). *)
Definition h_induce_bwt (E : env) (h : heap) (SAs : list pointer) (need : list Z) (rdSA : Z -> res Z) (co : container) (cp : cptr)
  : res (bwt_result * pointer * pointer * heap) :=
  match c_ht co with
  | None => Err NullDeref
  | Some ht =>
    let buf := ht_buf ht in
    let base := c_bwp_base co in
    let w := c_bwp_width co in
    let fuel := S (S (Z.to_nat (c_n co))) in
    '(h, Q) <- h_init_queues h w ;;
    _ <- uses h (combine SAs need ++ cont_blocks co cp) ;;
    h <- h_fill_lms E buf base (c_num co) rdSA Q h ;;
    h <- h_delete_arrays h SAs ;;
    '(pB, h) <- hnew al h (OOther (KNewArray, c_n co + 1)) ;;
    let B := anew (c_n co + 1) in
    let live := (Some pB, alen B) :: cont_blocks co cp in
    M2 <- bucket_starts (c_M co) ;;
    C2 <- stype_starts M2 (c_NL co) ;;
    let s := mkhis h Q B M2 C2 None in
    _ <- uses h live ;;
    s <- h_induce_first E buf base s ;;
    s <- h_induce_pass1 E fuel buf base (c_lastptr co) (c_M co) M2 (c_C co) s ;;
    '(h, Q) <- h_reset_L w (hi_h s) (hi_Q s) ;;
    _ <- uses h live ;;
    M2' <- bucket_ends (c_M co) (hi_M2 s) ;;
    s <- h_induce_pass2 E fuel buf base (c_lastptr co) (mkhis h Q (hi_BWT s) M2' (hi_C2 s) (hi_last s)) ;;
    h <- for_up 0 258 (fun i h => h <- h_delq h Q TYPE_L i ;; h_delq h Q TYPE_S i) (hi_h s) ;;
    let '(pR, h) := hmalloc al h (OOther (KMalloc, 16)) in
    pR <- deref pR ;;
    _ <- uses h ((Some pR, 16) :: live) ;;
    match hi_last s with
    | None => Err Uninit
    | Some l => Ok (mkres l (hi_BWT s), Some pR, Some pB, h)
    end
  end.

(** * bwt_is, bwt_string, bwt_file *)
(** src/flbwt.cpp:526 new PackedArray (src/packed_array.cpp:6-16: the object, then its words) and delete
    T1 (src/packed_array.cpp:87-90); the contents are the value T1 *)
Definition h_new_t1 (h : heap) (size : Z) : res (pointer * pointer * heap) :=
  '(pt, h) <- hnew al h (OOther (KNew, 32)) ;;
  let '(pw, h) := hmalloc al h (OOther (KMalloc, size)) in
  pw <- deref pw ;; Ok (Some pt, Some pw, h).
Definition h_delete_t1 (h : heap) (pt pw : pointer) : res heap :=
  h <- hfree KMalloc h pw ;; hfree KNew h pt.
(** src/flbwt.cpp:162-188, 283-309 *)
Definition h_branch (E : env) (W : Z) (h : heap) (Sv : arr Z) (ps : pointer) (T1 : packed) (pt pw : pointer) (co : container) (cp : cptr)
  : res (bwt_result * pointer * pointer * heap) :=
  match c_ht co with
  | None => Err NullDeref
  | Some ht =>
    let total := u64 (c_num co + 2) in
    let T1_length := u64 (c_num co + 1) in
    let k := u64 (c_uniq co + 2) in
    '(SAs, h) <- h_new_arrays [W / 8 * total] h ;;
    let live := [(pt, 32); (pw, pa_bytes T1)] in
    '(s, h) <- h_sais1 E W live SAs DEPTH h (mkst (anew total) (anew 0)) (TPack (pa_arr T1) (pa_bits T1)) 0 T1_length k ;;
    SA <- for_up 0 (c_num co + 1) (fun i SA => v <- aget SA i ;; _ <- fits W (v + 1) ;; aset SA i (v + 1)) (mem s) ;;
    SA <- for_up 0 (c_num co + 1) (fun i SA =>
        p <- aget SA i ;;
        name <- pa_get E T1 (p - 1) ;;
        q <- aget Sv name ;;
        l <- get_length E (ht_buf ht) q ;;
        fc <- get_first_character_pointer E (ht_buf ht) q ;;
        _ <- fits W (fc + l - 1 - c_bwp_base co) ;;
        aset SA i (fc + l - 1 - c_bwp_base co)) SA ;;
    let need := [W / 8 * alen SA] in
    _ <- uses h ((ps, 8 * alen Sv) :: live ++ combine SAs need ++ cont_blocks co cp) ;;
    h <- hfree KMalloc h ps ;;
    h <- h_delete_t1 h pt pw ;;
    h_induce_bwt E h SAs need (aget SA) co cp
  end.
(** src/flbwt.cpp:189-219, 220-250 *)
Definition h_branch2 (E : env) (uw : Z) (h : heap) (Sv : arr Z) (ps : pointer) (T1 : packed) (pt pw : pointer) (co : container) (cp : cptr)
  : res (bwt_result * pointer * pointer * heap) :=
  match c_ht co with
  | None => Err NullDeref
  | Some ht =>
    let total := u64 (c_num co + 2) in
    let T1_length := u64 (c_num co + 1) in
    let k := u64 (c_uniq co + 2) in
    '(SAs, h) <- h_new_arrays [4 * total; uw / 8 * total] h ;;
    let live := [(pt, 32); (pw, pa_bytes T1)] in
    '(s, h) <- h_sais2 E (32 + uw) (ops2 uw) [4; uw / 8] (need2 uw) (bneed2 uw) live SAs DEPTH h (mkst2 (anew total) (anew total) (anew 0) (anew 0))
           (TPack (pa_arr T1) (pa_bits T1)) 0 T1_length k ;;
    '(L, U) <- for_up 0 (c_num co + 1) (fun i '(L, U) =>
        v <- get_2part L U i ;; _ <- fits (32 + uw) (v + 1) ;; set_2part uw L U i (v + 1)) (m2L s, m2U s) ;;
    '(L, U) <- for_up 0 (c_num co + 1) (fun i '(L, U) =>
        p <- get_2part L U i ;;
        name <- pa_get E T1 (p - 1) ;;
        q <- aget Sv name ;;
        l <- get_length E (ht_buf ht) q ;;
        fc <- get_first_character_pointer E (ht_buf ht) q ;;
        _ <- fits (32 + uw) (fc + l - 1 - c_bwp_base co) ;;
        set_2part uw L U i (fc + l - 1 - c_bwp_base co)) (L, U) ;;
    let need := [4 * alen L; uw / 8 * alen U] in
    _ <- uses h ((ps, 8 * alen Sv) :: live ++ combine SAs need ++ cont_blocks co cp) ;;
    h <- hfree KMalloc h ps ;;
    h <- h_delete_t1 h pt pw ;;
    h_induce_bwt E h SAs need (get_2part L U) co cp
  end.
(** src/flbwt.cpp:251-282 *)
Definition h_branch3 (E : env) (h : heap) (Sv : arr Z) (ps : pointer) (T1 : packed) (pt pw : pointer) (co : container) (cp : cptr)
  : res (bwt_result * pointer * pointer * heap) :=
  match c_ht co with
  | None => Err NullDeref
  | Some ht =>
    let total := u64 (c_num co + 2) in
    let T1_length := u64 (c_num co + 1) in
    let k := u64 (c_uniq co + 2) in
    '(SAs, h) <- h_new_arrays [4 * total; 2 * total; 1 * total] h ;;
    let live := [(pt, 32); (pw, pa_bytes T1)] in
    '(s, h) <- h_sais2 E 56 ops3 [4; 2; 1] need3 bneed3 live SAs DEPTH h (mkst3 (anew total) (anew total) (anew total) (anew 0) (anew 0) (anew 0))
           (TPack (pa_arr T1) (pa_bits T1)) 0 T1_length k ;;
    '(L, M, U) <- for_up 0 (c_num co + 1) (fun i '(L, M, U) =>
        v <- get_3part L M U i ;; _ <- fits 56 (v + 1) ;; set_3part L M U i (v + 1)) (m3L s, m3M s, m3U s) ;;
    '(L, M, U) <- for_up 0 (c_num co + 1) (fun i '(L, M, U) =>
        p <- get_3part L M U i ;;
        name <- pa_get E T1 (p - 1) ;;
        q <- aget Sv name ;;
        l <- get_length E (ht_buf ht) q ;;
        fc <- get_first_character_pointer E (ht_buf ht) q ;;
        _ <- fits 56 (fc + l - 1 - c_bwp_base co) ;;
        set_3part L M U i (fc + l - 1 - c_bwp_base co)) (L, M, U) ;;
    let need := [4 * alen L; 2 * alen M; 1 * alen U] in
    _ <- uses h ((ps, 8 * alen Sv) :: live ++ combine SAs need ++ cont_blocks co cp) ;;
    h <- hfree KMalloc h ps ;;
    h <- h_delete_t1 h pt pw ;;
    h_induce_bwt E h SAs need (get_3part L M U) co cp
  end.
Definition h_branch_of (E : env) (W : Z) :=
  if W =? 40 then h_branch2 E 8 else if W =? 48 then h_branch2 E 16
  else if W =? 56 then h_branch3 E else h_branch E W.

(** src/flbwt.cpp:120-313.  The values of T1 are computed by create_shortened_string before its
    blocks are added to the heap; nothing else is allocated in between.  The last component of the result is the heap *)
Definition h_bwt_is (E : env) (srt : sorter) (hts : Z) (h : heap) (pT : pointer) (T : arr Z) (n : Z) (free_T : bool)
  : res (option (bwt_result * pointer * pointer) * heap) :=
  '(co, cp, h) <- h_extract E hts h pT T n ;;
  '(Sv, ps, co, cp, h) <- h_sort E srt h pT T co cp ;;
  T1 <- create_shortened_string E T n co ;;
  '(pt, pw, h) <- h_new_t1 h (pa_bytes T1) ;;
  _ <- uses h ((pT, alen T) :: (pt, 32) :: (pw, pa_bytes T1) :: cont_blocks co cp) ;;
  h <- (if free_T then hfree KMalloc h pT else Ok h) ;;
  let total := u64 (c_num co + 2) in
  let max_value := if c_sa_max co <? total then total else c_sa_max co in
  bits <- position_of_msb max_value ;;
  match sa_width bits with
  | None => h <- h_cont_delete h cp ;; Ok (None, h)
  | Some W =>
    '(r, pR, pB, h) <- h_branch_of E W h Sv ps T1 pt pw co cp ;;
    h <- h_cont_delete h cp ;;
    Ok (Some (r, pR, pB), h)
  end.

(** src/flbwt.cpp:110-118 *)
Definition h_bwt_string (hts : Z) (E : env) (srt : sorter) (h : heap) (pT : pointer) (T : arr Z) (n : Z) (free_T : bool)
  : res (option (bwt_result * pointer * pointer) * heap) :=
  match pT with
  | None => Err InvalidArgument
  | Some _ => if n <=? 0 then Err InvalidArgument else h_bwt_is E srt hts h pT T n free_T
  end.

(** fopen and the checked malloc of bwt_file: they fail as the io says, or for lack of memory *)
Definition h_open (h : heap) (ok : bool) (k : kind * Z) : pointer * heap :=
  if ok then hmalloc al h (OOther k) else (None, h).
(** src/flbwt.cpp:27-108.  Result: the heap when the function returns or throws, the exception, the
    output file (None: neither created nor truncated).  Err: undefined behaviour, or an
    exception thrown by bwt_string. *)
Definition h_bwt_file (hts : Z) (E : env) (srt : sorter) (h : heap) (f : io) : res (heap * res unit * option (list Z)) :=
  match h_open h (in_open f) (KFile, 0) with
  | (None, h) => Ok (h, Err InvalidArgument, None)
  | (Some fp, h) =>
  let n := u64 (in_tell f) in
  match h_open h (malloc_ok f) (KMalloc, u64 (n + 1)) with
  | (None, h) => h <- hfree KFile h (Some fp) ;; Ok (h, Err RuntimeError, None)
  | (Some pT, h) =>
  let T := anew (u64 (n + 1)) in
  _ <- uses h [(Some fp, 0); (Some pT, alen T)] ;;
  '(T, k) <- fread T n (in_data f) ;;
  if k <=? 0 then Ok (h, Err RuntimeError, None) else
  h <- hfree KFile h (Some fp) ;;
  _ <- uses h [(Some pT, alen T)] ;;
  T <- aset T n 0 ;;
  '(B, h) <- h_bwt_string hts E srt h (Some pT) T n true ;;
  match h_open h (out_open f) (KFile, 0) with
  | (None, h) => Ok (h, Err InvalidArgument, None)
  | (Some fp, h) =>
  match B with
  | None => h <- hfree KFile h (Some fp) ;; Ok (h, Ok tt, Some [])
  | Some (B, pR, pB) =>
  match hmalloc al h (OOther (KNewArray, 8)) with
  | (None, h) => Ok (h, Err BadAlloc, Some [])   (* :72 new throws: the output file exists already, the stream and the result are lost *)
  | (Some rank, h) =>
  _ <- uses h [(Some fp, 0); (Some rank, 8); (pR, 16); (pB, alen (r_BWT B))] ;;
  h <- hfree KNewArray h (Some rank) ;;
  out <- write_result (out_limit f) n (Some B) ;;
  h <- hfree KFile h (Some fp) ;;
  h <- hfree KNewArray h pB ;;
  h <- hfree KMalloc h pR ;;
  Ok (h, Ok tt, Some out)
  end end end end end.
End HeapProg.
