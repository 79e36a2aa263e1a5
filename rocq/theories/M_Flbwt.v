(** Model of src/flbwt.cpp and src/container.cpp. *)
From Verif Require Import Base M_PackedArray M_Queue M_HashTable M_Cells M_Sais M_Split M_Induce.
Open Scope Z_scope.

(** src/container.cpp:4-20 constructor *)
Definition cont_new (n : Z) : res container :=
  z <- azeros 258 ;;
  Ok (mkcont None z z z 0 0 n None 0 0 0 0).

(** ++a[i] *)
Definition aincr (a : arr Z) (i : Z) : res (arr Z) := v <- aget a i ;; aset a i (u64 (v + 1)).

(** state of the right-to-left scan of extract_LMS_strings (src/flbwt.cpp:333-335) *)
Record xst := mkxst { x_ht : htable; x_M : arr Z; x_C : arr Z; x_NL : arr Z;
                      x_num : Z; x_uniq : Z; x_prevS : bool; x_p : Z; x_q : Z }.

(** src/flbwt.cpp:342-373 loop body *)
Definition extract_step (E : env) (T : arr Z) (i : Z) (s : xst) : res xst :=
  ti <- aget T i ;;
  ti1 <- aget T (i + 1) ;;
  M <- aincr (x_M s) (ti + 1) ;;
  if ti <? ti1 then
    Ok (mkxst (x_ht s) M (x_C s) (x_NL s) (x_num s) (x_uniq s) true (x_p s) (x_q s))
  else if ti1 <? ti then
    '(ht, C, num, uniq, p, q) <-
      (if x_prevS s then
         let p := i + 1 in
         tp <- aget T p ;;
         C <- aincr (x_C s) (tp + 1) ;;
         '(ht, r) <- insert_string E (x_ht s) T (u64 (x_q s - p + 1)) p ;;
         Ok (ht, C, u64 (x_num s + 1), (if r =? 0 then x_uniq s else u64 (x_uniq s + 1)), p, p)
       else Ok (x_ht s, x_C s, x_num s, x_uniq s, x_p s, x_q s)) ;;
    NL <- aincr (x_NL s) (ti + 1) ;;
    Ok (mkxst ht M C NL num uniq false p q)
  else
    NL <- (if x_prevS s then Ok (x_NL s) else aincr (x_NL s) (ti + 1)) ;;
    Ok (mkxst (x_ht s) M (x_C s) NL (x_num s) (x_uniq s) (x_prevS s) (x_p s) (x_q s)).

(** src/flbwt.cpp:318-379 extract_LMS_strings; the table size 67777 is the argument [hts] *)
Definition extract_LMS_strings (E : env) (hts : Z) (T : arr Z) (n : Z) : res container :=
  co <- cont_new n ;;
  if n <=? 2 then Ok co else
  ht <- ht_new hts n ;;
  M <- aincr (c_M co) 0 ;;
  t <- aget T (n - 1) ;;
  M <- aincr M (t + 1) ;;
  NL <- aincr (c_NL co) (t + 1) ;;
  C <- aincr (c_C co) 0 ;;
  s <- for_down (n - 2) 0 (extract_step E T) (mkxst ht M C NL 0 0 false n n) ;;
  Ok (mkcont (Some (x_ht s)) (x_M s) (x_C s) (x_NL s) (x_num s) (x_uniq s) n (Some (x_p s)) 0 0 0 0).

(** src/flbwt.cpp:424-453 LMS_comparison *)
Definition LMS_comparison (E : env) (buf : arr Z) (p1 p2 : Z) : res bool :=
  l1 <- get_length E buf p1 ;;
  l2 <- get_length E buf p2 ;;
  p1 <- get_first_character_pointer E buf p1 ;;
  p2 <- get_first_character_pointer E buf p2 ;;
  loop (S (Z.to_nat l1)) (fun '(p1, p2, l1, l2) =>
    if (0 <? l1) && (0 <? l2) then
      c1 <- bget E buf p1 ;;
      c2 <- bget E buf p2 ;;
      if c1 =? c2 then Ok (inl (p1 + 1, p2 + 1, l1 - 1, l2 - 1))
      else Ok (inr (c1 <? c2))
    else if l1 =? 0 then Ok (inr false)
    else Ok (inr true)) (p1, p2, l1, l2).

Definition is_ok {A} (m : res A) : bool := match m with Ok _ => true | Err _ => false end.
Definition ok_true (m : res bool) : bool := match m with Ok b => b | Err _ => false end.

(** contract of std::sort: external code, a parameter of the model *)
Definition sorter := (Z -> Z -> bool) -> list Z -> list Z.

(** src/flbwt.cpp:403-418 walk one bucket, appending record offsets to s[j..] *)
Definition collect_chain (E : env) (h : htable) (p0 : Z) (s : arr Z) (j : Z) : res (arr Z * Z) :=
  let b := ht_buf h in
  loop (S (S (Z.to_nat (alen b)))) (fun '(p, s, j) =>
    if p =? 0 then Ok (inr (s, j)) else
    l <- get_length E b p ;;
    if l =? 0 then Ok (inr (s, j)) else
    if l =? 2 then (p' <- get_pointer E b p ;; Ok (inl (p', s, j))) else
    s <- aset s j p ;;
    k <- string_info_length E h b p l ;;
    Ok (inl (u64 (p + k), s, j + 1))) (p0, s, j).

(** read s[lo..hi) as a list *)
Definition aslice (a : arr Z) (lo hi : Z) : res (list Z) :=
  l <- for_down (hi - 1) lo (fun i l => x <- aget a i ;; Ok (x :: l)) [] ;; Ok l.

(** write the list to s[lo..] *)
Fixpoint ablit (a : arr Z) (lo : Z) (l : list Z) : res (arr Z) :=
  match l with [] => Ok a | x :: r => a <- aset a lo x ;; ablit a (lo + 1) r end.

(** src/flbwt.cpp:381-507 sort_LMS_strings.
    std::sort may compare any pair of elements, so the call is an error if some comparison
    of two elements is. *)
Definition sort_LMS_strings (E : env) (srt : sorter) (T : arr Z) (co : container)
  : res (arr Z * container) :=
  match c_ht co with
  | None => Err NullDeref
  | Some h =>
    match c_head_end co with
    | None => Err Uninit
    | Some head_end =>
      let s := anew (u64 (c_uniq co + 2)) in
      let nb := NAME_BYTES h in
      lenlen <- calculate_lenlen (u64 (head_end + 1)) ;;
      let pos := alen (ht_buf h) in
      let space_required := 1 + 1 + lenlen + (head_end + 1) + nb + (1 + 1 + 1 + 1 + nb) in
      let h := with_buf h (brealloc (ht_buf h) (u64 (pos + space_required))) in
      '(s, j) <- for_up 0 (HTSIZE h) (fun i '(s, j) =>
          p <- aget (ht_head h) i ;; collect_chain E h p s j) (s, 1) ;;
      let m := j - 1 in
      l <- aslice s 1 (1 + m) ;;
      let cmp := LMS_comparison E (ht_buf h) in
      if negb (forallb (fun x => forallb (fun y => is_ok (cmp x y)) l) l) then Err Uninit else
      s <- ablit s 1 (srt (fun x y => ok_true (cmp x y)) l) ;;
      (* names *)
      h <- for_up 1 (m + 1) (fun i h =>
          q <- aget s i ;; b <- set_name E h (ht_buf h) q i ;; Ok (with_buf h b)) h ;;
      (* head string *)
      let r := pos in
      s <- aset s (c_uniq co + 1) r ;;
      b <- set_length E (ht_buf h) r (head_end + 1) ;;
      b <- set_name E h b r (c_uniq co + 1) ;;
      ll <- bget E b r ;;
      let r := r + (1 + ll) in
      t0 <- aget T 0 ;;
      b <- bset b r (t0 + 1) ;;
      let r := r + 1 in
      let lastptr := r in
      b <- for_up 0 (head_end + 1) (fun i b => c <- aget T i ;; bset b (r + i) c) b ;;
      let r := r + (head_end + 1) + nb in
      (* last S* substring *)
      s <- aset s 0 r ;;
      b <- set_length E b r 1 ;;
      b <- bset b (r + 2) 0 ;;
      b <- for_up 0 nb (fun i b => bset b (r + 4 + i) 0) b ;;
      (* minimum and maximum pointers *)
      s0 <- aget s 0 ;;
      '(min_ptr, max_ptr) <- for_up 1 (c_uniq co + 2) (fun i '(mn, mx) =>
          x <- aget s i ;;
          Ok (if x <? mn then x else mn, if mx <? x then x else mx)) (s0, s0) ;;
      width <- position_of_msb (max_ptr - min_ptr + 2) ;;
      let base := min_ptr - 1 in
      l <- get_length E b max_ptr ;;
      fc <- get_first_character_pointer E b max_ptr ;;
      let sa_max := fc + l - 1 - base in
      Ok (s, mkcont (Some (with_buf h b)) (c_M co) (c_C co) (c_NL co) (c_num co) (c_uniq co)
                    (c_n co) (c_head_end co) base width sa_max lastptr)
    end
  end.

(** src/flbwt.cpp:509-564 create_shortened_string.  The loop `for (i = n-2; i >= 0; i--)` on
    uint64_t with the explicit break at 0 is a downward loop for n >= 2. *)
Definition create_shortened_string (E : env) (T : arr Z) (n : Z) (co : container) : res packed :=
  match c_ht co with
  | None => Err NullDeref
  | Some h =>
    let total := u64 (c_num co + 2) in
    let max_name := u64 (c_uniq co + 1) in
    bits <- position_of_msb max_name ;;
    let T1 := pa_new total bits in
    let j := total - 1 in
    T1 <- pa_set E T1 j 0 ;;
    '(T1, _, _, _) <- for_down (n - 2) 0 (fun i '(T1, prevS, q, j) =>
        ti <- aget T i ;;
        ti1 <- aget T (i + 1) ;;
        if ti <? ti1 then Ok (T1, true, q, j)
        else if ti1 <? ti then
          if (prevS : bool) then
            let p := i + 1 in
            name <- find_name E h T (u64 (q - p + 1)) p ;;
            T1 <- pa_set E T1 j name ;;
            Ok (T1, false, p, j - 1)
          else Ok (T1, false, q, j)
        else Ok (T1, prevS, q, j)) (T1, false, n, j - 1) ;;
    pa_set E T1 0 max_name
  end.

(** src/flbwt.cpp:152,162,189,220,251,283 width of the suffix array cells; None: no branch taken *)
Definition sa_width (bits : Z) : option Z :=
  if bits <? 32 then Some 32 else if bits <? 40 then Some 40 else if bits <? 48 then Some 48
  else if bits <? 56 then Some 56 else if bits <? 64 then Some 64 else None.

(** src/flbwt.cpp:162-188 (W = 32) and 283-309 (W = 64): suffix array of T1, then replace
    every entry by the pointer to the last character of the preceding substring *)
Definition bwt_branch (E : env) (W : Z) (Sv : arr Z) (T1 : packed) (co : container) : res bwt_result :=
  match c_ht co with
  | None => Err NullDeref
  | Some h =>
    let total := u64 (c_num co + 2) in
    let T1_length := u64 (c_num co + 1) in
    let k := u64 (c_uniq co + 2) in
    s <- sais E W DEPTH (mkst (anew total) (anew 0)) (TPack (pa_arr T1) (pa_bits T1)) 0 T1_length k ;;
    SA <- for_up 0 (c_num co + 1) (fun i SA => v <- aget SA i ;; _ <- fits W (v + 1) ;; aset SA i (v + 1)) (mem s) ;;
    SA <- for_up 0 (c_num co + 1) (fun i SA =>
        p <- aget SA i ;;
        name <- pa_get E T1 (p - 1) ;;
        q <- aget Sv name ;;
        l <- get_length E (ht_buf h) q ;;
        fc <- get_first_character_pointer E (ht_buf h) q ;;
        _ <- fits W (fc + l - 1 - c_bwp_base co) ;;
        aset SA i (fc + l - 1 - c_bwp_base co)) SA ;;
    induce_bwt E SA co
  end.

(** src/flbwt.cpp:189-219 (uw = 8) and 220-250 (uw = 16): the cells are split over two arrays *)
Definition bwt_branch2 (E : env) (uw : Z) (Sv : arr Z) (T1 : packed) (co : container) : res bwt_result :=
  match c_ht co with
  | None => Err NullDeref
  | Some h =>
    let total := u64 (c_num co + 2) in
    let T1_length := u64 (c_num co + 1) in
    let k := u64 (c_uniq co + 2) in
    s <- ssais E (32 + uw) (ops2 uw) DEPTH (mkst2 (anew total) (anew total) (anew 0) (anew 0))
           (TPack (pa_arr T1) (pa_bits T1)) 0 T1_length k ;;
    '(L, U) <- for_up 0 (c_num co + 1) (fun i '(L, U) =>
        v <- get_2part L U i ;; _ <- fits (32 + uw) (v + 1) ;; set_2part uw L U i (v + 1)) (m2L s, m2U s) ;;
    '(L, U) <- for_up 0 (c_num co + 1) (fun i '(L, U) =>
        p <- get_2part L U i ;;
        name <- pa_get E T1 (p - 1) ;;
        q <- aget Sv name ;;
        l <- get_length E (ht_buf h) q ;;
        fc <- get_first_character_pointer E (ht_buf h) q ;;
        _ <- fits (32 + uw) (fc + l - 1 - c_bwp_base co) ;;
        set_2part uw L U i (fc + l - 1 - c_bwp_base co)) (L, U) ;;
    induce_bwt_rd E (get_2part L U) co
  end.

(** src/flbwt.cpp:251-282: three arrays *)
Definition bwt_branch3 (E : env) (Sv : arr Z) (T1 : packed) (co : container) : res bwt_result :=
  match c_ht co with
  | None => Err NullDeref
  | Some h =>
    let total := u64 (c_num co + 2) in
    let T1_length := u64 (c_num co + 1) in
    let k := u64 (c_uniq co + 2) in
    s <- ssais E 56 ops3 DEPTH (mkst3 (anew total) (anew total) (anew total) (anew 0) (anew 0) (anew 0))
           (TPack (pa_arr T1) (pa_bits T1)) 0 T1_length k ;;
    '(L, M, U) <- for_up 0 (c_num co + 1) (fun i '(L, M, U) =>
        v <- get_3part L M U i ;; _ <- fits 56 (v + 1) ;; set_3part L M U i (v + 1)) (m3L s, m3M s, m3U s) ;;
    '(L, M, U) <- for_up 0 (c_num co + 1) (fun i '(L, M, U) =>
        p <- get_3part L M U i ;;
        name <- pa_get E T1 (p - 1) ;;
        q <- aget Sv name ;;
        l <- get_length E (ht_buf h) q ;;
        fc <- get_first_character_pointer E (ht_buf h) q ;;
        _ <- fits 56 (fc + l - 1 - c_bwp_base co) ;;
        set_3part L M U i (fc + l - 1 - c_bwp_base co)) (L, M, U) ;;
    induce_bwt_rd E (get_3part L M U) co
  end.

(** src/flbwt.cpp:162-309 the branch for cells of width W *)
Definition bwt_branch_of (E : env) (W : Z) : arr Z -> packed -> container -> res bwt_result :=
  if W =? 40 then bwt_branch2 E 8 else if W =? 48 then bwt_branch2 E 16
  else if W =? 56 then bwt_branch3 E else bwt_branch E W.

(** src/flbwt.cpp:120-313 bwt_is.  The first component of the result is the caller's text
    buffer when the function returns: None after free(T) (lines 133-137).  Lines 138-313 do not
    mention T. *)
Definition bwt_is (E : env) (srt : sorter) (hts : Z) (T : arr Z) (n : Z) (free_T : bool)
  : res (option (arr Z) * option bwt_result) :=
  co <- extract_LMS_strings E hts T n ;;
  '(Sv, co) <- sort_LMS_strings E srt T co ;;
  T1 <- create_shortened_string E T n co ;;
  let T := if free_T then None else Some T in
  let total := u64 (c_num co + 2) in
  let max_value := if c_sa_max co <? total then total else c_sa_max co in
  bits <- position_of_msb max_value ;;
  match sa_width bits with
  | None => Ok (T, None)
  | Some W => r <- bwt_branch_of E W Sv T1 co ;; Ok (T, Some r)
  end.

(** src/flbwt.cpp:110-118 bwt_string; T = None is the NULL pointer.  The hash table size
    (67777, src/flbwt.cpp:328) is the argument [hts]. *)
Definition bwt_string_gen (hts : Z) (E : env) (srt : sorter) (T : option (arr Z)) (n : Z) (free_T : bool)
  : res (option (arr Z) * option bwt_result) :=
  match T with
  | None => Err InvalidArgument
  | Some T => if n <=? 0 then Err InvalidArgument else bwt_is E srt hts T n free_T
  end.
(** src/flbwt.cpp:328 HashTable(67777, n) *)
Definition bwt_string := bwt_string_gen 67777.

(** a byte list as a heap block *)
Definition of_list (l : list Z) : arr Z :=
  mkarr (Z.of_nat (length l))
    (snd (fold_left (fun '(i, m) x => (i + 1, FMapPositive.PositiveMap.add (key i) x m))
                    l (0, FMapPositive.PositiveMap.empty Z))).
