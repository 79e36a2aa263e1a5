(** bwt_string (src/flbwt.cpp, src/hashtable.cpp, src/induceXXbit.cpp) with a counter of executed
    steps.  The text is that of M_HashTable.v, M_Flbwt.v and M_Induce.v, statement by statement.
    One step each: an access to an array element or a byte, an operation whose running time has a
    constant bound (get_length, set_length, calculate_lenlen, get_pointer, set_pointer, get_name,
    set_name, string_info_length, get_first_character_pointer, position_of_msb, a PackedArray or
    Queue operation), an evaluation of a loop condition, a call of the allocator, and the call of
    std::sort, to which the time [st] of its comparisons is added (SortSpec.v; the moves of elements
    are attributed to the comparisons before them; the time of the allocator is not described).
    The steps of walking a hash chain are counted with the weight [pw], so that they can be told apart.
    P_Cost.v shows that dropping the counter gives bwt_string_gen. *)
From Verif Require Import Base M_PackedArray M_Queue M_HashTable M_Cells M_Sais M_Split M_Induce M_Flbwt M_SaisCost M_File SortSpec.
Open Scope Z_scope.

(** count the steps of m with weight k *)
Definition cscale {A} (k : Z) (m : cres A) : cres A := '(a, c) <- m ;; Ok (a, k * c).

(** * src/hashtable.cpp *)
(** std::fill_n *)
Definition azeros_steps (len : Z) : cres (arr Z) :=
  a <~ tick (Ok (anew len)) ;; cfor_up 0 len (fun i a => tick (aset a i 0)) a.
(** :6-26 *)
Definition ht_new_steps (hash_table_size n : Z) : cres htable :=
  rest <~ azeros_steps hash_table_size ;;
  head <~ azeros_steps hash_table_size ;;
  let max_name := u64 (n / 2 + 1) in
  bits <~ tick (position_of_msb max_name) ;;
  let name_bytes := bits / 8 + (if bits mod 8 =? 0 then 0 else 1) in
  cret (mkht hash_table_size 512 name_bytes rest head (anew 0)).
(** :133-147 *)
Definition hash_steps (h : htable) (T : arr Z) (m p : Z) : cres Z :=
  x <~ cfor_up 0 m (fun i x => c <~ tick (aget T (p + i)) ;; cret (u64 (u64 (x * 101) + c))) 0 ;;
  cret (x mod HTSIZE h).
(** :71-79 and 328-336 *)
Definition same_string_steps (E : env) (b T : arr Z) (m p q l2 : Z) : cres bool :=
  cloop (S (Z.to_nat m)) (fun i =>
    if i =? m then cret (inr true) else
    c <~ tick (aget T (p + i)) ;;
    d <~ tick (bget E b (q + 1 + 1 + l2 + i)) ;;
    if c =? d then cret (inl (i + 1)) else cret (inr false)) 0.
(** :43-83 and 304-339 *)
Definition scan_steps1 (E : env) (h : htable) (T : arr Z) (m p : Z) (q : Z) : cres (Z + scan) :=
    let b := ht_buf h in
    if q =? 0 then cret (inr (ScanEnd 0)) else
    l <~ tick (get_length E b q) ;;
    if l =? 0 then cret (inr (ScanEnd q)) else
    if l =? 2 then (q' <~ tick (get_pointer E b q) ;; cret (inl q')) else
    if negb (l =? m) then (s <~ tick (string_info_length E h b q l) ;; cret (inl (u64 (q + s)))) else
    l2 <~ tick (bget E b q) ;;
    same <~ same_string_steps E b T m p q l2 ;;
    if (same : bool) then cret (inr (ScanDup q)) else
    s <~ tick (string_info_length E h b q l) ;;
    cret (inl (u64 (q + s))).
Definition scan_chain_steps (E : env) (h : htable) (T : arr Z) (m p q0 : Z) : cres scan :=
  let b := ht_buf h in
  cloop (S (S (Z.to_nat (alen b)))) (scan_steps1 E h T m p) q0.
(** :113-126 *)
Definition write_record_steps (E : env) (h : htable) (T : arr Z) (m p length_bytes : Z) (b : arr Z) (r : Z) : cres (arr Z) :=
  b <~ tick (set_length E b r m) ;;
  let r := r + 1 + length_bytes in
  c0 <~ tick (aget T p) ;;
  b <~ tick (bset b r (c0 + 1)) ;;
  let r := r + 1 in
  b <~ cfor_up 0 m (fun i b => c <~ tick (aget T (p + i)) ;; tick (bset b (r + i) c)) b ;;
  let r := r + m + NAME_BYTES h in
  cfor_up 0 12 (fun i b => tick (bset b (r + i) 0)) b.
(** :28-131 *)
Definition insert_steps (pw : Z) (E : env) (h : htable) (T : arr Z) (m p : Z) : cres (htable * Z) :=
  hv <~ hash_steps h T m p ;;
  q0 <~ tick (aget (ht_head h) hv) ;;
  sc <~ cscale pw (scan_chain_steps E h T m p q0) ;;
  match sc with
  | ScanDup _ => cret (h, 0)
  | ScanEnd q =>
    length_bytes <~ tick (calculate_lenlen m) ;;
    let space_required := u64 (1 + 1 + length_bytes + m + NAME_BYTES h) in
    rest <~ tick (aget (ht_rest h) hv) ;;
    '(h, r) <~
      (if swrap 64 rest - 12 <=? swrap 64 space_required then
        let bufsize := alen (ht_buf h) in
        let q2 := u64 (bufsize + 1) in
        b <~ tick (Ok (brealloc (ht_buf h) (u64 (bufsize + HBSIZE h + space_required)))) ;;
        rest' <~ tick (aset (ht_rest h) hv (u64 (HBSIZE h + space_required))) ;;
        if q =? 0 then
          head' <~ tick (aset (ht_head h) hv q2) ;;
          cret (mkht (HTSIZE h) (HBSIZE h) (NAME_BYTES h) rest' head' b, q2)
        else
          b' <~ tick (set_pointer b q q2) ;;
          cret (mkht (HTSIZE h) (HBSIZE h) (NAME_BYTES h) rest' (ht_head h) b', q2)
      else cret (h, q)) ;;
    b <~ write_record_steps E h T m p length_bytes (ht_buf h) r ;;
    rest <~ tick (aget (ht_rest h) hv) ;;
    rest' <~ tick (aset (ht_rest h) hv (u64 (rest - space_required))) ;;
    cret (mkht (HTSIZE h) (HBSIZE h) (NAME_BYTES h) rest' (ht_head h) b, 1)
  end.
(** :292-342 *)
Definition find_steps (pw : Z) (E : env) (h : htable) (T : arr Z) (m p : Z) : cres Z :=
  hv <~ hash_steps h T m p ;;
  q0 <~ tick (aget (ht_head h) hv) ;;
  sc <~ cscale pw (scan_chain_steps E h T m p q0) ;;
  match sc with
  | ScanDup q => tick (get_name E h (ht_buf h) q)
  | ScanEnd _ => Err RuntimeError
  end.

(** * src/flbwt.cpp *)
(** src/container.cpp:4-20: three arrays *)
Definition cont_new_steps (n : Z) : cres container :=
  z <~ cscale 3 (azeros_steps 258) ;;
  cret (mkcont None z z z 0 0 n None 0 0 0 0).
(** :342-373 *)
Definition extract_step_steps (pw : Z) (E : env) (T : arr Z) (i : Z) (s : xst) : cres xst :=
  ti <~ tick (aget T i) ;;
  ti1 <~ tick (aget T (i + 1)) ;;
  M <~ tick (aincr (x_M s) (ti + 1)) ;;
  if ti <? ti1 then
    cret (mkxst (x_ht s) M (x_C s) (x_NL s) (x_num s) (x_uniq s) true (x_p s) (x_q s))
  else if ti1 <? ti then
    '(ht, C, num, uniq, p, q) <~
      (if x_prevS s then
         let p := i + 1 in
         tp <~ tick (aget T p) ;;
         C <~ tick (aincr (x_C s) (tp + 1)) ;;
         '(ht, r) <~ insert_steps pw E (x_ht s) T (u64 (x_q s - p + 1)) p ;;
         cret (ht, C, u64 (x_num s + 1), (if r =? 0 then x_uniq s else u64 (x_uniq s + 1)), p, p)
       else cret (x_ht s, x_C s, x_num s, x_uniq s, x_p s, x_q s)) ;;
    NL <~ tick (aincr (x_NL s) (ti + 1)) ;;
    cret (mkxst ht M C NL num uniq false p q)
  else
    NL <~ (if x_prevS s then cret (x_NL s) else tick (aincr (x_NL s) (ti + 1))) ;;
    cret (mkxst (x_ht s) M (x_C s) NL (x_num s) (x_uniq s) (x_prevS s) (x_p s) (x_q s)).
(** :318-379 *)
Definition extract_steps (pw : Z) (E : env) (hts : Z) (T : arr Z) (n : Z) : cres container :=
  co <~ cont_new_steps n ;;
  if n <=? 2 then cret co else
  ht <~ ht_new_steps hts n ;;
  M <~ tick (aincr (c_M co) 0) ;;
  t <~ tick (aget T (n - 1)) ;;
  M <~ tick (aincr M (t + 1)) ;;
  NL <~ tick (aincr (c_NL co) (t + 1)) ;;
  C <~ tick (aincr (c_C co) 0) ;;
  s <~ cfor_down (n - 2) 0 (extract_step_steps pw E T) (mkxst ht M C NL 0 0 false n n) ;;
  cret (mkcont (Some (x_ht s)) (x_M s) (x_C s) (x_NL s) (x_num s) (x_uniq s) n (Some (x_p s)) 0 0 0 0).

(** :403-418 *)
Definition collect_step1 (E : env) (h : htable) (x : Z * arr Z * Z) : cres (Z * arr Z * Z + arr Z * Z) :=
    let b := ht_buf h in
    let '(p, s, j) := x in
    if p =? 0 then cret (inr (s, j)) else
    l <~ tick (get_length E b p) ;;
    if l =? 0 then cret (inr (s, j)) else
    if l =? 2 then (p' <~ tick (get_pointer E b p) ;; cret (inl (p', s, j))) else
    s <~ tick (aset s j p) ;;
    k <~ tick (string_info_length E h b p l) ;;
    cret (inl (u64 (p + k), s, j + 1)).
Definition collect_chain_steps (E : env) (h : htable) (p0 : Z) (s : arr Z) (j : Z) : cres (arr Z * Z) :=
  let b := ht_buf h in
  cloop (S (S (Z.to_nat (alen b)))) (collect_step1 E h) (p0, s, j).

(** :424-453 the comparison that std::sort calls *)
Definition LMS_comparison_steps (E : env) (buf : arr Z) (p1 p2 : Z) : cres bool :=
  l1 <~ tick (get_length E buf p1) ;;
  l2 <~ tick (get_length E buf p2) ;;
  p1 <~ tick (get_first_character_pointer E buf p1) ;;
  p2 <~ tick (get_first_character_pointer E buf p2) ;;
  cloop (S (Z.to_nat l1)) (fun '(p1, p2, l1, l2) =>
    if (0 <? l1) && (0 <? l2) then
      c1 <~ tick (bget E buf p1) ;;
      c2 <~ tick (bget E buf p2) ;;
      if c1 =? c2 then cret (inl (p1 + 1, p2 + 1, l1 - 1, l2 - 1))
      else cret (inr (c1 <? c2))
    else if l1 =? 0 then cret (inr false)
    else cret (inr true)) (p1, p2, l1, l2).

(** :420-453 the call of std::sort *)
Definition call_sort (E : env) (srt : sorter) (buf : arr Z) (m : Z) (s : arr Z) : res (arr Z) :=
  l <- aslice s 1 (1 + m) ;;
  let cmp := LMS_comparison E buf in
  if negb (forallb (fun x => forallb (fun y => is_ok (cmp x y)) l) l) then Err Uninit else
  ablit s 1 (srt (fun x y => ok_true (cmp x y)) l).
(** the number of steps of one comparison *)
Definition comparison_time (E : env) (buf : arr Z) (x y : Z) : Z :=
  match LMS_comparison_steps E buf x y with Ok (_, k) => k | Err _ => 0 end.
(** the call of std::sort with the time of its comparisons *)
Definition call_sort_steps (E : env) (srt : sorter) (st : sort_time) (buf : arr Z) (m : Z) (s : arr Z) : cres (arr Z) :=
  s' <- call_sort E srt buf m s ;;
  l <- aslice s 1 (1 + m) ;;
  Ok (s', 1 + st (fun x y => ok_true (LMS_comparison E buf x y)) (comparison_time E buf) l).

(** :381-507 *)
Definition sort_steps (E : env) (srt : sorter) (st : sort_time) (T : arr Z) (co : container) : cres (arr Z * container) :=
  match c_ht co with
  | None => Err NullDeref
  | Some h =>
    match c_head_end co with
    | None => Err Uninit
    | Some head_end =>
      s <~ tick (Ok (anew (u64 (c_uniq co + 2)))) ;;
      let nb := NAME_BYTES h in
      lenlen <~ tick (calculate_lenlen (u64 (head_end + 1))) ;;
      let pos := alen (ht_buf h) in
      let space_required := 1 + 1 + lenlen + (head_end + 1) + nb + (1 + 1 + 1 + 1 + nb) in
      b <~ tick (Ok (brealloc (ht_buf h) (u64 (pos + space_required)))) ;;
      let h := with_buf h b in
      '(s, j) <~ cfor_up 0 (HTSIZE h) (fun i '(s, j) =>
          p <~ tick (aget (ht_head h) i) ;; collect_chain_steps E h p s j) (s, 1) ;;
      let m := j - 1 in
      s <~ call_sort_steps E srt st (ht_buf h) m s ;;
      (* names *)
      h <~ cfor_up 1 (m + 1) (fun i h =>
          q <~ tick (aget s i) ;; b <~ tick (set_name E h (ht_buf h) q i) ;; cret (with_buf h b)) h ;;
      (* head string *)
      let r := pos in
      s <~ tick (aset s (c_uniq co + 1) r) ;;
      b <~ tick (set_length E (ht_buf h) r (head_end + 1)) ;;
      b <~ tick (set_name E h b r (c_uniq co + 1)) ;;
      ll <~ tick (bget E b r) ;;
      let r := r + (1 + ll) in
      t0 <~ tick (aget T 0) ;;
      b <~ tick (bset b r (t0 + 1)) ;;
      let r := r + 1 in
      let lastptr := r in
      b <~ cfor_up 0 (head_end + 1) (fun i b => c <~ tick (aget T i) ;; tick (bset b (r + i) c)) b ;;
      let r := r + (head_end + 1) + nb in
      (* last S* substring *)
      s <~ tick (aset s 0 r) ;;
      b <~ tick (set_length E b r 1) ;;
      b <~ tick (bset b (r + 2) 0) ;;
      b <~ cfor_up 0 nb (fun i b => tick (bset b (r + 4 + i) 0)) b ;;
      (* minimum and maximum pointers *)
      s0 <~ tick (aget s 0) ;;
      '(min_ptr, max_ptr) <~ cfor_up 1 (c_uniq co + 2) (fun i '(mn, mx) =>
          x <~ tick (aget s i) ;;
          cret (if x <? mn then x else mn, if mx <? x then x else mx)) (s0, s0) ;;
      width <~ tick (position_of_msb (max_ptr - min_ptr + 2)) ;;
      let base := min_ptr - 1 in
      l <~ tick (get_length E b max_ptr) ;;
      fc <~ tick (get_first_character_pointer E b max_ptr) ;;
      let sa_max := fc + l - 1 - base in
      cret (s, mkcont (Some (with_buf h b)) (c_M co) (c_C co) (c_NL co) (c_num co) (c_uniq co)
                    (c_n co) (c_head_end co) base width sa_max lastptr)
    end
  end.

(** :528-560 *)
Definition create_step (pw : Z) (E : env) (h : htable) (T : arr Z) (i : Z) (x : packed * bool * Z * Z) : cres (packed * bool * Z * Z) :=
        let '(T1, prevS, q, j) := x in
        ti <~ tick (aget T i) ;;
        ti1 <~ tick (aget T (i + 1)) ;;
        if ti <? ti1 then cret (T1, true, q, j)
        else if ti1 <? ti then
          if (prevS : bool) then
            let p := i + 1 in
            name <~ find_steps pw E h T (u64 (q - p + 1)) p ;;
            T1 <~ tick (pa_set E T1 j name) ;;
            cret (T1, false, p, j - 1)
          else cret (T1, false, q, j)
        else cret (T1, prevS, q, j).
(** :509-564 *)
Definition create_steps (pw : Z) (E : env) (T : arr Z) (n : Z) (co : container) : cres packed :=
  match c_ht co with
  | None => Err NullDeref
  | Some h =>
    let total := u64 (c_num co + 2) in
    let max_name := u64 (c_uniq co + 1) in
    bits <~ tick (position_of_msb max_name) ;;
    T1 <~ tick (Ok (pa_new total bits)) ;;
    let j := total - 1 in
    T1 <~ tick (pa_set E T1 j 0) ;;
    '(T1, _, _, _) <~ cfor_down (n - 2) 0 (create_step pw E h T) (T1, false, n, j - 1) ;;
    tick (pa_set E T1 0 max_name)
  end.

(** * src/induceXXbit.cpp (lines of induce32bit.cpp) *)
(** :20-25 *)
Definition init_queues_steps (w : Z) : cres (arr queue) :=
  cfor_up 0 (3 * 258) (fun i Q => tick (aset Q i (q_new w))) (anew (3 * 258)).
(** :31-45 *)
Definition fill_steps (E : env) (buf : arr Z) (base num : Z) (rdSA : Z -> res Z) (Q : arr queue) : cres (arr queue) :=
  cfor_down num 0 (fun i Q =>
    v <~ tick (rdSA i) ;;
    let q := v + base in
    c <~ (if i =? 0 then cret (-1) else tick (bget E buf q)) ;;
    tick (q_addl E Q TYPE_LMS (c + 1) (q - base))) Q.
(** :53-58 *)
Definition bucket_starts_steps (M : arr Z) : cres (arr Z) :=
  '(M2, _) <~ cfor_up 0 258 (fun i '(M2, cc) =>
      M2 <~ tick (aset M2 i (u64 cc)) ;; m <~ tick (aget M i) ;; cret (M2, swrap 64 (cc + m))) (anew 258, 0) ;;
  cret M2.
(** :61-62 *)
Definition stype_starts_steps (M2 NL : arr Z) : cres (arr Z) :=
  cfor_up 0 258 (fun i C2 => m <~ tick (aget M2 i) ;; l <~ tick (aget NL i) ;; tick (aset C2 i (u64 (m + l)))) (anew 258).
(** :70-77 *)
Definition induce_first_steps (E : env) (buf : arr Z) (base : Z) (s : ist) : cres ist :=
  '(x, Q) <~ tick (q_pop E (i_Q s) TYPE_LMS 0) ;;
  let q := base + x in
  c1 <~ tick (bget E buf (q - 1)) ;;
  B <~ tick (aset (i_BWT s) 0 c1) ;;
  Q <~ tick (q_add E Q TYPE_L (c1 + 1) (q - 1 - base)) ;;
  c2 <~ tick (bget E buf (q - 2)) ;;
  s <~ tick (put_M2_up (mkist Q B (i_M2 s) (i_C2 s) (i_last s)) (c1 + 1) c2) ;;
  tick (put_C2_up s 0 c1).
(** :92-121 *)
Definition induce_step1_steps (E : env) (buf : arr Z) (base lastptr t c : Z) (x : ist * Z) : cres (ist * Z + ist) :=
  let '(s, m) := x in
  qq <~ tick (aget (i_Q s) (qidx t c)) ;;
  if q_is_empty qq then cret (inr s) else
  '(v, Q) <~ tick (q_pop E (i_Q s) t c) ;;
  let s := with_Q s Q in
  let q := base + v in
  s <~ (if q =? lastptr then cret (with_last s (u64 m)) else
        c1 <~ tick (bget E buf (q - 1)) ;;
        if c - 1 <=? c1 then
          Q <~ tick (q_add E (i_Q s) TYPE_L (c1 + 1) (q - 1 - base)) ;;
          c2 <~ tick (bget E buf (q - 2)) ;;
          s <~ tick (put_M2_up (with_Q s Q) (c1 + 1) c2) ;;
          if t =? TYPE_LMS then tick (put_C2_up s c c1) else cret s
        else
          Q <~ tick (q_addl E (i_Q s) TYPE_S c (q - base)) ;; cret (with_Q s Q)) ;;
  m <~ cscale 0 (tick (inc64 m)) ;;
  cret (inl (s, m)).
(** :83-123 *)
Definition induce_pass1_steps (E : env) (fuel : nat) (buf : arr Z) (base lastptr : Z)
    (M M3 C : arr Z) (s : ist) : cres ist :=
  cfor_up 1 258 (fun c s =>
    cfor_up 1 3 (fun t s =>
      m3 <~ tick (aget M3 c) ;;
      m <~ (if t =? TYPE_LMS then (mc <~ tick (aget M c) ;; cc <~ tick (aget C c) ;; cret (swrap 64 (m3 + (mc - cc)))) else cret (swrap 64 m3)) ;;
      cloop fuel (induce_step1_steps E buf base lastptr t c) (s, m)) s) s.
(** :131-132 *)
Definition reset_L_steps (w : Z) (Q : arr queue) : cres (arr queue) :=
  cfor_up 0 258 (fun c Q => tick (aset Q (qidx TYPE_L c) (q_new w))) Q.
(** :134-136 *)
Definition bucket_ends_steps (M M2 : arr Z) : cres (arr Z) :=
  M2 <~ tick (aset M2 0 0) ;;
  cfor_up 1 258 (fun c M2 => a <~ tick (aget M2 (c - 1)) ;; m <~ tick (aget M c) ;; tick (aset M2 c (u64 (a + m)))) M2.
(** :143-162 *)
Definition induce_step2_steps (E : env) (buf : arr Z) (base lastptr t c : Z) (s : ist) : cres (ist + ist) :=
  qq <~ tick (aget (i_Q s) (qidx t c)) ;;
  if q_is_empty qq then cret (inr s) else
  '(v, Q) <~ tick (q_pop E (i_Q s) t c) ;;
  let s := with_Q s Q in
  let q := base + v in
  c1 <~ tick (bget E buf (q - 1)) ;;
  if c1 <=? c - 1 then
    Q <~ tick (q_add E (i_Q s) TYPE_L (c1 + 1) (q - 1 - base)) ;;
    let s := with_Q s Q in
    m <~ tick (aget (i_M2 s) (c1 + 1)) ;;
    M2 <~ tick (aset (i_M2 s) (c1 + 1) (u64 (m - 1))) ;;
    let s := mkist (i_Q s) (i_BWT s) M2 (i_C2 s) (i_last s) in
    if q - 1 =? lastptr then cret (inl (with_last s m))
    else
      c0 <~ tick (bget E buf (q - 2)) ;;
      '(x, C2) <~ (if c0 <=? c1 then cret (c0, i_C2 s) else
            p <~ tick (aget (i_C2 s) (c1 + 1)) ;;
            C2 <~ tick (aset (i_C2 s) (c1 + 1) (u64 (p - 1))) ;;
            x <~ tick (aget (i_BWT s) (u64 (p - 1))) ;; cret (x, C2)) ;;
      B <~ tick (aset (i_BWT s) m x) ;;
      cret (inl (mkist (i_Q s) B (i_M2 s) C2 (i_last s)))
  else cret (inl s).
(** :139-164 *)
Definition induce_pass2_steps (E : env) (fuel : nat) (buf : arr Z) (base lastptr : Z) (s : ist) : cres ist :=
  cfor_down 257 0 (fun c s =>
    cfor_down 1 0 (fun t s => cloop fuel (induce_step2_steps E buf base lastptr t c) s) s) s.
(** :11-178; the 3 * 258 queues are deleted in the loops *)
Definition induce_steps (E : env) (rdSA : Z -> res Z) (co : container) : cres bwt_result :=
  match c_ht co with
  | None => Err NullDeref
  | Some h =>
    let buf := ht_buf h in
    let base := c_bwp_base co in
    let w := c_bwp_width co in
    let fuel := S (S (Z.to_nat (c_n co))) in
    Q <~ init_queues_steps w ;;
    Q <~ fill_steps E buf base (c_num co) rdSA Q ;;
    M2 <~ bucket_starts_steps (c_M co) ;;
    C2 <~ stype_starts_steps M2 (c_NL co) ;;
    BWT <~ tick (Ok (anew (c_n co + 1))) ;;
    let s := mkist Q BWT M2 C2 None in
    s <~ induce_first_steps E buf base s ;;
    s <~ induce_pass1_steps E fuel buf base (c_lastptr co) (c_M co) M2 (c_C co) s ;;
    Q <~ reset_L_steps w (i_Q s) ;;
    M2' <~ bucket_ends_steps (c_M co) (i_M2 s) ;;
    s <~ induce_pass2_steps E fuel buf base (c_lastptr co) (mkist Q (i_BWT s) M2' (i_C2 s) (i_last s)) ;;
    match i_last s with
    | None => Err Uninit
    | Some l => cret (mkres l (i_BWT s))
    end
  end.

(** * src/flbwt.cpp *)
(** :162-188 and 283-309 *)
Definition branch_steps (E : env) (W : Z) (Sv : arr Z) (T1 : packed) (co : container) : cres bwt_result :=
  match c_ht co with
  | None => Err NullDeref
  | Some h =>
    let total := u64 (c_num co + 2) in
    let T1_length := u64 (c_num co + 1) in
    let k := u64 (c_uniq co + 2) in
    SA <~ tick (Ok (anew total)) ;;
    s <~ csais E W (ops1 W) DEPTH (mkst SA (anew 0)) (TPack (pa_arr T1) (pa_bits T1)) 0 T1_length k ;;
    SA <~ cfor_up 0 (c_num co + 1) (fun i SA => v <~ tick (aget SA i) ;; tick (_ <- fits W (v + 1) ;; aset SA i (v + 1))) (mem s) ;;
    SA <~ cfor_up 0 (c_num co + 1) (fun i SA =>
        p <~ tick (aget SA i) ;;
        name <~ tick (pa_get E T1 (p - 1)) ;;
        q <~ tick (aget Sv name) ;;
        l <~ tick (get_length E (ht_buf h) q) ;;
        fc <~ tick (get_first_character_pointer E (ht_buf h) q) ;;
        tick (_ <- fits W (fc + l - 1 - c_bwp_base co) ;; aset SA i (fc + l - 1 - c_bwp_base co))) SA ;;
    induce_steps E (aget SA) co
  end.
(** :189-219 (uw = 8) and 220-250 (uw = 16) *)
Definition branch2_steps (E : env) (uw : Z) (Sv : arr Z) (T1 : packed) (co : container) : cres bwt_result :=
  match c_ht co with
  | None => Err NullDeref
  | Some h =>
    let total := u64 (c_num co + 2) in
    let T1_length := u64 (c_num co + 1) in
    let k := u64 (c_uniq co + 2) in
    '(L, U) <~ cscale 2 (tick (Ok (anew total, anew total))) ;;
    s <~ csais E (32 + uw) (ops2 uw) DEPTH (mkst2 L U (anew 0) (anew 0))
           (TPack (pa_arr T1) (pa_bits T1)) 0 T1_length k ;;
    '(L, U) <~ cfor_up 0 (c_num co + 1) (fun i '(L, U) =>
        v <~ tick (get_2part L U i) ;; tick (_ <- fits (32 + uw) (v + 1) ;; set_2part uw L U i (v + 1))) (m2L s, m2U s) ;;
    '(L, U) <~ cfor_up 0 (c_num co + 1) (fun i '(L, U) =>
        p <~ tick (get_2part L U i) ;;
        name <~ tick (pa_get E T1 (p - 1)) ;;
        q <~ tick (aget Sv name) ;;
        l <~ tick (get_length E (ht_buf h) q) ;;
        fc <~ tick (get_first_character_pointer E (ht_buf h) q) ;;
        tick (_ <- fits (32 + uw) (fc + l - 1 - c_bwp_base co) ;; set_2part uw L U i (fc + l - 1 - c_bwp_base co))) (L, U) ;;
    induce_steps E (get_2part L U) co
  end.
(** :251-282 *)
Definition branch3_steps (E : env) (Sv : arr Z) (T1 : packed) (co : container) : cres bwt_result :=
  match c_ht co with
  | None => Err NullDeref
  | Some h =>
    let total := u64 (c_num co + 2) in
    let T1_length := u64 (c_num co + 1) in
    let k := u64 (c_uniq co + 2) in
    '(L, M, U) <~ cscale 3 (tick (Ok (anew total, anew total, anew total))) ;;
    s <~ csais E 56 ops3 DEPTH (mkst3 L M U (anew 0) (anew 0) (anew 0))
           (TPack (pa_arr T1) (pa_bits T1)) 0 T1_length k ;;
    '(L, M, U) <~ cfor_up 0 (c_num co + 1) (fun i '(L, M, U) =>
        v <~ tick (get_3part L M U i) ;; tick (_ <- fits 56 (v + 1) ;; set_3part L M U i (v + 1))) (m3L s, m3M s, m3U s) ;;
    '(L, M, U) <~ cfor_up 0 (c_num co + 1) (fun i '(L, M, U) =>
        p <~ tick (get_3part L M U i) ;;
        name <~ tick (pa_get E T1 (p - 1)) ;;
        q <~ tick (aget Sv name) ;;
        l <~ tick (get_length E (ht_buf h) q) ;;
        fc <~ tick (get_first_character_pointer E (ht_buf h) q) ;;
        tick (_ <- fits 56 (fc + l - 1 - c_bwp_base co) ;; set_3part L M U i (fc + l - 1 - c_bwp_base co))) (L, M, U) ;;
    induce_steps E (get_3part L M U) co
  end.
(** :162-309 *)
Definition branch_of_steps (E : env) (W : Z) : arr Z -> packed -> container -> cres bwt_result :=
  if W =? 40 then branch2_steps E 8 else if W =? 48 then branch2_steps E 16
  else if W =? 56 then branch3_steps E else branch_steps E W.

(** :120-313; free(T) is one step *)
Definition bwt_is_steps (pw : Z) (st : sort_time) (E : env) (srt : sorter) (hts : Z) (T : arr Z) (n : Z) (free_T : bool)
  : cres (option (arr Z) * option bwt_result) :=
  co <~ extract_steps pw E hts T n ;;
  '(Sv, co) <~ sort_steps E srt st T co ;;
  T1 <~ create_steps pw E T n co ;;
  T <~ (if free_T then tick (Ok None) else cret (Some T)) ;;
  let total := u64 (c_num co + 2) in
  let max_value := if c_sa_max co <? total then total else c_sa_max co in
  bits <~ tick (position_of_msb max_value) ;;
  match sa_width bits with
  | None => cret (T, None)
  | Some W => r <~ branch_of_steps E W Sv T1 co ;; cret (T, Some r)
  end.
(** :110-118 *)
Definition bwt_string_steps (pw : Z) (st : sort_time) (hts : Z) (E : env) (srt : sorter) (T : option (arr Z)) (n : Z) (free_T : bool)
  : cres (option (arr Z) * option bwt_result) :=
  match T with
  | None => Err InvalidArgument
  | Some T => if n <=? 0 then Err InvalidArgument else bwt_is_steps pw st E srt hts T n free_T
  end.

(** * src/flbwt.cpp:27-108 bwt_file: fread and fwrite take one step for every byte and one for the call;
    the other calls of the C library, the stores to rank, the comparisons with last and the stores
    to variables one each *)
(** :72-96 *)
Definition write_steps (n : Z) (B : option bwt_result) : Z :=
  match B with
  | None => 1
  | Some B => 1 + (1 + 8 + (8 + 1) + 1) +
    (if r_last B =? 0 then 1 + (n + 1) else if r_last B =? n then 2 + (n + 1)
     else 2 + (r_last B + 1) + (u64 (n - r_last B) + 1))
  end.
Definition bwt_file_steps (pw : Z) (st : sort_time) (hts : Z) (E : env) (srt : sorter) (f : io) : res unit * option (list Z) * Z :=
  if negb (in_open f) then ((Err InvalidArgument, None), 2) else         (* fopen, test *)
  let n := u64 (in_tell f) in
  if negb (malloc_ok f) then ((Err RuntimeError, None), 8) else          (* fseek, ftell, rewind, malloc, test, fclose *)
  let T := anew (u64 (n + 1)) in
  match fread T n (in_data f) with
  | Err e => ((Err e, None), 7)
  | Ok (T, k) =>
    let c := 7 + (k + 1) + 1 in
    if k <=? 0 then ((Err RuntimeError, None), c) else
    match aset T n 0 with                                                (* fclose, T[n] = 0 *)
    | Err e => ((Err e, None), c + 1)
    | Ok T =>
      match bwt_string_steps pw st hts E srt (Some T) n true with
      | Err e => ((Err e, None), c + 2)                                  (* the steps of a failing call are not counted *)
      | Ok (_, B, s) =>
        if negb (out_open f) then ((Err InvalidArgument, None), c + 2 + s + 2) else
        match write_result (out_limit f) n B with
        | Err e => ((Err e, Some []), c + 2 + s + 2)
        | Ok out => ((Ok tt, Some out), c + 2 + s + 2 + write_steps n B + 5)  (* fclose, two tests, delete[], free *)
        end
      end
    end
  end.
