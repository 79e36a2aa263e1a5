(** Model of src/hashtable.cpp and include/hashtable.hpp.
    A uint8_t* into [buf] is the byte offset into [buf]; a uint8_t* into the input text
    is an offset into the text array.  [bufsize] is the allocated length of [buf]
    (the code keeps both equal).  [collisions] is a write-only statistics counter and is
    not represented.  LENGTH_X_BYTES = SENTINEL_CHAR_BYTES = 1 are constants. *)
From Verif Require Import Base M_PackedArray.
Open Scope Z_scope.

(** bytes of the realloc'ed buffer: never written bytes hold [fresh_byte] *)
Definition bget (E : env) (b : arr Z) (i : Z) : res Z :=
  if inb b i then
    match av b i with
    | Some v => Ok v
    | None => match fresh_byte E i with Some v => Ok (u8 v) | None => Err Uninit end
    end
  else Err OutOfBounds.
Definition bset (b : arr Z) (i v : Z) : res (arr Z) := aset b i (u8 v).

(** include/hashtable.hpp:27-156 *)
Record htable := mkht {
  HTSIZE : Z; HBSIZE : Z; NAME_BYTES : Z;
  ht_rest : arr Z; ht_head : arr Z; ht_buf : arr Z }.

Definition with_buf (h : htable) (b : arr Z) : htable :=
  mkht (HTSIZE h) (HBSIZE h) (NAME_BYTES h) (ht_rest h) (ht_head h) b.

(** std::fill_n(a, len, 0) on a fresh array *)
Definition azeros (len : Z) : res (arr Z) :=
  for_up 0 len (fun i a => aset a i 0) (anew len).

(** src/hashtable.cpp:6-26 constructor (HBSIZE is 512; kept as an argument because it is a
    public field that the unit tests change) *)
Definition ht_new_hb (hbsize hash_table_size n : Z) : res htable :=
  rest <- azeros hash_table_size ;;
  head <- azeros hash_table_size ;;
  let max_name := u64 (n / 2 + 1) in
  bits <- position_of_msb max_name ;;
  let name_bytes := bits / 8 + (if bits mod 8 =? 0 then 0 else 1) in
  Ok (mkht hash_table_size hbsize name_bytes rest head (anew 0)).
Definition ht_new := ht_new_hb 512.

(** src/hashtable.cpp:133-147 hash_function; p is a pointer into the text T *)
Definition hash_function (h : htable) (T : arr Z) (m p : Z) : res Z :=
  x <- for_up 0 m (fun i x => c <- aget T (p + i) ;; Ok (u64 (u64 (x * 101) + c))) 0 ;;
  Ok (x mod HTSIZE h).

(** src/hashtable.cpp:149-161 get_length *)
Definition get_length (E : env) (b : arr Z) (p : Z) : res Z :=
  bytes <- bget E b p ;;
  if bytes =? 0 then Ok 0 else
  length <- bget E b (p + 1) ;;
  for_up 1 bytes (fun i length =>
    c <- bget E b (p + 1 + i) ;; Ok (Z.lor (u64 (Z.shiftl length 8)) c)) length.

(** most significant byte: (length & 0xff00000000000000) >> 56 *)
Definition top_byte (v : Z) : Z := Z.shiftr (Z.land v 18374686479671623680) 56.

(** src/hashtable.cpp:163-184 set_length.  The first loop does not terminate for length = 0;
    [fuel] bounds it. *)
Definition set_length_fuel (fuel : nat) (E : env) (b : arr Z) (p length : Z) : res (arr Z) :=
  b <- bset b p 8 ;;
  (* while (value == 0) *)
  '(b, length) <- loop fuel (fun '(b, length) =>
      if top_byte length =? 0 then
        let length := u64 (Z.shiftl length 8) in
        x <- bget E b p ;;
        b <- bset b p (x - 1) ;;
        Ok (inl (b, length))
      else Ok (inr (b, length))) (b, length) ;;
  (* while (length != 0) *)
  loop fuel (fun '(b, q, length) =>
      if length =? 0 then Ok (inr b) else
        b <- bset b q (top_byte length) ;;
        Ok (inl (b, q + 1, u64 (Z.shiftl length 8)))) (b, p + 1, length).
Definition set_length := set_length_fuel 10.

(** src/hashtable.cpp:186-196 string_info_length *)
Definition string_info_length (E : env) (h : htable) (b : arr Z) (p length : Z) : res Z :=
  bytes <- bget E b p ;;
  Ok (u64 (1 + 1 + (bytes + length + NAME_BYTES h))).

(** src/hashtable.cpp:198-210 get_pointer *)
Definition get_pointer (E : env) (b : arr Z) (p : Z) : res Z :=
  for_up 0 8 (fun i x => c <- bget E b (p + 2 + i) ;; Ok (Z.lor (u64 (Z.shiftl x 8)) c)) 0.

(** src/hashtable.cpp:212-224 set_pointer *)
Definition set_pointer (b : arr Z) (p pointer : Z) : res (arr Z) :=
  b <- bset b p 1 ;;
  b <- bset b (p + 1) 2 ;;
  '(b, _) <- for_up 0 8 (fun i '(b, pointer) =>
      b <- bset b (p + 9 - i) (Z.land pointer 255) ;;
      Ok (b, Z.shiftr pointer 8)) (b, pointer) ;;
  Ok b.

(** src/hashtable.cpp:231-244 calculate_lenlen (diverges for m = 0) *)
Definition calculate_lenlen_fuel (fuel : nat) (m : Z) : res Z :=
  loop fuel (fun '(m, bytes) =>
    if top_byte m =? 0 then Ok (inl (u64 (Z.shiftl m 8), u8 (bytes - 1)))
    else Ok (inr bytes)) (m, 8).
Definition calculate_lenlen := calculate_lenlen_fuel 10.

(** src/hashtable.cpp:246-264 get_name *)
Definition get_name (E : env) (h : htable) (b : arr Z) (p : Z) : res Z :=
  length <- get_length E b p ;;
  bytes <- bget E b p ;;
  let q := p + 1 + bytes + length + 1 in
  for_up 0 (NAME_BYTES h) (fun i name =>
    c <- bget E b (q + i) ;; Ok (Z.lor (u64 (Z.shiftl name 8)) c)) 0.

(** src/hashtable.cpp:266-282 set_name *)
Definition set_name (E : env) (h : htable) (b : arr Z) (p name : Z) : res (arr Z) :=
  length <- get_length E b p ;;
  bytes <- bget E b p ;;
  let q := p + 1 + bytes + length + 1 + NAME_BYTES h - 1 in
  '(b, _) <- for_up 0 (NAME_BYTES h) (fun i '(b, name) =>
    b <- bset b (q - i) (Z.land name 255) ;;
    Ok (b, Z.shiftr name 8)) (b, name) ;;
  Ok b.

(** src/hashtable.cpp:284-290 get_first_character_pointer *)
Definition get_first_character_pointer (E : env) (b : arr Z) (p : Z) : res Z :=
  bytes <- bget E b p ;; Ok (p + 1 + bytes + 1).

(** src/hashtable.cpp:71-79 and 328-336: does the record at q (with l2 length bytes) hold
    the text T[p..p+m-1]? *)
Definition same_string (E : env) (b T : arr Z) (m p q l2 : Z) : res bool :=
  loop (S (Z.to_nat m)) (fun i =>
    if i =? m then Ok (inr true) else
    c <- aget T (p + i) ;;
    d <- bget E b (q + 1 + 1 + l2 + i) ;;
    if c =? d then Ok (inl (i + 1)) else Ok (inr false)) 0.

(** outcome of scanning a chain: duplicate found at record q, or the position of the
    terminator (0 if the bucket is empty) *)
Inductive scan := ScanDup (q : Z) | ScanEnd (q : Z).

(** src/hashtable.cpp:43-83 (insert_string) and 304-339 (find_name): the same loop.
    Each step moves to a larger offset, so the buffer size bounds the steps. *)
Definition scan_chain (E : env) (h : htable) (T : arr Z) (m p q0 : Z) : res scan :=
  let b := ht_buf h in
  loop (S (S (Z.to_nat (alen b)))) (fun q =>
    if q =? 0 then Ok (inr (ScanEnd 0)) else
    l <- get_length E b q ;;
    if l =? 0 then Ok (inr (ScanEnd q)) else
    if l =? 2 then (q' <- get_pointer E b q ;; Ok (inl q')) else
    if negb (l =? m) then (s <- string_info_length E h b q l ;; Ok (inl (u64 (q + s)))) else
    l2 <- bget E b q ;;
    same <- same_string E b T m p q l2 ;;
    if (same : bool) then Ok (inr (ScanDup q)) else
    s <- string_info_length E h b q l ;;
    Ok (inl (u64 (q + s)))) q0.

(** realloc(buf, newlen): keeps the old bytes (allocation failure is not modelled) *)
Definition brealloc (b : arr Z) (newlen : Z) : arr Z := mkarr newlen (adata b).

(** src/hashtable.cpp:113-126 (part of insert_string): write the record at r *)
Definition write_record (E : env) (h : htable) (T : arr Z) (m p length_bytes : Z) (b : arr Z) (r : Z) : res (arr Z) :=
  b <- set_length E b r m ;;
  let r := r + 1 + length_bytes in
  c0 <- aget T p ;;
  b <- bset b r (c0 + 1) ;;
  let r := r + 1 in
  b <- for_up 0 m (fun i b => c <- aget T (p + i) ;; bset b (r + i) c) b ;;
  let r := r + m + NAME_BYTES h in
  for_up 0 12 (fun i b => bset b (r + i) 0) b.

(** src/hashtable.cpp:28-131 insert_string *)
Definition insert_string (E : env) (h : htable) (T : arr Z) (m p : Z) : res (htable * Z) :=
  hv <- hash_function h T m p ;;
  q0 <- aget (ht_head h) hv ;;
  sc <- scan_chain E h T m p q0 ;;
  match sc with
  | ScanDup _ => Ok (h, 0)
  | ScanEnd q =>
    length_bytes <- calculate_lenlen m ;;
    let space_required := u64 (1 + 1 + length_bytes + m + NAME_BYTES h) in
    rest <- aget (ht_rest h) hv ;;
    '(h, r) <-
      (if swrap 64 rest - 12 <=? swrap 64 space_required then
        let bufsize := alen (ht_buf h) in
        let q2 := u64 (bufsize + 1) in
        let b := brealloc (ht_buf h) (u64 (bufsize + HBSIZE h + space_required)) in
        rest' <- aset (ht_rest h) hv (u64 (HBSIZE h + space_required)) ;;
        if q =? 0 then
          head' <- aset (ht_head h) hv q2 ;;
          Ok (mkht (HTSIZE h) (HBSIZE h) (NAME_BYTES h) rest' head' b, q2)
        else
          b' <- set_pointer b q q2 ;;
          Ok (mkht (HTSIZE h) (HBSIZE h) (NAME_BYTES h) rest' (ht_head h) b', q2)
      else Ok (h, q)) ;;
    b <- write_record E h T m p length_bytes (ht_buf h) r ;;
    rest <- aget (ht_rest h) hv ;;
    rest' <- aset (ht_rest h) hv (u64 (rest - space_required)) ;;
    Ok (mkht (HTSIZE h) (HBSIZE h) (NAME_BYTES h) rest' (ht_head h) b, 1)
  end.

(** src/hashtable.cpp:292-342 find_name *)
Definition find_name (E : env) (h : htable) (T : arr Z) (m p : Z) : res Z :=
  hv <- hash_function h T m p ;;
  q0 <- aget (ht_head h) hv ;;
  sc <- scan_chain E h T m p q0 ;;
  match sc with
  | ScanDup q => get_name E h (ht_buf h) q
  | ScanEnd _ => Err RuntimeError
  end.
