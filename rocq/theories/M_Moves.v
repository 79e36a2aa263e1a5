(** The work of realloc in bwt_string (src/hashtable.cpp:90, src/flbwt.cpp:394): how often the string buffer of the hash table
    is reallocated, and how many bytes are copied if the block is moved every time. *)
From Verif Require Import Base M_PackedArray M_Queue M_HashTable M_Cells M_Sais M_Split M_Induce M_Flbwt.
Open Scope Z_scope.

(** number of calls of realloc, bytes copied *)
Record moves := mkmoves { mv_calls : Z; mv_bytes : Z }.
(** realloc of a block of [size] bytes: its contents are copied *)
Definition moved (k : moves) (size : Z) : moves := mkmoves (mv_calls k + 1) (mv_bytes k + size).
(** src/flbwt.cpp:342-373 the scan; the realloc of src/hashtable.cpp:90 is executed exactly when the buffer grows, as in
    M_HeapProg.h_extract_step *)
Definition extract_step_moves (E : env) (T : arr Z) (i : Z) (x : xst * moves) : res (xst * moves) :=
  let '(s, k) := x in
  s' <- extract_step E T i s ;;
  Ok (s', if alen (ht_buf (x_ht s')) =? alen (ht_buf (x_ht s)) then k else moved k (alen (ht_buf (x_ht s)))).
(** src/flbwt.cpp:318-379; the text of M_Flbwt.extract_LMS_strings *)
Definition extract_moves (E : env) (hts : Z) (T : arr Z) (n : Z) : res (container * moves) :=
  co <- cont_new n ;;
  if n <=? 2 then Ok (co, mkmoves 0 0) else
  ht <- ht_new hts n ;;
  M <- aincr (c_M co) 0 ;;
  t <- aget T (n - 1) ;;
  M <- aincr M (t + 1) ;;
  NL <- aincr (c_NL co) (t + 1) ;;
  C <- aincr (c_C co) 0 ;;
  '(s, k) <- for_down (n - 2) 0 (extract_step_moves E T) (mkxst ht M C NL 0 0 false n n, mkmoves 0 0) ;;
  Ok (mkcont (Some (x_ht s)) (x_M s) (x_C s) (x_NL s) (x_num s) (x_uniq s) n (Some (x_p s)) 0 0 0 0, k).
(** src/flbwt.cpp:129-153 bwt_is up to the shortened string (the other parts of it do not call realloc); src/flbwt.cpp:381-507
    sort_LMS_strings calls realloc once (:394) *)
Definition bwt_string_moves (E : env) (srt : sorter) (hts : Z) (T : arr Z) (n : Z) : res (arr Z * container * moves) :=
  '(co, k) <- extract_moves E hts T n ;;
  '(Sv, co') <- sort_LMS_strings E srt T co ;;
  Ok (Sv, co', match c_ht co with None => k | Some h => moved k (alen (ht_buf h)) end).
