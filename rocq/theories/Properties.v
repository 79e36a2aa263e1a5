(** The property theorems.  Each is closed by [exact] of a lemma proved elsewhere (or, for a
    concrete counterexample, by computation).  The specification is in Spec.v, the drivers for
    sequences of calls are in Histories.v; the model of the code is in the files M_*.v.
    Naming: [Cnn_...] proves property Cnn of properties.jsonl; [Cnn_..._refuted] shows by a
    concrete execution that a stronger statement one might expect is false of the code;
    [Cnn_case...] exhibits a non-trivial case that meets the hypotheses. *)
From Verif Require Import Base M_PackedArray M_Queue M_Cells M_HashTable M_Sais M_Induce M_Flbwt M_File
  Spec BlockSpec TermSpec Histories P_PackedArray P_Histories P_Cells P_Bridge P_Bytes P_Sorter P_Spec P_Blocks P_Flbwt P_Term P_File P_HTHistory P_Api P_Props P_Props2 P_Props3 P_Refuted M_Split M_Heap M_HeapProg Pool P_Pool P_HeapProg P_OomProg Client P_Client P_ClientOom Threads P_ThreadClient M_Fs FsSpec P_Fs P_Uninit P_Long M_SaisCost P_Steps M_Cost P_CostFlbwt P_CostWorst P_PackedWide P_CostSort P_CostFlbwt SortSpec P_MergeSort P_CostFile LoadSpec P_CostBucket P_DictUninit M_Moves P_Moves P_MovesLow.
From Coq Require Import FMapPositive Permutation.
Open Scope Z_scope.

(** Throughout, [unwritten_length hts l] (BlockSpec.v) describes the texts on which the library reads a byte it never wrote
    (C46_exact); a simple condition under which it does not hold: no S* substring of l, and not the part of l up to the first S*
    position, has a length divisible by 256 *)
Theorem C46_safe : forall hts l, safe_lengths l -> ~ unwritten_length hts l.
Proof. exact safe_written. Qed.
Print Assumptions C46_safe.
Lemma ex_written hts : ~ unwritten_length hts ex_text.
Proof. exact (safe_written hts _ ex_safe). Qed.

(** ** C01  bwt_string returns the exact Burrows-Wheeler transform *)
Theorem C01_bwt_string : forall E srt T l free_T,
  std_sort srt -> Forall is_byte l -> 3 <= Z.of_nat (length l) <= 2 ^ 58 -> string_at T 0 (l ++ [0]) ->
  (forall i, fresh_byte E i = Some 0) \/ ~ unwritten_length 67777 l ->
  exists r, bwt_string E srt (Some T) (Z.of_nat (length l)) free_T = Ok (if free_T then None else Some T, Some r) /\
    alen (r_BWT r) = Z.of_nat (length l) + 1 /\
    is_BWT l (av (r_BWT r)) (r_last r).
Proof. exact (fun E srt T l b Hs Hb Hn HT Hf => bwt_string_list E srt 67777 T l b Hs ltac:(lia) Hb Hn HT Hf). Qed.
Print Assumptions C01_bwt_string.
(** [is_BWT] says nothing of row [last] itself, and rightly: the terminator is not written there. For the texts abab and
    abc the cell is never written at all; for cba it holds a byte that does not even occur in the text. *)
Theorem C01_last_refuted :
  row_last [97; 98; 97; 98] = Ok None /\ row_last [97; 98; 99] = Ok None /\
  row_last [99; 98; 97] = Ok (Some 100) /\ row_last [98; 97; 98; 98; 97; 98] = Ok (Some 99).
Proof. exact last_matters. Qed.
Print Assumptions C01_last_refuted.
Example C01_case : std_sort isort /\ Forall is_byte ex_text /\ 3 <= Z.of_nat (length ex_text) <= 2 ^ 58 /\
  string_at ex_block 0 (ex_text ++ [0]) /\ (forall hts, ~ unwritten_length hts ex_text) /\ length (lms_positions ex_text) = 4%nat.
Proof.
  split; [exact isort_ok|]. split; [exact ex_bytes|]. split; [cbn; lia|]. split; [exact ex_at|]. split; [exact ex_written|reflexivity].
Qed.

(** ** C02  bwt_file writes the rank and the transform without the terminator row *)
Theorem C02_bwt_file : forall hts E srt f,
  std_sort srt -> 1 <= hts <= 2 ^ 48 -> Forall is_byte (in_data f) -> 3 <= Z.of_nat (length (in_data f)) <= 2 ^ 58 ->
  (forall i, fresh_byte E i = Some 0) \/ ~ unwritten_length hts (in_data f) ->
  in_open f = true -> in_tell f = Z.of_nat (length (in_data f)) -> malloc_ok f = true -> out_open f = true -> out_limit f = None ->
  bwt_file_gen hts E srt f = (Ok tt, Some (file_output (in_data f))).
Proof. exact file_ok. Qed.
Print Assumptions C02_bwt_file.
Theorem C02_length : forall T, length (file_output T) = (8 + length T)%nat.
Proof. exact output_length. Qed.
Definition ex_io : io := mkio true 12 ex_text true true None.
Example C02_case : Forall is_byte (in_data ex_io) /\ 3 <= Z.of_nat (length (in_data ex_io)) <= 2 ^ 58 /\ (forall hts, ~ unwritten_length hts (in_data ex_io)) /\
  in_tell ex_io = Z.of_nat (length (in_data ex_io)) /\
  file_output (in_data ex_io) = [0; 0; 0; 0; 0; 0; 0; 9; 98; 255; 98; 98; 98; 97; 0; 99; 99; 97; 97; 97].
Proof. split; [exact ex_bytes|]. split; [cbn; lia|]. split; [exact ex_written|]. split; reflexivity. Qed.

(** ** C03  the output determines the input *)
Theorem C03_decodable : forall T, Z.of_nat (length T) < 2 ^ 64 -> decode (file_output T) = T.
Proof. exact decode_file_output. Qed.
Print Assumptions C03_decodable.
Theorem C03_injective : forall hts1 hts2 E1 E2 srt1 srt2 f1 f2 out,
  std_sort srt1 -> std_sort srt2 -> 1 <= hts1 <= 2 ^ 48 -> 1 <= hts2 <= 2 ^ 48 ->
  Forall is_byte (in_data f1) -> Forall is_byte (in_data f2) ->
  3 <= Z.of_nat (length (in_data f1)) <= 2 ^ 58 -> 3 <= Z.of_nat (length (in_data f2)) <= 2 ^ 58 ->
  ((forall i, fresh_byte E1 i = Some 0) \/ ~ unwritten_length hts1 (in_data f1)) ->
  ((forall i, fresh_byte E2 i = Some 0) \/ ~ unwritten_length hts2 (in_data f2)) ->
  in_tell f1 = Z.of_nat (length (in_data f1)) -> in_tell f2 = Z.of_nat (length (in_data f2)) ->
  out_limit f1 = None -> out_limit f2 = None ->
  bwt_file_gen hts1 E1 srt1 f1 = (Ok tt, Some out) -> bwt_file_gen hts2 E2 srt2 f2 = (Ok tt, Some out) ->
  in_data f1 = in_data f2.
Proof. exact file_inj. Qed.
Print Assumptions C03_injective.
Example C03_case : decode [0; 0; 0; 0; 0; 0; 0; 9; 98; 255; 98; 98; 98; 97; 0; 99; 99; 97; 97; 97] = ex_text.
Proof. vm_compute. reflexivity. Qed.

(** ** C04  parameters of bwt_string *)
Theorem C04_null : forall E srt n free_T, bwt_string E srt None n free_T = Err InvalidArgument.
Proof. exact (fun E srt n b => string_null E srt 67777 n b). Qed.
Theorem C04_zero : forall E srt T free_T, bwt_string E srt T 0 free_T = Err InvalidArgument.
Proof. exact (fun E srt T b => string_zero E srt 67777 T b). Qed.
Print Assumptions C04_zero.
(** one or two bytes: a null pointer is dereferenced *)
Theorem C04_short : forall E srt T n free_T, 1 <= n <= 2 -> bwt_string E srt (Some T) n free_T = Err NullDeref.
Proof. exact (fun E srt T n b => string_short E srt 67777 T n b). Qed.
Print Assumptions C04_short.
(** three or more: an ordinary return, so in particular no exception *)
Theorem C04_accepts : forall E srt T l free_T,
  std_sort srt -> Forall is_byte l -> 3 <= Z.of_nat (length l) <= 2 ^ 58 -> string_at T 0 (l ++ [0]) ->
  (forall i, fresh_byte E i = Some 0) \/ ~ unwritten_length 67777 l ->
  exists t r, bwt_string E srt (Some T) (Z.of_nat (length l)) free_T = Ok (t, Some r).
Proof. exact string_returns. Qed.
Print Assumptions C04_accepts.
Example C04_case : bwt_string ex_env isort (Some (of_list [98; 97; 0])) 2 true = Err NullDeref /\
  exists t r, bwt_string ex_env isort (Some ex_block) 12 true = Ok (t, Some r).
Proof.
  split; [exact (C04_short ex_env isort _ 2 true ltac:(lia))|].
  exact (C04_accepts ex_env isort ex_block ex_text true isort_ok ex_bytes ltac:(cbn; lia) ex_at (or_intror (ex_written _))).
Qed.

(** ** C05  failures of bwt_file *)
Theorem C05_no_input : forall hts E srt f, in_open f = false -> bwt_file_gen hts E srt f = (Err InvalidArgument, None).
Proof. exact file_null. Qed.
Theorem C05_no_memory : forall hts E srt f, in_open f = true -> malloc_ok f = false -> bwt_file_gen hts E srt f = (Err RuntimeError, None).
Proof. exact file_nomem. Qed.
Theorem C05_nothing_read : forall hts E srt f, in_open f = true -> malloc_ok f = true -> in_data f = [] \/ in_tell f = 0 ->
  bwt_file_gen hts E srt f = (Err RuntimeError, None).
Proof. exact file_empty. Qed.
Theorem C05_no_output : forall hts E srt f, std_sort srt -> 1 <= hts <= 2 ^ 48 -> Forall is_byte (in_data f) ->
  3 <= Z.of_nat (length (in_data f)) <= 2 ^ 58 -> (forall i, fresh_byte E i = Some 0) \/ ~ unwritten_length hts (in_data f) ->
  in_open f = true -> in_tell f = Z.of_nat (length (in_data f)) -> malloc_ok f = true -> out_open f = false ->
  bwt_file_gen hts E srt f = (Err InvalidArgument, None).
Proof. exact file_noout. Qed.
(** a file of one or two bytes is not reported: the process uses a null pointer *)
Theorem C05_tiny : forall hts E srt f, in_open f = true -> malloc_ok f = true -> in_tell f = Z.of_nat (length (in_data f)) ->
  1 <= Z.of_nat (length (in_data f)) <= 2 -> bwt_file_gen hts E srt f = (Err NullDeref, None).
Proof. exact file_tiny. Qed.
Print Assumptions C05_tiny.
(** the output file is created or truncated only after the input was opened, read and transformed *)
Theorem C05_untouched : forall hts E srt f out, snd (bwt_file_gen hts E srt f) = Some out ->
  in_open f = true /\ malloc_ok f = true /\ in_data f <> [] /\ in_tell f mod 2 ^ 64 <> 0 /\ out_open f = true.
Proof. exact file_touched. Qed.
(** whenever an exception is thrown the output file is left alone *)
Theorem C05_exception : forall hts E srt f e, fst (bwt_file_gen hts E srt f) = Err e -> e = InvalidArgument \/ e = RuntimeError ->
  snd (bwt_file_gen hts E srt f) = None.
Proof. exact file_exception. Qed.
Print Assumptions C05_no_output.
Print Assumptions C05_exception.
Example C05_case : snd (bwt_file_gen 3 ex_env isort ex_io) = Some [0; 0; 0; 0; 0; 0; 0; 9; 98; 255; 98; 98; 98; 97; 0; 99; 99; 97; 97; 97] /\
  bwt_file_gen 3 ex_env isort (mkio true 12 ex_text true false None) = (Err InvalidArgument, None).
Proof. split; vm_compute; reflexivity. Qed.

(** ** C06  no access outside an allocation, no use of an indeterminate value, no endless loop *)
Theorem C06_safe : forall E srt T l free_T,
  std_sort srt -> Forall is_byte l -> 3 <= Z.of_nat (length l) <= 2 ^ 58 -> string_at T 0 (l ++ [0]) ->
  (forall i, fresh_byte E i = Some 0) \/ ~ unwritten_length 67777 l ->
  forall e, In e [OutOfBounds; Uninit; NullDeref; BadPointer; BadBuiltin; Overflow; Diverge; InvalidArgument; RuntimeError] ->
  bwt_string E srt (Some T) (Z.of_nat (length l)) free_T <> Err e.
Proof. exact string_safe. Qed.
Print Assumptions C06_safe.
(** the hypotheses of C06, C07 and C09 are those of C01_case and C02_case *)

(** ** C07  uninitialised memory *)
Theorem C07_fresh : forall E1 E2 srt T1 T2 l free_T,
  std_sort srt -> Forall is_byte l -> 3 <= Z.of_nat (length l) <= 2 ^ 58 ->
  string_at T1 0 (l ++ [0]) -> string_at T2 0 (l ++ [0]) -> ~ unwritten_length 67777 l ->
  exists t1 t2 r1 r2, bwt_string E1 srt (Some T1) (Z.of_nat (length l)) free_T = Ok (t1, Some r1) /\
    bwt_string E2 srt (Some T2) (Z.of_nat (length l)) free_T = Ok (t2, Some r2) /\
    r_last r1 = r_last r2 /\ alen (r_BWT r1) = alen (r_BWT r2) /\
    forall r, r <> r_last r1 -> av (r_BWT r1) r = av (r_BWT r2) r.
Proof. exact string_fresh. Qed.
Print Assumptions C07_fresh.
(** without this condition the claim is false: 255 times 'a', the head string has length 256 *)
Theorem C07_refuted :
  row0 (bwt_string (env_fresh (Some 0)) isort (Some bad_block) 255 true) = Ok (Some 97) /\
  row0 (bwt_string (env_fresh (Some 1)) isort (Some bad_block) 255 true) = Ok (Some 0) /\
  row0 (bwt_string (env_fresh (Some 255)) isort (Some bad_block) 255 true) = Err OutOfBounds /\
  row0 (bwt_string (env_fresh None) isort (Some bad_block) 255 true) = Err Uninit.
Proof. exact fresh_matters. Qed.
Print Assumptions C07_refuted.

(** ** C08  hash collisions and the sorting routine *)
Theorem C08_independent : forall E1 E2 srt1 srt2 hts1 hts2 T1 T2 l b1 b2,
  std_sort srt1 -> std_sort srt2 -> 1 <= hts1 <= 2 ^ 48 -> 1 <= hts2 <= 2 ^ 48 ->
  Forall is_byte l -> 3 <= Z.of_nat (length l) <= 2 ^ 58 -> string_at T1 0 (l ++ [0]) -> string_at T2 0 (l ++ [0]) ->
  ((forall i, fresh_byte E1 i = Some 0) \/ ~ unwritten_length hts1 l) -> ((forall i, fresh_byte E2 i = Some 0) \/ ~ unwritten_length hts2 l) ->
  exists r1 r2, bwt_string_gen hts1 E1 srt1 (Some T1) (Z.of_nat (length l)) b1 = Ok (if b1 then None else Some T1, Some r1) /\
    bwt_string_gen hts2 E2 srt2 (Some T2) (Z.of_nat (length l)) b2 = Ok (if b2 then None else Some T2, Some r2) /\
    r_last r1 = r_last r2 /\ alen (r_BWT r1) = alen (r_BWT r2) /\
    forall r, r <> r_last r1 -> av (r_BWT r1) r = av (r_BWT r2) r.
Proof. exact string_two. Qed.
Print Assumptions C08_independent.
(** the std::sort contract has an instance *)
Example C08_case : std_sort isort.
Proof. exact isort_ok. Qed.

(** ** C09  the transform is a rearrangement of the input *)
Theorem C09_permutation : forall hts E srt f out,
  std_sort srt -> 1 <= hts <= 2 ^ 48 -> Forall is_byte (in_data f) -> 3 <= Z.of_nat (length (in_data f)) <= 2 ^ 58 ->
  (forall i, fresh_byte E i = Some 0) \/ ~ unwritten_length hts (in_data f) ->
  in_tell f = Z.of_nat (length (in_data f)) -> out_limit f = None ->
  bwt_file_gen hts E srt f = (Ok tt, Some out) -> Permutation (skipn 8 out) (in_data f).
Proof. exact file_perm. Qed.
Print Assumptions C09_permutation.

(** ** C10  PackedArray behaves as an array of b-bit integers *)
Theorem C10_packed_array : forall E len b h, 1 <= b <= 64 -> 0 <= len -> len * b < 2 ^ 64 ->
  Forall (fun '(i, v) => 0 <= i < len /\ 0 <= v < 2 ^ b) h ->
  exists p, run_sets E (pa_new len b) h = Ok p /\
    (forall j, 0 <= j < len -> exists v, pa_get E p j = Ok v /\ 0 <= v < 2 ^ b) /\
    (forall j v, last_stored h j None = Some v -> pa_get E p j = Ok v) /\
    (forall j, 0 <= j < len -> last_stored h j None = None -> pa_get E p j = pa_get E (pa_new len b) j).
Proof. exact packed_history. Qed.
Print Assumptions C10_packed_array.
Example C10_case : 1 <= 37 <= 64 /\ 0 <= 5 /\ 5 * 37 < 2 ^ 64 /\
  Forall (fun '(i, v) => 0 <= i < 5 /\ 0 <= v < 2 ^ 37) [(1, 99); (4, 2 ^ 37 - 1); (1, 7)] /\
  last_stored [(1, 99); (4, 2 ^ 37 - 1); (1, 7)] 1 None = Some 7.
Proof. repeat split; try lia. repeat constructor; lia. Qed.

(** ** C11  PackedArray accesses stay inside the allocation, whatever values are stored *)
Theorem C11_packed_safe : forall E len bits, 1 <= bits <= 64 -> 0 <= len -> len * bits < 2 ^ 64 ->
  forall h, Forall (fun '(i, _) => 0 <= i < len) h ->
  exists p, run_sets E (pa_new len bits) h = Ok p /\ forall j, 0 <= j < len -> exists v, pa_get E p j = Ok v.
Proof. exact pa_safe_history. Qed.
Print Assumptions C11_packed_safe.
Example C11_case : Forall (fun '(i, _) => 0 <= i < 5) [(4, 2 ^ 70); (0, -1)].
Proof. repeat constructor; lia. Qed.

(** ** C12  Queue is a FIFO queue with insertion at both ends *)
Theorem C12_queue : forall E w h r, 1 <= w <= 63 -> Forall (op_fits w) h -> Z.of_nat (length h) < 2 ^ 64 ->
  seq_run [] h = Some r -> q_run E (q_new w) h = Ok r.
Proof. exact queue_history_new. Qed.
Print Assumptions C12_queue.
Example C12_case : Forall (op_fits 9) [OpEnqueue 5; OpEnqueueL 511; OpDequeue; OpIsEmpty; OpDequeue; OpIsEmpty] /\
  seq_run [] [OpEnqueue 5; OpEnqueueL 511; OpDequeue; OpIsEmpty; OpDequeue; OpIsEmpty] =
    Some [ObsNone; ObsNone; ObsValue 511; ObsBool false; ObsValue 5; ObsBool true].
Proof. split; [repeat constructor; cbn; lia|reflexivity]. Qed.

(** all widths: at 64 bits dequeue, which returns an int64_t, gives values of 2^63 or more back as
    negative numbers *)
Theorem C12_queue64 : forall E w h r, 1 <= w <= 64 -> Forall (op_fits w) h -> Z.of_nat (length h) < 2 ^ 64 ->
  seq_run [] h = Some r -> q_run E (q_new w) h = Ok (map signed_obs r).
Proof. exact queue_history_new64. Qed.
Print Assumptions C12_queue64.
Theorem C12_signed_refuted : forall E, q_run E (q_new 64) [OpEnqueue (2 ^ 64 - 1); OpDequeue] = Ok [ObsNone; ObsValue (-1)].
Proof. exact (fun E => queue_history_new64 E 64 [OpEnqueue (2 ^ 64 - 1); OpDequeue] _ ltac:(lia) ltac:(repeat constructor; cbn; lia) ltac:(cbn; lia) eq_refl). Qed.
(** dequeue is not guarded: after any history that leaves the queue empty it dereferences NULL or
    returns a value that is no element, after which is_empty() is false *)
Theorem C12_dequeue_empty : forall E w h r, 1 <= w <= 64 -> Forall (op_fits w) h -> Z.of_nat (length h) < 2 ^ 64 ->
  seq_run [] (h ++ [OpIsEmpty]) = Some (r ++ [ObsBool true]) ->
  q_run E (q_new w) (h ++ [OpDequeue; OpIsEmpty]) = Err NullDeref \/
  exists x, q_run E (q_new w) (h ++ [OpDequeue; OpIsEmpty]) = Ok (map signed_obs r ++ [ObsValue x; ObsBool false]).
Proof. exact queue_empty_dequeue_new. Qed.
Print Assumptions C12_dequeue_empty.
Example C12_case_empty : seq_run [] ([OpEnqueue 5; OpDequeue] ++ [OpIsEmpty]) = Some ([ObsNone; ObsValue 5] ++ [ObsBool true]) /\
  q_run ex_env (q_new 9) [OpDequeue; OpIsEmpty] = Err NullDeref /\
  exists x, q_run ex_env (q_new 9) [OpEnqueue 5; OpDequeue; OpDequeue; OpIsEmpty] = Ok [ObsNone; ObsValue 5; ObsValue x; ObsBool false].
Proof. split; [reflexivity|]. split; [reflexivity|]. eexists. vm_compute. reflexivity. Qed.

(** ** C13  HashTable is a dictionary from strings to names *)
Theorem C13_dictionary : forall E hb size n ops strs, 1 <= size -> 13 <= hb -> 0 <= n < 2 ^ 62 ->
  Forall2 op_string ops strs ->
  Forall (fun s => 3 <= Z.of_nat (length s) < 2 ^ 60 /\ Forall is_byte s) strs ->
  (forall i, fresh_byte E i = Some 0) \/
  (forall s, In s (firsts (fold_left (store_in hb size n) strs empty_layout)) -> Z.of_nat (length s) mod 256 <> 0) ->
  fold_right (fun s a => hb + 18 + Z.of_nat (length s) + a) 0 strs < 2 ^ 63 ->
  exists h0 h qs recs, ht_new_hb hb size n = Ok h0 /\
    ht_inserts E h0 ops = Ok (h, insert_flags [] strs) /\
    ht_walk E h (Z.of_nat (length (distinct strs))) = Ok qs /\
    Forall2 (fun q s => read_record E (ht_buf h) q = Ok s) qs recs /\
    Permutation recs (distinct strs) /\
    forall names, length names = length qs -> Forall (fun x => 0 <= x < 256 ^ NAME_BYTES h) names ->
      exists h', ht_names E h (combine qs names) = Ok h' /\
        (forall i T p, (i < length recs)%nat -> string_at T p (nth i recs []) ->
           find_name E h' T (Z.of_nat (length (nth i recs []))) p = Ok (nth i names 0)) /\
        (forall s T p, 3 <= Z.of_nat (length s) -> ~ In s strs -> string_at T p s ->
           find_name E h' T (Z.of_nat (length s)) p = Err RuntimeError).
Proof. exact ht_history. Qed.
Print Assumptions C13_dictionary.
Example C13_case : 1 <= 1 /\ 13 <= 13 /\ insert_flags [] [[98; 97; 99]; [97; 99; 98; 97]; [98; 97; 99]] = [1; 1; 0] /\
  Forall2 op_string [(ex_block, 0, 3); (ex_block, 1, 4); (ex_block, 3, 3)] [[98; 97; 99]; [97; 99; 98; 97]; [98; 97; 99]].
Proof.
  repeat split; try lia; try reflexivity.
  repeat (apply Forall2_cons || apply Forall2_nil); (split; [reflexivity|]); intros i Hi; cbn [length] in Hi;
    do 4 (destruct i as [|i]; [first [lia|vm_compute; reflexivity]|]); lia.
Qed.
(** a string of 256 bytes behind a string of 3 meets the condition; as the first of its block it does not, and there it is
    forgotten when the new block holds the byte 1 *)
Example C13_layout_case :
  map (@length Z) (firsts (fold_left (store_in 512 1 1000) [repeat 7 3; repeat 7 256; repeat 7 256] empty_layout)) = [3%nat] /\
  insert_flags [] [repeat 7 3; repeat 7 256; repeat 7 256] = [1; 1; 0].
Proof. split; vm_compute; reflexivity. Qed.
Theorem C13_dirty_refuted : let E := mkenv (fun _ => Some 1) (fun _ => 1) (fun _ k => k) in let T := of_list (repeat 7 256) in
  match ht_new_hb 512 1 1000 with
  | Ok h => match ht_inserts E h [(T, 0, 256); (T, 0, 256)] with Ok (_, x) => x = [1; 1] | Err _ => False end
  | Err _ => False end.
Proof. vm_compute. reflexivity. Qed.
(** The condition of C13_dictionary on the lengths is exact.  Let memory that the allocator hands out count as unwritten until it is written
    ([fun _ => None]).  If a string that begins a block has a length divisible by 256, inserting the strings and reading them back reads a byte
    that was never written *)
Theorem C13_unwritten : forall fw bs hb size n ops strs, let E := mkenv (fun _ => None) fw bs in
  1 <= size -> 13 <= hb -> 0 <= n < 2 ^ 62 ->
  Forall2 op_string ops strs ->
  Forall (fun s => 3 <= Z.of_nat (length s) < 2 ^ 60 /\ Forall is_byte s) strs ->
  (exists s, In s (firsts (fold_left (store_in hb size n) strs empty_layout)) /\ Z.of_nat (length s) mod 256 = 0) ->
  fold_right (fun s a => hb + 18 + Z.of_nat (length s) + a) 0 strs < 2 ^ 63 ->
  exists h0, ht_new_hb hb size n = Ok h0 /\
    (ht_inserts E h0 ops = Err Uninit \/
     exists h, ht_inserts E h0 ops = Ok (h, insert_flags [] strs) /\
      (ht_walk E h (Z.of_nat (length (distinct strs))) = Err Uninit \/
       exists qs q, ht_walk E h (Z.of_nat (length (distinct strs))) = Ok qs /\ In q qs /\ read_record E (ht_buf h) q = Err Uninit)).
Proof. exact dict_unwritten. Qed.
Print Assumptions C13_unwritten.
Theorem C13_exact : forall fw bs hb size n ops strs, let E := mkenv (fun _ => None) fw bs in
  1 <= size -> 13 <= hb -> 0 <= n < 2 ^ 62 ->
  Forall2 op_string ops strs ->
  Forall (fun s => 3 <= Z.of_nat (length s) < 2 ^ 60 /\ Forall is_byte s) strs ->
  fold_right (fun s a => hb + 18 + Z.of_nat (length s) + a) 0 strs < 2 ^ 63 ->
  exists h0, ht_new_hb hb size n = Ok h0 /\
    ((exists h flags qs recs, ht_inserts E h0 ops = Ok (h, flags) /\ ht_walk E h (Z.of_nat (length (distinct strs))) = Ok qs /\
        Forall2 (fun q s => read_record E (ht_buf h) q = Ok s) qs recs) <->
     (forall s, In s (firsts (fold_left (store_in hb size n) strs empty_layout)) -> Z.of_nat (length s) mod 256 <> 0)).
Proof. exact dict_exact. Qed.
Print Assumptions C13_exact.
(** with a string of 256 bytes: the first insertion works, the second one reads the unwritten byte, and so does reading back *)
Example C13_case_unwritten : let E := mkenv (fun _ => None) (fun _ => 1) (fun _ k => k) in let T := of_list (repeat 7 256) in
  In (repeat 7 256) (firsts (fold_left (store_in 512 1 1000) [repeat 7 256] empty_layout)) /\
  match ht_new_hb 512 1 1000 with
  | Ok h => match ht_inserts E h [(T, 0, 256)] with Ok (h, x) => x = [1] /\ ht_walk E h 1 = Err Uninit | Err _ => False end /\
      ht_inserts E h [(T, 0, 256); (T, 0, 256)] = Err Uninit
  | Err _ => False end.
Proof. vm_compute. auto. Qed.
(** the block size bound is sharp: with 12 a record is written one byte past the allocation *)
Theorem C13_block12_refuted : match ht_new_hb 12 1 100 with
  | Ok h => match ht_inserts ex_env h [(ex_block, 0, 3)] with Err e => e = OutOfBounds | Ok _ => False end
  | Err _ => False end.
Proof. vm_compute. reflexivity. Qed.

(** ** C14  length field *)
(** The value is stored big-endian in its L significant bytes, but the z zero bytes at its end
    are not written and keep their old content [o]. *)
Theorem C14_length_exact : forall E b p L q o,
  let z := Z.of_nat (length o) in let m := q * 256 ^ z in
  q mod 256 <> 0 -> 1 <= L <= 8 -> 256 ^ (L - 1) <= m < 256 ^ L -> 0 <= p -> p + 1 + L <= alen b ->
  (forall j, (j < length o)%nat -> bget E b (p + 1 + L - z + Z.of_nat j) = Ok (nth j o 0)) -> Forall is_byte o ->
  exists b', set_length E b p m = Ok b' /\ bget E b' p = Ok L /\ get_length E b' p = Ok (m + be_value o) /\ alen b' = alen b /\
    forall i, i < p \/ p + 1 + L - z <= i -> bget E b' i = bget E b i.
Proof. exact length_exact. Qed.
Print Assumptions C14_length_exact.
(** hence the round trip for every other length, and for all over zeroed memory *)
Theorem C14_length : forall E b p m, 1 <= m < 2 ^ 64 -> 0 <= p -> p + 9 <= alen b ->
  m mod 256 <> 0 \/ (forall j, 1 <= j <= 8 -> bget E b (p + j) = Ok 0) ->
  exists b', set_length E b p m = Ok b' /\ get_length E b' p = Ok m /\ alen b' = alen b /\
    forall i, i < p \/ p + 9 <= i -> bget E b' i = bget E b i.
Proof. exact length_roundtrip. Qed.
Print Assumptions C14_length.
(** the unconditional round trip is false: a multiple of 256 over a dirty buffer *)
Theorem C14_refuted : match set_length ex_env (of_list [0; 0; 7; 0; 0; 0; 0; 0; 0]) 0 256 with
  | Ok b => get_length ex_env b 0 = Ok (256 + 7) | Err _ => False end.
Proof. vm_compute. reflexivity. Qed.
Example C14_case : 5 mod 256 <> 0 /\ 256 ^ (3 - 1) <= 5 * 256 ^ Z.of_nat (length [9; 255]) < 256 ^ 3 /\ Forall is_byte [9; 255].
Proof. unfold is_byte. repeat split; try discriminate. repeat constructor; lia. Qed.

(** ** C15  names *)
Theorem C15_name : forall E h b p k m name, bget E b p = Ok k -> get_length E b p = Ok m -> 0 <= k -> 0 <= m -> 0 <= p ->
  0 <= NAME_BYTES h <= 8 -> p + 2 + k + m + NAME_BYTES h <= alen b -> 0 <= name < 256 ^ NAME_BYTES h ->
  exists b', set_name E h b p name = Ok b' /\ get_name E h b' p = Ok name /\ alen b' = alen b /\
    forall i, i < p + 2 + k + m \/ p + 2 + k + m + NAME_BYTES h <= i -> bget E b' i = bget E b i.
Proof. exact name_roundtrip. Qed.
Print Assumptions C15_name.
(** n / 2 + 1 names are enough for every text of length n (C33) and fit the width chosen *)
Theorem C15_width : forall hb size n, 1 <= size -> 0 <= n < 2 ^ 62 ->
  exists h, ht_new_hb hb size n = Ok h /\ 1 <= NAME_BYTES h <= 8 /\ n / 2 + 1 < 256 ^ NAME_BYTES h.
Proof. exact name_width. Qed.
Print Assumptions C15_width.
Example C15_case : let b := of_list [1; 3; 98; 97; 98; 99; 0; 0; 5] in
  bget ex_env b 0 = Ok 1 /\ get_length ex_env b 0 = Ok 3 /\ alen b = 9.
Proof. vm_compute. auto. Qed.

(** ** C16  block pointers *)
Theorem C16_pointer : forall E b p v, 0 <= p -> p + 10 <= alen b -> 0 <= v < 2 ^ 64 ->
  exists b', set_pointer b p v = Ok b' /\ get_pointer E b' p = Ok v /\ get_length E b' p = Ok 2 /\ alen b' = alen b /\
    forall i, i < p \/ p + 10 <= i -> bget E b' i = bget E b i.
Proof. exact pointer_roundtrip. Qed.
Print Assumptions C16_pointer.
Example C16_case : match set_pointer (of_list [5; 5; 5; 5; 5; 5; 5; 5; 5; 5; 5; 5]) 1 (2 ^ 63 + 258) with
  | Ok b => aslice b 0 12 = Ok [5; 1; 2; 128; 0; 0; 0; 0; 0; 1; 2; 5] | Err _ => False end.
Proof. vm_compute. reflexivity. Qed.

(** ** C17  extract_LMS_strings *)
Theorem C17_extract : forall E hts T l,
  1 <= hts <= 2 ^ 48 -> Forall is_byte l -> 3 <= Z.of_nat (length l) <= 2 ^ 58 -> string_at T 0 (l ++ [0]) ->
  (forall i, fresh_byte E i = Some 0) \/ ~ unwritten_length hts l ->
  exists co h qs recs, extract_LMS_strings E hts T (Z.of_nat (length l)) = Ok co /\
    (forall c, 0 <= c < 256 -> av (c_M co) (c + 1) = Some (Z.of_nat (count (fun x => x =? c) l))) /\
    (forall c, 0 <= c < 256 -> av (c_NL co) (c + 1) =
       Some (Z.of_nat (count (fun i => (nth i l 0 =? c) && negb (is_S l i)) (seq 0 (length l))))) /\
    (forall c, 0 <= c < 256 -> av (c_C co) (c + 1) = Some (Z.of_nat (count (fun i => nth i l 0 =? c) (lms_positions l)))) /\
    av (c_M co) 0 = Some 1 /\ av (c_C co) 0 = Some 1 /\
    c_num co = Z.of_nat (length (lms_positions l)) /\
    c_uniq co = Z.of_nat (length (distinct_stars l)) /\
    c_head_end co = Some (Z.of_nat (next_lms l 0)) /\
    c_ht co = Some h /\ ht_walk E h (c_uniq co) = Ok qs /\
    Forall2 (fun q s => read_record E (ht_buf h) q = Ok s) qs recs /\ Permutation recs (distinct_stars l).
Proof. exact extract_stmt. Qed.
Print Assumptions C17_extract.

(** ** C18  sort_LMS_strings *)
Theorem C18_sort : forall E srt hts T l co,
  std_sort srt -> 1 <= hts <= 2 ^ 48 -> Forall is_byte l -> 3 <= Z.of_nat (length l) <= 2 ^ 58 -> string_at T 0 (l ++ [0]) ->
  (forall i, fresh_byte E i = Some 0) \/ ~ unwritten_length hts l ->
  extract_LMS_strings E hts T (Z.of_nat (length l)) = Ok co ->
  exists Sv co' h ol, sort_LMS_strings E srt T co = Ok (Sv, co') /\ c_ht co' = Some h /\
    Permutation ol (distinct_stars l) /\ StronglySorted (fun a b => star_lt a b = true) ol /\
    (forall k, (k < length ol)%nat -> exists q, av Sv (Z.of_nat k + 1) = Some q /\
       read_record E (ht_buf h) q = Ok (nth k ol []) /\ get_name E h (ht_buf h) q = Ok (Z.of_nat k + 1)) /\
    (exists q, av Sv (Z.of_nat (length ol) + 1) = Some q /\ read_record E (ht_buf h) q = Ok (head_string l)).
Proof. exact sort_stmt. Qed.
Print Assumptions C18_sort.

(** ** C19  create_shortened_string *)
Theorem C19_shortened : forall E srt hts T l co Sv co',
  std_sort srt -> 1 <= hts <= 2 ^ 48 -> Forall is_byte l -> 3 <= Z.of_nat (length l) <= 2 ^ 58 -> string_at T 0 (l ++ [0]) ->
  (forall i, fresh_byte E i = Some 0) \/ ~ unwritten_length hts l ->
  extract_LMS_strings E hts T (Z.of_nat (length l)) = Ok co -> sort_LMS_strings E srt T co = Ok (Sv, co') ->
  exists T1, create_shortened_string E T (Z.of_nat (length l)) co' = Ok T1 /\
    pa_len T1 = Z.of_nat (length (lms_positions l)) + 2 /\
    pa_get E T1 0 = Ok (Z.of_nat (length (distinct_stars l)) + 1) /\
    (forall k, (k < length (lms_positions l))%nat ->
       pa_get E T1 (Z.of_nat k + 1) = Ok (star_name l (star_sub l (nth k (lms_positions l) O)))) /\
    pa_get E T1 (Z.of_nat (length (lms_positions l)) + 1) = Ok 0.
Proof. exact (fun E srt hts T l co Sv co' H1 H2 H3 H4 H5 H6 => create_list E srt hts T l H1 H2 H3 H4 H5 H6 co Sv co'). Qed.
Print Assumptions C19_shortened.
(** C17 to C19, C23 and C31 on a concrete text with three buckets *)
Definition ex_pipeline : res (container * arr Z * container * packed) :=
  co <- extract_LMS_strings ex_env 3 ex_block 12 ;; '(Sv, co') <- sort_LMS_strings ex_env isort ex_block co ;;
  T1 <- create_shortened_string ex_env ex_block 12 co' ;; Ok (co, Sv, co', T1).
Example C17_case : match ex_pipeline with
  | Ok (co, _, _, _) => c_num co = 4 /\ c_uniq co = 3 /\ c_head_end co = Some 1 /\ av (c_M co) (97 + 1) = Some 4 /\ av (c_NL co) (98 + 1) = Some 4
  | Err _ => False end.
Proof. vm_compute. auto. Qed.
Example C18_case : match ex_pipeline with
  | Ok (_, Sv, co', T1) => map (av Sv) [1; 2; 3; 4] = [Some 1; Some 520; Some 8; Some 1039] /\
      map (pa_get ex_env T1) [0; 1; 2; 3; 4; 5] = [Ok 4; Ok 3; Ok 3; Ok 2; Ok 1; Ok 0] /\
      c_num co' + 2 < 2 ^ (32 - 1) /\ c_sa_max co' < 2 ^ (32 - 1) /\ position_of_msb (Z.max (c_sa_max co') (c_num co' + 2)) = Ok 11 /\ sa_width 11 = Some 32
  | Err _ => False end.
Proof. vm_compute. auto 10. Qed.
Example C19_case : map (fun i => star_name ex_text (star_sub ex_text i)) (lms_positions ex_text) = [3; 3; 2; 1].
Proof. vm_compute. reflexivity. Qed.

(** ** C20  sais_XXbit computes the suffix array (W: element width, the text is packed; fuel: the
    number of nested calls allowed; log2 n + 1 are enough, see C43) *)
Theorem C20_sais : forall E W l k fs p sa0 tmp0 fuel,
  1 <= W <= 64 -> (1 <= length l)%nat -> Forall (fun c => 0 <= c < k) l -> Z.of_nat (length l) < 2 ^ (W - 1) -> k <= 2 ^ (W - 1) ->
  0 <= fs -> Z.of_nat (length l) + fs <= alen sa0 -> Z.of_nat (length l) < 2 ^ Z.of_nat fuel -> pa_bits p <> W ->
  (forall i, 0 <= i < Z.of_nat (length l) -> pa_get E p (i + 1) = Ok (nth (Z.to_nat i) l 0)) ->
  exists s sa, sais E W fuel (mkst sa0 tmp0) (TPack (pa_arr p) (pa_bits p)) fs (Z.of_nat (length l)) k = Ok s /\
    is_suffix_array l sa /\
    (forall i, 0 <= i < Z.of_nat (length l) -> av (mem s) i = Some (nth (Z.to_nat i) sa 0)) /\
    alen (mem s) = alen sa0 /\
    (forall i, i < 0 \/ Z.of_nat (length l) + fs <= i -> av (mem s) i = av sa0 i).
Proof. exact sais_list. Qed.
Print Assumptions C20_sais.
(** the variants whose cells are split over two or three arrays; SA is read with get_XXbit_value.
    The arrays may hold anything that fits their types; a cell is initialised in all parts or in none *)
Theorem C20_sais_40bit : forall E l k fs p L0 U0 fuel,
  (1 <= length l)%nat -> Forall (fun c => 0 <= c < k) l -> Z.of_nat (length l) < 2 ^ 39 -> k <= 2 ^ 39 ->
  0 <= fs -> Z.of_nat (length l) + fs <= alen L0 -> alen U0 = alen L0 ->
  (forall i, av L0 i = None <-> av U0 i = None) ->
  (forall i v, av L0 i = Some v -> 0 <= v < 2 ^ 32) -> (forall i v, av U0 i = Some v -> - 2 ^ 7 <= v < 2 ^ 7) ->
  Z.of_nat (length l) < 2 ^ Z.of_nat fuel -> pa_bits p <> 40 ->
  (forall i, 0 <= i < Z.of_nat (length l) -> pa_get E p (i + 1) = Ok (nth (Z.to_nat i) l 0)) ->
  exists s sa, sais_40bit E fuel (mkst2 L0 U0 (anew 0) (anew 0)) (TPack (pa_arr p) (pa_bits p)) fs (Z.of_nat (length l)) k = Ok s /\
    is_suffix_array l sa /\
    (forall i, 0 <= i < Z.of_nat (length l) -> get_2part (m2L s) (m2U s) i = Ok (nth (Z.to_nat i) sa 0)) /\
    alen (m2L s) = alen L0 /\ alen (m2U s) = alen L0 /\
    (forall i, Z.of_nat (length l) + fs <= i -> av (m2L s) i = av L0 i /\ av (m2U s) i = av U0 i).
Proof. exact (fun E l k fs p L0 U0 fuel => sais_2part_list E 8 l k fs p L0 U0 fuel ltac:(lia)). Qed.
Theorem C20_sais_48bit : forall E l k fs p L0 U0 fuel,
  (1 <= length l)%nat -> Forall (fun c => 0 <= c < k) l -> Z.of_nat (length l) < 2 ^ 47 -> k <= 2 ^ 47 ->
  0 <= fs -> Z.of_nat (length l) + fs <= alen L0 -> alen U0 = alen L0 ->
  (forall i, av L0 i = None <-> av U0 i = None) ->
  (forall i v, av L0 i = Some v -> 0 <= v < 2 ^ 32) -> (forall i v, av U0 i = Some v -> - 2 ^ 15 <= v < 2 ^ 15) ->
  Z.of_nat (length l) < 2 ^ Z.of_nat fuel -> pa_bits p <> 48 ->
  (forall i, 0 <= i < Z.of_nat (length l) -> pa_get E p (i + 1) = Ok (nth (Z.to_nat i) l 0)) ->
  exists s sa, sais_48bit E fuel (mkst2 L0 U0 (anew 0) (anew 0)) (TPack (pa_arr p) (pa_bits p)) fs (Z.of_nat (length l)) k = Ok s /\
    is_suffix_array l sa /\
    (forall i, 0 <= i < Z.of_nat (length l) -> get_2part (m2L s) (m2U s) i = Ok (nth (Z.to_nat i) sa 0)) /\
    alen (m2L s) = alen L0 /\ alen (m2U s) = alen L0 /\
    (forall i, Z.of_nat (length l) + fs <= i -> av (m2L s) i = av L0 i /\ av (m2U s) i = av U0 i).
Proof. exact (fun E l k fs p L0 U0 fuel => sais_2part_list E 16 l k fs p L0 U0 fuel ltac:(lia)). Qed.
Theorem C20_sais_56bit : forall E l k fs p L0 M0 U0 fuel,
  (1 <= length l)%nat -> Forall (fun c => 0 <= c < k) l -> Z.of_nat (length l) < 2 ^ 55 -> k <= 2 ^ 55 ->
  0 <= fs -> Z.of_nat (length l) + fs <= alen L0 -> alen M0 = alen L0 -> alen U0 = alen L0 ->
  (forall i, (av L0 i = None <-> av M0 i = None) /\ (av L0 i = None <-> av U0 i = None)) ->
  (forall i v, av L0 i = Some v -> 0 <= v < 2 ^ 32) -> (forall i v, av M0 i = Some v -> 0 <= v < 2 ^ 16) ->
  (forall i v, av U0 i = Some v -> - 2 ^ 7 <= v < 2 ^ 7) ->
  Z.of_nat (length l) < 2 ^ Z.of_nat fuel -> pa_bits p <> 56 ->
  (forall i, 0 <= i < Z.of_nat (length l) -> pa_get E p (i + 1) = Ok (nth (Z.to_nat i) l 0)) ->
  exists s sa, sais_56bit E fuel (mkst3 L0 M0 U0 (anew 0) (anew 0) (anew 0)) (TPack (pa_arr p) (pa_bits p)) fs (Z.of_nat (length l)) k = Ok s /\
    is_suffix_array l sa /\
    (forall i, 0 <= i < Z.of_nat (length l) -> get_3part (m3L s) (m3M s) (m3U s) i = Ok (nth (Z.to_nat i) sa 0)) /\
    alen (m3L s) = alen L0 /\ alen (m3M s) = alen L0 /\ alen (m3U s) = alen L0 /\
    (forall i, Z.of_nat (length l) + fs <= i -> av (m3L s) i = av L0 i /\ av (m3M s) i = av M0 i /\ av (m3U s) i = av U0 i).
Proof. exact sais_3part_list. Qed.
Print Assumptions C20_sais_40bit.
Print Assumptions C20_sais_48bit.
Print Assumptions C20_sais_56bit.
(** the text 2 1 2 2 1 2 0 behind a head symbol, in 2-bit elements *)
Example C20_case : let l := [2; 1; 2; 2; 1; 2; 0] in
  match run_sets ex_env (pa_new 8 2) [(0, 3); (1, 2); (2, 1); (3, 2); (4, 2); (5, 1); (6, 2); (7, 0)] with
  | Ok p => pa_bits p <> 32 /\ (forall i, 0 <= i < 7 -> pa_get ex_env p (i + 1) = Ok (nth (Z.to_nat i) l 0))
  | Err _ => False end.
Proof.
  cbn zeta. set (x := run_sets _ _ _). vm_compute in x. subst x. cbn iota. split; [discriminate|]. intros i Hi.
  assert (Hc : i = 0 \/ i = 1 \/ i = 2 \/ i = 3 \/ i = 4 \/ i = 5 \/ i = 6) by lia.
  repeat (destruct Hc as [-> |Hc]; [vm_compute; reflexivity|]). subst i. vm_compute. reflexivity.
Qed.

(** the text as an array of W-bit cells (cs = W, the call the 32 and 64 bit variants also accept): it lies at
    [base], behind the workspace; the workspace may be unwritten, and nothing behind it, so no symbol of
    the text either, is changed *)
Theorem C20_sais_cells : forall E W l k fs base sa0 tmp0 fuel,
  1 <= W <= 64 -> (1 <= length l)%nat -> Forall (fun c => 0 <= c < k) l -> Z.of_nat (length l) < 2 ^ (W - 1) -> k <= 2 ^ (W - 1) ->
  0 <= fs -> Z.of_nat (length l) + fs <= base -> base + Z.of_nat (length l) <= alen sa0 -> Z.of_nat (length l) < 2 ^ Z.of_nat fuel ->
  (forall i, 0 <= i < Z.of_nat (length l) -> av sa0 (base + i) = Some (nth (Z.to_nat i) l 0)) ->
  exists s sa, sais E W fuel (mkst sa0 tmp0) (TCells base) fs (Z.of_nat (length l)) k = Ok s /\
    is_suffix_array l sa /\
    (forall i, 0 <= i < Z.of_nat (length l) -> av (mem s) i = Some (nth (Z.to_nat i) sa 0)) /\
    alen (mem s) = alen sa0 /\
    (forall i, i < 0 \/ Z.of_nat (length l) + fs <= i -> av (mem s) i = av sa0 i).
Proof. exact sais_cells_list. Qed.
Print Assumptions C20_sais_cells.
(** the text 2 1 2 2 1 2 0 in the cells 9 .. 15, behind an unwritten workspace of 7 + 2 cells *)
Example C20_case_cells : let l := [2; 1; 2; 2; 1; 2; 0] in
  match fold_left (fun r v => match r with Ok (a, i) => match aset a i v with Ok b => Ok (b, i + 1) | Err e => Err e end | Err e => Err e end)
          l (Ok (anew 16, 9)) with
  | Ok (sa0, _) => av sa0 0 = None /\ av sa0 8 = None /\ (forall i, 0 <= i < 7 -> av sa0 (9 + i) = Some (nth (Z.to_nat i) l 0)) /\
      match sais ex_env 32 3 (mkst sa0 (anew 0)) (TCells 9) 2 7 3 with
      | Ok s => map (av (mem s)) [0; 1; 2; 3; 4; 5; 6] = map Some [6; 4; 1; 5; 3; 0; 2]
      | Err _ => False end
  | Err _ => False end.
Proof.
  cbn zeta. set (x := fold_left _ _ _). vm_compute in x. subst x. cbn iota. split; [vm_compute; reflexivity|]. split; [vm_compute; reflexivity|].
  split; [|vm_compute; reflexivity]. intros i Hi.
  assert (Hc : i = 0 \/ i = 1 \/ i = 2 \/ i = 3 \/ i = 4 \/ i = 5 \/ i = 6) by lia.
  repeat (destruct Hc as [-> |Hc]; [vm_compute; reflexivity|]). subst i. vm_compute. reflexivity.
Qed.

(** ** C21  sais_XXbit stays inside its workspace, reads no unwritten cell and terminates
    (the workspace starts uninitialised and has exactly n + fs cells; every violation would be
    an error outcome) *)
Theorem C21_sais_safe : forall E W l k fs p fuel,
  1 <= W <= 64 -> (1 <= length l)%nat -> Forall (fun c => 0 <= c < k) l -> Z.of_nat (length l) < 2 ^ (W - 1) -> k <= 2 ^ (W - 1) ->
  0 <= fs -> Z.of_nat (length l) < 2 ^ Z.of_nat fuel -> pa_bits p <> W ->
  (forall i, 0 <= i < Z.of_nat (length l) -> pa_get E p (i + 1) = Ok (nth (Z.to_nat i) l 0)) ->
  exists s, sais E W fuel (mkst (anew (Z.of_nat (length l) + fs)) (anew 0)) (TPack (pa_arr p) (pa_bits p)) fs (Z.of_nat (length l)) k = Ok s.
Proof. exact sais_safe. Qed.
Print Assumptions C21_sais_safe.

(** ** C22  split cells *)
Theorem C22_cells_2part : forall uw L U i v,
  1 <= uw <= 32 -> 0 <= i < alen L -> 0 <= i < alen U -> - 2 ^ (31 + uw) <= v < 2 ^ (31 + uw) ->
  exists L' U', set_2part uw L U i v = Ok (L', U') /\
    alen L' = alen L /\ alen U' = alen U /\
    get_2part L' U' i = Ok v /\
    forall j, j <> i -> get_2part L' U' j = get_2part L U j.
Proof. exact cells2_ok. Qed.
Print Assumptions C22_cells_2part.
Theorem C22_cells_3part : forall L M U i v,
  0 <= i < alen L -> 0 <= i < alen M -> 0 <= i < alen U -> - 2 ^ 55 <= v < 2 ^ 55 ->
  exists L' M' U', set_3part L M U i v = Ok (L', M', U') /\
    alen L' = alen L /\ alen M' = alen M /\ alen U' = alen U /\
    get_3part L' M' U' i = Ok v /\
    forall j, j <> i -> get_3part L' M' U' j = get_3part L M U j.
Proof. exact cells3_ok. Qed.
Print Assumptions C22_cells_3part.
Example C22_case : - 2 ^ (31 + 8) <= - 2 ^ 39 < 2 ^ (31 + 8).
Proof. lia. Qed.

(** ** C23  the element width chosen is sufficient *)
Theorem C23_width : forall E srt hts T l co Sv co' h,
  std_sort srt -> 1 <= hts <= 2 ^ 48 -> Forall is_byte l -> 3 <= Z.of_nat (length l) <= 2 ^ 58 -> string_at T 0 (l ++ [0]) ->
  (forall i, fresh_byte E i = Some 0) \/ ~ unwritten_length hts l ->
  extract_LMS_strings E hts T (Z.of_nat (length l)) = Ok co -> sort_LMS_strings E srt T co = Ok (Sv, co') ->
  c_ht co' = Some h ->
  exists bits W, position_of_msb (Z.max (c_sa_max co') (c_num co' + 2)) = Ok bits /\ sa_width bits = Some W /\
    In W [32; 40; 48; 56; 64] /\ c_num co' + 2 < 2 ^ (W - 1) /\ c_sa_max co' < 2 ^ (W - 1) /\
    forall x q len fc, (x = length l \/ In x (lms_positions l)) -> av Sv (name_before l x) = Some q ->
      get_length E (ht_buf h) q = Ok len -> get_first_character_pointer E (ht_buf h) q = Ok fc ->
      0 < fc + len - 1 - c_bwp_base co' < 2 ^ (W - 1).
Proof. exact (fun E srt hts T l co Sv co' h H1 H2 H3 H4 H5 H6 => width_list E srt hts T l H1 H2 H3 H4 H5 H6 co Sv co' h). Qed.
Print Assumptions C23_width.

(** ** C24  induce_bwt_XXbit *)
Theorem C24_induce : forall E srt hts T l co Sv co' h SA order,
  std_sort srt -> 1 <= hts <= 2 ^ 48 -> Forall is_byte l -> 3 <= Z.of_nat (length l) <= 2 ^ 58 -> string_at T 0 (l ++ [0]) ->
  (forall i, fresh_byte E i = Some 0) \/ ~ unwritten_length hts l ->
  extract_LMS_strings E hts T (Z.of_nat (length l)) = Ok co -> sort_LMS_strings E srt T co = Ok (Sv, co') ->
  c_ht co' = Some h ->
  (* the S* positions in the order of their suffixes *)
  Permutation order (lms_positions l) -> StronglySorted (fun i j => lexlt (suffix l i) (suffix l j) = true) order ->
  (* SA holds, for the terminator and then for them, the relative address of the last byte of
     the record of the substring that ends there *)
  (forall i, (i <= length order)%nat -> exists q len fc, av Sv (name_before l (nth i (length l :: order) O)) = Some q /\
     get_length E (ht_buf h) q = Ok len /\ get_first_character_pointer E (ht_buf h) q = Ok fc /\
     av SA (Z.of_nat i) = Some (fc + len - 1 - c_bwp_base co')) ->
  exists r, induce_bwt E SA co' = Ok r /\ alen (r_BWT r) = Z.of_nat (length l) + 1 /\ is_BWT l (av (r_BWT r)) (r_last r).
Proof. exact (fun E srt hts T l co Sv co' h SA order H1 H2 H3 H4 H5 H6 => induce_list E srt hts T l H1 H2 H3 H4 H5 H6 co Sv co' h SA order). Qed.
Print Assumptions C24_induce.
Example C24_case : match ex_pipeline with
  | Ok (_, Sv, co', _) => exists h, c_ht co' = Some h /\
      let order := [10; 7; 4; 1]%nat in let SA := of_list [6; 526; 14; 14; 1043] in
      Permutation order (lms_positions ex_text) /\ StronglySorted (fun i j => lexlt (suffix ex_text i) (suffix ex_text j) = true) order /\
      forall i, (i <= length order)%nat -> exists q len fc, av Sv (name_before ex_text (nth i (length ex_text :: order) O)) = Some q /\
        get_length ex_env (ht_buf h) q = Ok len /\ get_first_character_pointer ex_env (ht_buf h) q = Ok fc /\
        av SA (Z.of_nat i) = Some (fc + len - 1 - c_bwp_base co')
  | Err _ => False end.
Proof.
  destruct ex_pipeline as [[[[co Sv] co'] T1]|] eqn:H; [|vm_compute in H; discriminate]. vm_compute in H. injection H as <- <- <- <-.
  eexists. split; [reflexivity|]. cbv zeta. split; [|split].
  - vm_compute. apply (Permutation_rev [10; 7; 4; 1]%nat).
  - repeat (apply SSorted_cons || apply SSorted_nil); repeat (apply Forall_cons || apply Forall_nil); vm_compute; reflexivity.
  - intros i Hi. cbn [length] in Hi. do 5 (destruct i as [|i]; [do 3 eexists; split; [vm_compute; reflexivity|]; split; [vm_compute; reflexivity|]; split; vm_compute; reflexivity|]). lia.
Qed.

(** ** C25  position_of_msb *)
Theorem C25_msb : forall n, 1 <= n < 2 ^ 64 -> exists r, position_of_msb n = Ok r /\ 1 <= r <= 64 /\ 2 ^ (r - 1) <= n < 2 ^ r.
Proof. exact msb_ok. Qed.
Print Assumptions C25_msb.
Theorem C25_zero : position_of_msb 0 = Err BadBuiltin.
Proof. reflexivity. Qed.

(** ** C26  free_T *)
Theorem C26_free : forall E srt hts T n,
  match bwt_string_gen hts E srt T n true, bwt_string_gen hts E srt T n false with
  | Ok (t1, r1), Ok (t2, r2) => r1 = r2 /\ t1 = None /\ t2 = T
  | Err e1, Err e2 => e1 = e2
  | _, _ => False
  end.
Proof. exact string_free. Qed.
Print Assumptions C26_free.

(** ** C27  termination of set_length and calculate_lenlen ([fuel] bounds the iterations) *)
Theorem C27_set_length : forall fuel E b p m, (9 <= fuel)%nat -> 1 <= m < 2 ^ 64 -> 0 <= p -> p + 9 <= alen b ->
  exists b', set_length_fuel fuel E b p m = Ok b'.
Proof. exact set_length_terminates. Qed.
Theorem C27_calculate_lenlen : forall fuel m, (8 <= fuel)%nat -> 1 <= m < 2 ^ 64 ->
  exists k, calculate_lenlen_fuel fuel m = Ok k /\ 1 <= k <= 8 /\ 256 ^ (k - 1) <= m < 256 ^ k.
Proof. exact lenlen_terminates. Qed.
Theorem C27_zero_diverges : forall fuel E b p, 0 <= p < alen b ->
  set_length_fuel fuel E b p 0 = Err Diverge /\ calculate_lenlen_fuel fuel 0 = Err Diverge.
Proof. exact zero_diverges. Qed.
Print Assumptions C27_set_length.
Print Assumptions C27_calculate_lenlen.
Print Assumptions C27_zero_diverges.

(** ** C28  the comparison given to std::sort *)
Theorem C28_comparison : forall E b q1 s1 q2 s2, (forall i c, bget E b i = Ok c -> is_byte c) ->
  read_record E b q1 = Ok s1 -> read_record E b q2 = Ok s2 -> LMS_comparison E b q1 q2 = Ok (star_lt s1 s2).
Proof. exact comparison_records. Qed.
Print Assumptions C28_comparison.
Theorem C28_strict_total : forall E b qs strs, (forall i c, bget E b i = Ok c -> is_byte c) ->
  Forall2 (fun q s => read_record E b q = Ok s) qs strs -> NoDup strs ->
  (forall q, In q qs -> LMS_comparison E b q q = Ok false) /\
  (forall q1 q2 q3, In q1 qs -> In q2 qs -> In q3 qs ->
     LMS_comparison E b q1 q2 = Ok true -> LMS_comparison E b q2 q3 = Ok true -> LMS_comparison E b q1 q3 = Ok true) /\
  (forall i j, (i < length qs)%nat -> (j < length qs)%nat -> i <> j ->
     (LMS_comparison E b (nth i qs 0) (nth j qs 0) = Ok true /\ LMS_comparison E b (nth j qs 0) (nth i qs 0) = Ok false) \/
     (LMS_comparison E b (nth i qs 0) (nth j qs 0) = Ok false /\ LMS_comparison E b (nth j qs 0) (nth i qs 0) = Ok true)).
Proof. exact comparison_order. Qed.
Print Assumptions C28_strict_total.
(** two records, "ab" and "abc", with one-byte names: "ab" is the larger *)
Example C28_case : let b := of_list [1; 2; 98; 97; 98; 1; 1; 3; 98; 97; 98; 99; 2] in
  read_record ex_env b 0 = Ok [97; 98] /\ read_record ex_env b 6 = Ok [97; 98; 99] /\ LMS_comparison ex_env b 6 0 = Ok true.
Proof. vm_compute. auto. Qed.

(** ** C29  shift amounts in PackedArray *)
(** [pa_set_log] and [get2_log] are set_value and get_value with a log of the amounts of the shifts they execute *)
Theorem C29_log : forall E p index value,
  match pa_set_log E p index value with Ok (q, _) => pa_set E p index value = Ok q | Err e => pa_set E p index value = Err e end /\
  match get2_log E (pa_arr p) index (pa_bits p) with Ok (v, _) => pa_get E p index = Ok v | Err e => pa_get E p index = Err e end.
Proof.
  intros E p index value. rewrite set_log, get_log. unfold pa_get. split; [destruct (pa_set E p index value)|destruct (get2 E (pa_arr p) index (pa_bits p))]; reflexivity.
Qed.
(** every shift of set_value(index, _) is by 0..63 bits exactly when the element does not end at a word boundary *)
Theorem C29_set_shifts : forall E p index value q log, 1 <= pa_bits p <= 64 -> 0 <= index -> pa_bits p * index < 2 ^ 64 ->
  pa_set_log E p index value = Ok (q, log) ->
  (Forall (fun k => 0 <= k < 64) log <-> (pa_bits p * (index + 1)) mod 64 <> 0).
Proof. exact set_shifts_log. Qed.
Theorem C29_get_shifts : forall E p index v log, 1 <= pa_bits p <= 64 -> 0 <= index -> pa_bits p * index < 2 ^ 64 ->
  get2_log E (pa_arr p) index (pa_bits p) = Ok (v, log) -> Forall (fun k => 0 <= k < 64) log.
Proof. intros E p index v log. exact (get_shifts_log E (pa_arr p) index (pa_bits p) v log). Qed.
(** whatever the overlong shift yields, the stored words are the same *)
Theorem C29_harmless : forall E1 E2 p index value, (forall i, fresh_word E1 i = fresh_word E2 i) ->
  1 <= pa_bits p <= 64 -> pa_set E1 p index value = pa_set E2 p index value.
Proof. exact set_shift_harmless. Qed.
(** storing byte 7 of an array of bytes shifts by 64 bits *)
Theorem C29_refuted : forall E, exists q log, pa_set_log E (pa_new 8 8) 7 1 = Ok (q, log) /\ In 64 log.
Proof.
  intros E. rewrite set_log. destruct (pa_set E (pa_new 8 8) 7 1) as [q|e] eqn:H.
  - exists q, (pa_set_shifts 8 7). split; [reflexivity|vm_compute; auto].
  - exfalso. destruct (byte7_set E) as (q & Hq). rewrite Hq in H. discriminate.
Qed.
Print Assumptions C29_log.
Print Assumptions C29_refuted.
Print Assumptions C29_set_shifts.
Print Assumptions C29_get_shifts.
Print Assumptions C29_harmless.

(** ** C30  ftell fails: the heap block of size 0 is overrun *)
Theorem C30_unseekable : forall hts E srt f, in_open f = true -> malloc_ok f = true -> in_tell f = -1 ->
  in_data f <> [] -> Z.of_nat (length (in_data f)) < 2 ^ 64 ->
  bwt_file_gen hts E srt f = (Err OutOfBounds, None).
Proof. exact file_pipe. Qed.
Print Assumptions C30_unseekable.
Example C30_case : bwt_file_gen 3 ex_env isort (mkio true (-1) ex_text true true None) = (Err OutOfBounds, None).
Proof. apply file_pipe; cbn; (reflexivity || discriminate || lia). Qed.

(** ** C31  every sufficient element width gives the same result *)
Theorem C31_widths : forall E srt hts T l co Sv co' T1 W1 W2,
  std_sort srt -> 1 <= hts <= 2 ^ 48 -> Forall is_byte l -> 3 <= Z.of_nat (length l) <= 2 ^ 58 -> string_at T 0 (l ++ [0]) ->
  (forall i, fresh_byte E i = Some 0) \/ ~ unwritten_length hts l ->
  extract_LMS_strings E hts T (Z.of_nat (length l)) = Ok co -> sort_LMS_strings E srt T co = Ok (Sv, co') ->
  create_shortened_string E T (Z.of_nat (length l)) co' = Ok T1 ->
  In W1 [32; 40; 48; 56; 64] -> In W2 [32; 40; 48; 56; 64] ->
  c_num co' + 2 < 2 ^ (W1 - 1) -> c_sa_max co' < 2 ^ (W1 - 1) ->
  c_num co' + 2 < 2 ^ (W2 - 1) -> c_sa_max co' < 2 ^ (W2 - 1) ->
  exists r1 r2, bwt_branch_of E W1 Sv T1 co' = Ok r1 /\ bwt_branch_of E W2 Sv T1 co' = Ok r2 /\
    r_last r1 = r_last r2 /\ alen (r_BWT r1) = Z.of_nat (length l) + 1 /\ alen (r_BWT r2) = Z.of_nat (length l) + 1 /\
    (forall r, 0 <= r <= Z.of_nat (length l) -> r <> r_last r1 -> av (r_BWT r1) r = av (r_BWT r2) r) /\
    is_BWT l (av (r_BWT r1)) (r_last r1).
Proof. exact branch_of_widths. Qed.
Print Assumptions C31_widths.

(** ** C32  hash_function *)
Theorem C32_hash : forall h T1 p1 T2 p2 s, 1 <= HTSIZE h -> string_at T1 p1 s -> string_at T2 p2 s ->
  exists v, hash_function h T1 (Z.of_nat (length s)) p1 = Ok v /\ hash_function h T2 (Z.of_nat (length s)) p2 = Ok v /\ 0 <= v < HTSIZE h.
Proof. exact hash_spec. Qed.
Theorem C32_value : forall h T p s, 1 <= HTSIZE h -> string_at T p s -> hash_function h T (Z.of_nat (length s)) p = Ok (bucket (HTSIZE h) s).
Proof. intros h T p s _ Hs. rewrite bucket_hash. exact (P_HashTable.hash_ok h T p s (proj1 (P_HTHistory.string_at_tseg T p s) Hs)). Qed.
Print Assumptions C32_hash.
Print Assumptions C32_value.
Example C32_case : bucket 67777 [97; 98; 99] = (97 * 101 ^ 2 + 98 * 101 + 99) mod 67777 /\ string_at ex_block 0 (firstn 3 ex_text).
Proof. split; [reflexivity|]. intros i Hi. cbn in Hi. do 3 (destruct i as [|i]; [vm_compute; reflexivity|]). lia. Qed.

(** ** C33  number, distance and length of the S* substrings *)
Theorem C33_half : forall l, (2 * length (lms_positions l) <= length l)%nat.
Proof. exact lms_half. Qed.
Theorem C33_gap : forall l i j, In i (lms_positions l) -> In j (lms_positions l) -> (i < j)%nat -> (i + 2 <= j)%nat.
Proof. exact lms_gap. Qed.
Theorem C33_length : forall l i, In i (lms_positions l) -> (3 <= length (star_sub l i) <= length l)%nat.
Proof. exact star_len. Qed.
Print Assumptions C33_half.
Print Assumptions C33_gap.
Print Assumptions C33_length.
Example C33_case : lms_positions ex_text = [1; 4; 7; 10]%nat /\ star_sub ex_text 7 = [97; 97; 255; 0].
Proof. split; reflexivity. Qed.

(** ** C34  the byte T[n] *)
(** a normal return is possible only if T[n] is an initialised byte of the block *)
Theorem C34_terminator_read : forall E srt hts T n free_T x, 3 <= n < 2 ^ 64 ->
  bwt_string_gen hts E srt (Some T) n free_T = Ok x -> exists c, av T n = Some c.
Proof. exact terminator_read. Qed.
Print Assumptions C34_terminator_read.
(** the transform is right for every byte c = T[n] that orders the last S* substring correctly (TermSpec.v) *)
Theorem C34_terminator : forall E srt T l c free_T,
  std_sort srt -> Forall is_byte l -> 3 <= Z.of_nat (length l) <= 2 ^ 58 -> is_byte c -> string_at T 0 (l ++ [c]) ->
  terminator_ok l c -> (forall i, fresh_byte E i = Some 0) \/ safe_lengths l ->
  exists r, bwt_string E srt (Some T) (Z.of_nat (length l)) free_T = Ok (if free_T then None else Some T, Some r) /\
    alen (r_BWT r) = Z.of_nat (length l) + 1 /\ is_BWT l (av (r_BWT r)) (r_last r).
Proof. exact (fun E srt T l c b Hs Hb Hn Hc HT Ho Hf => string_terminator E srt 67777 T l c b Hs ltac:(lia) Hb Hn Hc HT Ho Hf). Qed.
Print Assumptions C34_terminator.
(** in particular for every byte that is at most every byte of the text *)
Theorem C34_least : forall E srt T l c free_T,
  std_sort srt -> Forall is_byte l -> 3 <= Z.of_nat (length l) <= 2 ^ 58 -> is_byte c -> string_at T 0 (l ++ [c]) ->
  Forall (fun x => c <= x) l -> (forall i, fresh_byte E i = Some 0) \/ safe_lengths l ->
  exists r, bwt_string E srt (Some T) (Z.of_nat (length l)) free_T = Ok (if free_T then None else Some T, Some r) /\
    alen (r_BWT r) = Z.of_nat (length l) + 1 /\ is_BWT l (av (r_BWT r)) (r_last r).
Proof. exact (fun E srt T l c b Hs Hb Hn Hc HT Ho Hf => string_least E srt 67777 T l c b Hs ltac:(lia) Hb Hn Hc HT Ho Hf). Qed.
Print Assumptions C34_least.
(** "babbab" with 'a' or with 255 behind it *)
Example C34_case : let l := [98; 97; 98; 98; 97; 98] in terminator_ok l 97 /\ ~ terminator_ok l 255 /\ safe_lengths l /\ string_at (of_list (l ++ [97])) 0 (l ++ [97]).
Proof.
  cbv zeta. assert (Hp : lms_positions [98; 97; 98; 98; 97; 98] = [1; 4]%nat) by reflexivity. split; [|split; [|split]].
  - intros i p w d rest Hi Hq Hn Hne -> Hs. rewrite Hp in Hi, Hq. cbn [In] in Hi, Hq.
    destruct Hi as [<-|[<-|[]]], Hq as [<-|[<-|[]]]; try (exfalso; apply Hne; reflexivity); [|vm_compute in Hn; discriminate].
    change (star_sub [98; 97; 98; 98; 97; 98] 1) with [97; 98; 98; 97] in Hs. change (suffix [98; 97; 98; 98; 97; 98] 4) with [97; 98] in Hs.
    cbn [app] in Hs. injection Hs as <- _. left. lia.
  - intros H. destruct (H 1%nat 4%nat [97; 98] 98 [97]) as [H1|[H1 _]]; rewrite ?Hp; cbn [In]; try tauto; try lia; try reflexivity.
  - split; [|vm_compute; discriminate]. intros i Hi. rewrite Hp in Hi. destruct Hi as [<-|[<-|[]]]; vm_compute; discriminate.
  - intros i Hi. cbn [length app] in Hi. do 7 (destruct i as [|i]; [vm_compute; reflexivity|]). lia.
Qed.
(** "baccab" may have any byte behind it *)
Example C34_case_any : forall c, terminator_ok [98; 97; 99; 99; 97; 98] c.
Proof.
  assert (Hp : lms_positions [98; 97; 99; 99; 97; 98] = [1; 4]%nat) by reflexivity.
  intros c i p w d rest Hi Hq Hn Hne -> Hs. rewrite Hp in Hi, Hq. cbn [In] in Hi, Hq.
  destruct Hi as [<-|[<-|[]]], Hq as [<-|[<-|[]]]; try (exfalso; apply Hne; reflexivity); [|vm_compute in Hn; discriminate].
  change (star_sub [98; 97; 99; 99; 97; 98] 1) with [97; 99; 99; 97] in Hs. change (suffix [98; 97; 99; 99; 97; 98] 4) with [97; 98] in Hs.
  discriminate Hs.
Qed.
(** but not for every byte: with 255 behind "babbab" the returned rank is not that of the text *)
Theorem C34_terminator_zero :
  match bwt_string ex_env isort (Some (of_list [98; 97; 98; 98; 97; 98; 255])) 6 true,
        bwt_string ex_env isort (Some (of_list [98; 97; 98; 98; 97; 98; 0])) 6 true with
  | Ok (_, Some r1), Ok (_, Some r2) => r_last r1 = 4 /\ r_last r2 = 5 /\ row_of [98; 97; 98; 98; 97; 98] 0 = 5
  | _, _ => False
  end.
Proof. exact terminator_matters. Qed.

(** ** C35  write errors are not reported *)
Theorem C35_write_errors : forall hts E srt f k, std_sort srt -> 1 <= hts <= 2 ^ 48 -> Forall is_byte (in_data f) ->
  3 <= Z.of_nat (length (in_data f)) <= 2 ^ 58 -> (forall i, fresh_byte E i = Some 0) \/ ~ unwritten_length hts (in_data f) ->
  in_open f = true -> in_tell f = Z.of_nat (length (in_data f)) -> malloc_ok f = true -> out_open f = true -> out_limit f = Some k ->
  bwt_file_gen hts E srt f = (Ok tt, Some (firstn k (file_output (in_data f)))).
Proof. exact file_limited. Qed.
Print Assumptions C35_write_errors.
Example C35_case : out_limit (mkio true 12 ex_text true true (Some 10%nat)) = Some 10%nat /\
  firstn 10 (file_output ex_text) = [0; 0; 0; 0; 0; 0; 0; 9; 98; 255].
Proof. split; vm_compute; reflexivity. Qed.

(** ** C36  memory used by the hash table *)
Theorem C36_buffer : forall E hts T l,
  1 <= hts <= 2 ^ 48 -> Forall is_byte l -> 3 <= Z.of_nat (length l) <= 2 ^ 58 -> string_at T 0 (l ++ [0]) ->
  (forall i, fresh_byte E i = Some 0) \/ ~ unwritten_length hts l ->
  exists co h, extract_LMS_strings E hts T (Z.of_nat (length l)) = Ok co /\ c_ht co = Some h /\
    alen (ht_buf h) <= 531 * Z.of_nat (length (lms_positions l)) + Z.of_nat (length l).
Proof. exact extract_buffer. Qed.
Print Assumptions C36_buffer.
(** and linear in the length of the text, whatever the text is *)
Theorem C36_linear : forall E hts T l,
  1 <= hts <= 2 ^ 48 -> Forall is_byte l -> 3 <= Z.of_nat (length l) <= 2 ^ 58 -> string_at T 0 (l ++ [0]) ->
  (forall i, fresh_byte E i = Some 0) \/ ~ unwritten_length hts l ->
  exists co h, extract_LMS_strings E hts T (Z.of_nat (length l)) = Ok co /\ c_ht co = Some h /\
    alen (ht_buf h) <= 512 * hts + 2 * Z.of_nat (length l) + 50 * Z.of_nat (length (lms_positions l)).
Proof. exact extract_linear. Qed.
Print Assumptions C36_linear.

(** ** C37  the file changes between ftell and fread *)
(** it grew: the transform of the prefix that ftell saw *)
Theorem C37_grown : forall hts E srt f, 0 <= in_tell f < 2 ^ 63 -> in_tell f <= Z.of_nat (length (in_data f)) ->
  bwt_file_gen hts E srt f =
  bwt_file_gen hts E srt (mkio (in_open f) (in_tell f) (firstn (Z.to_nat (in_tell f)) (in_data f)) (malloc_ok f) (out_open f) (out_limit f)).
Proof. exact file_grown. Qed.
(** it shrank: indeterminate bytes are used *)
Theorem C37_shrunk : forall hts E srt f, 1 <= hts -> in_open f = true -> malloc_ok f = true -> in_data f <> [] ->
  3 <= in_tell f < 2 ^ 62 -> Z.of_nat (length (in_data f)) < in_tell f ->
  bwt_file_gen hts E srt f = (Err Uninit, None).
Proof. exact file_short. Qed.
Print Assumptions C37_grown.
Print Assumptions C37_shrunk.
Example C37_case :
  snd (bwt_file_gen 3 ex_env isort (mkio true 12 (ex_text ++ [1; 2; 3]) true true None)) = Some (file_output ex_text) /\
  bwt_file_gen 3 ex_env isort (mkio true 13 ex_text true true None) = (Err Uninit, None).
Proof. split; vm_compute; reflexivity. Qed.

(** ** C38  programs that use several queues *)
Theorem C38_pool : forall al E h0 ops s r, fresh_alloc al -> never_fails al -> Z.of_nat (length ops) < 2 ^ 64 ->
  spec_run (fun _ => None) ops = Some (s, r) ->
  exists h, pool_run al E h0 (fun _ => None) ops = Ok (h, r) /\
    (* the blocks of the rest of the program are untouched *)
    (forall a, hfind a h0 <> None -> hfind a h = hfind a h0) /\
    (* when every queue has been deleted nothing is left *)
    ((forall i, s i = None) -> same_heap h h0) /\
    (* the memory in use is bounded by the elements currently held *)
    (forall vs, NoDup vs -> (forall i, s i <> None -> In i vs) ->
       Z.of_nat (hcount h) <= Z.of_nat (hcount h0) + fold_right Z.add 0 (map (fun i => queue_blocks (s i)) vs)).
Proof. exact (fun al E h0 ops s r Hal => pool_total al Hal E h0 ops s r). Qed.
Print Assumptions C38_pool.
Definition C38_program : list pop :=
  [PNew 0 9; PNew 1 5; PCall 0 (OpEnqueue 5); PCall 1 (OpEnqueueL 30); PCall 0 (OpEnqueueL 511); PCall 0 OpDequeue;
   PDelete 0; PCall 1 OpIsEmpty; PNew 0 1; PCall 1 OpDequeue; PDelete 1; PDelete 0].
Example C38_case : fresh_alloc bump /\ never_fails bump /\
  match spec_run (fun _ => None) C38_program with
  | Some (s, r) => r = [ObsNone; ObsNone; ObsNone; ObsNone; ObsNone; ObsValue 511; ObsNone; ObsBool false; ObsNone; ObsValue 30; ObsNone; ObsNone] /\
                   forall i, s i = None
  | None => False
  end.
Proof.
  split; [exact bump_fresh|]. split; [discriminate|]. cbn. split; [reflexivity|]. intros i. unfold fupd.
  destruct (i =? 0) eqn:H0; [reflexivity|]. destruct (i =? 1); reflexivity.
Qed.

(** ** C39  bwt_string and bwt_file release everything they allocate *)
(** [h_bwt_string] is bwt_string with every malloc, new, new[], realloc, free, delete and delete[]
    on an explicit heap.  On return the heap is the caller's heap with exactly two more blocks,
    the BWT_result (to be released by free) and its array BWT (delete[]); the text block is gone
    if and only if free_T was passed.  The result is Ok: no released, null or too small block was used
    (M_Heap.huse compares the size of a block with the bytes of the array in it). *)
Theorem C39_string : forall al E srt T l free_T h pT kd size,
  fresh_alloc al -> never_fails al -> std_sort srt -> Forall is_byte l -> 3 <= Z.of_nat (length l) <= 2 ^ 58 -> string_at T 0 (l ++ [0]) ->
  (forall i, fresh_byte E i = Some 0) \/ ~ unwritten_length 67777 l ->
  (* the block of the text; it must come from malloc if bwt_string is to release it *)
  hfind pT h = Some (OOther (kd, size)) -> alen T <= size -> (free_T = true -> kd = KMalloc) ->
  exists r aR aB h', h_bwt_string al 67777 E srt h (Some pT) T (Z.of_nat (length l)) free_T = Ok (Some (r, Some aR, Some aB), h') /\
    (alen (r_BWT r) = Z.of_nat (length l) + 1 /\ is_BWT l (av (r_BWT r)) (r_last r)) /\
    heap_plus (if free_T then hremove pT h else h) [(aR, (KMalloc, 16)); (aB, (KNewArray, Z.of_nat (length l) + 1))] h'.
Proof. exact (fun al E srt T l b h pT kd size Hal Ht Hs Hb Hn HT Hf Hp Hz Hk => string_total al Hal E srt 67777 T l b h pT kd size Hs ltac:(lia) Hb Hn HT Hf Hp Hk Hz Ht). Qed.
Print Assumptions C39_string.
(** bwt_file leaves the heap (memory and open files) as it found it *)
Theorem C39_file : forall al hts E srt f h,
  fresh_alloc al -> never_fails al -> std_sort srt -> 1 <= hts <= 2 ^ 48 -> Forall is_byte (in_data f) -> 3 <= Z.of_nat (length (in_data f)) <= 2 ^ 58 ->
  (forall i, fresh_byte E i = Some 0) \/ ~ unwritten_length hts (in_data f) ->
  in_open f = true -> in_tell f = Z.of_nat (length (in_data f)) -> malloc_ok f = true -> out_open f = true ->
  exists h', h_bwt_file al hts E srt h f =
      Ok (h', Ok tt, Some (match out_limit f with None => file_output (in_data f) | Some k => firstn k (file_output (in_data f)) end)) /\
    same_heap h' h.
Proof. exact (fun al hts E srt f h Hal Ht Hs Hts Hb Hn Hf Hi Htl Hm Ho => file_total al Hal hts E srt f h Hs Hts Hb Hn Hf Hi Htl Hm Ht Ho). Qed.
Print Assumptions C39_file.
(** a heap with the caller's text block and a foreign block *)
Definition ex_heap : heap := hadd 5%positive (OOther (KMalloc, 13)) (hadd 9%positive (OOther (KNew, 40)) hempty).
Example C39_case : fresh_alloc bump /\ never_fails bump /\ hfind 5%positive ex_heap = Some (OOther (KMalloc, 13)) /\
  match h_bwt_string bump 3 ex_env isort ex_heap (Some 5%positive) ex_block 12 true with
  | Ok (Some (_, pR, pB), h') => pR = Some 805%positive /\ pB = Some 804%positive /\ hcount h' = 3%nat
  | _ => False
  end /\
  match h_bwt_file bump 3 ex_env isort ex_heap ex_io with Ok (h', e, _) => e = Ok tt /\ helements h' = helements ex_heap | _ => False end.
Proof. split; [exact bump_fresh|]. split; [discriminate|]. split; [reflexivity|]. split; vm_compute; repeat split. Qed.

(** ** C40  what bwt_file leaves behind when it throws *)
(** an input file that cannot be opened, or no memory for the text: nothing *)
Theorem C40_no_input : forall al hts E srt f h, in_open f = false -> h_bwt_file al hts E srt h f = Ok (h, Err InvalidArgument, None).
Proof. exact (fun al hts E srt f h => file_no_input al hts E srt f h). Qed.
Theorem C40_no_memory : forall al hts E srt f h, fresh_alloc al -> never_fails al -> in_open f = true -> malloc_ok f = false ->
  exists h', h_bwt_file al hts E srt h f = Ok (h', Err RuntimeError, None) /\ same_heap h' h.
Proof. exact (fun al hts E srt f h Hal => file_no_memory al Hal hts E srt f h). Qed.
(** nothing could be read: the text block and the open input file are lost *)
Theorem C40_nothing_read : forall al hts E srt f h, fresh_alloc al -> never_fails al -> in_open f = true -> malloc_ok f = true ->
  in_data f = [] \/ in_tell f = 0 ->
  exists h' aT aF, h_bwt_file al hts E srt h f = Ok (h', Err RuntimeError, None) /\ heap_plus h [(aT, (KMalloc, u64 (u64 (in_tell f) + 1))); (aF, (KFile, 0))] h'.
Proof. exact (fun al hts E srt f h Hal => file_nothing_read al Hal hts E srt f h). Qed.
(** the output file cannot be opened: the result and its array are lost *)
Theorem C40_no_output : forall al hts E srt f h,
  fresh_alloc al -> never_fails al -> std_sort srt -> 1 <= hts <= 2 ^ 48 -> Forall is_byte (in_data f) -> 3 <= Z.of_nat (length (in_data f)) <= 2 ^ 58 ->
  (forall i, fresh_byte E i = Some 0) \/ ~ unwritten_length hts (in_data f) ->
  in_open f = true -> in_tell f = Z.of_nat (length (in_data f)) -> malloc_ok f = true -> out_open f = false ->
  exists h' aR aB, h_bwt_file al hts E srt h f = Ok (h', Err InvalidArgument, None) /\ 
    heap_plus h [(aR, (KMalloc, 16)); (aB, (KNewArray, Z.of_nat (length (in_data f)) + 1))] h'.
Proof. exact (fun al hts E srt f h Hal Ht Hs Hts Hb Hn Hf Hi Htl Hm Ho => file_no_output al Hal hts E srt f h Hs Hts Hb Hn Hf Hi Htl Hm Ht Ho). Qed.
Print Assumptions C40_nothing_read.
Print Assumptions C40_no_output.
Example C40_case :
  match h_bwt_file bump 3 ex_env isort ex_heap (mkio true 0 [] true true None) with
  | Ok (h', _, _) => hcount h' = 4%nat | _ => False end /\
  match h_bwt_file bump 3 ex_env isort ex_heap (mkio true 12 ex_text true false None) with
  | Ok (h', _, _) => hcount h' = 4%nat | _ => False end.
Proof. split; vm_compute; reflexivity. Qed.

(** ** C41  memory exhaustion *)
(** an allocator that may fail at any allocation: the calls give the right result, or fail at an
    allocation (std::bad_alloc, or a use of the null pointer that malloc returned); they never
    return something else.  At the allocation that fails, every block of the caller is still
    allocated and unchanged ([keeps]; the text too, unless it was to be released), and the bytes in
    use including the request are within the linear bound of C42. *)
Theorem C41_string : forall al E srt T l free_T h pT kd size,
  fresh_alloc al -> std_sort srt -> Forall is_byte l -> 3 <= Z.of_nat (length l) <= 2 ^ 58 -> string_at T 0 (l ++ [0]) ->
  (forall i, fresh_byte E i = Some 0) \/ ~ unwritten_length 67777 l ->
  (* the block of the text; it must come from malloc if bwt_string is to release it *)
  hfind pT h = Some (OOther (kd, size)) -> alen T <= size -> (free_T = true -> kd = KMalloc) ->
  let result := h_bwt_string al 67777 E srt h (Some pT) T (Z.of_nat (length l)) free_T in
  (exists r aR aB h', result = Ok (Some (r, Some aR, Some aB), h') /\
    (alen (r_BWT r) = Z.of_nat (length l) + 1 /\ is_BWT l (av (r_BWT r)) (r_last r)) /\
    heap_plus (if free_T then hremove pT h else h) [(aR, (KMalloc, 16)); (aB, (KNewArray, Z.of_nat (length l) + 1))] h') \/
  ((exists h' sz, al h' sz = None /\ keeps (if free_T then hremove pT h else h) h' /\
      hsize h' + sz <= hsize h + 60 * Z.of_nat (length l) + 84000000) /\
   (result = Err BadAlloc \/ result = Err NullDeref)).
Proof.
  intros al E srt T l b h pT kd size Hal Hs Hb Hn HT Hf Hp Hz Hk.
  destruct (string_oom al Hal E srt 67777 T l b h pT kd size Hs ltac:(lia) Hb Hn HT Hf Hp Hk Hz) as [H|[H1 H2]]; [left; exact H|right].
  split; [|exact H2]. eapply oom_request; [exact H1|]. unfold budget. lia.
Qed.
(** bwt_file: a normal return means that the output is right; an exception other than bad_alloc
    comes before any output *)
Theorem C41_file : forall al hts E srt f h,
  fresh_alloc al -> std_sort srt -> 1 <= hts <= 2 ^ 48 -> Forall is_byte (in_data f) -> 3 <= Z.of_nat (length (in_data f)) <= 2 ^ 58 ->
  (forall i, fresh_byte E i = Some 0) \/ ~ unwritten_length hts (in_data f) ->
  in_open f = true -> in_tell f = Z.of_nat (length (in_data f)) -> malloc_ok f = true -> out_open f = true ->
  let result := h_bwt_file al hts E srt h f in
  (exists h', result = Ok (h', Ok tt, Some (match out_limit f with None => file_output (in_data f) | Some k => firstn k (file_output (in_data f)) end)) /\
    same_heap h' h) \/
  ((exists h' sz, al h' sz = None /\ keeps h h' /\ hsize h' + sz <= hsize h + 60 * Z.of_nat (length (in_data f)) + 1040 * hts + 13000000) /\
   (result = Err BadAlloc \/ result = Err NullDeref \/
     (exists h' e, result = Ok (h', Err e, None) /\ (e = InvalidArgument \/ e = RuntimeError) /\ keeps h h') \/
     exists h', result = Ok (h', Err BadAlloc, Some []) /\ keeps h h')).
Proof.
  intros al hts E srt f h Hal Hs Hts Hb Hn Hf Hi Htl Hm Ho.
  destruct (file_oom al Hal hts E srt f h Hs Hts Hb Hn Hf Hi Htl Hm Ho) as [H|[H1 H2]]; [left; exact H|right].
  split; [|exact H2]. eapply oom_request; [exact H1|]. unfold budget. lia.
Qed.
Theorem C41_pool : forall al E h0 ops s r, fresh_alloc al -> Z.of_nat (length ops) < 2 ^ 64 ->
  spec_run (fun _ => None) ops = Some (s, r) ->
  let result := pool_run al E h0 (fun _ => None) ops in
  (exists h, result = Ok (h, r)) \/ ((exists h sz, al h sz = None /\ keeps h0 h) /\ (result = Err BadAlloc \/ result = Err NullDeref)).
Proof.
  intros al E h0 ops s r Hal Hl He. destruct (pool_oom al Hal E h0 ops s r Hl He) as [H|[H1 H2]]; [left; exact H|right].
  split; [apply oom_request_any, H1|exact H2].
Qed.
Print Assumptions C41_string.
Print Assumptions C41_file.
Print Assumptions C41_pool.
(** the three outcomes occur, and a malloc that fails is indeed used: room for 1, 3, 5, 6, 700 and 900 blocks *)
Definition outcome {A} (m : res A) : option err := match m with Ok _ => None | Err e => Some e end.
Example C41_case : (forall n, fresh_alloc (bump_upto n)) /\
  map (fun n => outcome (h_bwt_string (bump_upto n) 3 ex_env isort ex_heap (Some 5%positive) ex_block 12 true)) [1; 3; 5; 6; 700; 900]%nat =
  [Some BadAlloc; Some BadAlloc; Some BadAlloc; Some NullDeref; Some BadAlloc; None].
Proof. split; [exact bump_upto_fresh|]. vm_compute. reflexivity. Qed.
(** an allocator that refuses the eight rank bytes: std::bad_alloc leaves an empty output file *)
Definition late : allocator := fun h sz => if ((sz =? 8) && Nat.eqb (hcount h) (3 + hcount ex_heap))%bool then None else bump h sz.
Example C41_case_file : fresh_alloc late /\
  match h_bwt_file late 3 ex_env isort ex_heap ex_io with Ok (_, r, out) => r = Err BadAlloc /\ out = Some [] | Err _ => False end.
Proof.
  split; [intros h sz a; unfold late; destruct (_ && _)%bool; [discriminate|apply bump_fresh]|]. vm_compute. split; reflexivity.
Qed.

(** ** C42  memory needed *)
(** memory grows linearly: 60 bytes for each byte of the text and 84 MB are always enough, in
    addition to what the caller holds ([enough al b]: an allocation succeeds while the live blocks
    do not exceed b bytes) *)
Theorem C42_string : forall al E srt T l free_T h pT kd size,
  fresh_alloc al -> enough al (hsize h + 60 * Z.of_nat (length l) + 84000000) ->
  std_sort srt -> Forall is_byte l -> 3 <= Z.of_nat (length l) <= 2 ^ 58 -> string_at T 0 (l ++ [0]) ->
  (forall i, fresh_byte E i = Some 0) \/ ~ unwritten_length 67777 l ->
  hfind pT h = Some (OOther (kd, size)) -> alen T <= size -> (free_T = true -> kd = KMalloc) ->
  exists r aR aB h', h_bwt_string al 67777 E srt h (Some pT) T (Z.of_nat (length l)) free_T = Ok (Some (r, Some aR, Some aB), h') /\
    (alen (r_BWT r) = Z.of_nat (length l) + 1 /\ is_BWT l (av (r_BWT r)) (r_last r)) /\
    heap_plus (if free_T then hremove pT h else h) [(aR, (KMalloc, 16)); (aB, (KNewArray, Z.of_nat (length l) + 1))] h'.
Proof.
  intros al E srt T l b h pT kd size Hal He Hs Hb Hn HT Hf Hp Hz Hk. apply (string_budget al Hal E srt 67777 T l b h pT kd size); try assumption; [lia|].
  intros h1 sz H1. apply He. unfold budget in H1. lia.
Qed.
Theorem C42_file : forall al E srt f h,
  fresh_alloc al -> enough al (hsize h + 60 * Z.of_nat (length (in_data f)) + 84000000) ->
  std_sort srt -> Forall is_byte (in_data f) -> 3 <= Z.of_nat (length (in_data f)) <= 2 ^ 58 ->
  (forall i, fresh_byte E i = Some 0) \/ ~ unwritten_length 67777 (in_data f) ->
  in_open f = true -> in_tell f = Z.of_nat (length (in_data f)) -> malloc_ok f = true -> out_open f = true ->
  exists h', h_bwt_file al 67777 E srt h f =
      Ok (h', Ok tt, Some (match out_limit f with None => file_output (in_data f) | Some k => firstn k (file_output (in_data f)) end)) /\
    same_heap h' h.
Proof.
  intros al E srt f h Hal He Hs Hb Hn Hf Hi Ht Hm Ho. apply (file_budget al Hal 67777 E srt f h); try assumption; [lia|].
  intros h1 sz H1. apply He. unfold budget in H1. lia.
Qed.
Print Assumptions C42_string.
Print Assumptions C42_file.
(** allocators with exactly b bytes; the run of the example with a little too few and with enough *)
Example C42_case : (forall b, fresh_alloc (bump_bytes b) /\ enough (bump_bytes b) b) /\ hsize ex_heap = 53 /\
  map (fun b => outcome (h_bwt_string (bump_bytes b) 3 ex_env isort ex_heap (Some 5%positive) ex_block 12 true)) [20000; 65000; 66000] =
  [Some BadAlloc; Some NullDeref; None].
Proof. split; [exact bump_bytes_ok|]. split; vm_compute; reflexivity. Qed.

(** ** C43  depth of the recursion *)
(** the only recursive functions are the five sais_XXbit; log2 n + 1 nested calls are always enough *)
Theorem C43_depth : forall E W l k fs p,
  1 <= W <= 64 -> (1 <= length l)%nat -> Forall (fun c => 0 <= c < k) l -> Z.of_nat (length l) < 2 ^ (W - 1) -> k <= 2 ^ (W - 1) ->
  0 <= fs -> pa_bits p <> W ->
  (forall i, 0 <= i < Z.of_nat (length l) -> pa_get E p (i + 1) = Ok (nth (Z.to_nat i) l 0)) ->
  exists s, sais E W (S (Z.to_nat (Z.log2 (Z.of_nat (length l))))) (mkst (anew (Z.of_nat (length l) + fs)) (anew 0)) (TPack (pa_arr p) (pa_bits p)) fs (Z.of_nat (length l)) k = Ok s.
Proof. exact sais_depth. Qed.
Theorem C43_depth_2part : forall E uw l k fs p,
  1 <= uw <= 32 -> (1 <= length l)%nat -> Forall (fun c => 0 <= c < k) l -> Z.of_nat (length l) < 2 ^ (31 + uw) -> k <= 2 ^ (31 + uw) ->
  0 <= fs -> pa_bits p <> 32 + uw ->
  (forall i, 0 <= i < Z.of_nat (length l) -> pa_get E p (i + 1) = Ok (nth (Z.to_nat i) l 0)) ->
  let N := Z.of_nat (length l) + fs in
  exists s, ssais E (32 + uw) (ops2 uw) (S (Z.to_nat (Z.log2 (Z.of_nat (length l))))) (mkst2 (anew N) (anew N) (anew 0) (anew 0)) (TPack (pa_arr p) (pa_bits p)) fs (Z.of_nat (length l)) k = Ok s.
Proof. exact sais_depth2. Qed.
Theorem C43_depth_56bit : forall E l k fs p,
  (1 <= length l)%nat -> Forall (fun c => 0 <= c < k) l -> Z.of_nat (length l) < 2 ^ 55 -> k <= 2 ^ 55 ->
  0 <= fs -> pa_bits p <> 56 ->
  (forall i, 0 <= i < Z.of_nat (length l) -> pa_get E p (i + 1) = Ok (nth (Z.to_nat i) l 0)) ->
  let N := Z.of_nat (length l) + fs in
  exists s, sais_56bit E (S (Z.to_nat (Z.log2 (Z.of_nat (length l))))) (mkst3 (anew N) (anew N) (anew N) (anew 0) (anew 0) (anew 0)) (TPack (pa_arr p) (pa_bits p)) fs (Z.of_nat (length l)) k = Ok s.
Proof. exact sais_depth3. Qed.
Print Assumptions C43_depth.
Print Assumptions C43_depth_2part.
Print Assumptions C43_depth_56bit.
(** one call is not enough for 2 1 2 1 2 1 2 0; four are *)
Example C43_case : Z.log2 8 = 3 /\
  match run_sets ex_env (pa_new 9 2) [(0, 3); (1, 2); (2, 1); (3, 2); (4, 1); (5, 2); (6, 1); (7, 2); (8, 0)] with
  | Ok p => let run := fun f => sais ex_env 32 f (mkst (anew 8) (anew 0)) (TPack (pa_arr p) (pa_bits p)) 0 8 3 in
            run 1%nat = Err Diverge /\ match run 4%nat with Ok s => map (av (mem s)) [0; 1; 2; 3; 4; 5; 6; 7] = map Some [7; 5; 3; 1; 6; 4; 2; 0] | Err _ => False end
  | Err _ => False end.
Proof. vm_compute. repeat split. Qed.

(** ** C44  the command-line program *)
Theorem C44_usage : forall hts E srt argc f, argc <> 3 -> main hts E srt argc f = (Exit (-1), None).
Proof. exact main_usage. Qed.
(** it exits with code 0 only after the output file has been written (up to the room on the device) *)
Theorem C44_exit : forall hts E srt argc f code out, std_sort srt -> 1 <= hts <= 2 ^ 48 -> Forall is_byte (in_data f) ->
  in_data f = [] \/ 3 <= Z.of_nat (length (in_data f)) <= 2 ^ 58 /\ ((forall i, fresh_byte E i = Some 0) \/ ~ unwritten_length hts (in_data f)) ->
  in_tell f = Z.of_nat (length (in_data f)) ->
  main hts E srt argc f = (Exit code, out) ->
  (code = -1 /\ argc <> 3 /\ out = None) \/
  (code = 0 /\ argc = 3 /\ in_open f = true /\ malloc_ok f = true /\ out_open f = true /\ in_data f <> [] /\
   out = Some (match out_limit f with None => file_output (in_data f) | Some k => firstn k (file_output (in_data f)) end)).
Proof. exact main_exit. Qed.
Theorem C44_success : forall hts E srt f, std_sort srt -> 1 <= hts <= 2 ^ 48 -> Forall is_byte (in_data f) ->
  3 <= Z.of_nat (length (in_data f)) <= 2 ^ 58 -> (forall i, fresh_byte E i = Some 0) \/ ~ unwritten_length hts (in_data f) ->
  in_open f = true -> in_tell f = Z.of_nat (length (in_data f)) -> malloc_ok f = true -> out_open f = true ->
  main hts E srt 3 f = (Exit 0, Some (match out_limit f with None => file_output (in_data f) | Some k => firstn k (file_output (in_data f)) end)).
Proof. exact main_ok. Qed.
(** a file of one or two bytes crashes the program *)
Theorem C44_tiny : forall hts E srt f, in_open f = true -> malloc_ok f = true -> in_tell f = Z.of_nat (length (in_data f)) ->
  1 <= Z.of_nat (length (in_data f)) <= 2 -> main hts E srt 3 f = (Abnormal NullDeref, None).
Proof. exact main_tiny. Qed.
(** otherwise an exception of bwt_file ends the process, and the output file is as it was *)
Theorem C44_failure : forall hts E srt argc f e out, std_sort srt -> 1 <= hts <= 2 ^ 48 -> Forall is_byte (in_data f) ->
  in_data f = [] \/ 3 <= Z.of_nat (length (in_data f)) <= 2 ^ 58 /\ ((forall i, fresh_byte E i = Some 0) \/ ~ unwritten_length hts (in_data f)) ->
  in_tell f = Z.of_nat (length (in_data f)) ->
  main hts E srt argc f = (Abnormal e, out) ->
  argc = 3 /\ (e = InvalidArgument \/ e = RuntimeError) /\ out = None /\
  (in_open f = false \/ malloc_ok f = false \/ in_data f = [] \/ out_open f = false).
Proof. exact main_abnormal. Qed.
Print Assumptions C44_usage.
Print Assumptions C44_exit.
Print Assumptions C44_success.
Print Assumptions C44_failure.
Example C44_case : (exists o, main 3 ex_env isort 3 ex_io = (Exit 0, Some o) /\ length o = 20%nat) /\
  main 3 ex_env isort 3 (mkio false 0 [] true true None) = (Abnormal InvalidArgument, None) /\ main 3 ex_env isort 2 ex_io = (Exit (-1), None).
Proof. vm_compute. split; [eexists; split; reflexivity|split; reflexivity]. Qed.

(** ** C45  concurrent calls of bwt_file and crashes *)
(** (F, ps) is any state the calls can reach: files and progress at the moment of a crash, or of an observation *)
Theorem C45_calls : forall hts full F0 jobs k F ps, 1 <= hts <= 2 ^ 48 -> valid_jobs hts F0 jobs -> independent jobs ->
  run hts full k (F0, start jobs) (F, ps) ->
  map fst ps = jobs /\
  (forall p, (forall j, In j jobs -> j_out j <> p) -> F p = F0 p) /\
  (forall j s, In (j, s) ps -> F (j_out j) = F0 (j_out j) \/
     exists c d rest, F0 (j_in j) = Some c /\ F (j_out j) = Some d /\ d ++ rest = file_output c) /\
  (forall j e, In (j, Finished (Err e)) ps -> (e = InvalidArgument \/ e = RuntimeError) /\ F (j_out j) = F0 (j_out j)) /\
  (full = false -> forall j, In (j, Finished (Ok tt)) ps -> exists c, F0 (j_in j) = Some c /\ F (j_out j) = Some (file_output c)).
Proof. exact calls_ok. Qed.
(** the calls end, and no call waits for another *)
Theorem C45_end : forall hts full F0 jobs k F ps, 1 <= hts <= 2 ^ 48 -> valid_jobs hts F0 jobs -> independent jobs ->
  run hts full k (F0, start jobs) (F, ps) ->
  (k <= list_sum (map (fun j => 13 + 2 * match F0 (j_in j) with Some c => length c | None => 0 end) jobs))%nat /\
  ((forall j s, In (j, s) ps -> exists r, s = Finished r) \/ exists y, sys_step hts full (F, ps) y).
Proof. exact calls_end. Qed.
(** with the same file as input and output, a crash can leave neither the input nor the output *)
Theorem C45_inplace_refuted : forall hts full F0 j c, std_sort (j_srt j) -> 1 <= hts <= 2 ^ 48 -> j_in j = j_out j -> F0 (j_in j) = Some c ->
  Forall is_byte c -> 3 <= Z.of_nat (length c) <= 2 ^ 58 -> (forall i, fresh_byte (j_env j) i = Some 0) \/ ~ unwritten_length hts c ->
  exists k F ps, run hts full k (F0, start [j]) (F, ps) /\ F (j_in j) = Some [].
Proof. exact fs_inplace. Qed.
(** independence is needed: a call whose input is the output of a running call can read memory fread has not filled *)
Theorem C45_race_refuted : forall hts full F0 a b c d, std_sort (j_srt a) -> 1 <= hts <= 2 ^ 48 -> j_out a = j_in b -> j_in a <> j_out a ->
  F0 (j_in a) = Some c -> Forall is_byte c -> 3 <= Z.of_nat (length c) <= 2 ^ 58 -> (forall i, fresh_byte (j_env a) i = Some 0) \/ ~ unwritten_length hts c ->
  F0 (j_in b) = Some d -> 3 <= Z.of_nat (length d) < 2 ^ 62 ->
  exists k F ps, run hts full k (F0, start [a; b]) (F, ps) /\ In (b, Finished (Err Uninit)) ps.
Proof. exact fs_race. Qed.
(** or transform a text that was never the content of any file: fread reads the first k bytes d of the old content and the others after the
    other call has replaced the file *)
Theorem C45_torn_refuted : forall hts full F0 a b c d k, let m := firstn k d ++ skipn k (firstn (length d) (file_output c)) in
  std_sort (j_srt a) -> std_sort (j_srt b) -> 1 <= hts <= 2 ^ 48 -> j_out a = j_in b -> j_in a <> j_out a ->
  F0 (j_in a) = Some c -> Forall is_byte c -> 3 <= Z.of_nat (length c) <= 2 ^ 58 -> (forall i, fresh_byte (j_env a) i = Some 0) \/ ~ unwritten_length hts c ->
  F0 (j_in b) = Some d -> (1 <= k < length d)%nat -> (length d <= length c + 8)%nat ->
  Forall is_byte m -> 3 <= Z.of_nat (length d) <= 2 ^ 58 -> (forall i, fresh_byte (j_env b) i = Some 0) \/ ~ unwritten_length hts m ->
  exists n F ps, run hts full n (F0, start [a; b]) (F, ps) /\ In (b, Finished (Ok tt)) ps /\ F (j_out b) = Some (file_output m).
Proof. exact fs_torn. Qed.
Print Assumptions C45_calls.
Print Assumptions C45_end.
Print Assumptions C45_inplace_refuted.
Print Assumptions C45_race_refuted.
Print Assumptions C45_torn_refuted.
(** two calls read file 0; one writes file 1, the other overwrites file 2; both can return *)
Example C45_case : let F0 : fsys := fun p => match p with 0%nat => Some ex_text | 2%nat => Some [7] | _ => None end in
  let jobs := [mkjob 0%nat 1%nat ex_env isort; mkjob 0%nat 2%nat ex_env isort] in
  valid_jobs 3 F0 jobs /\ independent jobs /\
  exists k F, run 3 false k (F0, start jobs) (F, map (fun j => (j, Finished (Ok tt))) jobs) /\
    F 1%nat = Some (file_output ex_text) /\ F 2%nat = Some (file_output ex_text) /\ F 0%nat = Some ex_text.
Proof.
  cbv zeta. split; [|split].
  - intros j [<-|[<-|[]]]; (split; [exact isort_ok|]); cbn [j_in j_env]; intros c [= <-]; right; (split; [exact ex_bytes|split; [cbn; lia|right; apply ex_written]]).
  - intros i k a b Hik Ha Hb. destruct i as [|[|i]], k as [|[|k]]; cbn in Ha, Hb; try congruence; try (destruct i; discriminate); try (destruct k; discriminate);
      inversion Ha; inversion Hb; subst; cbn; lia.
  - set (F0 := fun p : path => match p with 0%nat => Some ex_text | 2%nat => Some [7] | _ => None end).
    destruct (job_complete 3 false F0 [] (mkjob 0%nat 1%nat ex_env isort) [(mkjob 0%nat 2%nat ex_env isort, AtOpen)] ex_text isort_ok ltac:(lia) eq_refl ex_bytes ltac:(cbn; lia) (or_intror (ex_written 3)))
      as (F1 & R1 & O1 & S1).
    destruct (job_complete 3 false F1 [(mkjob 0%nat 1%nat ex_env isort, Finished (Ok tt))] (mkjob 0%nat 2%nat ex_env isort) [] ex_text isort_ok ltac:(lia)) as (F2 & R2 & O2 & S2).
    { cbn [j_in]. rewrite (S1 0%nat) by (cbn; lia). reflexivity. } { exact ex_bytes. } { cbn; lia. } { right. apply ex_written. }
    exists (7 + 7)%nat, F2. split; [exact (run_app _ _ _ _ _ _ _ R1 R2)|]. split; [|split].
    + rewrite (S2 1%nat) by (cbn; lia). exact O1.
    + exact O2.
    + rewrite (S2 0%nat), (S1 0%nat) by (cbn; lia). reflexivity.
Qed.

(** file 0 is transformed to file 1 while file 1, with 20 bytes, is transformed to file 2 *)
Example C45_case_torn : let F0 : fsys := fun p => match p with 0%nat => Some ex_text | 1%nat => Some (repeat 97 20) | _ => None end in
  let m := repeat 97 10 ++ skipn 10 (file_output ex_text) in
  m = [97; 97; 97; 97; 97; 97; 97; 97; 97; 97; 98; 98; 98; 97; 0; 99; 99; 97; 97; 97] /\
  exists n F ps, run 3 false n (F0, start [mkjob 0%nat 1%nat ex_env isort; mkjob 1%nat 2%nat ex_env isort]) (F, ps) /\
    In (mkjob 1%nat 2%nat ex_env isort, Finished (Ok tt)) ps /\ F 2%nat = Some (file_output m).
Proof.
  cbv zeta. assert (Hm : repeat 97 10 ++ skipn 10 (file_output ex_text) = [97; 97; 97; 97; 97; 97; 97; 97; 97; 97; 98; 98; 98; 97; 0; 99; 99; 97; 97; 97]) by (vm_compute; reflexivity).
  split; [exact Hm|].
  assert (Hm2 : firstn 10 (repeat 97 20) ++ skipn 10 (firstn (length (repeat 97 20)) (file_output ex_text)) = repeat 97 10 ++ skipn 10 (file_output ex_text)) by (vm_compute; reflexivity).
  rewrite <- Hm2. apply (fs_torn 3 false _ (mkjob 0%nat 1%nat ex_env isort) (mkjob 1%nat 2%nat ex_env isort) ex_text (repeat 97 20) 10);
    try exact isort_ok; try reflexivity; try exact ex_bytes; try (cbn; lia); try (cbn; congruence); try (right; apply ex_written).
  - rewrite Hm2, Hm. repeat constructor; lia.
  - right. rewrite Hm2, Hm. apply C46_safe. split; [|vm_compute; discriminate]. intros i Hi. vm_compute in Hi.
  repeat (destruct Hi as [<-|Hi]; [vm_compute; discriminate|]). destruct Hi.
Qed.

(** ** C46  uninitialised memory *)
(** for every valid text, without any condition on lengths: either bwt_string reads a byte of fresh memory that was never
    written, or its result is the transform whatever fresh memory contains *)
Theorem C46_dichotomy : forall hts srt fw bs T l free_T,
  std_sort srt -> 1 <= hts <= 2 ^ 48 -> Forall is_byte l -> 3 <= Z.of_nat (length l) <= 2 ^ 58 -> string_at T 0 (l ++ [0]) -> comparison_sort srt ->
  bwt_string_gen hts (mkenv (fun _ => None) fw bs) srt (Some T) (Z.of_nat (length l)) free_T = Err Uninit \/
  exists r, (alen (r_BWT r) = Z.of_nat (length l) + 1 /\ is_BWT l (av (r_BWT r)) (r_last r)) /\
    forall fb, bwt_string_gen hts (mkenv fb fw bs) srt (Some T) (Z.of_nat (length l)) free_T = Ok (if free_T then None else Some T, Some r).
Proof. exact uninit_dichotomy. Qed.
(** the first case does occur: whenever the head, up to the first S* position, has a length divisible by 256 (and no S* substring has) *)
Theorem C46_head_refuted : forall hts srt fw bs T l free_T,
  std_sort srt -> 1 <= hts <= 2 ^ 48 -> Forall is_byte l -> 3 <= Z.of_nat (length l) <= 2 ^ 58 -> string_at T 0 (l ++ [0]) ->
  (forall i, In i (lms_positions l) -> Z.of_nat (length (star_sub l i)) mod 256 <> 0) -> Z.of_nat (next_lms l 0 + 1) mod 256 = 0 ->
  bwt_string_gen hts (mkenv (fun _ => None) fw bs) srt (Some T) (Z.of_nat (length l)) free_T = Err Uninit.
Proof. exact head_uninit. Qed.
(** the head, without a condition on the rest of the text; and every S* substring of 512, 768, 1024, ... bytes *)
Theorem C46_long_refuted : forall hts srt fw bs T l free_T,
  std_sort srt -> comparison_sort srt -> 1 <= hts <= 2 ^ 48 -> Forall is_byte l -> 3 <= Z.of_nat (length l) <= 2 ^ 58 -> string_at T 0 (l ++ [0]) ->
  Z.of_nat (next_lms l 0 + 1) mod 256 = 0 \/
  (exists i, In i (lms_positions l) /\ 512 <= Z.of_nat (length (star_sub l i)) /\ Z.of_nat (length (star_sub l i)) mod 256 = 0) ->
  bwt_string_gen hts (mkenv (fun _ => None) fw bs) srt (Some T) (Z.of_nat (length l)) free_T = Err Uninit.
Proof.
  intros hts srt fw bs T l free_T Hs Hc Hts Hb Hn HT H. apply (reads_unwritten fw bs hts srt T l free_T Hs Hc Hts Hb Hn HT).
  destruct H as [H|(i & Hi & H1 & H2)]; [left; exact H|exact (long_unwritten hts l i Hi H1 H2)].
Qed.
Theorem C46_file_long_refuted : forall hts srt fw bs f,
  std_sort srt -> comparison_sort srt -> 1 <= hts <= 2 ^ 48 -> Forall is_byte (in_data f) -> 3 <= Z.of_nat (length (in_data f)) <= 2 ^ 58 ->
  in_open f = true -> in_tell f = Z.of_nat (length (in_data f)) -> malloc_ok f = true ->
  Z.of_nat (next_lms (in_data f) 0 + 1) mod 256 = 0 \/
  (exists i, In i (lms_positions (in_data f)) /\ 512 <= Z.of_nat (length (star_sub (in_data f) i)) /\ Z.of_nat (length (star_sub (in_data f) i)) mod 256 = 0) ->
  bwt_file_gen hts (mkenv (fun _ => None) fw bs) srt f = (Err Uninit, None).
Proof.
  intros hts srt fw bs f H1 H2 H3 H4 H5 H6 H7 H8 H. apply (file_unwritten fw bs hts srt f); try assumption.
  destruct H as [H|(i & Hi & Hl & Hm)]; [left; exact H|exact (long_unwritten hts _ i Hi Hl Hm)].
Qed.
(** Exactly which texts: [unwritten_length] (BlockSpec.v) is a decidable condition on the text and the number of buckets.
    If it holds the program reads a byte it never wrote; otherwise the result is right over every memory content,
    indeterminate or not. *)
Theorem C46_exact : forall hts srt T l free_T,
  std_sort srt -> comparison_sort srt -> 1 <= hts <= 2 ^ 48 -> Forall is_byte l -> 3 <= Z.of_nat (length l) <= 2 ^ 58 -> string_at T 0 (l ++ [0]) ->
  (unwritten_length hts l -> forall fw bs,
    bwt_string_gen hts (mkenv (fun _ => None) fw bs) srt (Some T) (Z.of_nat (length l)) free_T = Err Uninit) /\
  (~ unwritten_length hts l -> forall E, exists r,
    bwt_string_gen hts E srt (Some T) (Z.of_nat (length l)) free_T = Ok (if free_T then None else Some T, Some r) /\
    alen (r_BWT r) = Z.of_nat (length l) + 1 /\ is_BWT l (av (r_BWT r)) (r_last r)).
Proof.
  intros hts srt T l free_T Hs Hc Hts Hb Hn HT. split.
  - intros H fw bs. exact (reads_unwritten fw bs hts srt T l free_T Hs Hc Hts Hb Hn HT H).
  - intros H E. exact (good_layout hts srt T l free_T Hs Hts Hb Hn HT E H).
Qed.
Theorem C46_file_exact : forall hts srt f,
  std_sort srt -> comparison_sort srt -> 1 <= hts <= 2 ^ 48 -> Forall is_byte (in_data f) -> 3 <= Z.of_nat (length (in_data f)) <= 2 ^ 58 ->
  in_open f = true -> in_tell f = Z.of_nat (length (in_data f)) -> malloc_ok f = true -> out_open f = true -> out_limit f = None ->
  (unwritten_length hts (in_data f) -> forall fw bs, bwt_file_gen hts (mkenv (fun _ => None) fw bs) srt f = (Err Uninit, None)) /\
  (~ unwritten_length hts (in_data f) -> forall fb fw bs, bwt_file_gen hts (mkenv fb fw bs) srt f = (Ok tt, Some (file_output (in_data f)))).
Proof.
  intros hts srt f Hs Hc Hts Hb Hn H1 H2 H3 H4 H5. split.
  - intros H fw bs. exact (file_unwritten fw bs hts srt f Hs Hc Hts Hb Hn H1 H2 H3 H).
  - intros H fb fw bs. exact (file_good fw bs hts srt f fb Hs Hc Hts Hb Hn H1 H2 H3 H4 H5 H).
Qed.
Print Assumptions C46_exact.
Print Assumptions C46_file_exact.
(** S* substrings of 256 bytes. In the first text the substring begins a block in the library's table (67777 buckets), but
    not in a table of one bucket; in the second it shares a bucket, and a block, with the substring a 136 $. *)
Example C46_case_exact :
  (let l := [98; 97] ++ repeat 98 254 ++ [97; 98] in
   Forall is_byte l /\ map (fun i => length (star_sub l i)) (lms_positions l) = [256%nat; 3%nat] /\ unwritten_length 67777 l /\ ~ unwritten_length 1 l) /\
  (let l := [98; 97] ++ repeat 98 162 ++ repeat 99 92 ++ [97; 136] in
   Forall is_byte l /\ map (fun i => length (star_sub l i)) (lms_positions l) = [256%nat; 3%nat] /\ ~ unwritten_length 67777 l).
Proof.
  assert (Hby : forall l, forallb (fun c => (0 <=? c) && (c <? 256)) l = true -> Forall is_byte l).
  { intros l H. apply Forall_forall. intros x Hx. rewrite forallb_forall in H. specialize (H x Hx). unfold is_byte. lia. }
  assert (Hf : forall hts l, map (fun s => Z.of_nat (length s) mod 256) (firsts (text_layout hts l)) = [3] -> Z.of_nat (next_lms l 0 + 1) mod 256 <> 0 -> ~ unwritten_length hts l).
  { intros hts l H H0 [H1|(s & Hs & Hm)]; [contradiction|]. apply (in_map (fun s => Z.of_nat (length s) mod 256)) in Hs. rewrite H, Hm in Hs.
    destruct Hs as [Hs|[]]. discriminate. }
  split; cbv zeta.
  - split; [apply Hby; vm_compute; reflexivity|]. split; [vm_compute; reflexivity|]. split.
    + right. exists (97 :: repeat 98 254 ++ [97]). split; [vm_compute; left; reflexivity|vm_compute; reflexivity].
    + apply Hf; [vm_compute; reflexivity|vm_compute; discriminate].
  - split; [apply Hby; vm_compute; reflexivity|]. split; [vm_compute; reflexivity|].
    apply Hf; [vm_compute; reflexivity|vm_compute; discriminate].
Qed.
(** a text with an S* substring of 512 bytes: b a b..b a b, with 510 times b in the middle *)
Example C46_case_long : let l := [98; 97] ++ repeat 98 510 ++ [97; 98] in
  Forall is_byte l /\ In 1%nat (lms_positions l) /\ Z.of_nat (length (star_sub l 1)) = 512 /\ Z.of_nat (next_lms l 0 + 1) mod 256 <> 0.
Proof.
  cbv zeta. split; [|split; [|split]].
  - apply Forall_app. split; [|apply Forall_app; split; [apply Forall_forall; intros x Hx; apply repeat_spec in Hx; subst x|]]; repeat constructor; unfold is_byte; lia.
  - vm_compute. left. reflexivity.
  - vm_compute. reflexivity.
  - vm_compute. discriminate.
Qed.
(** bwt_file likewise; in the first case no output file has been created *)
Theorem C46_file : forall hts srt fw bs f,
  comparison_sort srt -> std_sort srt -> 1 <= hts <= 2 ^ 48 -> Forall is_byte (in_data f) -> 3 <= Z.of_nat (length (in_data f)) <= 2 ^ 58 ->
  in_open f = true -> in_tell f = Z.of_nat (length (in_data f)) -> malloc_ok f = true -> out_open f = true -> out_limit f = None ->
  bwt_file_gen hts (mkenv (fun _ => None) fw bs) srt f = (Err Uninit, None) \/
  forall fb, bwt_file_gen hts (mkenv fb fw bs) srt f = (Ok tt, Some (file_output (in_data f))).
Proof. intros hts srt fw bs f Hc. exact (file_dichotomy hts srt fw bs Hc f). Qed.
Theorem C46_file_refuted : forall hts srt fw bs f,
  std_sort srt -> 1 <= hts <= 2 ^ 48 -> Forall is_byte (in_data f) -> 3 <= Z.of_nat (length (in_data f)) <= 2 ^ 58 ->
  in_open f = true -> in_tell f = Z.of_nat (length (in_data f)) -> malloc_ok f = true ->
  (forall i, In i (lms_positions (in_data f)) -> Z.of_nat (length (star_sub (in_data f) i)) mod 256 <> 0) -> Z.of_nat (next_lms (in_data f) 0 + 1) mod 256 = 0 ->
  bwt_file_gen hts (mkenv (fun _ => None) fw bs) srt f = (Err Uninit, None).
Proof. exact file_head_uninit. Qed.
Print Assumptions C46_file.
Print Assumptions C46_file_refuted.
Print Assumptions C46_long_refuted.
Print Assumptions C46_file_long_refuted.
Print Assumptions C46_dichotomy.
Print Assumptions C46_head_refuted.
Example C46_case : comparison_sort isort /\ std_sort isort /\
  (let l := repeat 97 255 in lms_positions l = [] /\ Z.of_nat (next_lms l 0 + 1) mod 256 = 0) /\
  (let l := repeat 98 252 ++ [97; 98; 97; 98; 99] in
   map (fun i => Z.of_nat (length (star_sub l i))) (lms_positions l) = [3; 4] /\ Z.of_nat (next_lms l 0 + 1) = 253).
Proof. split; [exact isort_comparison|]. split; [exact isort_ok|]. vm_compute. repeat split. Qed.

(** ** C47  the suffix sorter takes a number of steps linear in the text and the alphabet *)
(** [csais] is the program of C20 with a counter: every cell access, every character read, every
    evaluation of a loop condition and every new[] and delete[] counts one step (M_SaisCost.v);
    the second conjunct says that the counter changes nothing else *)
Theorem C47_steps : forall E W l k fs p sa0 tmp0 fuel,
  1 <= W <= 64 -> (1 <= length l)%nat -> Forall (fun c => 0 <= c < k) l -> Z.of_nat (length l) < 2 ^ (W - 1) -> k <= 2 ^ (W - 1) ->
  0 <= fs -> Z.of_nat (length l) + fs <= alen sa0 -> Z.of_nat (length l) < 2 ^ Z.of_nat fuel -> pa_bits p <> W ->
  (forall i, 0 <= i < Z.of_nat (length l) -> pa_get E p (i + 1) = Ok (nth (Z.to_nat i) l 0)) ->
  exists s steps, csais E W (ops1 W) fuel (mkst sa0 tmp0) (TPack (pa_arr p) (pa_bits p)) fs (Z.of_nat (length l)) k = Ok (s, steps) /\
    sais E W fuel (mkst sa0 tmp0) (TPack (pa_arr p) (pa_bits p)) fs (Z.of_nat (length l)) k = Ok s /\
    steps <= 214 * Z.of_nat (length l) + 30 * k.
Proof. exact steps_list. Qed.
Print Assumptions C47_steps.
Theorem C47_steps_40bit : forall E l k fs p fuel,
  (1 <= length l)%nat -> Forall (fun c => 0 <= c < k) l -> Z.of_nat (length l) < 2 ^ 39 -> k <= 2 ^ 39 ->
  0 <= fs -> Z.of_nat (length l) < 2 ^ Z.of_nat fuel -> pa_bits p <> 40 ->
  (forall i, 0 <= i < Z.of_nat (length l) -> pa_get E p (i + 1) = Ok (nth (Z.to_nat i) l 0)) ->
  let s0 := mkst2 (anew (Z.of_nat (length l) + fs)) (anew (Z.of_nat (length l) + fs)) (anew 0) (anew 0) in
  exists s steps, sais_40bit_steps E fuel s0 (TPack (pa_arr p) (pa_bits p)) fs (Z.of_nat (length l)) k = Ok (s, steps) /\
    sais_40bit E fuel s0 (TPack (pa_arr p) (pa_bits p)) fs (Z.of_nat (length l)) k = Ok s /\
    steps <= 214 * Z.of_nat (length l) + 30 * k.
Proof. exact (fun E l k fs p fuel => steps_2part E 8 l k fs p fuel ltac:(lia)). Qed.
Theorem C47_steps_48bit : forall E l k fs p fuel,
  (1 <= length l)%nat -> Forall (fun c => 0 <= c < k) l -> Z.of_nat (length l) < 2 ^ 47 -> k <= 2 ^ 47 ->
  0 <= fs -> Z.of_nat (length l) < 2 ^ Z.of_nat fuel -> pa_bits p <> 48 ->
  (forall i, 0 <= i < Z.of_nat (length l) -> pa_get E p (i + 1) = Ok (nth (Z.to_nat i) l 0)) ->
  let s0 := mkst2 (anew (Z.of_nat (length l) + fs)) (anew (Z.of_nat (length l) + fs)) (anew 0) (anew 0) in
  exists s steps, sais_48bit_steps E fuel s0 (TPack (pa_arr p) (pa_bits p)) fs (Z.of_nat (length l)) k = Ok (s, steps) /\
    sais_48bit E fuel s0 (TPack (pa_arr p) (pa_bits p)) fs (Z.of_nat (length l)) k = Ok s /\
    steps <= 214 * Z.of_nat (length l) + 30 * k.
Proof. exact (fun E l k fs p fuel => steps_2part E 16 l k fs p fuel ltac:(lia)). Qed.
Theorem C47_steps_56bit : forall E l k fs p fuel,
  (1 <= length l)%nat -> Forall (fun c => 0 <= c < k) l -> Z.of_nat (length l) < 2 ^ 55 -> k <= 2 ^ 55 ->
  0 <= fs -> Z.of_nat (length l) < 2 ^ Z.of_nat fuel -> pa_bits p <> 56 ->
  (forall i, 0 <= i < Z.of_nat (length l) -> pa_get E p (i + 1) = Ok (nth (Z.to_nat i) l 0)) ->
  let s0 := mkst3 (anew (Z.of_nat (length l) + fs)) (anew (Z.of_nat (length l) + fs)) (anew (Z.of_nat (length l) + fs)) (anew 0) (anew 0) (anew 0) in
  exists s steps, sais_56bit_steps E fuel s0 (TPack (pa_arr p) (pa_bits p)) fs (Z.of_nat (length l)) k = Ok (s, steps) /\
    sais_56bit E fuel s0 (TPack (pa_arr p) (pa_bits p)) fs (Z.of_nat (length l)) k = Ok s /\
    steps <= 214 * Z.of_nat (length l) + 30 * k.
Proof. exact steps_3part. Qed.
Print Assumptions C47_steps_40bit.
Print Assumptions C47_steps_48bit.
Print Assumptions C47_steps_56bit.
(** the text of C43_case, which needs a recursive call *)
Example C47_case :
  match run_sets ex_env (pa_new 9 2) [(0, 3); (1, 2); (2, 1); (3, 2); (4, 1); (5, 2); (6, 1); (7, 2); (8, 0)] with
  | Ok p => match sais_32bit_steps ex_env 4 (mkst (anew 8) (anew 0)) (TPack (pa_arr p) (pa_bits p)) 0 8 3 with
            | Ok (_, steps) => steps = 936 /\ 936 <= 214 * 8 + 30 * 3
            | Err _ => False end
  | Err _ => False end.
Proof. vm_compute. split; [reflexivity|discriminate]. Qed.

(** ** C48  running time of a whole call: linear but for the walks along the hash chains, which are quadratic in the worst case *)
(** [bwt_string_steps pw untimed hts] is the program of C01 with a hash table of hts buckets and a counter of
    steps (M_Cost.v); the steps of walking along a hash chain count pw each, all others one, and the call of
    std::sort one, to which the time of its comparisons is added (C48_sorted; [untimed]: it is left out) *)
Theorem C48_steps : forall pw hts E srt T l free_T,
  0 <= pw -> std_sort srt -> 1 <= hts <= 2 ^ 48 -> Forall is_byte l -> 3 <= Z.of_nat (length l) <= 2 ^ 58 -> string_at T 0 (l ++ [0]) ->
  (forall i, fresh_byte E i = Some 0) \/ ~ unwritten_length hts l ->
  exists r steps, let n := Z.of_nat (length l) in
    bwt_string_steps pw untimed hts E srt (Some T) n free_T = Ok ((if free_T then None else Some T, Some r), steps) /\
    bwt_string_gen hts E srt (Some T) n free_T = Ok (if free_T then None else Some T, Some r) /\
    is_BWT l (av (r_BWT r)) (r_last r) /\
    steps <= 564 * n + 2058 * hts + 23140 + pw * (13 * n * (55 * n + 1024 * hts + 284)).
Proof. exact (fun pw hts E srt T l b Hp Hs Hh Hb Hn HT Hf => bwt_string_steps_list pw E srt hts T l b Hp Hs Hh Hb Hn HT Hf). Qed.
Print Assumptions C48_steps.
(** the quadratic worst case is reached, with any table size and for texts of any admissible length *)
Theorem C48_quadratic : forall hts u, 1 <= hts <= 2 ^ 48 -> 1 <= u <= 2 ^ 53 -> u * hts <= 2 ^ 90 ->
  exists l, Forall is_byte l /\ Z.of_nat (length l) = 31 * u + 1 /\
    forall E srt T free_T, std_sort srt -> string_at T 0 (l ++ [0]) ->
      exists r steps, bwt_string_steps 1 untimed hts E srt (Some T) (Z.of_nat (length l)) free_T = Ok ((if free_T then None else Some T, Some r), steps) /\
        u * (u - 1) <= 2 * steps.
Proof. exact bwt_string_quadratic. Qed.
Print Assumptions C48_quadratic.
(** so the "linear time" of the README does not hold: no constant factor up to 2^46 suffices *)
Theorem C48_linear_refuted : forall K, 0 <= K <= 2 ^ 46 ->
  exists l, Forall is_byte l /\ 3 <= Z.of_nat (length l) <= 2 ^ 58 /\
    forall E srt T free_T, std_sort srt -> string_at T 0 (l ++ [0]) ->
      exists r steps, bwt_string_steps 1 untimed 67777 E srt (Some T) (Z.of_nat (length l)) free_T = Ok ((if free_T then None else Some T, Some r), steps) /\
        bwt_string E srt (Some T) (Z.of_nat (length l)) free_T = Ok (if free_T then None else Some T, Some r) /\
        K * Z.of_nat (length l) < steps.
Proof. exact bwt_string_not_linear. Qed.
Print Assumptions C48_linear_refuted.
(** With the comparisons that std::sort makes: [alg] is any sorting algorithm, seen as the decision tree of its comparisons
    (SortSpec.v), in which no element is charged for more than d k of the comparisons of a list of k elements (for a sort that
    makes at most D k comparisons d = D will do).  A comparison takes the steps of the code that std::sort calls (C48_comparison).
    The S* substrings are sorted in at most 7 n d(n/2) steps *)
Theorem C48_sorted : forall pw hts E alg d T l free_T,
  0 <= pw -> std_sort (sort_of alg) -> charged alg d -> (forall j k, (j <= k)%nat -> d j <= d k) ->
  1 <= hts <= 2 ^ 48 -> Forall is_byte l -> 3 <= Z.of_nat (length l) <= 2 ^ 58 -> string_at T 0 (l ++ [0]) ->
  (forall i, fresh_byte E i = Some 0) \/ ~ unwritten_length hts l ->
  exists r steps, let n := Z.of_nat (length l) in
    bwt_string_steps pw (asked_time alg) hts E (sort_of alg) (Some T) n free_T = Ok ((if free_T then None else Some T, Some r), steps) /\
    bwt_string_gen hts E (sort_of alg) (Some T) n free_T = Ok (if free_T then None else Some T, Some r) /\
    is_BWT l (av (r_BWT r)) (r_last r) /\
    steps <= 564 * n + 2058 * hts + 23140 + 7 * n * d (Z.to_nat (n / 2)) + pw * (13 * n * (55 * n + 1024 * hts + 284)).
Proof.
  intros pw hts E alg d T l b Hp Hs Hc Hd Hh Hb Hn HT Hf.
  exact (bwt_string_time_list pw (asked_time alg) _ E (sort_of alg) hts T l b Hp Hs (charged_bound alg d (Z.of_nat (length l)) Hc Hd ltac:(lia)) Hh Hb Hn HT Hf).
Qed.
Print Assumptions C48_sorted.
(** so with merge sort the whole call outside the hash chains takes O(n log n + hts) steps *)
Theorem C48_merge_sort : std_sort (sort_of merge_sort) /\ charged merge_sort (fun k => Z.of_nat (Nat.log2_up k)) /\
  forall pw hts E T l free_T,
  0 <= pw -> 1 <= hts <= 2 ^ 48 -> Forall is_byte l -> 3 <= Z.of_nat (length l) <= 2 ^ 58 -> string_at T 0 (l ++ [0]) ->
  (forall i, fresh_byte E i = Some 0) \/ ~ unwritten_length hts l ->
  exists r steps, let n := Z.of_nat (length l) in
    bwt_string_steps pw (asked_time merge_sort) hts E (sort_of merge_sort) (Some T) n free_T = Ok ((if free_T then None else Some T, Some r), steps) /\
    is_BWT l (av (r_BWT r)) (r_last r) /\
    steps <= 7 * n * Z.log2_up (n / 2) + 564 * n + 2058 * hts + 23140 + pw * (13 * n * (55 * n + 1024 * hts + 284)).
Proof.
  split; [exact merge_sort_ok|]. split; [exact merge_sort_charged|]. intros pw hts E T l b Hp Hh Hb Hn HT Hf.
  destruct (bwt_string_time_list pw (asked_time merge_sort) _ E (sort_of merge_sort) hts T l b Hp merge_sort_ok
    (charged_bound merge_sort _ (Z.of_nat (length l)) merge_sort_charged (fun j k Hjk => inj_le _ _ (Nat.log2_up_le_mono j k Hjk)) ltac:(lia)) Hh Hb Hn HT Hf) as (r & c & A & B & C & D).
  exists r, c. split; [exact A|]. split; [exact C|]. rewrite log2_up_Z in D by (apply Z.div_pos; lia). unfold linear_part, chain_part in D. lia.
Qed.
Print Assumptions C48_merge_sort.
(** The walks along the hash chains, in terms of how full the buckets are (LoadSpec.v): each S* substring s of the text is paid for
    with 2 (3 |s| + 7) (2 L + 1) steps, where L is the number of different S* substrings in the bucket of s.  With any sort that takes K steps *)
Theorem C48_buckets : forall pw hts E alg d T l free_T,
  0 <= pw -> std_sort (sort_of alg) -> charged alg d -> (forall j k, (j <= k)%nat -> d j <= d k) ->
  1 <= hts <= 2 ^ 48 -> Forall is_byte l -> 3 <= Z.of_nat (length l) <= 2 ^ 58 -> string_at T 0 (l ++ [0]) ->
  (forall i, fresh_byte E i = Some 0) \/ ~ unwritten_length hts l ->
  exists r steps, let n := Z.of_nat (length l) in
    bwt_string_steps pw (asked_time alg) hts E (sort_of alg) (Some T) n free_T = Ok ((if free_T then None else Some T, Some r), steps) /\
    bwt_string_gen hts E (sort_of alg) (Some T) n free_T = Ok (if free_T then None else Some T, Some r) /\
    is_BWT l (av (r_BWT r)) (r_last r) /\
    steps <= 564 * n + 2058 * hts + 23140 + 7 * n * d (Z.to_nat (n / 2)) + pw * (2 * chain_walks hts l).
Proof.
  intros pw hts E alg d T l b Hp Hs Hc Hd Hh Hb Hn HT Hf.
  exact (bwt_string_walks_list pw (asked_time alg) _ E (sort_of alg) hts T l b Hp Hs (charged_bound alg d (Z.of_nat (length l)) Hc Hd ltac:(lia)) Hh Hb Hn HT Hf).
Qed.
Print Assumptions C48_buckets.
(** so, if no bucket holds more than c different S* substrings, the whole call with merge sort takes O(n log n + c n + hts) steps *)
Theorem C48_small_buckets : forall c hts E T l free_T,
  (forall b, bucket_load hts l b <= c) -> 1 <= hts <= 2 ^ 48 -> Forall is_byte l -> 3 <= Z.of_nat (length l) <= 2 ^ 58 -> string_at T 0 (l ++ [0]) ->
  (forall i, fresh_byte E i = Some 0) \/ ~ unwritten_length hts l ->
  exists r steps, let n := Z.of_nat (length l) in
    bwt_string_steps 1 (asked_time merge_sort) hts E (sort_of merge_sort) (Some T) n free_T = Ok ((if free_T then None else Some T, Some r), steps) /\
    is_BWT l (av (r_BWT r)) (r_last r) /\
    steps <= 7 * n * Z.log2_up (n / 2) + 580 * n + 32 * n * c + 2058 * hts + 23140.
Proof.
  intros c hts E T l b Hl Hh Hb Hn HT Hf.
  destruct (bwt_string_walks_list 1 (asked_time merge_sort) _ E (sort_of merge_sort) hts T l b ltac:(lia) merge_sort_ok
    (charged_bound merge_sort _ (Z.of_nat (length l)) merge_sort_charged (fun j k Hjk => inj_le _ _ (Nat.log2_up_le_mono j k Hjk)) ltac:(lia)) Hh Hb Hn HT Hf) as (r & k & A & B & C & D).
  exists r, k. split; [exact A|]. split; [exact C|]. rewrite log2_up_Z in D by (apply Z.div_pos; lia). unfold linear_part in D.
  assert (Hc0 : 0 <= c) by (transitivity (bucket_load hts l 0); [unfold bucket_load; lia|exact (Hl 0)]).
  pose proof (chain_walks_max hts l c ltac:(lia) Hc0 Hl) as Hw. nia.
Qed.
Print Assumptions C48_small_buckets.
(** a call of the comparison used by std::sort: linear in the shorter of the two strings *)
Theorem C48_comparison : forall E b q1 s1 q2 s2, (forall i c, bget E b i = Ok c -> is_byte c) ->
  read_record E b q1 = Ok s1 -> read_record E b q2 = Ok s2 ->
  exists steps, LMS_comparison_steps E b q1 q2 = Ok (star_lt s1 s2, steps) /\
    LMS_comparison E b q1 q2 = Ok (star_lt s1 s2) /\
    steps <= 3 * Z.min (Z.of_nat (length s1)) (Z.of_nat (length s2)) + 5.
Proof.
  intros E b q1 s1 q2 s2 Hb H1 H2. destruct (comparison_records_steps E b q1 s1 q2 s2 Hb H1 H2) as (k & Hk & Hl).
  exists k. split; [exact Hk|]. split; [exact (comparison_records E b q1 s1 q2 s2 Hb H1 H2)|exact Hl].
Qed.
Print Assumptions C48_comparison.
(** bwt_file adds a linear number of bytes read and written *)
Theorem C48_file : forall pw hts E srt f, let n := Z.of_nat (length (in_data f)) in
  0 <= pw -> std_sort srt -> 1 <= hts <= 2 ^ 48 -> Forall is_byte (in_data f) -> 3 <= n <= 2 ^ 58 ->
  (forall i, fresh_byte E i = Some 0) \/ ~ unwritten_length hts (in_data f) ->
  in_open f = true -> in_tell f = n -> malloc_ok f = true -> out_open f = true ->
  exists steps, bwt_file_steps pw untimed hts E srt f = ((Ok tt, Some (cut (out_limit f) (file_output (in_data f)))), steps) /\
    bwt_file_gen hts E srt f = (Ok tt, Some (cut (out_limit f) (file_output (in_data f)))) /\
    steps <= 566 * n + 2058 * hts + 23190 + pw * (13 * n * (55 * n + 1024 * hts + 284)).
Proof.
  intros pw hts E srt f n Hp Hs Hh Hb Hn Hf H1 H2 H3 H4.
  destruct (bwt_file_steps_list pw hts E srt f Hp Hs Hh Hb Hn Hf H1 H2 H3 H4) as (k & Hk & Hl).
  exists k. split; [exact Hk|]. split; [rewrite <- (d_file pw untimed), Hk; reflexivity|].
  unfold linear_part, chain_part in Hl. fold n in Hl. lia.
Qed.
Print Assumptions C48_file.
(** with the comparisons of the sort *)
Theorem C48_file_sorted : forall pw hts E alg d f, let n := Z.of_nat (length (in_data f)) in
  0 <= pw -> std_sort (sort_of alg) -> charged alg d -> (forall j k, (j <= k)%nat -> d j <= d k) ->
  1 <= hts <= 2 ^ 48 -> Forall is_byte (in_data f) -> 3 <= n <= 2 ^ 58 ->
  (forall i, fresh_byte E i = Some 0) \/ ~ unwritten_length hts (in_data f) ->
  in_open f = true -> in_tell f = n -> malloc_ok f = true -> out_open f = true ->
  exists steps, bwt_file_steps pw (asked_time alg) hts E (sort_of alg) f = ((Ok tt, Some (cut (out_limit f) (file_output (in_data f)))), steps) /\
    bwt_file_gen hts E (sort_of alg) f = (Ok tt, Some (cut (out_limit f) (file_output (in_data f)))) /\
    steps <= 566 * n + 2058 * hts + 23190 + 7 * n * d (Z.to_nat (n / 2)) + pw * (13 * n * (55 * n + 1024 * hts + 284)).
Proof.
  intros pw hts E alg d f n Hp Hs Hc Hd Hh Hb Hn Hf H1 H2 H3 H4.
  destruct (bwt_file_time_list pw (asked_time alg) _ hts E (sort_of alg) f Hp Hs (charged_bound alg d (Z.of_nat (length (in_data f))) Hc Hd ltac:(lia)) Hh Hb Hn Hf H1 H2 H3 H4) as (k & Hk & Hl).
  exists k. split; [exact Hk|]. split; [rewrite <- (d_file pw (asked_time alg)), Hk; reflexivity|].
  unfold linear_part, chain_part in Hl. fold n in Hl. lia.
Qed.
Print Assumptions C48_file_sorted.
(** the work of realloc: the buffer of the hash table grows by reallocation. L bounds its size; if realloc moves the block
    every time, at most L^2/1024 + L bytes are copied. The values are those of the ordinary run of both functions *)
Theorem C48_realloc : forall E srt hts T l, std_sort srt -> 1 <= hts <= 2 ^ 48 -> Forall is_byte l -> 3 <= Z.of_nat (length l) <= 2 ^ 58 ->
  string_at T 0 (l ++ [0]) -> (forall i, fresh_byte E i = Some 0) \/ ~ unwritten_length hts l ->
  let n := Z.of_nat (length l) in let L := Z.min (512 * hts + 27 * n) (267 * n) in
  exists Sv co calls bytes,
    bwt_string_moves E srt hts T n = Ok (Sv, co, mkmoves calls bytes) /\
    (co1 <- extract_LMS_strings E hts T n ;; sort_LMS_strings E srt T co1) = Ok (Sv, co) /\
    1 <= calls /\ 512 * (calls - 1) <= L /\ 0 <= bytes /\ 1024 * bytes <= L * (L + 1024).
Proof. exact bwt_string_moves_list. Qed.
Print Assumptions C48_realloc.
(** the quadratic order is reached: the buffer grows by at most 531 bytes and the S* substring at hand at a time *)
Theorem C48_realloc_quadratic : forall hts u, 1 <= hts <= 2 ^ 48 -> 1 <= u <= 2 ^ 53 -> u * hts <= 2 ^ 90 ->
  exists l, Forall is_byte l /\ Z.of_nat (length l) = 31 * u + 1 /\
    forall E srt T, std_sort srt -> string_at T 0 (l ++ [0]) ->
      exists Sv co calls bytes, bwt_string_moves E srt hts T (Z.of_nat (length l)) = Ok (Sv, co, mkmoves calls bytes) /\
        u * (u - 17) <= 2 * bytes.
Proof. exact bwt_string_moves_quadratic. Qed.
Print Assumptions C48_realloc_quadratic.
Example C48_realloc_case : std_sort isort /\ Forall is_byte ex_text /\ string_at ex_block 0 (ex_text ++ [0]) /\ (forall hts, ~ unwritten_length hts ex_text) /\
  (exists Sv co, bwt_string_moves ex_env isort 3 ex_block (Z.of_nat (length ex_text)) = Ok (Sv, co, mkmoves 3 1558)) /\
  Z.min (512 * 3 + 27 * Z.of_nat (length ex_text)) (267 * Z.of_nat (length ex_text)) = 1860.
Proof.
  split; [exact isort_ok|]. split; [exact ex_bytes|]. split; [exact ex_at|]. split; [exact ex_written|]. split; [eexists; eexists; vm_compute; reflexivity|vm_compute; reflexivity].
Qed.
Example C48_case : std_sort isort /\ Forall is_byte ex_text /\ string_at ex_block 0 (ex_text ++ [0]) /\ (forall hts, ~ unwritten_length hts ex_text) /\
  (forall pw, In pw [0; 1] -> exists x steps, bwt_string_steps pw untimed 2 ex_env isort (Some ex_block) (Z.of_nat (length ex_text)) false = Ok (x, steps) /\
     bwt_string_gen 2 ex_env isort (Some ex_block) (Z.of_nat (length ex_text)) false = Ok x /\ steps = 12715 + pw * 121).
Proof.
  split; [exact isort_ok|]. split; [exact ex_bytes|]. split; [exact ex_at|]. split; [exact ex_written|].
  intros pw [<-|[<-|[]]]; eexists; eexists; (split; [vm_compute; reflexivity|]); split; try (vm_compute; reflexivity).
Qed.

(** the comparisons of the sort of 4 different S* substrings *)
Example C48_case_sorted : let l := [98; 97; 98; 98; 97; 99; 97; 98; 99; 97; 97; 98] in let T := of_list (l ++ [0]) in
  exists x, bwt_string_steps 0 untimed 2 ex_env (sort_of merge_sort) (Some T) 12 false = Ok (x, 12802) /\
     bwt_string_steps 0 (asked_time merge_sort) 2 ex_env (sort_of merge_sort) (Some T) 12 false = Ok (x, 12845).
Proof. eexists. split; vm_compute; reflexivity. Qed.
(** four different S* substrings, two in each of two buckets, or all in one bucket: the walks take 93 and 152 steps *)
Example C48_case_buckets : let l := [98; 97; 98; 98; 97; 99; 97; 98; 99; 97; 97; 98] in let T := of_list (l ++ [0]) in
  let steps pw hts := match bwt_string_steps pw untimed hts ex_env isort (Some T) 12 false with Ok (_, c) => c | _ => -1 end in
  distinct_stars l = [[97; 98; 98; 97]; [97; 99; 97]; [97; 98; 99; 97]; [97; 97; 98; 0]] /\
  (forall b, bucket_load 2 l b <= 2) /\ chain_walks 2 l = 365 /\ steps 0 2 = 12802 /\ steps 1 2 = 12802 + 93 /\
  (forall b, bucket_load 1 l b <= 4) /\ chain_walks 1 l = 657 /\ steps 0 1 = 12791 /\ steps 1 1 = 12791 + 152.
Proof.
  cbv zeta. assert (Hd : distinct_stars [98; 97; 98; 98; 97; 99; 97; 98; 99; 97; 97; 98] = [[97; 98; 98; 97]; [97; 99; 97]; [97; 98; 99; 97]; [97; 97; 98; 0]]) by (vm_compute; reflexivity).
  split; [exact Hd|]. split; [|split; [vm_compute; reflexivity|split; [vm_compute; reflexivity|split; [vm_compute; reflexivity|split; [|split; [vm_compute; reflexivity|split; vm_compute; reflexivity]]]]]].
  - intros b. unfold bucket_load. rewrite Hd.
    cbn [filter].
    set (x1 := bucket 2 [97; 98; 98; 97]). set (x2 := bucket 2 [97; 99; 97]). set (x3 := bucket 2 [97; 98; 99; 97]). set (x4 := bucket 2 [97; 97; 98; 0]).
    vm_compute in x1, x2, x3, x4. subst x1 x2 x3 x4.
    destruct (Z.eqb_spec 0 b); destruct (Z.eqb_spec 1 b); cbn [length Z.of_nat]; lia.
  - intros b. unfold bucket_load. rewrite Hd. cbn [filter].
    destruct (bucket 1 [97; 98; 98; 97] =? b); destruct (bucket 1 [97; 99; 97] =? b); destruct (bucket 1 [97; 98; 99; 97] =? b); destruct (bucket 1 [97; 97; 98; 0] =? b); cbn; lia.
Qed.
Example C48_case_comparison : let b := of_list [1; 2; 98; 97; 98; 1; 1; 3; 98; 97; 98; 99; 2] in
  read_record ex_env b 0 = Ok [97; 98] /\ read_record ex_env b 6 = Ok [97; 98; 99] /\
  LMS_comparison_steps ex_env b 6 0 = Ok (true, 11).
Proof. vm_compute. auto. Qed.

(** ** C49  PackedArray::set_value with a value that is too wide *)
(** After any history of stores, storing a 64-bit value v of which only the low b bits fit: the
    element itself holds v mod 2^b, the elements behind it are untouched, and every element before
    it has exactly those excess bits or-ed in that fall into the 64-bit word in which element i
    begins (bit t of element j is bit (i - j) * b + t of v). *)
Theorem C49_wide : forall E len b h i v, 1 <= b <= 64 -> 0 <= len -> len * b < 2 ^ 64 ->
  Forall (fun '(i, v) => 0 <= i < len /\ 0 <= v < 2 ^ 64) h -> 0 <= i < len -> 0 <= v < 2 ^ 64 ->
  exists p p', run_sets E (pa_new len b) h = Ok p /\ pa_set E p i v = Ok p' /\
    pa_get E p' i = Ok (v mod 2 ^ b) /\
    (forall j, i < j < len -> pa_get E p' j = pa_get E p j) /\
    forall j, 0 <= j < i -> exists x y, pa_get E p j = Ok x /\ pa_get E p' j = Ok y /\ 0 <= y < 2 ^ b /\
      forall t, 0 <= t < b -> Z.testbit y t =
        Z.testbit x t || (((j * b + (b - 1 - t)) / 64 =? i * b / 64) && Z.testbit v ((i - j) * b + t)).
Proof. exact wide_history. Qed.
Print Assumptions C49_wide.
(** so a value that is too wide is not simply truncated: storing 16 as the second of two 4-bit elements sets
    the first to 1; and a Queue that is handed such a value changes an element it already holds *)
Theorem C49_truncates_refuted :
  match run_sets ex_env (pa_new 2 4) [(0, 0); (1, 16)] with
  | Ok p => pa_get ex_env p 0 = Ok 1 /\ pa_get ex_env p 1 = Ok 0 | Err _ => False end.
Proof. vm_compute. split; reflexivity. Qed.
Theorem C49_queue_refuted :
  q_run ex_env (q_new 4) [OpEnqueue 0; OpEnqueue 16; OpDequeue; OpDequeue] = Ok [ObsNone; ObsNone; ObsValue 1; ObsValue 0].
Proof. vm_compute. reflexivity. Qed.
(** an element that lies across two words: the excess bits reach only the elements of its first word *)
Example C49_case : Forall (fun '(i, v) => 0 <= i < 10 /\ 0 <= v < 2 ^ 64) [(0, 7); (3, 2 ^ 64 - 1)] /\ 0 <= 5 < 10 /\
  match run_sets ex_env (pa_new 10 12) [(4, 0); (5, 0); (6, 0); (5, 2 ^ 13 + 5)] with
  | Ok p => pa_get ex_env p 4 = Ok 2 /\ pa_get ex_env p 5 = Ok 5 /\ pa_get ex_env p 6 = Ok 0 | Err _ => False end.
Proof. split; [repeat constructor; lia|]. split; [lia|]. vm_compute. repeat split. Qed.

(** ** C50  Any program that uses the library correctly *)
(** Every history of: obtaining and filling text blocks, bwt_string on them (freeing the text or not, any number of
    times on the same text), freeing texts, releasing results as bwt_file does, and bwt_file on any files. It runs
    without undefined behaviour; every result still held is the transform of the text it was computed from, and every
    bwt_file had its specified outcome; the heap holds, beyond the blocks there before, exactly the texts
    and results still held and what failing bwt_file calls lost. *)
Theorem C50_history : forall al h0 ops s obs, fresh_alloc al -> never_fails al -> csteps (mkcs [] [] []) ops s obs ->
  exists h v, client_run al h0 (mkcv [] []) ops = Ok (h, v, obs) /\
    Forall2 holds_transform (s_results s) (v_results v) /\
    exists L, heap_plus h0 L h /\ Permutation (map snd L) (text_blocks s ++ result_blocks s ++ s_lost s).
Proof. exact (fun al h0 ops s obs Ha Hn => client_ok al Ha Hn h0 ops s obs). Qed.
(** In particular, a program that releases everything it obtained, and none of whose bwt_file calls
    failed after reading, leaves the heap as it found it. *)
Theorem C50_clean : forall al h0 ops s obs, fresh_alloc al -> never_fails al -> csteps (mkcs [] [] []) ops s obs ->
  s_texts s = [] -> s_results s = [] -> s_lost s = [] ->
  exists h v, client_run al h0 (mkcv [] []) ops = Ok (h, v, obs) /\ same_heap h h0.
Proof. exact client_clean. Qed.
Print Assumptions C50_history.
Print Assumptions C50_clean.
(** one text transformed twice, the first result released while the second is held, a bwt_file that
    succeeds and one that cannot open its output *)
Example C50_case :
  csteps (mkcs [] [] []) [CText 0 ex_text; CCall 0 0 false ex_env isort; CCall 0 1 true ex_env isort; CRelease 0; CFile ex_env isort ex_io;
      CFile ex_env isort (mkio true 12 ex_text true false None)]
    (mkcs [] [(1, ex_text)] [(KMalloc, 16); (KNewArray, 13)])
    [None; None; None; None; Some (Ok tt, Some (file_output ex_text)); Some (Err InvalidArgument, None)] /\
  csteps (mkcs [] [] []) [CText 0 ex_text; CCall 0 0 false ex_env isort; CCall 0 1 true ex_env isort; CRelease 0; CFile ex_env isort ex_io; CRelease 1]
    (mkcs [] [] []) [None; None; None; None; Some (Ok tt, Some (file_output ex_text)); None].
Proof.
  assert (Hv : valid_text ex_text) by (split; [exact ex_bytes|vm_compute; split; discriminate]).
  assert (Hf : fresh_memory_fine ex_env ex_text) by (right; apply ex_written).
  split.
  - eapply csteps_cons; [apply do_text; [reflexivity|exact Hv]|]. eapply csteps_cons; [apply (do_call _ 0 0 false _ _ ex_text); [reflexivity|reflexivity|exact isort_ok|exact Hf]|].
    eapply csteps_cons; [apply (do_call _ 0 1 true _ _ ex_text); [reflexivity|reflexivity|exact isort_ok|exact Hf]|].
    eapply csteps_cons; [apply (do_release _ 0); discriminate|].
    eapply csteps_cons; [apply (do_file _ _ _ ex_io); [exact isort_ok|exact Hf|right; exact Hv|reflexivity]|].
    eapply csteps_cons; [apply (do_file _ _ _ (mkio true 12 ex_text true false None)); [exact isort_ok|exact Hf|right; exact Hv|reflexivity]|].
    apply csteps_nil.
  - eapply csteps_cons; [apply do_text; [reflexivity|exact Hv]|]. eapply csteps_cons; [apply (do_call _ 0 0 false _ _ ex_text); [reflexivity|reflexivity|exact isort_ok|exact Hf]|].
    eapply csteps_cons; [apply (do_call _ 0 1 true _ _ ex_text); [reflexivity|reflexivity|exact isort_ok|exact Hf]|].
    eapply csteps_cons; [apply (do_release _ 0); discriminate|].
    eapply csteps_cons; [apply (do_file _ _ _ ex_io); [exact isort_ok|exact Hf|right; exact Hv|reflexivity]|].
    eapply csteps_cons; [apply (do_release _ 1); discriminate|].
    apply csteps_nil.
Qed.

(** ** C51  Threads *)
(** Any number of threads, each running any program of C50 on one heap and with any interleaving of their
    heap operations.  They may share texts sh that none of them releases. The address of a new block is any address
    not in use. No thread fails: in every state reached each thread is finished or can go on, so none is in
    a failure TErr. Every finished thread has the results that its program has alone. When all are finished, the heap
    is the one they started from and what each program still holds or lost. *)
Theorem C51_threads : forall h0 sh progs ts0,
  NoDup (map (fun x => fst (snd x)) sh) ->
  Forall (fun x => valid_text (snd (snd x))) sh ->
  Forall (fun x => hfind (fst (snd x)) h0 = Some (OOther (KMalloc, Z.of_nat (length (snd (snd x))) + 1))) sh ->
  Forall (fun '(ops, s, obs) => csteps (shared_start sh) ops s obs /\ Forall (leaves (map fst sh)) ops) progs ->
  Forall2 (fun t p => represents t (fun al h => client_thread al h (mkcv sh []) (fst (fst p)))) ts0 progs ->
  forall h ts, pool_steps (h0, ts0) (h, ts) ->
  (forall i t, nth_error ts i = Some t -> finished t \/ (exists h' t', thread_step h t h' t')) /\
  (forall i v o ops s obs, nth_error ts i = Some (TRet (v, o)) -> nth_error progs i = Some (ops, s, obs) ->
     o = obs /\ Forall2 holds_transform (s_results s) (v_results v)) /\
  (Forall finished ts -> exists L, heap_plus h0 L h /\
     Permutation (map snd L) (flat_map (fun p => thread_blocks (map fst sh) (snd (fst p))) progs)).
Proof.
  exact (fun h0 sh progs ts0 Hn Hv Hh Hp Ht h ts Hs =>
    conj (pool_progress sh Hn Hv h0 Hh progs ts0 Hp Ht h ts Hs)
   (conj (pool_result sh Hn Hv h0 Hh progs ts0 Hp Ht h ts Hs) (pool_heap sh Hn Hv h0 Hh progs ts0 Hp Ht h ts Hs))).
Qed.
(** If each thread ends when it runs alone, whatever addresses it gets, every schedule of the pool is
    finite and can be continued until all threads are finished. *)
Theorem C51_ends : forall h0 sh progs ts0,
  NoDup (map (fun x => fst (snd x)) sh) ->
  Forall (fun x => valid_text (snd (snd x))) sh ->
  Forall (fun x => hfind (fst (snd x)) h0 = Some (OOther (KMalloc, Z.of_nat (length (snd (snd x))) + 1))) sh ->
  Forall (fun '(ops, s, obs) => csteps (shared_start sh) ops s obs /\ Forall (leaves (map fst sh)) ops) progs ->
  Forall2 (fun t p => represents t (fun al h => client_thread al h (mkcv sh []) (fst (fst p)))) ts0 progs ->
  Forall always_ends ts0 ->
  Acc (fun c' c => pool_step c c') (h0, ts0) /\
  forall h ts, pool_steps (h0, ts0) (h, ts) -> exists h' ts', pool_steps (h, ts) (h', ts') /\ Forall finished ts'.
Proof.
  exact (fun h0 sh progs ts0 Hn Hv Hh Hp Ht He =>
    conj (pool_ends sh Hn Hv h0 Hh progs ts0 Hp Ht He) (pool_completes sh Hn Hv h0 Hh progs ts0 Hp Ht He)).
Qed.
(** Every program is a thread of this kind, from any variables. *)
Theorem C51_tree : forall v ops, exists t, represents t (fun al h => client_thread al h v ops) /\ always_ends t.
Proof. exact client_tree. Qed.
Print Assumptions C51_threads.
Print Assumptions C51_ends.
Print Assumptions C51_tree.
(** Two threads transform one shared text, which sits in the heap; the first also one of its own, and keeps that
    result; the second also runs bwt_file. *)
Example C51_case :
  let h0 := hadd 7%positive (OOther (KMalloc, 13)) hempty in
  let sh := [(0, (7%positive, ex_text))] in
  let progs :=
    [([CCall 0 1 false ex_env isort; CText 5 ex_text; CRelease 1; CCall 5 2 true ex_env isort], mkcs [(0, ex_text)] [(2, ex_text)] [], [None; None; None; None]);
     ([CCall 0 1 false ex_env isort; CFile ex_env isort ex_io; CRelease 1], mkcs [(0, ex_text)] [] [], [None; Some (Ok tt, Some (file_output ex_text)); None])] in
  exists ts0 h ts,
  NoDup (map (fun x => fst (snd x)) sh) /\
  Forall (fun x => valid_text (snd (snd x))) sh /\
  Forall (fun x => hfind (fst (snd x)) h0 = Some (OOther (KMalloc, Z.of_nat (length (snd (snd x))) + 1))) sh /\
  Forall (fun '(ops, s, obs) => csteps (shared_start sh) ops s obs /\ Forall (leaves (map fst sh)) ops) progs /\
  Forall2 (fun t p => represents t (fun al h => client_thread al h (mkcv sh []) (fst (fst p)))) ts0 progs /\
  Forall always_ends ts0 /\ pool_steps (h0, ts0) (h, ts) /\ Forall finished ts /\
  exists L, heap_plus h0 L h /\ Permutation (map snd L) [(KMalloc, 16); (KNewArray, 13)].
Proof.
  intros h0 sh progs.
  assert (Hv : valid_text ex_text) by (split; [exact ex_bytes|vm_compute; split; discriminate]).
  assert (Hf : fresh_memory_fine ex_env ex_text) by (right; apply ex_written).
  destruct (C51_tree (mkcv sh []) (fst (fst (nth 0 progs ([], mkcs [] [] [], []))))) as (t1 & R1 & E1).
  destruct (C51_tree (mkcv sh []) (fst (fst (nth 1 progs ([], mkcs [] [] [], []))))) as (t2 & R2 & E2).
  assert (H1 : NoDup (map (fun x : Z * (addr * list Z) => fst (snd x)) sh)) by (constructor; [intros []|constructor]).
  assert (H2 : Forall (fun x : Z * (addr * list Z) => valid_text (snd (snd x))) sh) by (constructor; [exact Hv|constructor]).
  assert (H3 : Forall (fun x : Z * (addr * list Z) => hfind (fst (snd x)) h0 = Some (OOther (KMalloc, Z.of_nat (length (snd (snd x))) + 1))) sh) by (constructor; [reflexivity|constructor]).
  assert (H4 : Forall (fun '(ops, s, obs) => csteps (shared_start sh) ops s obs /\ Forall (leaves (map fst sh)) ops) progs).
  { constructor; [|constructor; [|constructor]]; (split; [|repeat constructor; cbn; try discriminate; intros; lia]).
    - eapply csteps_cons; [apply (do_call _ 0 1 false _ _ ex_text); [reflexivity|reflexivity|exact isort_ok|exact Hf]|].
      eapply csteps_cons; [apply do_text; [reflexivity|exact Hv]|].
      eapply csteps_cons; [apply (do_release _ 1); discriminate|].
      eapply csteps_cons; [apply (do_call _ 5 2 true _ _ ex_text); [reflexivity|reflexivity|exact isort_ok|exact Hf]|]. apply csteps_nil.
    - eapply csteps_cons; [apply (do_call _ 0 1 false _ _ ex_text); [reflexivity|reflexivity|exact isort_ok|exact Hf]|].
      eapply csteps_cons; [apply (do_file _ _ _ ex_io); [exact isort_ok|exact Hf|right; exact Hv|reflexivity]|].
      eapply csteps_cons; [apply (do_release _ 1); discriminate|]. apply csteps_nil. }
  assert (H5 : Forall2 (fun t p => represents t (fun al h => client_thread al h (mkcv sh []) (fst (fst p)))) [t1; t2] progs) by (constructor; [exact R1|constructor; [exact R2|constructor]]).
  assert (H6 : Forall always_ends [t1; t2]) by (constructor; [exact E1|constructor; [exact E2|constructor]]).
  destruct (C51_ends h0 sh progs [t1; t2] H1 H2 H3 H4 H5 H6) as (_ & Hc).
  destruct (Hc h0 [t1; t2] (pool_nil _)) as (h & ts & Hs & Hfin).
  exists [t1; t2], h, ts. refine (conj H1 (conj H2 (conj H3 (conj H4 (conj H5 (conj H6 (conj Hs (conj Hfin _)))))))). 
  destruct (C51_threads h0 sh progs [t1; t2] H1 H2 H3 H4 H5 h ts Hs) as (_ & _ & HL). exact (HL Hfin).
Qed.

(** ** C52  Programs and threads when memory may be exhausted *)
(** One program of C50, with an allocator that may fail at any time.  Each statement succeeds with the right result, or a
    call of bwt_file throws (then there is no output file or it is empty) and the program goes on, or the program fails for
    lack of memory. Nothing else happens, and no block that was there before is released or changed.  What the variables
    refer to is allocated. *)
Theorem C52_program : forall al h0 ops s obs, fresh_alloc al -> csteps (mkcs [] [] []) ops s obs ->
  let result := client_run al h0 (mkcv [] []) ops in
  (exists h v obs', result = Ok (h, v, obs') /\ keeps h0 h /\ variables_alive h v /\
    Forall2 holds_transform (s_results s) (v_results v) /\
    (obs' = obs \/ (exists h sz, al h sz = None /\ keeps h0 h) /\ Forall2 same_or_thrown obs obs')) \/
  ((exists h sz, al h sz = None /\ keeps h0 h) /\ (result = Err BadAlloc \/ result = Err NullDeref)).
Proof. exact client_oom. Qed.
(** Threads as in C51, and any allocation of any thread may fail; fs: the threads of which an allocation has failed.
    At any time the blocks of the start are unchanged; a thread that is not in fs has not failed: it is finished or it
    can go on, and at its end it has the results and the observations that its program has alone; a thread in fs may
    have failed for lack of memory, or has the right results and the right observations but for calls of bwt_file that
    threw. *)
Theorem C52_threads : forall h0 sh progs ts0,
  NoDup (map (fun x => fst (snd x)) sh) ->
  Forall (fun x => valid_text (snd (snd x))) sh ->
  Forall (fun x => hfind (fst (snd x)) h0 = Some (OOther (KMalloc, Z.of_nat (length (snd (snd x))) + 1))) sh ->
  Forall (fun '(ops, s, obs) => csteps (shared_start sh) ops s obs /\ Forall (leaves (map fst sh)) ops) progs ->
  Forall2 (fun t p => represents t (fun al h => client_thread al h (mkcv sh []) (fst (fst p)))) ts0 progs ->
  forall fs h ts, pool_run_oom (h0, ts0) fs (h, ts) ->
  keeps h0 h /\
  (forall i t, nth_error ts i = Some t ->
     finished t \/ (exists h' t', thread_step h t h' t') \/ (In i fs /\ (t = TErr BadAlloc \/ t = TErr NullDeref))) /\
  (forall i v o ops s obs, nth_error ts i = Some (TRet (v, o)) -> nth_error progs i = Some (ops, s, obs) ->
     variables_alive h v /\ Forall2 holds_transform (s_results s) (v_results v) /\
     (o = obs \/ In i fs /\ Forall2 same_or_thrown obs o)).
Proof.
  exact (fun h0 sh progs ts0 Hn Hv Hh Hp Ht fs h ts Hs =>
    conj (oom_keeps sh Hn Hv h0 Hh progs ts0 Hp Ht fs h ts Hs)
   (conj (oom_progress sh Hn Hv h0 Hh progs ts0 Hp Ht fs h ts Hs) (oom_result sh Hn Hv h0 Hh progs ts0 Hp Ht fs h ts Hs))).
Qed.
(** Every schedule is finite, whichever allocations fail, and from every state all threads can reach their end. *)
Theorem C52_ends : forall h0 sh progs ts0,
  NoDup (map (fun x => fst (snd x)) sh) ->
  Forall (fun x => valid_text (snd (snd x))) sh ->
  Forall (fun x => hfind (fst (snd x)) h0 = Some (OOther (KMalloc, Z.of_nat (length (snd (snd x))) + 1))) sh ->
  Forall (fun '(ops, s, obs) => csteps (shared_start sh) ops s obs /\ Forall (leaves (map fst sh)) ops) progs ->
  Forall2 (fun t p => represents t (fun al h => client_thread al h (mkcv sh []) (fst (fst p)))) ts0 progs ->
  Forall always_ends ts0 ->
  Acc (fun c' c => pool_once c c') (h0, ts0) /\
  forall fs h ts, pool_run_oom (h0, ts0) fs (h, ts) -> exists h' ts', pool_steps (h, ts) (h', ts') /\ Forall ended ts'.
Proof.
  exact (fun h0 sh progs ts0 Hn Hv Hh Hp Ht He =>
    conj (oom_ends sh Hn Hv h0 Hh progs ts0 Hp Ht He) (oom_completes sh Hn Hv h0 Hh progs ts0 Hp Ht He)).
Qed.
Print Assumptions C52_program.
Print Assumptions C52_threads.
Print Assumptions C52_ends.
(** Memory is exhausted just once, when bwt_file opens its input: it throws, and the program goes on. *)
Definition once : allocator := fun h sz => if Nat.eqb (clock h) 1 then None else bump h sz.
Example C52_case_program :
  let h0 := hadd 7%positive (OOther (KMalloc, 13)) hempty in
  let ops := [CFile ex_env isort ex_io; CFile ex_env isort ex_io; CText 5 ex_text] in
  fresh_alloc once /\ csteps (mkcs [] [] []) ops (mkcs [(5, ex_text)] [] []) [Some (Ok tt, Some (file_output ex_text)); Some (Ok tt, Some (file_output ex_text)); None] /\
  exists h v, client_run once h0 (mkcv [] []) ops = Ok (h, v, [Some (Err InvalidArgument, None); Some (Ok tt, Some (file_output ex_text)); None]).
Proof.
  intros h0 ops. split; [intros h sz a; unfold once; destruct (Nat.eqb _ _); [discriminate|apply bump_fresh]|].
  assert (Hv : valid_text ex_text) by (split; [exact ex_bytes|vm_compute; split; discriminate]).
  assert (Hf : fresh_memory_fine ex_env ex_text) by (right; apply ex_written).
  split.
  - eapply csteps_cons; [apply (do_file _ _ _ ex_io); [exact isort_ok|exact Hf|right; exact Hv|reflexivity]|].
    eapply csteps_cons; [apply (do_file _ _ _ ex_io); [exact isort_ok|exact Hf|right; exact Hv|reflexivity]|].
    eapply csteps_cons; [apply do_text; [reflexivity|exact Hv]|]. apply csteps_nil.
  - eexists _, _. vm_compute. reflexivity.
Qed.
(** The second thread runs to its end, then the first one gets no memory and fails. *)
Example C52_case :
  let h0 := hadd 7%positive (OOther (KMalloc, 13)) hempty in
  let sh := [(0, (7%positive, ex_text))] in
  let progs :=
    [([CText 5 ex_text; CCall 5 2 true ex_env isort], mkcs [(0, ex_text)] [(2, ex_text)] [], [None; None]);
     ([CCall 0 1 false ex_env isort; CFile ex_env isort ex_io], mkcs [(0, ex_text)] [(1, ex_text)] [], [None; Some (Ok tt, Some (file_output ex_text))])] in
  exists ts0 fs h v o,
  NoDup (map (fun x => fst (snd x)) sh) /\
  Forall (fun x => valid_text (snd (snd x))) sh /\
  Forall (fun x => hfind (fst (snd x)) h0 = Some (OOther (KMalloc, Z.of_nat (length (snd (snd x))) + 1))) sh /\
  Forall (fun '(ops, s, obs) => csteps (shared_start sh) ops s obs /\ Forall (leaves (map fst sh)) ops) progs /\
  Forall2 (fun t p => represents t (fun al h => client_thread al h (mkcv sh []) (fst (fst p)))) ts0 progs /\
  Forall always_ends ts0 /\ pool_run_oom (h0, ts0) fs (h, [TErr NullDeref; TRet (v, o)]) /\ In 0%nat fs.
Proof.
  intros h0 sh progs.
  assert (Hv : valid_text ex_text) by (split; [exact ex_bytes|vm_compute; split; discriminate]).
  assert (Hf : fresh_memory_fine ex_env ex_text) by (right; apply ex_written).
  destruct (C51_tree (mkcv sh []) (fst (fst (nth 0 progs ([], mkcs [] [] [], []))))) as (t1 & R1 & E1).
  destruct (C51_tree (mkcv sh []) (fst (fst (nth 1 progs ([], mkcs [] [] [], []))))) as (t2 & R2 & E2).
  assert (H1 : NoDup (map (fun x : Z * (addr * list Z) => fst (snd x)) sh)) by (constructor; [intros []|constructor]).
  assert (H2 : Forall (fun x : Z * (addr * list Z) => valid_text (snd (snd x))) sh) by (constructor; [exact Hv|constructor]).
  assert (H3 : Forall (fun x : Z * (addr * list Z) => hfind (fst (snd x)) h0 = Some (OOther (KMalloc, Z.of_nat (length (snd (snd x))) + 1))) sh) by (constructor; [reflexivity|constructor]).
  assert (H4 : Forall (fun '(ops, s, obs) => csteps (shared_start sh) ops s obs /\ Forall (leaves (map fst sh)) ops) progs).
  { constructor; [|constructor; [|constructor]]; (split; [|repeat constructor; cbn; try discriminate; intros; lia]).
    - eapply csteps_cons; [apply do_text; [reflexivity|exact Hv]|].
      eapply csteps_cons; [apply (do_call _ 5 2 true _ _ ex_text); [reflexivity|reflexivity|exact isort_ok|exact Hf]|]. apply csteps_nil.
    - eapply csteps_cons; [apply (do_call _ 0 1 false _ _ ex_text); [reflexivity|reflexivity|exact isort_ok|exact Hf]|].
      eapply csteps_cons; [apply (do_file _ _ _ ex_io); [exact isort_ok|exact Hf|right; exact Hv|reflexivity]|]. apply csteps_nil. }
  assert (H5 : Forall2 (fun t p => represents t (fun al h => client_thread al h (mkcv sh []) (fst (fst p)))) [t1; t2] progs) by (constructor; [exact R1|constructor; [exact R2|constructor]]).
  assert (H6 : Forall always_ends [t1; t2]) by (constructor; [exact E1|constructor; [exact E2|constructor]]).
  assert (H7 : match client_thread bump h0 (mkcv sh []) (fst (fst (nth 1 progs ([], mkcs [] [] [], [])))) with Ok _ => True | Err _ => False end) by (vm_compute; exact I).
  specialize (R2 bump h0). cbv beta in R2. destruct (client_thread bump h0 _ _) as [[[v o] h2]|e] in R2, H7; [|destruct H7]. specialize (R2 ltac:(discriminate)).
  destruct (evals_pool bump [t1] [] h0 t2 _ bump_fresh R2) as (f1 & h1 & P1). cbn [app] in P1.
  assert (H8 : evals (fun _ _ => None) h1 t1 (Err NullDeref)) by (apply (R1 (fun _ _ => None) h1); discriminate).
  destruct (evals_pool (fun _ _ => None) [] [TRet (v, o)] h1 t1 (Err NullDeref)) as (f2 & h3 & P2); [intros h sz a; discriminate|exact H8|]. cbn [app] in P2.
  pose proof (run_trans _ _ _ _ _ P1 P2) as P3.
  exists [t1; t2], (f1 ++ f2), h3, v, o. refine (conj H1 (conj H2 (conj H3 (conj H4 (conj H5 (conj H6 (conj P3 _))))))).
  destruct (C52_threads h0 sh progs [t1; t2] H1 H2 H3 H4 H5 _ _ _ P3) as (_ & Hc & _).
  destruct (Hc 0%nat _ eq_refl) as [(x & Hx)|[(h' & t' & Hx)|[Hi _]]]; [discriminate|inversion Hx|exact Hi].
Qed.
