(** Programs that call bwt_string and bwt_file any number of times (C50).

    The client keeps texts and results in variables.  It obtains a text block by malloc, fills it and
    terminates it by 0, calls bwt_string on it (with free_T, after which the block is gone, or
    without, after which it may be used again), releases results as bwt_file does
    (src/flbwt.cpp:101-107: delete[] of the array, free of the struct), and calls bwt_file. *)
From Verif Require Import Base M_Induce M_Flbwt M_File M_Heap M_HeapProg Spec BlockSpec.
From Coq Require Import FMapPositive Permutation.
Open Scope Z_scope.

(** E, srt: the contents of fresh memory and the std::sort of that call *)
Inductive cop :=
| CText (i : Z) (l : list Z)                          (* T = malloc(n + 1), filled *)
| CCall (i j : Z) (free_T : bool) (E : env) (srt : sorter)  (* results[j] = bwt_string(texts[i], n, free_T) *)
| CFreeText (i : Z)                                   (* free(T) *)
| CRelease (j : Z)                                    (* delete[] r->BWT; free(r) *)
| CFile (E : env) (srt : sorter) (f : io).            (* bwt_file *)

(** association lists *)
Fixpoint lookup {A} (i : Z) (l : list (Z * A)) : option A :=
  match l with [] => None | (j, x) :: l => if i =? j then Some x else lookup i l end.
Fixpoint drop_key {A} (i : Z) (l : list (Z * A)) : list (Z * A) :=
  match l with [] => [] | (j, x) :: l => if i =? j then l else (j, x) :: drop_key i l end.

(** what the client sees of a call of bwt_file: the exception, the new content of the output file *)
Definition cobs := option (res unit * option (list Z)).

(** * The client on the heap *)
Record cvars := mkcv { v_texts : list (Z * (addr * list Z)); v_results : list (Z * (bwt_result * pointer * pointer)) }.

Section Run.
Context (al : allocator).
Definition client_exec (h : heap) (v : cvars) (op : cop) : res (heap * cvars * cobs) :=
  match op with
  | CText i l =>
      let '(p, h) := hmalloc al h (OOther (KMalloc, Z.of_nat (length l) + 1)) in
      p <- deref p ;; Ok (h, mkcv ((i, (p, l)) :: v_texts v) (v_results v), None)
  | CCall i j free_T E srt =>
      match lookup i (v_texts v) with
      | None => Err Uninit
      | Some (p, l) =>
          '(r, h) <- h_bwt_string al 67777 E srt h (Some p) (of_list (l ++ [0])) (Z.of_nat (length l)) free_T ;;
          match r with
          | None => Err NullDeref
          | Some r => Ok (h, mkcv (if free_T then drop_key i (v_texts v) else v_texts v) ((j, r) :: v_results v), None)
          end
      end
  | CFreeText i =>
      match lookup i (v_texts v) with
      | None => Err Uninit
      | Some (p, _) => h <- hfree KMalloc h (Some p) ;; Ok (h, mkcv (drop_key i (v_texts v)) (v_results v), None)
      end
  | CRelease j =>
      match lookup j (v_results v) with
      | None => Err Uninit
      | Some (_, pR, pB) => h <- hfree KNewArray h pB ;; h <- hfree KMalloc h pR ;; Ok (h, mkcv (v_texts v) (drop_key j (v_results v)), None)
      end
  | CFile E srt f => '(h, e, out) <- h_bwt_file al 67777 E srt h f ;; Ok (h, v, Some (e, out))
  end.
Fixpoint client_run (h : heap) (v : cvars) (ops : list cop) : res (heap * cvars * list cobs) :=
  match ops with
  | [] => Ok (h, v, [])
  | op :: ops =>
      '(h, v, o) <- client_exec h v op ;;
      '(h, v, r) <- client_run h v ops ;; Ok (h, v, o :: r)
  end.
End Run.

(** * What the client expects *)
(** the texts it holds, the texts whose transforms it holds, the blocks that were lost *)
Record cstate := mkcs { s_texts : list (Z * list Z); s_results : list (Z * list Z); s_lost : list (kind * Z) }.
Definition valid_text (l : list Z) : Prop := Forall is_byte l /\ 3 <= Z.of_nat (length l) <= 2 ^ 58.
Definition fresh_memory_fine (E : env) (l : list Z) : Prop := (forall i, fresh_byte E i = Some 0) \/ ~ unwritten_length 67777 l.
(** outcome of bwt_file (C02, C05, C35) *)
Definition file_result (f : io) : res unit * option (list Z) :=
  if negb (in_open f) then (Err InvalidArgument, None)
  else if negb (malloc_ok f) then (Err RuntimeError, None)
  else match in_data f with
       | [] => (Err RuntimeError, None)
       | _ => if out_open f then (Ok tt, Some (match out_limit f with None => file_output (in_data f) | Some k => firstn k (file_output (in_data f)) end))
              else (Err InvalidArgument, None)
       end.
(** blocks lost by a failing bwt_file (C40): text and open input file; or the result *)
Definition file_lost (f : io) : list (kind * Z) :=
  if negb (in_open f && malloc_ok f) then []
  else match in_data f with
       | [] => [(KMalloc, 1); (KFile, 0)]
       | _ => if out_open f then [] else [(KMalloc, 16); (KNewArray, Z.of_nat (length (in_data f)) + 1)]
       end.
Inductive cstep : cstate -> cop -> cstate -> cobs -> Prop :=
| do_text : forall s i l, lookup i (s_texts s) = None -> valid_text l ->
    cstep s (CText i l) (mkcs ((i, l) :: s_texts s) (s_results s) (s_lost s)) None
| do_call : forall s i j b E srt l, lookup i (s_texts s) = Some l -> lookup j (s_results s) = None -> std_sort srt -> fresh_memory_fine E l ->
    cstep s (CCall i j b E srt) (mkcs (if b then drop_key i (s_texts s) else s_texts s) ((j, l) :: s_results s) (s_lost s)) None
| do_free : forall s i, lookup i (s_texts s) <> None ->
    cstep s (CFreeText i) (mkcs (drop_key i (s_texts s)) (s_results s) (s_lost s)) None
| do_release : forall s j, lookup j (s_results s) <> None ->
    cstep s (CRelease j) (mkcs (s_texts s) (drop_key j (s_results s)) (s_lost s)) None
| do_file : forall s E srt f, std_sort srt -> fresh_memory_fine E (in_data f) -> in_data f = [] \/ valid_text (in_data f) ->
    in_tell f = Z.of_nat (length (in_data f)) ->
    cstep s (CFile E srt f) (mkcs (s_texts s) (s_results s) (file_lost f ++ s_lost s)) (Some (file_result f)).
Inductive csteps : cstate -> list cop -> cstate -> list cobs -> Prop :=
| csteps_nil : forall s, csteps s [] s []
| csteps_cons : forall s op s1 o ops s2 r, cstep s op s1 o -> csteps s1 ops s2 r -> csteps s (op :: ops) s2 (o :: r).
(** the blocks the client is responsible for *)
Definition text_blocks (s : cstate) : list (kind * Z) := map (fun x => (KMalloc, Z.of_nat (length (snd x)) + 1)) (s_texts s).
Definition result_blocks (s : cstate) : list (kind * Z) :=
  flat_map (fun x => [(KMalloc, 16); (KNewArray, Z.of_nat (length (snd x)) + 1)]) (s_results s).
(** variable j holds the transform of the text l *)
Definition holds_transform (x : Z * list Z) (y : Z * (bwt_result * pointer * pointer)) : Prop :=
  let '(j, l) := x in let '(j', (r, _, _)) := y in
  j = j' /\ alen (r_BWT r) = Z.of_nat (length l) + 1 /\ is_BWT l (av (r_BWT r)) (r_last r).

(** * When memory may be exhausted (C52) *)
(** what is observed of a call of bwt_file that may run out of memory: what is expected without that, or an
    exception; then there is no output file, or it is empty *)
Definition same_or_thrown (o o' : cobs) : Prop :=
  o' = o \/ (o <> None /\ In o' [Some (Err InvalidArgument, None); Some (Err RuntimeError, None); Some (Err BadAlloc, Some [])]).

(** the blocks of the texts and of the results in the variables are allocated *)
Definition variables_alive (h : heap) (v : cvars) : Prop :=
  Forall (fun '(i, (p, l)) => hfind p h = Some (OOther (KMalloc, Z.of_nat (length l) + 1))) (v_texts v) /\
  Forall (fun '(j, (r, pR, pB)) => exists a b, pR = Some a /\ pB = Some b /\
    hfind a h = Some (OOther (KMalloc, 16)) /\ hfind b h = Some (OOther (KNewArray, alen (r_BWT r)))) (v_results v).

(** * Programs in several threads (C51, C52) *)
(** one thread; its result: the variables and what was observed *)
Definition client_thread (al : allocator) (h : heap) (v : cvars) (ops : list cop) : res (cvars * list cobs * heap) :=
  '(h, v, o) <- client_run al h v ops ;; Ok (v, o, h).
(** the operation neither releases nor redefines the texts in these variables *)
Definition leaves (keys : list Z) (op : cop) : Prop :=
  match op with
  | CText i _ | CFreeText i => ~ In i keys
  | CCall i _ free_T _ _ => free_T = true -> ~ In i keys
  | _ => True
  end.
(** the texts a thread holds that are not shared *)
Definition private_texts (keys : list Z) (s : cstate) : cstate :=
  mkcs (filter (fun x => negb (existsb (Z.eqb (fst x)) keys)) (s_texts s)) (s_results s) (s_lost s).
(** the state in which every thread starts: it holds the shared texts sh (variable, address, text) *)
Definition shared_start (sh : list (Z * (addr * list Z))) : cstate := mkcs (map (fun x => (fst x, snd (snd x))) sh) [] [].
(** the blocks a thread is responsible for at its end *)
Definition thread_blocks (keys : list Z) (s : cstate) : list (kind * Z) := text_blocks (private_texts keys s) ++ result_blocks s ++ s_lost s.
