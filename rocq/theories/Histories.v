(** Sequences of API calls and the abstract objects they are compared with.
    Only the drivers and the abstract objects are defined here. *)
From Verif Require Import Base M_PackedArray M_Queue M_HashTable M_Flbwt.
Open Scope Z_scope.

(** * PackedArray: a sequence of set_value(index, value) calls *)
Fixpoint run_sets (E : env) (p : packed) (h : list (Z * Z)) : res packed :=
  match h with
  | [] => Ok p
  | (i, v) :: h => p' <- pa_set E p i v ;; run_sets E p' h
  end.
(** the value most recently stored at index j, if any *)
Fixpoint last_stored (h : list (Z * Z)) (j : Z) (acc : option Z) : option Z :=
  match h with
  | [] => acc
  | (i, v) :: h => last_stored h j (if i =? j then Some v else acc)
  end.

(** * Queue: a sequence of operations *)
Inductive qop := OpEnqueue (x : Z) | OpEnqueueL (x : Z) | OpDequeue | OpIsEmpty.
Inductive qobs := ObsNone | ObsValue (x : Z) | ObsBool (b : bool).

(** one call on the implementation *)
Definition q_exec (E : env) (q : queue) (op : qop) : res (queue * qobs) :=
  match op with
  | OpEnqueue x => q' <- enqueue E q x ;; Ok (q', ObsNone)
  | OpEnqueueL x => q' <- enqueue_l E q x ;; Ok (q', ObsNone)
  | OpDequeue => '(x, q') <- dequeue E q ;; Ok (q', ObsValue x)
  | OpIsEmpty => Ok (q, ObsBool (q_is_empty q))
  end.
Fixpoint q_run (E : env) (q : queue) (h : list qop) : res (list qobs) :=
  match h with
  | [] => Ok []
  | op :: h => '(q', o) <- q_exec E q op ;; r <- q_run E q' h ;; Ok (o :: r)
  end.

(** one call on the abstract sequence; None: dequeue on an empty queue *)
Definition seq_exec (l : list Z) (op : qop) : option (list Z * qobs) :=
  match op with
  | OpEnqueue x => Some (l ++ [x], ObsNone)
  | OpEnqueueL x => Some (x :: l, ObsNone)
  | OpDequeue => match l with [] => None | x :: l' => Some (l', ObsValue x) end
  | OpIsEmpty => Some (l, ObsBool (match l with [] => true | _ => false end))
  end.
Fixpoint seq_run (l : list Z) (h : list qop) : option (list qobs) :=
  match h with
  | [] => Some []
  | op :: h => match seq_exec l op with
               | None => None
               | Some (l', o) => match seq_run l' h with None => None | Some r => Some (o :: r) end
               end
  end.
(** dequeue returns an int64_t: a 64-bit value of 2^63 or more comes out negative *)
Definition signed_obs (o : qobs) : qobs :=
  match o with ObsValue x => ObsValue (if x <? 2 ^ 63 then x else x - 2 ^ 64) | _ => o end.
(** values passed to the queue fit in w bits *)
Definition op_fits (w : Z) (op : qop) : Prop :=
  match op with OpEnqueue x | OpEnqueueL x => 0 <= x < 2 ^ w | _ => True end.

(** * HashTable *)
(** the string s is stored at offset p of the text block T *)
Definition string_at (T : arr Z) (p : Z) (s : list Z) : Prop :=
  forall i, (i < length s)%nat -> av T (p + Z.of_nat i) = Some (nth i s 0).
(** a sequence of insert_string(m, T + p) calls and their return values *)
Fixpoint ht_inserts (E : env) (h : htable) (ops : list (arr Z * Z * Z)) : res (htable * list Z) :=
  match ops with
  | [] => Ok (h, [])
  | (T, p, m) :: ops => '(h, r) <- insert_string E h T m p ;; '(h, rs) <- ht_inserts E h ops ;; Ok (h, r :: rs)
  end.
(** call (T, p, m) presents the string s *)
Definition op_string (op : arr Z * Z * Z) (s : list Z) : Prop :=
  let '(T, p, m) := op in m = Z.of_nat (length s) /\ string_at T p s.
(** 1 for a string not seen before, 0 for a duplicate *)
Fixpoint insert_flags (seen strs : list (list Z)) : list Z :=
  match strs with
  | [] => []
  | s :: r => (if in_dec (list_eq_dec Z.eq_dec) s seen then 0 else 1) :: insert_flags (s :: seen) r
  end.
Definition distinct (l : list (list Z)) : list (list Z) := nodup (list_eq_dec Z.eq_dec) l.
(** walk over all buckets as sort_LMS_strings does (src/flbwt.cpp:396-418), with room for k records *)
Definition ht_walk (E : env) (h : htable) (k : Z) : res (list Z) :=
  '(s, j) <- for_up 0 (HTSIZE h) (fun i '(s, j) => p <- aget (ht_head h) i ;; collect_chain E h p s j) (anew (k + 1), 1) ;;
  aslice s 1 j.
(** the string of the record at q, read with get_length and get_first_character_pointer *)
Definition read_record (E : env) (b : arr Z) (q : Z) : res (list Z) :=
  len <- get_length E b q ;;
  p <- get_first_character_pointer E b q ;;
  for_down (len - 1) 0 (fun i l => c <- bget E b (p + i) ;; Ok (c :: l)) [].
(** a sequence of set_name(q, name) calls *)
Fixpoint ht_names (E : env) (h : htable) (l : list (Z * Z)) : res htable :=
  match l with
  | [] => Ok h
  | (q, name) :: l => b <- set_name E h (ht_buf h) q name ;; ht_names E (with_buf h b) l
  end.
