(** Model of src/queue.cpp and include/queue.hpp.
    The doubly linked chain of qblocks from [sb] to [eb] is represented by the list of
    its packed arrays ([sb] = first, [eb] = last; the [prev] pointers are write-only in
    the code and are not represented). *)
From Verif Require Import Base M_PackedArray.
Open Scope Z_scope.

(** include/queue.hpp:17 *)
Definition QSIZ : Z := 1024.

(** include/queue.hpp:22-72 (max_value is never used) *)
Record queue := mkqueue { q_n : Z; q_w : Z; q_blocks : list packed; q_s : Z; q_e : Z }.

(** src/queue.cpp:6-14 *)
Definition q_new (w : Z) : queue := mkqueue 0 w [] 0 (QSIZ - 1).

(** replace the last block (eb->b) *)
Fixpoint upd_last (f : packed -> res packed) (l : list packed) : res (list packed) :=
  match l with
  | [] => Err NullDeref
  | [b] => b' <- f b ;; Ok [b']
  | b :: r => r' <- upd_last f r ;; Ok (b :: r')
  end.

(** src/queue.cpp:33-61 *)
Definition enqueue (E : env) (q : queue) (x : Z) : res queue :=
  let '(blocks, s, e) :=
    if q_e q =? QSIZ - 1 then
      let qb := pa_new QSIZ (q_w q) in
      match q_blocks q with
      | [] => ([qb], 0, -1)
      | bs => (bs ++ [qb], q_s q, -1)
      end
    else (q_blocks q, q_s q, q_e q) in
  let e := e + 1 in
  blocks <- upd_last (fun b => pa_set E b e x) blocks ;;
  Ok (mkqueue (u64 (q_n q + 1)) (q_w q) blocks s e).

(** src/queue.cpp:63-91 *)
Definition enqueue_l (E : env) (q : queue) (x : Z) : res queue :=
  let '(blocks, s, e) :=
    if q_s q =? 0 then
      let qb := pa_new QSIZ (q_w q) in
      match q_blocks q with
      | [] => ([qb], QSIZ, QSIZ - 1)
      | bs => (qb :: bs, QSIZ, q_e q)
      end
    else (q_blocks q, q_s q, q_e q) in
  let s := s - 1 in
  match blocks with
  | [] => Err NullDeref
  | b :: r => b' <- pa_set E b s x ;;
              Ok (mkqueue (u64 (q_n q + 1)) (q_w q) (b' :: r) s e)
  end.

(** src/queue.cpp:93-121 *)
Definition dequeue (E : env) (q : queue) : res (Z * queue) :=
  match q_blocks q with
  | [] => Err NullDeref
  | b :: r =>
    v <- pa_get E b (q_s q) ;;
    let x := swrap 64 v in
    let s := q_s q + 1 in
    let '(blocks, s, e) :=
      if s =? QSIZ then
        match r with
        | [] => ([], 0, QSIZ - 1)
        | _ => (r, 0, q_e q)
        end
      else (b :: r, s, q_e q) in
    Ok (x, mkqueue (u64 (q_n q - 1)) (q_w q) blocks s e)
  end.

(** src/queue.cpp:123-126 *)
Definition q_is_empty (q : queue) : bool := q_n q =? 0.
