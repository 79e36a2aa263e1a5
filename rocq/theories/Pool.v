(** Programs that use several Queue objects through pointers: the driver over the heap model and
    the abstract pool it is compared with. *)
From Verif Require Import Base M_PackedArray M_Queue M_Heap Histories.
From Coq Require Import FMapPositive.
Open Scope Z_scope.

(** one statement of such a program; variables hold Queue pointers and are numbered *)
Inductive pop :=
| PNew (i w : Z)             (* i = new Queue(w); *)
| PCall (i : Z) (op : qop)   (* i->enqueue(x); ... *)
| PDelete (i : Z).           (* delete i; *)

Definition fupd {A} (f : Z -> A) (i : Z) (x : A) : Z -> A := fun j => if j =? i then x else f j.

(** one statement on the implementation: heap and variables *)
Definition pool_exec (al : allocator) (E : env) (h : heap) (v : Z -> pointer) (op : pop)
  : res (heap * (Z -> pointer) * qobs) :=
  match op with
  | PNew i w => '(a, h) <- new_queue al h w ;; Ok (h, fupd v i (Some a), ObsNone)
  | PCall i (OpEnqueue x) => h <- p_enqueue al E h (v i) x ;; Ok (h, v, ObsNone)
  | PCall i (OpEnqueueL x) => h <- p_enqueue_l al E h (v i) x ;; Ok (h, v, ObsNone)
  | PCall i OpDequeue => '(x, h) <- p_dequeue E h (v i) ;; Ok (h, v, ObsValue x)
  | PCall i OpIsEmpty => b <- p_is_empty h (v i) ;; Ok (h, v, ObsBool b)
  | PDelete i => h <- delete_queue h (v i) ;; Ok (h, v, ObsNone)
  end.
Fixpoint pool_run (al : allocator) (E : env) (h : heap) (v : Z -> pointer) (ops : list pop)
  : res (heap * list qobs) :=
  match ops with
  | [] => Ok (h, [])
  | op :: ops => '(h, v, o) <- pool_exec al E h v op ;; '(h, r) <- pool_run al E h v ops ;; Ok (h, o :: r)
  end.

(** the abstract pool: for every live variable its width and its sequence *)
Definition pool := Z -> option (Z * list Z).
Definition fits_b (w : Z) (op : qop) : bool :=
  match op with OpEnqueue x | OpEnqueueL x => (0 <=? x) && (x <? 2 ^ w) | _ => true end.
(** None: misuse (a variable overwritten while its queue is alive, a queue used before it is
    created or after it is deleted, a value that does not fit, dequeue on an empty queue) *)
Definition spec_exec (s : pool) (op : pop) : option (pool * qobs) :=
  match op with
  | PNew i w => match s i with
                | Some _ => None
                | None => if (1 <=? w) && (w <=? 63) then Some (fupd s i (Some (w, [])), ObsNone) else None
                end
  | PCall i op => match s i with
                  | None => None
                  | Some (w, l) =>
                    if fits_b w op then
                      match seq_exec l op with None => None | Some (l', o) => Some (fupd s i (Some (w, l')), o) end
                    else None
                  end
  | PDelete i => match s i with None => None | Some _ => Some (fupd s i None, ObsNone) end
  end.
Fixpoint spec_run (s : pool) (ops : list pop) : option (pool * list qobs) :=
  match ops with
  | [] => Some (s, [])
  | op :: ops => match spec_exec s op with
                 | None => None
                 | Some (s, o) => match spec_run s ops with None => None | Some (s, r) => Some (s, o :: r) end
                 end
  end.

(** an allocator that never returns a block in use *)
Definition fresh_alloc (al : allocator) : Prop := forall h sz a, al h sz = Some a -> hfind a h = None.
(** memory never runs out *)
Definition never_fails (al : allocator) : Prop := forall h sz, al h sz <> None.
(** the two heaps have the same live blocks with the same contents *)
Definition same_heap (h h' : heap) : Prop := forall a, hfind a h = hfind a h'.
(** every block of h0 is alive in h and has the same contents *)
Definition keeps (h0 h : heap) : Prop := forall a o, hfind a h0 = Some o -> hfind a h = Some o.
(** heap blocks a queue of a given length may hold: the object itself, and three blocks per 1024
    elements, where the two ends may be partly filled *)
Definition queue_blocks (q : option (Z * list Z)) : Z :=
  match q with None => 0 | Some (_, l) => 1 + 3 * ((Z.of_nat (length l) + 2046) / 1024) end.

(** one allocator with that property: the address after the largest one in use *)
Definition bump : allocator := fun h _ => Some (Pos.succ (fold_right (fun x m => Pos.max (fst x) m) 1%positive (helements h))).
(** the same with room for n blocks only, and for n bytes only *)
Definition bump_upto (n : nat) : allocator := fun h sz => if Nat.leb n (hcount h) then None else bump h sz.
Definition bump_bytes (n : Z) : allocator := fun h sz => if hsize h + sz <=? n then bump h sz else None.
(** an allocation succeeds as long as the live blocks do not exceed n bytes *)
Definition enough (al : allocator) (n : Z) : Prop := forall h sz, hsize h + sz <= n -> al h sz <> None.

(** h is h0 together with the blocks L, each listed with the function that has to release it *)
Definition heap_plus (h0 : heap) (L : list (addr * (kind * Z))) (h : heap) : Prop :=
  NoDup (map fst L) /\
  (forall a k, In (a, k) L -> hfind a h0 = None /\ hfind a h = Some (OOther k)) /\
  (forall a, ~ In a (map fst L) -> hfind a h = hfind a h0).
