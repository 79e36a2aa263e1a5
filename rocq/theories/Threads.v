(** Threads that share the heap (C51, C52).

    A thread is the tree of its heap operations: which operation comes next may depend on the results of the earlier
    ones and on nothing else.  [evals] runs a tree alone; [represents] relates a tree to a heap
    function of M_Heap.v or M_HeapProg.v; [pool_step] lets any thread of a pool do its next operation on
    the common heap. *)
From Verif Require Import Base M_Heap.
Open Scope Z_scope.

CoInductive tree (A : Type) : Type :=
| TRet (x : A)
| TErr (e : err)
| TAlloc (o : obj) (k : option addr -> tree A)       (* malloc, new, new[], fopen; None: no memory *)
| TLoad (a : addr) (k : obj -> tree A)
| TUse (a : addr) (z : Z) (k : tree A)               (* access to z bytes of a block whose contents are modelled elsewhere *)
| TStore (a : addr) (o : obj) (k : tree A)
| TFree (kd : kind) (a : addr) (k : tree A).
Arguments TRet {A} x.
Arguments TErr {A} e.
Arguments TAlloc {A} o k.
Arguments TLoad {A} a k.
Arguments TUse {A} a z k.
Arguments TStore {A} a o k.
Arguments TFree {A} kd a k.

(** A thread that runs alone. *)
Inductive evals {A} (al : allocator) : heap -> tree A -> res (A * heap) -> Prop :=
| ev_ret : forall h x, evals al h (TRet x) (Ok (x, h))
| ev_err : forall h e, evals al h (TErr e) (Err e)
| ev_none : forall h o k r, al h (osize o) = None -> evals al (htick h) (k None) r -> evals al h (TAlloc o k) r
| ev_some : forall h o k a r, al h (osize o) = Some a -> evals al (hadd a o h) (k (Some a)) r -> evals al h (TAlloc o k) r
| ev_load : forall h a k o r, hload h (Some a) = Ok o -> evals al h (k o) r -> evals al h (TLoad a k) r
| ev_load_bad : forall h a k e, hload h (Some a) = Err e -> evals al h (TLoad a k) (Err e)
| ev_use : forall h a z k r, huse h (Some a) z = Ok tt -> evals al h k r -> evals al h (TUse a z k) r
| ev_use_bad : forall h a z k e, huse h (Some a) z = Err e -> evals al h (TUse a z k) (Err e)
| ev_store : forall h a o k h' r, hstore h (Some a) o = Ok h' -> evals al h' k r -> evals al h (TStore a o k) r
| ev_store_bad : forall h a o k e, hstore h (Some a) o = Err e -> evals al h (TStore a o k) (Err e)
| ev_free : forall h kd a k h' r, hfree kd h (Some a) = Ok h' -> evals al h' k r -> evals al h (TFree kd a k) r
| ev_free_bad : forall h kd a k e, hfree kd h (Some a) = Err e -> evals al h (TFree kd a k) (Err e).
(** The tree does what the heap function f does, for every allocator and every heap (Diverge: the
    fuel of f ends). *)
Definition represents {A} (t : tree A) (f : allocator -> heap -> res (A * heap)) : Prop :=
  forall al h, f al h <> Err Diverge -> evals al h t (f al h).

(** A pool of threads: one of them does its next operation.  The address of a new block is any
    address that is not in use by any thread. *)
Inductive thread_step {A} : heap -> tree A -> heap -> tree A -> Prop :=
| st_alloc : forall h o k a, hfind a h = None -> thread_step h (TAlloc o k) (hadd a o h) (k (Some a))
| st_load : forall h a k o, hload h (Some a) = Ok o -> thread_step h (TLoad a k) h (k o)
| st_load_bad : forall h a k e, hload h (Some a) = Err e -> thread_step h (TLoad a k) h (TErr e)
| st_use : forall h a z k, huse h (Some a) z = Ok tt -> thread_step h (TUse a z k) h k
| st_use_bad : forall h a z k e, huse h (Some a) z = Err e -> thread_step h (TUse a z k) h (TErr e)
| st_store : forall h a o k h', hstore h (Some a) o = Ok h' -> thread_step h (TStore a o k) h' k
| st_store_bad : forall h a o k e, hstore h (Some a) o = Err e -> thread_step h (TStore a o k) h (TErr e)
| st_free : forall h kd a k h', hfree kd h (Some a) = Ok h' -> thread_step h (TFree kd a k) h' k
| st_free_bad : forall h kd a k e, hfree kd h (Some a) = Err e -> thread_step h (TFree kd a k) h (TErr e).
(** There is no memory for the block. *)
Inductive thread_fail {A} : heap -> tree A -> heap -> tree A -> Prop :=
| st_none : forall h o k, thread_fail h (TAlloc o k) (htick h) (k None).
Definition any_step {A} (h : heap) (t : tree A) (h' : heap) (t' : tree A) : Prop := thread_step h t h' t' \/ thread_fail h t h' t'.
(** Alone on the heap h, the thread ends, whatever addresses its blocks get and whichever allocations fail. *)
Definition ends {A} (h : heap) (t : tree A) : Prop := Acc (fun c' c => any_step (fst c) (snd c) (fst c') (snd c')) (h, t).
Definition always_ends {A} (t : tree A) : Prop := forall h, ends h t.
Inductive pool_step {A} : heap * list (tree A) -> heap * list (tree A) -> Prop :=
| pool_one : forall h h' l1 t t' l2, thread_step h t h' t' -> pool_step (h, l1 ++ t :: l2) (h', l1 ++ t' :: l2).
Inductive pool_steps {A} : heap * list (tree A) -> heap * list (tree A) -> Prop :=
| pool_nil : forall c, pool_steps c c
| pool_cons : forall c c1 c2, pool_step c c1 -> pool_steps c1 c2 -> pool_steps c c2.
Definition finished {A} (t : tree A) : Prop := exists x, t = TRet x.

(** The same when memory may be exhausted; fs: the numbers of the threads of which an allocation failed. *)
Inductive pool_run_oom {A} : heap * list (tree A) -> list nat -> heap * list (tree A) -> Prop :=
| run_nil : forall c, pool_run_oom c [] c
| run_step : forall c c1 fs c2, pool_step c c1 -> pool_run_oom c1 fs c2 -> pool_run_oom c fs c2
| run_fail : forall h h' l1 t t' l2 fs c2, thread_fail h t h' t' -> pool_run_oom (h', l1 ++ t' :: l2) fs c2 ->
    pool_run_oom (h, l1 ++ t :: l2) (length l1 :: fs) c2.
(** one step of this kind: some thread does its next operation, which fails if it is an allocation or not *)
Definition pool_once {A} (c c' : heap * list (tree A)) : Prop :=
  exists l1 t t' l2, snd c = l1 ++ t :: l2 /\ snd c' = l1 ++ t' :: l2 /\ any_step (fst c) t (fst c') t'.
Definition ended {A} (t : tree A) : Prop := finished t \/ exists e, t = TErr e.
