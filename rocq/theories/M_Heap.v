(** The heap: which blocks are live, who releases them and how.

    M_Queue.v represents a Queue by the list of its blocks.  This file models the same class
    over the linked blocks that queue.cpp really builds: qblock structs obtained from malloc,
    PackedArrays obtained from new, prev/next pointers, free and delete, and the destructor.
    It also provides the blocks whose content is modelled elsewhere (arrays, Container,
    HashTable, ...) so that M_HeapProg.v can follow every allocation of bwt_file. *)
From Verif Require Import Base M_PackedArray M_Queue.
From Coq Require Import FMapPositive.
Open Scope Z_scope.

Definition addr := positive.
(** a pointer: None is NULL *)
Definition pointer := option addr.
(** a pointer field of a struct: None until it is first assigned *)
Definition field := option pointer.

(** include/queue.hpp:22-72 with the block pointers of the code *)
Record hqueue := mkhq { hq_n : Z; hq_w : Z; hq_sb : pointer; hq_eb : pointer; hq_s : Z; hq_e : Z }.

(** how a block was obtained *)
Inductive kind := KMalloc | KNew | KNewArray | KFile.   (* KFile: fopen, released by fclose *)
Inductive obj :=
| OBlock (prev next b : field)       (* malloc(sizeof(qblock)), include/queue.hpp:10-15 *)
| OPacked (p : packed) (w : pointer) (* new PackedArray; w: its field arr.  The words are kept in p *)
| OQueue (q : hqueue)                (* new Queue *)
| OOther (x : kind * Z).             (* a block whose content is modelled elsewhere: kind, size in bytes *)

(** The live blocks.  The clock counts the changes, so that an allocator may depend on the whole history: on its free
    lists, and on what other threads allocate and release in the meantime. *)
Record heap := mkheap { blocks : PositiveMap.t obj; clock : nat }.
Definition hempty : heap := mkheap (PositiveMap.empty obj) 0.
Definition hfind (a : addr) (h : heap) : option obj := PositiveMap.find a (blocks h).
Definition hadd (a : addr) (o : obj) (h : heap) : heap := mkheap (PositiveMap.add a o (blocks h)) (S (clock h)).
Definition hremove (a : addr) (h : heap) : heap := mkheap (PositiveMap.remove a (blocks h)) (S (clock h)).
Definition helements (h : heap) : list (addr * obj) := PositiveMap.elements (blocks h).
Definition hcount (h : heap) : nat := PositiveMap.cardinal (blocks h).
(** nothing changes but the clock: an allocation has failed, the next one may succeed *)
Definition htick (h : heap) : heap := mkheap (blocks h) (S (clock h)).
Arguments hfind : simpl never.
Lemma hgss {a o h} : hfind a (hadd a o h) = Some o. Proof. apply PositiveMap.gss. Qed.
Lemma hgso {a b} o h : a <> b -> hfind a (hadd b o h) = hfind a h. Proof. apply PositiveMap.gso. Qed.
Lemma hgrs {a h} : hfind a (hremove a h) = None. Proof. apply PositiveMap.grs. Qed.
Lemma hgro {a b h} : a <> b -> hfind a (hremove b h) = hfind a h. Proof. apply PositiveMap.gro. Qed.
Lemma hgtick {a h} : hfind a (htick h) = hfind a h. Proof. reflexivity. Qed.
Lemma hgempty {a} : hfind a hempty = None. Proof. apply PositiveMap.gempty. Qed.
Lemma helements_correct {h a o} : hfind a h = Some o -> In (a, o) (helements h). Proof. apply PositiveMap.elements_correct. Qed.
Lemma helements_complete {h a o} : In (a, o) (helements h) -> hfind a h = Some o. Proof. apply PositiveMap.elements_complete. Qed.
Lemma hcount_1 h : hcount h = length (helements h). Proof. apply PositiveMap.cardinal_1. Qed.

Definition kind_of (o : obj) : kind :=
  match o with OBlock _ _ _ => KMalloc | OPacked _ _ => KNew | OQueue _ => KNew | OOther x => fst x end.
(** sizes in bytes on LP64: qblock (include/queue.hpp:10-15), PackedArray
    (include/packed_array.hpp:70-75), Queue (include/queue.hpp:65-71) *)
Definition osize (o : obj) : Z :=
  match o with OBlock _ _ _ => 24 | OPacked _ _ => 32 | OQueue _ => 56 | OOther x => snd x end.
(** bytes of all live blocks *)
Definition hsize (h : heap) : Z := fold_right (fun x s => osize (snd x) + s) 0 (helements h).
(** the address chosen for a block of a given size, as a function of the live blocks and the history; None: no memory *)
Definition allocator := heap -> Z -> option addr.
Definition kind_eqb (a b : kind) : bool :=
  match a, b with KMalloc, KMalloc => true | KNew, KNew => true | KNewArray, KNewArray => true | KFile, KFile => true | _, _ => false end.

Section Heap.
Context (al : allocator).

(** malloc returns NULL when there is no memory *)
Definition hmalloc (h : heap) (o : obj) : pointer * heap :=
  match al h (osize o) with None => (None, htick h) | Some a => (Some a, hadd a o h) end.
(** new and new[] throw std::bad_alloc *)
Definition hnew (h : heap) (o : obj) : res (addr * heap) :=
  match al h (osize o) with None => Err BadAlloc | Some a => Ok (a, hadd a o h) end.
(** the first use of memory obtained from malloc without a check *)
Definition deref (p : pointer) : res addr := match p with None => Err NullDeref | Some a => Ok a end.
(** load the object a pointer points to; the contents of the other blocks are modelled elsewhere *)
Definition hload (h : heap) (p : pointer) : res obj :=
  match p with
  | None => Err NullDeref
  | Some a => match hfind a h with None | Some (OOther _) => Err BadPointer | Some o => Ok o end
  end.
(** access to [need] bytes of a block whose contents are modelled elsewhere: it must be alive and that large *)
Definition huse (h : heap) (p : pointer) (need : Z) : res unit :=
  match p with
  | None => Err NullDeref
  | Some a => match hfind a h with None => Err BadPointer | Some o => if osize o <? need then Err OutOfBounds else Ok tt end
  end.
(** store to a live block that holds an object; the contents of the other blocks are modelled elsewhere *)
Definition hstore (h : heap) (p : pointer) (o : obj) : res heap :=
  match p with
  | None => Err NullDeref
  | Some a => match hfind a h with None | Some (OOther _) => Err BadPointer | Some _ => Ok (hadd a o h) end
  end.
(** free (KMalloc), delete (KNew), delete[] (KNewArray), fclose (KFile); releasing NULL does nothing *)
Definition hfree (k : kind) (h : heap) (p : pointer) : res heap :=
  match p with
  | None => Ok h
  | Some a => match hfind a h with
              | Some o => if kind_eqb (kind_of o) k then Ok (hremove a h) else Err BadPointer
              | None => Err BadPointer
              end
  end.

(** fields of *p, p : qblock* *)
Definition as_field (f : field) : res pointer := match f with Some p => Ok p | None => Err Uninit end.
Definition get_next (h : heap) (p : pointer) : res pointer :=
  o <- hload h p ;; match o with OBlock _ n _ => as_field n | _ => Err BadPointer end.
Definition get_b (h : heap) (p : pointer) : res pointer :=
  o <- hload h p ;; match o with OBlock _ _ b => as_field b | _ => Err BadPointer end.
Definition set_prev (h : heap) (p v : pointer) : res heap :=
  o <- hload h p ;; match o with OBlock _ n b => hstore h p (OBlock (Some v) n b) | _ => Err BadPointer end.
Definition set_next (h : heap) (p v : pointer) : res heap :=
  o <- hload h p ;; match o with OBlock q _ b => hstore h p (OBlock q (Some v) b) | _ => Err BadPointer end.
Definition set_b (h : heap) (p v : pointer) : res heap :=
  o <- hload h p ;; match o with OBlock q n _ => hstore h p (OBlock q n (Some v)) | _ => Err BadPointer end.
(** src/packed_array.cpp:6-16 new PackedArray(length, bits): the object, then its words; the result
    of the malloc is not checked *)
Definition pa_bytes (p : packed) : Z := 8 * alen (pa_arr p).
Definition new_packed (h : heap) (length bits : Z) : res (addr * heap) :=
  let p := pa_new length bits in
  '(a, h) <- hnew h (OPacked p None) ;;
  let '(w, h) := hmalloc h (OOther (KMalloc, pa_bytes p)) in
  h <- hstore h (Some a) (OPacked p w) ;; Ok (a, h).
(** p->set_value(i, x) and p->get_value(i), p : PackedArray*; the words are accessed through arr *)
Definition pa_set_at (E : env) (h : heap) (p : pointer) (i x : Z) : res heap :=
  o <- hload h p ;; match o with OPacked a w => _ <- huse h w (pa_bytes a) ;; a' <- pa_set E a i x ;; hstore h p (OPacked a' w) | _ => Err BadPointer end.
Definition pa_get_at (E : env) (h : heap) (p : pointer) (i : Z) : res Z :=
  o <- hload h p ;; match o with OPacked a w => _ <- huse h w (pa_bytes a) ;; pa_get E a i | _ => Err BadPointer end.
(** delete p, p : PackedArray*; src/packed_array.cpp:87-90 *)
Definition delete_packed (h : heap) (p : pointer) : res heap :=
  match p with
  | None => Ok h
  | Some _ => o <- hload h p ;; match o with OPacked _ w => h <- hfree KMalloc h w ;; hfree KNew h p | _ => Err BadPointer end
  end.

(** src/queue.cpp:6-14 *)
Definition hq_new (w : Z) : hqueue := mkhq 0 w None None 0 (QSIZ - 1).

(** src/queue.cpp:39-40, 69-70: qb = malloc(sizeof(qblock)); qb->b = new PackedArray(QSIZ, w) *)
Definition new_block (h : heap) (w : Z) : res (heap * pointer) :=
  let '(qb, h) := hmalloc h (OBlock None None None) in
  '(pa, h) <- new_packed h QSIZ w ;;
  h <- set_b h qb (Some pa) ;; Ok (h, qb).

(** src/queue.cpp:33-61 *)
Definition hq_enqueue (E : env) (h : heap) (q : hqueue) (x : Z) : res (heap * hqueue) :=
  '(h, sb, eb, s, e) <-
    (if hq_e q =? QSIZ - 1 then
       '(h, qb) <- new_block h (hq_w q) ;;
       match hq_eb q with
       | None =>
         h <- set_next h qb None ;; h <- set_prev h qb None ;;
         Ok (h, qb, qb, 0, -1)
       | Some _ =>
         h <- set_next h (hq_eb q) qb ;;
         h <- set_prev h qb (hq_eb q) ;;
         h <- set_next h qb None ;;
         Ok (h, hq_sb q, qb, hq_s q, -1)
       end
     else Ok (h, hq_sb q, hq_eb q, hq_s q, hq_e q)) ;;
  let e := e + 1 in
  b <- get_b h eb ;;
  h <- pa_set_at E h b e x ;;
  Ok (h, mkhq (u64 (hq_n q + 1)) (hq_w q) sb eb s e).

(** src/queue.cpp:63-91 *)
Definition hq_enqueue_l (E : env) (h : heap) (q : hqueue) (x : Z) : res (heap * hqueue) :=
  '(h, sb, eb, s, e) <-
    (if hq_s q =? 0 then
       '(h, qb) <- new_block h (hq_w q) ;;
       match hq_sb q with
       | None =>
         h <- set_next h qb None ;; h <- set_prev h qb None ;;
         Ok (h, qb, qb, QSIZ, QSIZ - 1)
       | Some _ =>
         h <- set_prev h (hq_sb q) qb ;;
         h <- set_next h qb (hq_sb q) ;;
         h <- set_prev h qb None ;;
         Ok (h, qb, hq_eb q, QSIZ, hq_e q)
       end
     else Ok (h, hq_sb q, hq_eb q, hq_s q, hq_e q)) ;;
  let s := s - 1 in
  b <- get_b h sb ;;
  h <- pa_set_at E h b s x ;;
  Ok (h, mkhq (u64 (hq_n q + 1)) (hq_w q) sb eb s e).

(** src/queue.cpp:93-121 *)
Definition hq_dequeue (E : env) (h : heap) (q : hqueue) : res (Z * heap * hqueue) :=
  b <- get_b h (hq_sb q) ;;
  v <- pa_get_at E h b (hq_s q) ;;
  let x := swrap 64 v in
  let s := hq_s q + 1 in
  '(h, sb, eb, s, e) <-
    (if s =? QSIZ then
       let qb := hq_sb q in
       sb <- get_next h qb ;;
       b <- get_b h qb ;;
       h <- delete_packed h b ;;
       h <- hfree KMalloc h qb ;;
       match sb with
       | None => Ok (h, None, None, 0, QSIZ - 1)
       | Some _ => h <- set_prev h sb None ;; Ok (h, sb, hq_eb q, 0, hq_e q)
       end
     else Ok (h, hq_sb q, hq_eb q, s, hq_e q)) ;;
  Ok (x, h, mkhq (u64 (hq_n q - 1)) (hq_w q) sb eb s e).

(** src/queue.cpp:123-126 *)
Definition hq_is_empty (q : hqueue) : bool := hq_n q =? 0.

(** src/queue.cpp:16-31 the loop of the destructor.  A block visited twice would be an error,
    so the number of live blocks bounds the number of rounds. *)
Definition hq_destroy (h : heap) (q : hqueue) : res heap :=
  loop (S (hcount h)) (fun '(h, qb) =>
    match qb with
    | None => Ok (inr h)
    | Some _ =>
      q <- get_next h qb ;;
      b <- get_b h qb ;;
      h <- delete_packed h b ;;
      h <- hfree KMalloc h qb ;;
      Ok (inl (h, q))
    end) (h, hq_sb q).

(** * Queue objects behind pointers *)
Definition load_queue (h : heap) (p : pointer) : res hqueue :=
  o <- hload h p ;; match o with OQueue q => Ok q | _ => Err BadPointer end.
(** new Queue(w) *)
Definition new_queue (h : heap) (w : Z) : res (addr * heap) := hnew h (OQueue (hq_new w)).
(** p->enqueue(x), p->enqueue_l(x), p->dequeue(), p->is_empty() *)
Definition p_enqueue (E : env) (h : heap) (p : pointer) (x : Z) : res heap :=
  q <- load_queue h p ;; '(h, q) <- hq_enqueue E h q x ;; hstore h p (OQueue q).
Definition p_enqueue_l (E : env) (h : heap) (p : pointer) (x : Z) : res heap :=
  q <- load_queue h p ;; '(h, q) <- hq_enqueue_l E h q x ;; hstore h p (OQueue q).
Definition p_dequeue (E : env) (h : heap) (p : pointer) : res (Z * heap) :=
  q <- load_queue h p ;; '(x, h, q) <- hq_dequeue E h q ;; h <- hstore h p (OQueue q) ;; Ok (x, h).
Definition p_is_empty (h : heap) (p : pointer) : res bool :=
  q <- load_queue h p ;; Ok (hq_is_empty q).
(** delete p: destructor, then release *)
Definition delete_queue (h : heap) (p : pointer) : res heap :=
  q <- load_queue h p ;; h <- hq_destroy h q ;; hfree KNew h p.
End Heap.
