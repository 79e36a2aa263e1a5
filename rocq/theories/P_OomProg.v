(** The heap theorems for allocators that may fail. *)
From Verif Require Import Base M_PackedArray M_Queue M_HashTable M_Induce M_Flbwt M_File M_Heap M_HeapProg
  Spec BlockSpec Histories Pool P_Lists P_Size P_Heap P_Pool P_HeapProg P_Sort P_Blocks P_Flbwt P_Props P_Props2 P_Api Sums P_Insert P_Buffer P_Oom.
From Coq Require Import FMapPositive.
Open Scope Z_scope.

(** equality of heap blocks is decidable *)
Fixpoint tree_dec {A} (Hd : forall x y : option A, {x = y} + {x <> y}) (x y : PositiveMap.tree A) : {x = y} + {x <> y}.
Proof.
  destruct x as [|l o r], y as [|l' o' r']; [left; reflexivity|right; discriminate|right; discriminate|].
  destruct (Hd o o') as [->|H]; [|right; congruence]. destruct (tree_dec A Hd l l') as [->|H]; [|right; congruence].
  destruct (tree_dec A Hd r r') as [->|H]; [left; reflexivity|right; congruence].
Defined.
Lemma field_dec : forall x y : field, {x = y} + {x <> y}.
Proof. unfold field, pointer, addr. decide equality. decide equality. apply Pos.eq_dec. Defined.
Lemma obj_dec : forall x y : obj, {x = y} + {x <> y}.
Proof.
  assert (Ha : forall x y : arr Z, {x = y} + {x <> y}) by (decide equality; [apply tree_dec; decide equality; apply Z.eq_dec|apply Z.eq_dec]).
  assert (Hp : forall x y : packed, {x = y} + {x <> y}) by (decide equality; apply Z.eq_dec).
  assert (Hr : forall x y : pointer, {x = y} + {x <> y}) by (unfold pointer, addr; decide equality; apply Pos.eq_dec).
  assert (Hq : forall x y : hqueue, {x = y} + {x <> y}) by (decide equality; apply Z.eq_dec).
  assert (Hk : forall x y : kind * Z, {x = y} + {x <> y}) by (decide equality; [apply Z.eq_dec|decide equality]).
  decide equality; apply field_dec.
Qed.
Lemma keeps_dec h0 h : {keeps h0 h} + {~ keeps h0 h}.
Proof.
  assert (Hd : forall x y : option obj, {x = y} + {x <> y}) by (decide equality; apply obj_dec).
  destruct (Forall_dec (fun x => hfind (fst x) h = Some (snd x)) (fun x => Hd _ _) (helements h0)) as [H|H].
  - left. intros a o Ha. rewrite Forall_forall in H. apply (H (a, o)). apply helements_correct, Ha.
  - right. intros Hk. apply H. apply Forall_forall. intros [a o] Hi. apply Hk. apply helements_complete, Hi.
Qed.
Lemma within_dec B h x : {within B h x} + {~ within B h x}.
Proof.
  unfold within. destruct (keeps_dec (snd B) h) as [H|H]; [|right; tauto]. destruct (fst B) as [b|]; cbn; [|left; auto].
  destruct (Z_le_dec x b); [left; auto|right; tauto].
Qed.

(** the allocator fails for a request made in a heap that meets the bound *)
Definition oom_possible (al : allocator) (B : bound) : Prop := exists h sz, al h sz = None /\ within B h (M_Heap.hsize h + sz).
(** an allocator that continues where pal fails, in the heaps that meet the bound *)
Definition continue (pal : allocator) (B : bound) : allocator := fun h sz =>
  match pal h sz with Some a => Some a | None => if within_dec B h (M_Heap.hsize h + sz) then bump h sz else None end.
Lemma continue_fresh pal B : fresh_alloc pal -> fresh_alloc (continue pal B).
Proof.
  intros H h sz a. unfold continue. destruct (pal h sz) as [x|] eqn:Ha.
  - intros Hx. inversion Hx; subst. apply (H _ _ _ Ha).
  - destruct (within_dec _ _ _); [apply bump_fresh|discriminate].
Qed.
Lemma continue_room pal B : room (continue pal B) B.
Proof. intros h sz H. unfold continue. destruct (pal h sz); [discriminate|]. destruct (within_dec _ _ _); [discriminate|contradiction]. Qed.
Lemma continue_ref pal B h sz : pal h sz = continue pal B h sz \/ (oom_possible pal B /\ pal h sz = None).
Proof.
  unfold continue. destruct (pal h sz) as [a|] eqn:Ha; [left; reflexivity|]. destruct (within_dec B h (M_Heap.hsize h + sz)) as [H|H].
  - right. split; [exists h, sz; auto|reflexivity].
  - left. reflexivity.
Qed.
Lemma continue_keeps pal b h0 h sz : pal h sz <> continue pal (b, h0) h sz -> keeps h0 h.
Proof.
  unfold continue. destruct (pal h sz) as [a|]; [congruence|]. destruct (within_dec _ _ _) as [[H _]|H]; [intros _; exact H|congruence].
Qed.
Lemma within_none h x : within (None, no_heap) h x.
Proof. split; [apply keeps_nothing|exact I]. Qed.
Lemma within_some b h x : x <= b -> within (Some b, no_heap) h x.
Proof. intros H. split; [apply keeps_nothing|exact H]. Qed.
Lemma within_self b h x : x <= b -> within (Some b, h) h x.
Proof. intros H. split; [apply keeps_refl|exact H]. Qed.

Lemma oom_request al b b' h0 : oom_possible al (Some b, h0) -> b <= b' ->
  exists h sz, al h sz = None /\ keeps h0 h /\ M_Heap.hsize h + sz <= b'.
Proof. intros (h & sz & H1 & H2 & H3) H. cbn in H2, H3. exists h, sz. split; [exact H1|]. split; [exact H2|lia]. Qed.
Lemma oom_request_any al h0 : oom_possible al (None, h0) -> exists h sz, al h sz = None /\ keeps h0 h.
Proof. intros (h & sz & H1 & H2 & _). exists h, sz. auto. Qed.

Section Oom.
Context (al : allocator) (Hal : fresh_alloc al).

(** [good]: the outcome without failure *)
Lemma split {A} B (m m' : res A) (good : A -> Prop) : oom (oom_possible al B) m m' -> (exists x, m' = Ok x /\ good x) ->
  (exists x, m = Ok x /\ good x) \/ (oom_possible al B /\ (m = Err BadAlloc \/ m = Err NullDeref)).
Proof. intros H (x & Hx & G). destruct (H x Hx) as [H1|H1]; [left; eauto|right; exact H1]. Qed.

Theorem pool_total E h0 ops s r : never_fails al -> Z.of_nat (length ops) < 2 ^ 64 -> spec_run (fun _ => None) ops = Some (s, r) ->
  exists h, pool_run al E h0 (fun _ => None) ops = Ok (h, r) /\
    (forall a, hfind a h0 <> None -> hfind a h = hfind a h0) /\
    ((forall i, s i = None) -> same_heap h h0) /\
    (forall vs, NoDup vs -> (forall i, s i <> None -> In i vs) ->
       Z.of_nat (hcount h) <= Z.of_nat (hcount h0) + fold_right Z.add 0 (map (fun i => queue_blocks (s i)) vs)).
Proof. intros Hn. apply (pool_correct al E Hal no_heap (room_none al _ Hn)). apply keeps_nothing. Qed.
Theorem pool_oom E h0 ops s r : Z.of_nat (length ops) < 2 ^ 64 -> spec_run (fun _ => None) ops = Some (s, r) ->
  (exists h, pool_run al E h0 (fun _ => None) ops = Ok (h, r)) \/
  (oom_possible al (None, h0) /\ (pool_run al E h0 (fun _ => None) ops = Err BadAlloc \/ pool_run al E h0 (fun _ => None) ops = Err NullDeref)).
Proof.
  intros Hl He. destruct (split _ _ _ (fun x => snd x = r) (oom_pool_run al _ _ (continue_ref al (None, h0)) Hal E ops h0 (fun _ => None))) as [([h x] & H & Hx)|H].
  - destruct (pool_correct _ E (continue_fresh al (None, h0) Hal) h0 (continue_room al (None, h0)) h0 ops s r (keeps_refl h0) Hl He) as (h & H & _). exists (h, r). split; [exact H|reflexivity].
  - left. cbn in Hx. subst x. exists h. exact H.
  - right. exact H.
Qed.

Section Str.
Context (E : env) (srt : sorter) (hts : Z) (T : arr Z) (l : list Z) (free_T : bool) (h : heap) (pT : addr) (kd : kind) (size : Z)
  (Hs : std_sort srt) (Hts : 1 <= hts <= 2 ^ 48) (Hb : Forall is_byte l) (Hn : 3 <= Z.of_nat (length l) <= 2 ^ 58)
  (HT : holds T (l ++ [0])) (Hf : fresh_good E hts l) (Hp : hfind pT h = Some (OOther (kd, size)))
  (Hk : free_T = true -> kd = KMalloc) (Hsz : alen T <= size).
Definition str_good (m : res (option (bwt_result * pointer * pointer) * heap)) : Prop :=
  exists r aR aB h', m = Ok (Some (r, Some aR, Some aB), h') /\
    (alen (r_BWT r) = Z.of_nat (length l) + 1 /\ is_BWT l (av (r_BWT r)) (r_last r)) /\
    heap_plus (if free_T then hremove pT h else h) [(aR, (KMalloc, 16)); (aB, (KNewArray, Z.of_nat (length l) + 1))] h'.
Let h0 := if free_T then hremove pT h else h.
Let B0 : bound := (Some (M_Heap.hsize h + budget hts (Z.of_nat (length l))), h0).
Let al0 := continue al B0.
Theorem string_oom : let m := h_bwt_string al hts E srt h (Some pT) T (Z.of_nat (length l)) free_T in
  str_good m \/ (oom_possible al B0 /\ (m = Err BadAlloc \/ m = Err NullDeref)).
Proof.
  cbv zeta.
  destruct (split B0 _ _ (fun x => str_good (Ok x)) (oom_bwt_string al al0 _ (continue_ref al B0) Hal hts E srt h (Some pT) T (Z.of_nat (length l)) free_T)) as [(x & -> & H)|H].
  - assert (G : str_good (h_bwt_string al0 hts E srt h (Some pT) T (Z.of_nat (length l)) free_T)).
    { apply (h_string_ok al0 B0 (continue_fresh al B0 Hal) (continue_room al B0) E srt hts T l free_T h pT kd size); try assumption. apply within_self. lia. }
    destruct (h_bwt_string al0 hts E srt h (Some pT) T (Z.of_nat (length l)) free_T) as [x|e].
    + exists x. split; [reflexivity|exact G].
    + destruct G as (? & ? & ? & ? & G & _). discriminate.
  - left. exact H.
  - right. exact H.
Qed.
Theorem string_total : never_fails al -> str_good (h_bwt_string al hts E srt h (Some pT) T (Z.of_nat (length l)) free_T).
Proof. intros Hnf. apply (h_string_ok al _ Hal (room_none al no_heap Hnf) E srt hts T l free_T h pT kd size); try assumption. apply within_none. Qed.
Theorem string_budget : enough al (M_Heap.hsize h + budget hts (Z.of_nat (length l))) -> str_good (h_bwt_string al hts E srt h (Some pT) T (Z.of_nat (length l)) free_T).
Proof. intros Hnf. apply (h_string_ok al _ Hal (room_some al _ no_heap Hnf) E srt hts T l free_T h pT kd size); try assumption. apply within_some. lia. Qed.
End Str.

Section File.
Context (hts : Z) (E : env) (srt : sorter) (f : io) (h : heap).
Theorem file_no_input : in_open f = false -> h_bwt_file al hts E srt h f = Ok (h, Err InvalidArgument, None).
Proof. intros H. unfold h_bwt_file, h_open. rewrite H. reflexivity. Qed.
Theorem file_no_memory : never_fails al -> in_open f = true -> malloc_ok f = false ->
  exists h', h_bwt_file al hts E srt h f = Ok (h', Err RuntimeError, None) /\ same_heap h' h.
Proof. intros Hn Hi Hm. apply (h_file_no_memory al _ Hal (room_none al no_heap Hn)); [exact Hi|exact Hm|apply within_none]. Qed.
Theorem file_nothing_read : never_fails al -> in_open f = true -> malloc_ok f = true -> in_data f = [] \/ in_tell f = 0 ->
  exists h' aT aF, h_bwt_file al hts E srt h f = Ok (h', Err RuntimeError, None) /\
    heap_plus h [(aT, (KMalloc, u64 (u64 (in_tell f) + 1))); (aF, (KFile, 0))] h'.
Proof. intros Hn Hi Hm Hd. apply (h_file_nothing_read al _ Hal (room_none al no_heap Hn)); [exact Hi|exact Hm|exact Hd|apply within_none]. Qed.
Context (Hs : std_sort srt) (Hts : 1 <= hts <= 2 ^ 48) (Hb : Forall is_byte (in_data f)) (Hn : 3 <= Z.of_nat (length (in_data f)) <= 2 ^ 58)
  (Hf : fresh_good E hts (in_data f)) (Hi : in_open f = true) (Ht : in_tell f = Z.of_nat (length (in_data f))) (Hm : malloc_ok f = true).
Definition file_good (m : res (heap * res unit * option (list Z))) : Prop :=
  exists h', m = Ok (h', Ok tt, Some (match out_limit f with None => file_output (in_data f) | Some k => firstn k (file_output (in_data f)) end)) /\ same_heap h' h.
Theorem file_total : never_fails al -> out_open f = true -> file_good (h_bwt_file al hts E srt h f).
Proof. intros Hnf Ho. apply (h_file_success al _ Hal (room_none al no_heap Hnf) hts E srt f h); try assumption. apply within_none. Qed.
Theorem file_budget : enough al (M_Heap.hsize h + (Z.of_nat (length (in_data f)) + 1) + budget hts (Z.of_nat (length (in_data f)))) ->
  out_open f = true -> file_good (h_bwt_file al hts E srt h f).
Proof. intros Hnf Ho. apply (h_file_success al _ Hal (room_some al _ no_heap Hnf) hts E srt f h); try assumption. apply within_some. lia. Qed.
Theorem file_no_output : never_fails al -> out_open f = false ->
  exists h' aR aB, h_bwt_file al hts E srt h f = Ok (h', Err InvalidArgument, None) /\
    heap_plus h [(aR, (KMalloc, 16)); (aB, (KNewArray, Z.of_nat (length (in_data f)) + 1))] h'.
Proof. intros Hnf Ho. apply (h_file_no_output al _ Hal (room_none al no_heap Hnf) hts E srt f h); try assumption. apply within_none. Qed.
Let B0 : bound := (Some (M_Heap.hsize h + (Z.of_nat (length (in_data f)) + 1) + budget hts (Z.of_nat (length (in_data f)))), h).
Let al0 := continue al B0.
Theorem file_oom : out_open f = true -> let m := h_bwt_file al hts E srt h f in
  file_good m \/ (oom_possible al B0 /\ (m = Err BadAlloc \/ m = Err NullDeref \/
    (exists h' e, m = Ok (h', Err e, None) /\ (e = InvalidArgument \/ e = RuntimeError) /\ keeps h h') \/ exists h', m = Ok (h', Err BadAlloc, Some []) /\ keeps h h')).
Proof.
  intros Ho m.
  assert (G : file_good (h_bwt_file al0 hts E srt h f)).
  { apply (h_file_success al0 B0 (continue_fresh al B0 Hal) (continue_room al B0) hts E srt f h); try assumption. apply within_self. lia. }
  destruct G as (h' & G & Gs). assert (HKr : forall sz a o, al0 h sz = Some a -> keeps h h -> keeps h (hremove a (htick (hadd a o h)))).
  { intros sz a o Ha _ b o' Hb'. pose proof (continue_fresh al B0 Hal _ _ _ Ha) as Hfr.
    assert (b <> a) by congruence. rewrite hgro, hgtick, hgso by assumption. exact Hb'. }
  destruct (oom_bwt_file al al0 _ (continue_ref al B0) Hal (keeps h) (continue_keeps al _ h) (fun _ H => H) hts E srt h f HKr (keeps_refl h) _ G) as [H|H].
  - left. exists h'. split; [exact H|exact Gs].
  - right. exact H.
Qed.
End File.
End Oom.

Lemma extract_linear E hts T l :
  1 <= hts <= 2 ^ 48 -> Forall is_byte l -> 3 <= Z.of_nat (length l) <= 2 ^ 58 -> string_at T 0 (l ++ [0]) -> fresh_good E hts l ->
  exists co h, extract_LMS_strings E hts T (Z.of_nat (length l)) = Ok co /\ c_ht co = Some h /\
    alen (ht_buf h) <= 512 * hts + 2 * Z.of_nat (length l) + 50 * Z.of_nat (length (lms_positions l)).
Proof.
  intros Hts Hb Hn HT Hf. destruct (extract_list E hts T l Hts Hb Hn HT Hf) as (co & H1 & []).
  destruct (extract_buffer2 E hts T (Z.of_nat (length l)) ltac:(lia) ltac:(lia) co H1) as (h & H2 & _ & _ & _ & _ & H3 & _).
  exists co, h. rewrite es_num in H3. auto.
Qed.
Lemma bump_bytes_ok b : fresh_alloc (bump_bytes b) /\ enough (bump_bytes b) b.
Proof. split; [apply bump_bytes_fresh|apply bump_enough]. Qed.
