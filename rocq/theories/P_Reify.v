(** Every heap function of M_Heap.v and M_HeapProg.v is represented by a tree of heap operations. *)
From Verif Require Import Base M_PackedArray M_Queue M_HashTable M_Cells M_Sais M_Split M_Induce M_Flbwt M_File M_Heap M_HeapProg Threads P_Size.
Open Scope Z_scope.

Definition tid {A} (t : tree A) : tree A :=
  match t with
  | TRet x => TRet x | TErr e => TErr e | TAlloc o k => TAlloc o k | TLoad a k => TLoad a k
  | TUse a z k => TUse a z k | TStore a o k => TStore a o k | TFree kd a k => TFree kd a k
  end.
Lemma tid_eq {A} (t : tree A) : t = tid t.
Proof. destruct t; reflexivity. Qed.
CoFixpoint tbind {A B} (t : tree A) (f : A -> tree B) : tree B :=
  match t with
  | TRet x => f x
  | TErr e => TErr e
  | TAlloc o k => TAlloc o (fun x => tbind (k x) f)
  | TLoad a k => TLoad a (fun x => tbind (k x) f)
  | TUse a z k => TUse a z (tbind k f)
  | TStore a o k => TStore a o (tbind k f)
  | TFree kd a k => TFree kd a (tbind k f)
  end.
Lemma tbind_ret {A B} (x : A) (f : A -> tree B) : tbind (TRet x) f = f x.
Proof. rewrite (tid_eq (tbind _ _)), (tid_eq (f x)). reflexivity. Qed.
Lemma bind_ok {A B} al (f : A -> tree B) h t r : evals al h t r ->
  match r with
  | Ok (x, h1) => forall r', evals al h1 (f x) r' -> evals al h (tbind t f) r'
  | Err e => evals al h (tbind t f) (Err e)
  end.
Proof.
  induction 1; [intros r' H; rewrite tbind_ret; exact H|..]; rewrite (tid_eq (tbind _ f)); cbn.
  - constructor.
  - destruct r as [[x h1]|e]; [intros r' H'; apply ev_none; auto|apply ev_none; auto].
  - destruct r as [[x h1]|e]; [intros r' H'; eapply ev_some; eauto|eapply ev_some; eauto].
  - destruct r as [[x h1]|e]; [intros r' H'; eapply ev_load; eauto|eapply ev_load; eauto].
  - apply ev_load_bad. assumption.
  - destruct r as [[x h1]|e]; [intros r' H'; apply ev_use; auto|apply ev_use; auto].
  - apply ev_use_bad. assumption.
  - destruct r as [[x h1]|e]; [intros r' H'; eapply ev_store; eauto|eapply ev_store; eauto].
  - apply ev_store_bad. assumption.
  - destruct r as [[x h1]|e]; [intros r' H'; eapply ev_free; eauto|eapply ev_free; eauto].
  - apply ev_free_bad. assumption.
Qed.

(** f is represented by t; pack: how the value and the heap make up the result of f *)
Definition rep {A R} (pack : A -> heap -> R) (f : allocator -> heap -> res R) (t : tree A) : Prop :=
  forall al h, match f al h with
               | Ok r => exists a h', evals al h t (Ok (a, h')) /\ r = pack a h'
               | Err e => e <> Diverge -> evals al h t (Err e)
               end.
Definition reif {A R} (pack : A -> heap -> R) (f : allocator -> heap -> res R) : Type := { t : tree A | rep pack f t /\ always_ends t }.
Definition reads {A} (f : heap -> res A) : Type := { t : tree A | (forall al h,
  match f h with Ok x => evals al h t (Ok (x, h)) | Err e => e <> Diverge -> evals al h t (Err e) end) /\ always_ends t }.

(** every tree ends *)
Lemma total_ret {A} (x : A) : always_ends (TRet x).
Proof. intros h. constructor. intros [h' t'] [H|H]; inversion H. Qed.
Lemma total_err {A} e : always_ends (TErr e : tree A).
Proof. intros h. constructor. intros [h' t'] [H|H]; inversion H. Qed.
Lemma total_alloc {A} o (k : option addr -> tree A) : (forall a, always_ends (k a)) -> always_ends (TAlloc o k).
Proof. intros Hk h. constructor. intros [h' t'] [H|H]; cbn in H; inversion H; subst; apply Hk. Qed.
Lemma total_load {A} a (k : obj -> tree A) : (forall o, always_ends (k o)) -> always_ends (TLoad a k).
Proof. intros Hk h. constructor. intros [h' t'] [H|H]; cbn in H; inversion H; subst; [apply Hk|apply total_err]. Qed.
Lemma total_use {A} a z (k : tree A) : always_ends k -> always_ends (TUse a z k).
Proof. intros Hk h. constructor. intros [h' t'] [H|H]; cbn in H; inversion H; subst; [apply Hk|apply total_err]. Qed.
Lemma total_store {A} a o (k : tree A) : always_ends k -> always_ends (TStore a o k).
Proof. intros Hk h. constructor. intros [h' t'] [H|H]; cbn in H; inversion H; subst; [apply Hk|apply total_err]. Qed.
Lemma total_free {A} kd a (k : tree A) : always_ends k -> always_ends (TFree kd a k).
Proof. intros Hk h. constructor. intros [h' t'] [H|H]; cbn in H; inversion H; subst; [apply Hk|apply total_err]. Qed.
Lemma ends_bind {A B} (f : A -> tree B) (c : heap * tree A) : Acc (fun c' c => any_step (fst c) (snd c) (fst c') (snd c')) c ->
  (forall x, always_ends (f x)) -> ends (fst c) (tbind (snd c) f).
Proof.
  intros Ha Hf. induction Ha as [[h t] _ IH]. cbn [fst snd] in *. destruct t as [x|e|o k|a k|a z k|a o k|kd a k].
  - rewrite tbind_ret. apply Hf.
  - rewrite (tid_eq (tbind _ f)). cbn. apply total_err.
  - rewrite (tid_eq (tbind _ f)). cbn. constructor. intros [h' t'] [H|H]; cbn in H; inversion H; subst.
    + apply (IH (_, _)). left. cbn. constructor. assumption.
    + apply (IH (_, _)). right. cbn. constructor.
  - rewrite (tid_eq (tbind _ f)). cbn. constructor. intros [h' t'] [H|H]; cbn in H; inversion H; subst; [|apply total_err].
    apply (IH (_, _)). left. cbn. constructor. assumption.
  - rewrite (tid_eq (tbind _ f)). cbn. constructor. intros [h' t'] [H|H]; cbn in H; inversion H; subst; [|apply total_err].
    apply (IH (_, _)). left. cbn. constructor. assumption.
  - rewrite (tid_eq (tbind _ f)). cbn. constructor. intros [h' t'] [H|H]; cbn in H; inversion H; subst; [|apply total_err].
    apply (IH (_, _)). left. cbn. econstructor. eassumption.
  - rewrite (tid_eq (tbind _ f)). cbn. constructor. intros [h' t'] [H|H]; cbn in H; inversion H; subst; [|apply total_err].
    apply (IH (_, _)). left. cbn. econstructor. eassumption.
Qed.
Lemma total_bind {A B} (t : tree A) (f : A -> tree B) : always_ends t -> (forall x, always_ends (f x)) -> always_ends (tbind t f).
Proof. intros Ht Hf h. exact (ends_bind f (h, t) (Ht h) Hf). Qed.

Section Comb.
Context {A R : Type} (pack : A -> heap -> R).
Lemma reif_ret a : reif pack (fun _ h => Ok (pack a h)).
Proof. exists (TRet a). split; [|apply total_ret]. intros al h. exists a, h. split; [constructor|reflexivity]. Qed.
Lemma reif_err e : reif pack (fun _ _ => Err e).
Proof. exists (TErr e). split; [|apply total_err]. intros al h _. constructor. Qed.
Lemma reif_bind {B S} (pack1 : B -> heap -> S) f g : reif pack1 f -> (forall b, reif pack (fun al h => g al (pack1 b h))) ->
  reif pack (fun al h => bind (f al h) (g al)).
Proof.
  intros [t [Ht Tt]] Hg. exists (tbind t (fun b => proj1_sig (Hg b))). split; [|apply total_bind; [exact Tt|intros b; exact (proj2 (proj2_sig (Hg b)))]]. intros al h. specialize (Ht al h).
  destruct (f al h) as [r|e]; cbn [bind].
  - destruct Ht as (b & h1 & Ht & ->). pose proof (proj1 (proj2_sig (Hg b)) al h1) as H1. cbv beta in H1. destruct (g al (pack1 b h1)) as [r|e].
    + destruct H1 as (a & h2 & H1 & ->). exists a, h2. split; [|reflexivity]. apply (bind_ok al _ h t _ Ht). exact H1.
    + intros He. apply (bind_ok al _ h t _ Ht). exact (H1 He).
  - intros He. apply (bind_ok al _ h t _ (Ht He)).
Qed.
Lemma reif_read {X} f (g : allocator -> X -> heap -> res R) : reads f -> (forall x, reif pack (fun al h => g al x h)) ->
  reif pack (fun al h => bind (f h) (fun x => g al x h)).
Proof.
  intros [t [Ht Tt]] Hg. exists (tbind t (fun b => proj1_sig (Hg b))). split; [|apply total_bind; [exact Tt|intros b; exact (proj2 (proj2_sig (Hg b)))]]. intros al h. specialize (Ht al h).
  destruct (f h) as [x|e]; cbn [bind].
  - pose proof (proj1 (proj2_sig (Hg x)) al h) as H1. cbv beta in H1. destruct (g al x h) as [r|e].
    + destruct H1 as (a & h2 & H1 & ->). exists a, h2. split; [|reflexivity]. apply (bind_ok al _ h t _ Ht). exact H1.
    + intros He. apply (bind_ok al _ h t _ Ht). exact (H1 He).
  - intros He. apply (bind_ok al _ h t _ (Ht He)).
Qed.
Lemma reif_pure {X} (m : res X) (g : allocator -> X -> heap -> res R) : (forall x, reif pack (fun al h => g al x h)) ->
  reif pack (fun al h => bind m (fun x => g al x h)).
Proof. intros Hg. destruct m as [x|e]; cbn [bind]; [apply Hg|apply reif_err]. Qed.
Lemma reif_malloc o (g : allocator -> pointer -> heap -> res R) : (forall p, reif pack (fun al h => g al p h)) ->
  reif pack (fun al h => let '(p, h') := hmalloc al h o in g al p h').
Proof.
  intros Hg. exists (TAlloc o (fun p => proj1_sig (Hg p))). split; [|apply total_alloc; intros b; exact (proj2 (proj2_sig (Hg b)))]. intros al h. unfold hmalloc. destruct (al h (osize o)) as [a|] eqn:Ha.
  - pose proof (proj1 (proj2_sig (Hg (Some a))) al (hadd a o h)) as H. cbv beta in H. destruct (g al (Some a) _) as [r|e].
    + destruct H as (x & h2 & H & ->). exists x, h2. split; [|reflexivity]. eapply ev_some; [exact Ha|]. exact H.
    + intros He. eapply ev_some; [exact Ha|]. exact (H He).
  - pose proof (proj1 (proj2_sig (Hg None)) al (htick h)) as H. cbv beta in H. destruct (g al None _) as [r|e].
    + destruct H as (x & h2 & H & ->). exists x, h2. split; [|reflexivity]. eapply ev_none; [exact Ha|]. exact H.
    + intros He. eapply ev_none; [exact Ha|]. exact (H He).
Qed.
Lemma reif_alloc o (g : allocator -> addr -> heap -> res R) (g0 : allocator -> heap -> res R) :
  (forall a, reif pack (fun al h => g al a h)) -> reif pack g0 ->
  reif pack (fun al h => match hmalloc al h o with (None, h') => g0 al h' | (Some a, h') => g al a h' end).
Proof.
  intros Hg [t0 [H0 T0]]. exists (TAlloc o (fun p => match p with None => t0 | Some a => proj1_sig (Hg a) end)). split; [|apply total_alloc; intros [b|]; [exact (proj2 (proj2_sig (Hg b)))|exact T0]]. intros al h. unfold hmalloc.
  destruct (al h (osize o)) as [a|] eqn:Ha.
  - pose proof (proj1 (proj2_sig (Hg a)) al (hadd a o h)) as H. cbv beta in H. destruct (g al a _) as [r|e].
    + destruct H as (x & h2 & H & ->). exists x, h2. split; [|reflexivity]. eapply ev_some; [exact Ha|]. exact H.
    + intros He. eapply ev_some; [exact Ha|]. exact (H He).
  - specialize (H0 al (htick h)). destruct (g0 al (htick h)) as [r|e].
    + destruct H0 as (x & h2 & H & ->). exists x, h2. split; [|reflexivity]. eapply ev_none; [exact Ha|exact H].
    + intros He. eapply ev_none; [exact Ha|exact (H0 He)].
Qed.
Lemma reif_map {B} (c : B -> A) f : reif (fun b => pack (c b)) f -> reif pack f.
Proof.
  intros [t [Ht Tt]]. exists (tbind t (fun b => TRet (c b))). split; [|apply total_bind; [exact Tt|intros; apply total_ret]]. intros al h. specialize (Ht al h). destruct (f al h) as [r|e].
  - destruct Ht as (b & h1 & Ht & ->). exists (c b), h1. split; [|reflexivity]. apply (bind_ok al _ h t _ Ht). constructor.
  - intros He. apply (bind_ok al _ h t _ (Ht He)).
Qed.
Lemma reif_for (body : allocator -> Z -> R -> res R) : (forall i a, reif pack (fun al h => body al i (pack a h))) ->
  forall c i a, reif pack (fun al h => for_n c i (body al) (pack a h)).
Proof.
  intros Hb. induction c as [|c IH]; intros i a; cbn [for_n]; [apply reif_ret|].
  exact (reif_bind pack _ (fun al s => for_n c (i + 1) (body al) s) (Hb i a) (fun b => IH (i + 1) b)).
Qed.
Lemma reif_ford (body : allocator -> Z -> R -> res R) : (forall i a, reif pack (fun al h => body al i (pack a h))) ->
  forall c i a, reif pack (fun al h => ford_n c i (body al) (pack a h)).
Proof.
  intros Hb. induction c as [|c IH]; intros i a; cbn [ford_n]; [apply reif_ret|].
  exact (reif_bind pack _ (fun al s => ford_n c (i - 1) (body al) s) (Hb i a) (fun b => IH (i - 1) b)).
Qed.
Lemma reif_for_up (body : allocator -> Z -> R -> res R) lo hi a : (forall i a, reif pack (fun al h => body al i (pack a h))) ->
  reif pack (fun al h => for_up lo hi (body al) (pack a h)).
Proof. intros Hb. apply (reif_for body Hb). Qed.
Lemma reif_for_down (body : allocator -> Z -> R -> res R) hi lo a : (forall i a, reif pack (fun al h => body al i (pack a h))) ->
  reif pack (fun al h => for_down hi lo (body al) (pack a h)).
Proof. intros Hb. apply (reif_ford body Hb). Qed.
End Comb.
Lemma reif_loop {A B S R} (packS : A -> heap -> S) (packR : B -> heap -> R) (step : allocator -> S -> res (S + R)) :
  (forall a, reif (fun (x : A + B) h => match x with inl a => inl (packS a h) | inr b => inr (packR b h) end) (fun al h => step al (packS a h))) ->
  forall fuel a, reif packR (fun al h => loop fuel (step al) (packS a h)).
Proof.
  intros Hs. induction fuel as [|f IH]; intros a; cbn [loop]; [apply reif_err|].
  apply (reif_bind packR _ _ (fun al x => match x with inl s' => loop f (step al) s' | inr r => Ok r end) (Hs a)).
  intros [a'|b]; [apply IH|apply reif_ret].
Qed.

Section Reads.
Lemma reads_ret {A} (x : A) : reads (fun _ => Ok x).
Proof. exists (TRet x). split; [intros; constructor|apply total_ret]. Qed.
Lemma reads_err {A} e : reads (fun _ => Err e : res A).
Proof. exists (TErr e). split; [intros; constructor|apply total_err]. Qed.
Lemma reads_load p : reads (fun h => hload h p).
Proof.
  destruct p as [a|]; [|apply reads_err]. exists (TLoad a (fun o => TRet o)). split; [|apply total_load; intros; apply total_ret]. intros al h. destruct (hload h (Some a)) as [o|e] eqn:H.
  - eapply ev_load; [exact H|constructor].
  - intros _. apply ev_load_bad, H.
Qed.
Lemma reads_use p z : reads (fun h => huse h p z).
Proof.
  destruct p as [a|]; [|apply reads_err]. exists (TUse a z (TRet tt)). split; [|apply total_use, total_ret]. intros al h. destruct (huse h (Some a) z) as [[]|e] eqn:H.
  - eapply ev_use; [exact H|constructor].
  - intros _. apply ev_use_bad, H.
Qed.
Lemma reads_bind {A B} (f : heap -> res A) (g : A -> heap -> res B) : reads f -> (forall x, reads (g x)) -> reads (fun h => bind (f h) (fun x => g x h)).
Proof.
  intros [t [Ht Tt]] Hg. exists (tbind t (fun b => proj1_sig (Hg b))). split; [|apply total_bind; [exact Tt|intros b; exact (proj2 (proj2_sig (Hg b)))]]. intros al h. specialize (Ht al h).
  destruct (f h) as [x|e]; cbn [bind].
  - pose proof (proj1 (proj2_sig (Hg x)) al h) as H1. cbv beta in H1. destruct (g x h) as [r|e].
    + apply (bind_ok al _ h t _ Ht). exact H1.
    + intros He. apply (bind_ok al _ h t _ Ht). exact (H1 He).
  - intros He. apply (bind_ok al _ h t _ (Ht He)).
Qed.
Lemma reads_pure {A B} (m : res A) (g : A -> heap -> res B) : (forall x, reads (g x)) -> reads (fun h => bind m (fun x => g x h)).
Proof. intros Hg. destruct m as [x|e]; cbn [bind]; [apply Hg|apply reads_err]. Qed.
Lemma reads_const {A} (m : res A) : reads (fun _ => m).
Proof. destruct m; [apply reads_ret|apply reads_err]. Qed.
End Reads.

Definition ph (_ : unit) (h : heap) : heap := h.
Definition pr {A} (a : A) (h : heap) : A * heap := (a, h).
Lemma reif_store p o : reif ph (fun _ h => hstore h p o).
Proof.
  destruct p as [a|]; [|apply reif_err]. exists (TStore a o (TRet tt)). split; [|apply total_store, total_ret]. intros al h. destruct (hstore h (Some a) o) as [h'|e] eqn:H.
  - exists tt, h'. split; [eapply ev_store; [exact H|constructor]|reflexivity].
  - intros _. apply ev_store_bad, H.
Qed.
Lemma reif_free kd p : reif ph (fun _ h => hfree kd h p).
Proof.
  destruct p as [a|]; [|exact (reif_ret ph tt)]. exists (TFree kd a (TRet tt)). split; [|apply total_free, total_ret]. intros al h. destruct (hfree kd h (Some a)) as [h'|e] eqn:H.
  - exists tt, h'. split; [eapply ev_free; [exact H|constructor]|reflexivity].
  - intros _. apply ev_free_bad, H.
Qed.
Lemma reif_new o : reif pr (fun al h => hnew al h o).
Proof.
  unfold hnew. exists (TAlloc o (fun p => match p with None => TErr BadAlloc | Some a => TRet a end)). split; [|apply total_alloc; intros [b|]; [apply total_ret|apply total_err]]. intros al h.
  destruct (al h (osize o)) as [a|] eqn:Ha.
  - exists a, (hadd a o h). split; [eapply ev_some; [exact Ha|constructor]|reflexivity].
  - intros _. eapply ev_none; [exact Ha|constructor].
Qed.

(** * M_Heap.v *)
Lemma r_next p : reads (fun h => get_next h p).
Proof. unfold get_next. apply reads_bind; [apply reads_load|]. intros [?|?|?|?]; try apply reads_err. apply reads_const. Qed.
Lemma r_b p : reads (fun h => get_b h p).
Proof. unfold get_b. apply reads_bind; [apply reads_load|]. intros [?|?|?|?]; try apply reads_err. apply reads_const. Qed.
Lemma f_set_prev p v : reif ph (fun _ h => set_prev h p v).
Proof. unfold set_prev. apply (reif_read ph (fun h => hload h p)); [apply reads_load|]. intros [?|?|?|?]; try apply reif_err. apply reif_store. Qed.
Lemma f_set_next p v : reif ph (fun _ h => set_next h p v).
Proof. unfold set_next. apply (reif_read ph (fun h => hload h p)); [apply reads_load|]. intros [?|?|?|?]; try apply reif_err. apply reif_store. Qed.
Lemma f_set_b p v : reif ph (fun _ h => set_b h p v).
Proof. unfold set_b. apply (reif_read ph (fun h => hload h p)); [apply reads_load|]. intros [?|?|?|?]; try apply reif_err. apply reif_store. Qed.
Lemma f_new_packed len b : reif pr (fun al h => new_packed al h len b).
Proof.
  unfold new_packed. apply (reif_bind _ pr); [apply reif_new|]. intros a. cbn [pr]. apply reif_malloc. intros w.
  apply (reif_bind _ ph _ (fun al h => Ok (a, h))); [apply reif_store|]. intros []. exact (reif_ret pr a).
Qed.
Lemma f_pa_set E p i x : reif ph (fun _ h => pa_set_at E h p i x).
Proof.
  unfold pa_set_at. apply (reif_read _ (fun h => hload h p)); [apply reads_load|]. intros [?|a w|?|?]; try apply reif_err.
  apply (reif_read _ (fun h => huse h w (pa_bytes a))); [apply reads_use|]. intros _. apply reif_pure. intros a'. apply reif_store.
Qed.
Lemma r_pa_get E p i : reads (fun h => pa_get_at E h p i).
Proof.
  unfold pa_get_at. apply reads_bind; [apply reads_load|]. intros [?|a w|?|?]; try apply reads_err.
  apply reads_bind; [apply reads_use|]. intros _. apply reads_const.
Qed.
Lemma f_delete_packed p : reif ph (fun _ h => delete_packed h p).
Proof.
  unfold delete_packed. destruct p as [a|]; [|exact (reif_ret ph tt)].
  apply (reif_read _ (fun h => hload h (Some a))); [apply reads_load|]. intros [?|? w|?|?]; try apply reif_err.
  apply (reif_bind _ ph _ (fun al h => hfree KNew h (Some a))); [apply reif_free|]. intros []. apply reif_free.
Qed.
Definition php {A} (a : A) (h : heap) : heap * A := (h, a).
Lemma f_new_block w : reif php (fun al h => new_block al h w).
Proof.
  unfold new_block. apply reif_malloc. intros qb. apply (reif_bind _ pr); [apply f_new_packed|]. intros pa. cbn [pr].
  apply (reif_bind _ ph _ (fun al h => Ok (h, qb))); [apply f_set_b|]. intros []. exact (reif_ret php qb).
Qed.
Lemma f_enqueue E q x : reif php (fun al h => hq_enqueue al E h q x).
Proof.
  unfold hq_enqueue.
  apply (reif_bind _ (fun '(sb, eb, s, e) h => (h, sb, eb, s, e)) _ (fun al '(h, sb, eb, s, e) =>
    let e := e + 1 in b <- get_b h eb ;; h <- pa_set_at E h b e x ;; Ok (h, mkhq (u64 (hq_n q + 1)) (hq_w q) sb eb s e))).
  - destruct (hq_e q =? QSIZ - 1); [|exact (reif_ret _ (hq_sb q, hq_eb q, hq_s q, hq_e q))].
    apply (reif_bind _ php); [apply f_new_block|]. intros qb. cbn [php]. destruct (hq_eb q) as [eb|].
    + apply (reif_bind _ ph _ (fun al h => h <- set_prev h qb (Some eb) ;; h <- set_next h qb None ;; Ok (h, hq_sb q, qb, hq_s q, -1))); [apply f_set_next|]. intros [].
      apply (reif_bind _ ph _ (fun al h => h <- set_next h qb None ;; Ok (h, hq_sb q, qb, hq_s q, -1))); [apply f_set_prev|]. intros [].
      apply (reif_bind _ ph _ (fun al h => Ok (h, hq_sb q, qb, hq_s q, -1))); [apply f_set_next|]. intros [].
      exact (reif_ret _ (hq_sb q, qb, hq_s q, -1)).
    + apply (reif_bind _ ph _ (fun al h => h <- set_prev h qb None ;; Ok (h, qb, qb, 0, -1))); [apply f_set_next|]. intros [].
      apply (reif_bind _ ph _ (fun al h => Ok (h, qb, qb, 0, -1))); [apply f_set_prev|]. intros [].
      exact (reif_ret _ (qb, qb, 0, -1)).
  - intros [[[sb eb] s] e]. apply (reif_read _ (fun h => get_b h eb)); [apply r_b|]. intros b.
    apply (reif_bind _ ph _ (fun al h => Ok (h, mkhq (u64 (hq_n q + 1)) (hq_w q) sb eb s (e + 1)))); [apply f_pa_set|]. intros [].
    exact (reif_ret php _).
Qed.
Lemma f_enqueue_l E q x : reif php (fun al h => hq_enqueue_l al E h q x).
Proof.
  unfold hq_enqueue_l.
  apply (reif_bind _ (fun '(sb, eb, s, e) h => (h, sb, eb, s, e)) _ (fun al '(h, sb, eb, s, e) =>
    let s := s - 1 in b <- get_b h sb ;; h <- pa_set_at E h b s x ;; Ok (h, mkhq (u64 (hq_n q + 1)) (hq_w q) sb eb s e))).
  - destruct (hq_s q =? 0); [|exact (reif_ret _ (hq_sb q, hq_eb q, hq_s q, hq_e q))].
    apply (reif_bind _ php); [apply f_new_block|]. intros qb. cbn [php]. destruct (hq_sb q) as [sb|].
    + apply (reif_bind _ ph _ (fun al h => h <- set_next h qb (Some sb) ;; h <- set_prev h qb None ;; Ok (h, qb, hq_eb q, QSIZ, hq_e q))); [apply f_set_prev|]. intros [].
      apply (reif_bind _ ph _ (fun al h => h <- set_prev h qb None ;; Ok (h, qb, hq_eb q, QSIZ, hq_e q))); [apply f_set_next|]. intros [].
      apply (reif_bind _ ph _ (fun al h => Ok (h, qb, hq_eb q, QSIZ, hq_e q))); [apply f_set_prev|]. intros [].
      exact (reif_ret _ (qb, hq_eb q, QSIZ, hq_e q)).
    + apply (reif_bind _ ph _ (fun al h => h <- set_prev h qb None ;; Ok (h, qb, qb, QSIZ, QSIZ - 1))); [apply f_set_next|]. intros [].
      apply (reif_bind _ ph _ (fun al h => Ok (h, qb, qb, QSIZ, QSIZ - 1))); [apply f_set_prev|]. intros [].
      exact (reif_ret _ (qb, qb, QSIZ, QSIZ - 1)).
  - intros [[[sb eb] s] e]. apply (reif_read _ (fun h => get_b h sb)); [apply r_b|]. intros b.
    apply (reif_bind _ ph _ (fun al h => Ok (h, mkhq (u64 (hq_n q + 1)) (hq_w q) sb eb (s - 1) e))); [apply f_pa_set|]. intros [].
    exact (reif_ret php _).
Qed.
Lemma f_dequeue E q : reif (fun '(x, q) h => (x, h, q)) (fun _ h => hq_dequeue E h q).
Proof.
  unfold hq_dequeue. apply (reif_read _ (fun h => get_b h (hq_sb q))); [apply r_b|]. intros b.
  apply (reif_read _ (fun h => pa_get_at E h b (hq_s q))); [apply r_pa_get|]. intros v. cbv zeta.
  apply (reif_bind _ (fun '(sb, eb, s, e) h => (h, sb, eb, s, e)) _ (fun al '(h, sb, eb, s, e) => Ok (swrap 64 v, h, mkhq (u64 (hq_n q - 1)) (hq_w q) sb eb s e))).
  - destruct (hq_s q + 1 =? QSIZ); [|exact (reif_ret _ (hq_sb q, hq_eb q, hq_s q + 1, hq_e q))].
    apply (reif_read _ (fun h => get_next h (hq_sb q))); [apply r_next|]. intros sb.
    apply (reif_read _ (fun h => get_b h (hq_sb q))); [apply r_b|]. intros b'.
    apply (reif_bind _ ph _ (fun al h => h <- hfree KMalloc h (hq_sb q) ;; match sb with
       | None => Ok (h, None, None, 0, QSIZ - 1)
       | Some _ => h <- set_prev h sb None ;; Ok (h, sb, hq_eb q, 0, hq_e q) end)); [apply f_delete_packed|]. intros [].
    apply (reif_bind _ ph _ (fun al h => match sb with
       | None => Ok (h, None, None, 0, QSIZ - 1)
       | Some _ => h <- set_prev h sb None ;; Ok (h, sb, hq_eb q, 0, hq_e q) end)); [apply reif_free|]. intros [].
    destruct sb as [sb|]; [|exact (reif_ret _ (None, None, 0, QSIZ - 1))].
    apply (reif_bind _ ph _ (fun al h => Ok (h, Some sb, hq_eb q, 0, hq_e q))); [apply f_set_prev|]. intros [].
    exact (reif_ret _ (Some sb, hq_eb q, 0, hq_e q)).
  - intros [[[sb eb] s] e]. exact (reif_ret (fun '(x, q) h => (x, h, q)) (swrap 64 v, _)).
Qed.
(** the destructor: the loop needs no fuel *)
CoFixpoint destroy_tree (qb : pointer) : tree unit :=
  match qb with
  | None => TRet tt
  | Some a =>
    TLoad a (fun o => match o with OBlock _ None _ => TErr Uninit | OBlock _ (Some n) _ =>
    TLoad a (fun o => match o with OBlock _ _ None => TErr Uninit | OBlock _ _ (Some None) => TFree KMalloc a (destroy_tree n)
    | OBlock _ _ (Some (Some pa)) =>
    TLoad pa (fun o => match o with
    | OPacked _ None => TFree KNew pa (TFree KMalloc a (destroy_tree n))
    | OPacked _ (Some w) => TFree KMalloc w (TFree KNew pa (TFree KMalloc a (destroy_tree n)))
    | _ => TErr BadPointer end)
    | _ => TErr BadPointer end)
    | _ => TErr BadPointer end)
  end.
Lemma ends_step {A} h (t : tree A) : (forall h' t', any_step h t h' t' -> ends h' t') -> ends h t.
Proof. intros H. constructor. intros [h' t'] Hs. apply H, Hs. Qed.
Lemma hcount_free kd h (a : addr) h' : hfree kd h (Some a) = Ok h' -> (hcount h' < hcount h)%nat.
Proof.
  unfold hfree. destruct (hfind a h) as [o|] eqn:Hf; [|discriminate]. destruct (kind_eqb _ _); [|discriminate]. intros H. inversion H; subst h'.
  rewrite !hcount_1, <- !(map_length fst). change (length (a :: map fst (helements (hremove a h))) <= length (map fst (helements h)))%nat.
  apply NoDup_incl_length.
  - constructor; [|apply elements_keys]. intros Hi. apply in_map_iff in Hi as ([b o'] & Hb & Hi). cbn in Hb. subst b. apply helements_complete in Hi. rewrite hgrs in Hi. discriminate.
  - intros b [<-|Hi]; [apply in_map_iff; exists (a, o); split; [reflexivity|apply helements_correct, Hf]|].
    apply in_map_iff in Hi as ([c o'] & Hb & Hi). cbn in Hb. subst c. apply helements_complete in Hi.
    destruct (Pos.eq_dec b a) as [->|Hn]; [rewrite hgrs in Hi; discriminate|]. rewrite hgro in Hi by exact Hn.
    apply in_map_iff. exists (b, o'). split; [reflexivity|apply helements_correct, Hi].
Qed.
Lemma total_destroy qb : always_ends (destroy_tree qb).
Proof.
  intros h. remember (hcount h) as n eqn:Hn. revert h qb Hn. induction n as [n IH] using lt_wf_ind. intros h qb Hn.
  assert (H1 : forall m h1 a, (hcount h1 <= n)%nat -> ends h1 (TFree KMalloc a (destroy_tree m))).
  { intros m h1 a Hc. apply ends_step. intros h' t' [Hs|Hs]; inversion Hs; subst; [|apply total_err].
    eapply IH; [|reflexivity]. match goal with H : hfree _ _ _ = Ok _ |- _ => apply hcount_free in H end. lia. }
  assert (H2 : forall m h1 a b, (hcount h1 <= n)%nat -> ends h1 (TFree KNew b (TFree KMalloc a (destroy_tree m)))).
  { intros m h1 a b Hc. apply ends_step. intros h' t' [Hs|Hs]; inversion Hs; subst; [|apply total_err].
    apply H1. match goal with H : hfree _ _ _ = Ok _ |- _ => apply hcount_free in H end. lia. }
  assert (H3 : forall m h1 a b c, (hcount h1 <= n)%nat -> ends h1 (TFree KMalloc c (TFree KNew b (TFree KMalloc a (destroy_tree m))))).
  { intros m h1 a b c Hc. apply ends_step. intros h' t' [Hs|Hs]; inversion Hs; subst; [|apply total_err].
    apply H2. match goal with H : hfree _ _ _ = Ok _ |- _ => apply hcount_free in H end. lia. }
  assert (Hc : (hcount h <= n)%nat) by lia. clear Hn.
  rewrite (tid_eq (destroy_tree qb)). destruct qb as [a|]; cbn; [|apply total_ret].
  apply ends_step. intros h' t' [Hs|Hs]; inversion Hs; subst; [|apply total_err]. clear Hs.
  destruct o as [pv [m|] b|?|?|?]; try apply total_err.
  apply ends_step. intros h2 t2 [Hs|Hs]; inversion Hs; subst; [|apply total_err]. clear Hs.
  destruct o as [pv2 nx [[pa|]|]|?|?|?]; try apply total_err; [|apply H1; assumption].
  apply ends_step. intros h3 t3 [Hs|Hs]; inversion Hs; subst; [|apply total_err]. clear Hs.
  destruct o as [?|? [w|]|?|?]; try apply total_err; [apply H3|apply H2]; assumption.
Qed.
Lemma f_destroy q : reif ph (fun _ h => hq_destroy h q).
Proof.
  exists (destroy_tree (hq_sb q)). split; [|apply total_destroy]. intros al h. unfold hq_destroy. generalize (S (hcount h)) (hq_sb q). intros f. revert h.
  induction f as [|f IH]; intros h qb; cbn [loop]; [intros Hd; congruence|]. rewrite (tid_eq (destroy_tree qb)).
  destruct qb as [a|]; [|cbn; exists tt, h; split; [constructor|reflexivity]].
  unfold get_next, get_b. destruct (hload h (Some a)) as [o|e] eqn:Hl; cbn [bind]; [|intros _; cbn; apply ev_load_bad, Hl].
  assert (Hgo : forall r, evals al h (match o with OBlock _ None _ => TErr Uninit | OBlock _ (Some n) _ =>
    TLoad a (fun o => match o with OBlock _ _ None => TErr Uninit | OBlock _ _ (Some None) => TFree KMalloc a (destroy_tree n)
    | OBlock _ _ (Some (Some pa)) =>
    TLoad pa (fun o => match o with
    | OPacked _ None => TFree KNew pa (TFree KMalloc a (destroy_tree n))
    | OPacked _ (Some w) => TFree KMalloc w (TFree KNew pa (TFree KMalloc a (destroy_tree n)))
    | _ => TErr BadPointer end)
    | _ => TErr BadPointer end)
    | _ => TErr BadPointer end) r -> evals al h (tid (destroy_tree (Some a))) r).
  { intros r Hr. cbn. eapply ev_load; [exact Hl|exact Hr]. }
  destruct o as [pv [n|] b|?|?|?]; cbn [as_field bind]; try (intros _; apply Hgo; constructor).
  rewrite ?Hl. cbn [bind]. destruct b as [b|]; cbn [as_field bind]; [|intros _; apply Hgo; eapply ev_load; [exact Hl|constructor]].
  assert (Hend : forall h1, match
      x <- (h2 <- hfree KMalloc h1 (Some a) ;; Ok (inl (h2, n))) ;;
      match x with
      | inl s' => loop f (fun '(h, qb) => match qb with None => Ok (inr h) | Some _ => q <- get_next h qb ;; b <- get_b h qb ;; h <- delete_packed h b ;; h <- hfree KMalloc h qb ;; Ok (inl (h, q)) end) s'
      | inr r => Ok r
      end with
     | Ok r => exists u h', evals al h1 (TFree KMalloc a (destroy_tree n)) (Ok (u, h')) /\ r = ph u h'
     | Err e => e <> Diverge -> evals al h1 (TFree KMalloc a (destroy_tree n)) (Err e) end).
  { intros h1. destruct (hfree KMalloc h1 (Some a)) as [h2|e] eqn:Hf; cbn [bind]; [|intros _; apply ev_free_bad, Hf].
    specialize (IH h2 n). destruct (loop f _ _) as [r|e].
    - destruct IH as (u & h' & He & ->). exists u, h'. split; [eapply ev_free; [exact Hf|exact He]|reflexivity].
    - intros He. eapply ev_free; [exact Hf|exact (IH He)]. }
  unfold get_next, get_b in Hend. destruct b as [pa|].
  2:{ cbn [delete_packed bind]. specialize (Hend h). destruct (bind _ _) as [r|e].
      - destruct Hend as (u & h' & He & ->). exists u, h'. split; [|reflexivity]. apply Hgo. eapply ev_load; [exact Hl|exact He].
      - intros He. apply Hgo. eapply ev_load; [exact Hl|exact (Hend He)]. }
  cbn [delete_packed]. destruct (hload h (Some pa)) as [o2|e] eqn:Hl2; cbn [bind].
  2:{ intros _. apply Hgo. eapply ev_load; [exact Hl|]. apply ev_load_bad, Hl2. }
  assert (Hgo2 : forall r, evals al h (match o2 with
    | OPacked _ None => TFree KNew pa (TFree KMalloc a (destroy_tree n))
    | OPacked _ (Some w) => TFree KMalloc w (TFree KNew pa (TFree KMalloc a (destroy_tree n)))
    | _ => TErr BadPointer end) r -> evals al h (tid (destroy_tree (Some a))) r).
  { intros r Hr. apply Hgo. eapply ev_load; [exact Hl|]. eapply ev_load; [exact Hl2|exact Hr]. }
  destruct o2 as [?|? w|?|?]; try (intros _; apply Hgo2; constructor).
  destruct w as [w|].
  - destruct (hfree KMalloc h (Some w)) as [h1|e] eqn:F1; cbn [bind]; [|intros _; apply Hgo2, ev_free_bad, F1].
    destruct (hfree KNew h1 (Some pa)) as [h2|e] eqn:F2; cbn [bind]; [|intros _; apply Hgo2; eapply ev_free; [exact F1|]; apply ev_free_bad, F2].
    specialize (Hend h2). destruct (bind _ _) as [r|e].
    + destruct Hend as (u & h' & He & ->). exists u, h'. split; [|reflexivity]. apply Hgo2. eapply ev_free; [exact F1|]. eapply ev_free; [exact F2|exact He].
    + intros He. apply Hgo2. eapply ev_free; [exact F1|]. eapply ev_free; [exact F2|exact (Hend He)].
  - change (hfree KMalloc h None) with (Ok h). cbn [bind].
    destruct (hfree KNew h (Some pa)) as [h2|e] eqn:F2; cbn [bind]; [|intros _; apply Hgo2, ev_free_bad, F2].
    specialize (Hend h2). destruct (bind _ _) as [r|e].
    + destruct Hend as (u & h' & He & ->). exists u, h'. split; [|reflexivity]. apply Hgo2. eapply ev_free; [exact F2|exact He].
    + intros He. apply Hgo2. eapply ev_free; [exact F2|exact (Hend He)].
Qed.
Lemma r_queue p : reads (fun h => load_queue h p).
Proof. unfold load_queue. apply reads_bind; [apply reads_load|]. intros [?|?|q|?]; try apply reads_err. apply reads_ret. Qed.
Lemma f_new_queue w : reif pr (fun al h => new_queue al h w).
Proof. apply reif_new. Qed.
Lemma f_p_enqueue E p x : reif ph (fun al h => p_enqueue al E h p x).
Proof.
  unfold p_enqueue. apply (reif_read _ (fun h => load_queue h p)); [apply r_queue|]. intros q.
  apply (reif_bind _ php); [apply f_enqueue|]. intros q'. cbn [php]. apply reif_store.
Qed.
Lemma f_p_enqueue_l E p x : reif ph (fun al h => p_enqueue_l al E h p x).
Proof.
  unfold p_enqueue_l. apply (reif_read _ (fun h => load_queue h p)); [apply r_queue|]. intros q.
  apply (reif_bind _ php); [apply f_enqueue_l|]. intros q'. cbn [php]. apply reif_store.
Qed.
Lemma f_p_dequeue E p : reif pr (fun _ h => p_dequeue E h p).
Proof.
  unfold p_dequeue. apply (reif_read _ (fun h => load_queue h p)); [apply r_queue|]. intros q.
  apply (reif_bind _ (fun '(x, q) h => (x, h, q)) _ (fun al '(x, h, q) => h <- hstore h p (OQueue q) ;; Ok (x, h))); [apply f_dequeue|].
  intros [x q']. apply (reif_bind _ ph _ (fun al h => Ok (x, h))); [apply reif_store|]. intros []. exact (reif_ret pr x).
Qed.
Lemma r_is_empty p : reads (fun h => p_is_empty h p).
Proof. unfold p_is_empty. apply reads_bind; [apply r_queue|]. intros q. apply reads_ret. Qed.
Lemma f_delete_queue p : reif ph (fun _ h => delete_queue h p).
Proof.
  unfold delete_queue. apply (reif_read _ (fun h => load_queue h p)); [apply r_queue|]. intros q.
  apply (reif_bind _ ph _ (fun al h => hfree KNew h p)); [apply f_destroy|]. intros []. apply reif_free.
Qed.

(** * M_HeapProg.v *)
Lemma r_uses l : reads (fun h => uses h l).
Proof. induction l as [|p l IH]; cbn [uses]; [apply reads_ret|]. apply (reads_bind (fun h => huse h (fst p) (snd p)) (fun _ h => uses h l)); [apply reads_use|]. intros _. exact IH. Qed.
Lemma f_realloc p sz : reif pr (fun al h => hrealloc al h p sz).
Proof.
  unfold hrealloc. apply reif_malloc. intros a. apply reif_pure. intros b.
  apply (reif_bind _ ph _ (fun al h => Ok (Some b, h))); [apply reif_free|]. intros []. exact (reif_ret pr (Some b)).
Qed.
Lemma f_ht_new hts : reif pr (fun al h => h_ht_new al h hts).
Proof.
  unfold h_ht_new. apply (reif_bind _ pr); [apply reif_new|]. intros o. cbn [pr]. apply (reif_bind _ pr); [apply reif_new|]. intros r. cbn [pr].
  apply (reif_bind _ pr); [apply reif_new|]. intros d. exact (reif_ret pr _).
Qed.
Lemma f_ht_delete p : reif ph (fun _ h => h_ht_delete h p).
Proof.
  unfold h_ht_delete.
  apply (reif_bind _ ph _ (fun al h => h <- hfree KNewArray h (hp_head p) ;; h <- (match hp_buf p with None => Ok h | Some _ => hfree KMalloc h (hp_buf p) end) ;; hfree KNew h (hp_obj p))); [apply reif_free|]. intros [].
  apply (reif_bind _ ph _ (fun al h => h <- (match hp_buf p with None => Ok h | Some _ => hfree KMalloc h (hp_buf p) end) ;; hfree KNew h (hp_obj p))); [apply reif_free|]. intros [].
  apply (reif_bind _ ph _ (fun al h => hfree KNew h (hp_obj p))); [|intros []; apply reif_free].
  destruct (hp_buf p); [apply reif_free|exact (reif_ret ph tt)].
Qed.
Lemma f_cont_delete p : reif ph (fun _ h => h_cont_delete h p).
Proof.
  unfold h_cont_delete. apply (reif_bind _ ph _ (fun al h => hfree KNew h (cp_obj p))); [|intros []; apply reif_free].
  destruct (cp_ht p); [apply f_ht_delete|exact (reif_ret ph tt)].
Qed.
Definition p3 {A B} (x : A * B) (h : heap) : A * B * heap := (x, h).
Lemma f_extract_step E live r d T i s : reif pr (fun al h => h_extract_step al E live r d T i (s, h)).
Proof.
  destruct s as [s buf]. unfold h_extract_step. apply reif_pure. intros s'. apply (reif_bind _ pr).
  - destruct (_ =? _); [exact (reif_ret pr buf)|apply f_realloc].
  - intros b. cbn [pr]. apply (reif_read _ (fun h => uses h _)); [apply r_uses|]. intros _. apply (reif_read _ (fun h => uses h _)); [apply r_uses|]. intros _.
    exact (reif_ret pr (s', b)).
Qed.
Lemma f_extract E hts pT T n : reif pr (fun al h => h_extract al E hts h pT T n).
Proof.
  unfold h_extract. apply (reif_bind _ pr); [apply reif_new|]. intros ca. cbn [pr]. apply reif_pure. intros co.
  destruct (n <=? 2); [exact (reif_ret pr (co, _))|]. apply reif_pure. intros ht.
  apply (reif_bind _ pr); [apply f_ht_new|]. intros hp. cbn [pr]. cbv zeta. do 5 (apply reif_pure; intros ?).
  apply (reif_bind _ pr _ (fun al '(s, buf, h) => Ok (mkcont (Some (x_ht s)) (x_M s) (x_C s) (x_NL s) (x_num s) (x_uniq s) n (Some (x_p s)) 0 0 0 0,
      mkcp (Some ca) (Some (mkhtp (hp_obj hp) (hp_rest hp) (hp_head hp) buf)), h))).
  - apply (reif_for_down pr (fun al => h_extract_step al E _ _ _ T)). intros i a. apply f_extract_step.
  - intros [s buf]. exact (reif_ret pr (_, _)).
Qed.
Lemma f_sort E srt pT T co cp : reif pr (fun al h => h_sort al E srt h pT T co cp).
Proof.
  unfold h_sort. apply reif_malloc. intros ps. apply reif_pure. intros a. destruct (cp_ht cp) as [q|]; [|apply reif_err].
  apply reif_pure. intros [Sv co']. apply (reif_bind _ pr); [apply f_realloc|]. intros buf. cbn [pr]. cbv zeta.
  apply (reif_read _ (fun h => uses h _)); [apply r_uses|]. intros _. exact (reif_ret pr (_, _, _, _)).
Qed.
Lemma f_new_arrays szs : reif pr (fun al h => h_new_arrays al szs h).
Proof.
  induction szs as [|sz szs IH]; cbn [h_new_arrays]; [exact (reif_ret pr [])|].
  apply (reif_bind _ pr); [apply reif_new|]. intros a. cbn [pr]. apply (reif_bind _ pr); [apply IH|]. intros l. exact (reif_ret pr (Some a :: l)).
Qed.
Lemma f_delete_arrays l : reif ph (fun _ h => h_delete_arrays h l).
Proof.
  induction l as [|p l IH]; cbn [h_delete_arrays]; [exact (reif_ret ph tt)|].
  apply (reif_bind _ ph _ (fun al h => h_delete_arrays h l)); [apply reif_free|]. intros []. exact IH.
Qed.
Lemma f_buckets cs k fs : reif pr (fun al h => h_buckets al cs h k fs).
Proof.
  unfold h_buckets. destruct (k <=? fs); [exact (reif_ret pr None)|]. apply (reif_bind _ pr); [apply f_new_arrays|]. intros l. exact (reif_ret pr (Some l)).
Qed.
Lemma f_delete_buckets C k fs : reif ph (fun _ h => h_delete_buckets h C k fs).
Proof. unfold h_delete_buckets. destruct (fs <? k); [|exact (reif_ret ph tt)]. destruct C; [apply f_delete_arrays|apply reif_err]. Qed.
Lemma f_sais St cs live SAs need bneed ch s1 co tr s3 : forall fuel s T fs n k, reif pr (fun al h => h_sais al St cs live SAs need bneed ch s1 co tr s3 fuel h s T fs n k).
Proof.
  induction fuel as [|f IH]; intros s T fs n k; cbn [h_sais]; [apply reif_err|].
  apply (reif_bind _ pr); [apply f_buckets|]. intros C. cbn [pr]. apply (reif_read _ (fun h => uses h _)); [apply r_uses|]. intros _.
  apply reif_pure. intros [[s' m] name].
  apply (reif_bind _ ph _ (fun al h =>
    '(s, h) <- (if name <? m then
            s <- co s' fs n m ;;
            '(s, h) <- h_sais al St cs live SAs need bneed ch s1 co tr s3 f h s (TCells (n + fs - m)) (fs + n - m * 2) m name ;;
            s <- tr s T fs n m ;; Ok (s, h)
          else Ok (s', h)) ;;
    '(C, h) <- h_buckets al cs h k fs ;;
    _ <- uses h (live ++ combine SAs (need s) ++ combine (bucket_blocks C) (bneed (ch s n k fs))) ;;
    s <- s3 s T fs n k m ;;
    h <- h_delete_buckets h C k fs ;;
    Ok (s, h))); [apply f_delete_buckets|]. intros [].
  apply (reif_bind _ pr).
  - destruct (name <? m); [|exact (reif_ret pr s')]. apply reif_pure. intros s''. apply (reif_bind _ pr); [apply IH|]. intros s4. cbn [pr].
    apply reif_pure. intros s5. exact (reif_ret pr s5).
  - intros s''. cbn [pr]. apply (reif_bind _ pr); [apply f_buckets|]. intros C'. cbn [pr]. apply (reif_read _ (fun h => uses h _)); [apply r_uses|]. intros _.
    apply reif_pure. intros s4. apply (reif_bind _ ph _ (fun al h => Ok (s4, h))); [apply f_delete_buckets|]. intros []. exact (reif_ret pr s4).
Qed.

Lemma f_add E Q t c x : reif ph (fun al h => h_add al E h Q t c x).
Proof. unfold h_add. destruct (_ && _); [|apply reif_err]. apply reif_pure. intros p. apply f_p_enqueue. Qed.
Lemma f_addl E Q t c x : reif ph (fun al h => h_addl al E h Q t c x).
Proof. unfold h_addl. destruct (_ && _); [|apply reif_err]. apply reif_pure. intros p. apply f_p_enqueue_l. Qed.
Lemma f_pop E Q t c : reif pr (fun _ h => h_pop E h Q t c).
Proof. unfold h_pop. apply reif_pure. intros p. apply f_p_dequeue. Qed.
Lemma r_empty Q t c : reads (fun h => h_empty h Q t c).
Proof. unfold h_empty. apply reads_pure. intros p. apply r_is_empty. Qed.
Lemma f_newq Q t c w : reif php (fun al h => h_newq al h Q t c w).
Proof. unfold h_newq. apply (reif_bind _ pr); [apply f_new_queue|]. intros a. cbn [pr]. apply reif_pure. intros Q'. exact (reif_ret php Q'). Qed.
Lemma f_delq Q t c : reif ph (fun _ h => h_delq h Q t c).
Proof. unfold h_delq. apply reif_pure. intros p. apply f_delete_queue. Qed.
Lemma f_init w : reif php (fun al h => h_init_queues al h w).
Proof.
  unfold h_init_queues. apply (reif_for_up php (fun al i '(h, Q) => '(h, Q) <- h_newq al h Q TYPE_LMS i w ;; '(h, Q) <- h_newq al h Q TYPE_L i w ;; h_newq al h Q TYPE_S i w) 0 258 (anew (3 * 258))).
  intros i Q. cbn [php]. apply (reif_bind _ php); [apply f_newq|]. intros Q1. cbn [php]. apply (reif_bind _ php); [apply f_newq|]. intros Q2. cbn [php]. apply f_newq.
Qed.
Lemma f_fill E buf base num rd Q : reif ph (fun al h => h_fill_lms al E buf base num rd Q h).
Proof.
  unfold h_fill_lms. apply (reif_for_down ph (fun al i h => v <- rd i ;; let q := v + base in c <- (if i =? 0 then Ok (-1) else bget E buf q) ;; h_addl al E h Q TYPE_LMS (c + 1) (q - base)) num 0 tt).
  intros i []. apply reif_pure. intros v. cbv zeta. apply reif_pure. intros c. apply f_addl.
Qed.
Definition hst := (arr pointer * arr Z * arr Z * arr Z * option Z)%type.
Definition phis (x : hst) (h : heap) : his := let '(Q, B, M, C, l) := x in mkhis h Q B M C l.
Lemma f_M2 x c v : reif phis (fun _ h => hput_M2_up (phis x h) c v).
Proof.
  destruct x as [[[[Q B] M] C] l]. unfold hput_M2_up, phis. cbn [hi_h hi_Q hi_BWT hi_M2 hi_C2 hi_last].
  do 3 (apply reif_pure; intros ?). exact (reif_ret phis (_, _, _, _, _)).
Qed.
Lemma f_C2 x c v : reif phis (fun _ h => hput_C2_up (phis x h) c v).
Proof.
  destruct x as [[[[Q B] M] C] l]. unfold hput_C2_up, phis. cbn [hi_h hi_Q hi_BWT hi_M2 hi_C2 hi_last].
  do 3 (apply reif_pure; intros ?). exact (reif_ret phis (_, _, _, _, _)).
Qed.
Lemma f_first E buf base x : reif phis (fun al h => h_induce_first al E buf base (phis x h)).
Proof.
  destruct x as [[[[Q B] M] C] l]. unfold h_induce_first, phis at 2. cbn [phis hi_h hi_Q hi_BWT hi_M2 hi_C2 hi_last].
  apply (reif_bind _ pr); [apply f_pop|]. intros v. cbn [pr]. cbv zeta. apply reif_pure. intros c1. apply reif_pure. intros B'.
  apply (reif_bind _ ph _ (fun al h => c2 <- bget E buf (base + v - 2) ;; s <- hput_M2_up (mkhis h Q B' M C l) (c1 + 1) c2 ;; hput_C2_up s 0 c1)); [apply f_add|]. intros [].
  apply reif_pure. intros c2. apply (reif_bind _ phis _ (fun al s => hput_C2_up s 0 c1)); [exact (f_M2 (Q, B', M, C, l) (c1 + 1) c2)|]. intros y. apply f_C2.
Qed.
(** state and result of the loops of the two passes *)
Definition pls (x : hst * Z) (h : heap) : his * Z := (phis (fst x) h, snd x).
Lemma f_step1 E buf base lp t c x :
  reif (fun (y : hst * Z + hst) h => match y with inl a => inl (pls a h) | inr b => inr (phis b h) end) (fun al h => h_induce_step1 al E buf base lp t c (pls x h)).
Proof.
  destruct x as [[[[[Q B] M] C] l] m]. unfold h_induce_step1, hwith_h, hwith_last. cbn [pls fst snd phis]. cbv zeta. cbn [hi_h hi_Q hi_BWT hi_M2 hi_C2 hi_last].
  apply (reif_read _ (fun h => h_empty h Q t c)); [apply r_empty|]. intros e. destruct e; [exact (reif_ret _ (inr (Q, B, M, C, l)))|].
  apply (reif_bind _ pr); [apply f_pop|]. intros v. cbn [pr].
  apply (reif_bind _ phis _ (fun al s => m <- inc64 m ;; Ok (inl (s, m)))); [|intros y; apply reif_pure; intros m'; exact (reif_ret _ (inl (y, m')))].
  destruct (base + v =? lp); [exact (reif_ret phis (Q, B, M, C, Some (u64 m)))|]. apply reif_pure. intros c1. destruct (c - 1 <=? c1).
  - apply (reif_bind _ ph _ (fun al h => c2 <- bget E buf (base + v - 2) ;; s <- hput_M2_up (mkhis h Q B M C l) (c1 + 1) c2 ;;
      if t =? TYPE_LMS then hput_C2_up s c c1 else Ok s)); [apply f_add|]. intros [].
    apply reif_pure. intros c2. apply (reif_bind _ phis _ (fun al s => if t =? TYPE_LMS then hput_C2_up s c c1 else Ok s)); [exact (f_M2 (Q, B, M, C, l) (c1 + 1) c2)|].
    intros y. destruct (t =? TYPE_LMS); [apply f_C2|exact (reif_ret phis y)].
  - apply (reif_bind _ ph _ (fun al h => Ok (mkhis h Q B M C l))); [apply f_addl|]. intros []. exact (reif_ret phis (Q, B, M, C, l)).
Qed.
Lemma f_pass1 E fuel buf base lp M M3 C x : reif phis (fun al h => h_induce_pass1 al E fuel buf base lp M M3 C (phis x h)).
Proof.
  unfold h_induce_pass1. apply (reif_for_up phis (fun al c s => for_up 1 3 (fun t s => m3 <- aget M3 c ;;
      m <- (if t =? TYPE_LMS then (mc <- aget M c ;; cc <- aget C c ;; Ok (swrap 64 (m3 + (mc - cc)))) else Ok (swrap 64 m3)) ;; loop fuel (h_induce_step1 al E buf base lp t c) (s, m)) s)).
  intros c a. apply (reif_for_up phis (fun al t s => m3 <- aget M3 c ;;
      m <- (if t =? TYPE_LMS then (mc <- aget M c ;; cc <- aget C c ;; Ok (swrap 64 (m3 + (mc - cc)))) else Ok (swrap 64 m3)) ;; loop fuel (h_induce_step1 al E buf base lp t c) (s, m))).
  intros t b. apply reif_pure. intros m3. apply reif_pure. intros m.
  exact (reif_loop pls phis (fun al => h_induce_step1 al E buf base lp t c) (f_step1 E buf base lp t c) fuel (b, m)).
Qed.
Lemma f_reset w Q : reif php (fun al h => h_reset_L al w h Q).
Proof.
  unfold h_reset_L. apply (reif_bind _ ph _ (fun al h => for_up 0 258 (fun c '(h, Q) => h_newq al h Q TYPE_L c w) (h, Q))).
  - apply (reif_for_up ph (fun _ c h => h <- h_delq h Q TYPE_LMS c ;; h_delq h Q TYPE_L c) 0 258 tt). intros c [].
    apply (reif_bind _ ph _ (fun _ h => h_delq h Q TYPE_L c)); [apply f_delq|]. intros []. apply f_delq.
  - intros []. apply (reif_for_up php (fun al c '(h, Q) => h_newq al h Q TYPE_L c w) 0 258 Q). intros c Q'. cbn [php]. apply f_newq.
Qed.
Lemma f_step2 E buf base lp t c x :
  reif (fun (y : hst + hst) h => match y with inl a => inl (phis a h) | inr b => inr (phis b h) end) (fun al h => h_induce_step2 al E buf base lp t c (phis x h)).
Proof.
  destruct x as [[[[Q B] M] C] l]. unfold h_induce_step2, hwith_h, hwith_last. cbn [phis]. cbv zeta. cbn [hi_h hi_Q hi_BWT hi_M2 hi_C2 hi_last].
  apply (reif_read _ (fun h => h_empty h Q t c)); [apply r_empty|]. intros e. destruct e; [exact (reif_ret _ (inr (Q, B, M, C, l)))|].
  apply (reif_bind _ pr); [apply f_pop|]. intros v. cbn [pr].
  apply reif_pure. intros c1. destruct (c1 <=? c - 1); [|exact (reif_ret _ (inl (Q, B, M, C, l)))].
  apply (reif_bind _ ph _ (fun al h => m <- aget M (c1 + 1) ;; M2 <- aset M (c1 + 1) (u64 (m - 1)) ;;
      if base + v - 1 =? lp then Ok (inl (mkhis h Q B M2 C (Some m)))
      else
      c0 <- bget E buf (base + v - 2) ;;
      '(x, C2) <- (if c0 <=? c1 then Ok (c0, C) else
            p <- aget C (c1 + 1) ;;
            C2 <- aset C (c1 + 1) (u64 (p - 1)) ;;
            x <- aget B (u64 (p - 1)) ;; Ok (x, C2)) ;;
      B <- aset B m x ;;
      Ok (inl (mkhis h Q B M2 C2 l)))); [apply f_add|]. intros [].
  apply reif_pure. intros m. apply reif_pure. intros M2. destruct (_ =? lp); [exact (reif_ret _ (inl (Q, B, M2, C, Some m)))|].
  apply reif_pure. intros c0. apply reif_pure. intros [y C2]. apply reif_pure. intros B'. exact (reif_ret _ (inl (Q, B', M2, C2, l))).
Qed.
Lemma f_pass2 E fuel buf base lp x : reif phis (fun al h => h_induce_pass2 al E fuel buf base lp (phis x h)).
Proof.
  unfold h_induce_pass2. apply (reif_for_down phis (fun al c s => for_down 1 0 (fun t s => loop fuel (h_induce_step2 al E buf base lp t c) s) s)).
  intros c a. apply (reif_for_down phis (fun al t s => loop fuel (h_induce_step2 al E buf base lp t c) s)).
  intros t b. exact (reif_loop phis phis (fun al => h_induce_step2 al E buf base lp t c) (f_step2 E buf base lp t c) fuel b).
Qed.
Lemma f_induce E SAs need rd co cp : reif pr (fun al h => h_induce_bwt al E h SAs need rd co cp).
Proof.
  unfold h_induce_bwt. destruct (c_ht co) as [ht|]; [|apply reif_err]. cbv zeta.
  apply (reif_bind _ php); [apply f_init|]. intros Q. cbn [php]. apply (reif_read _ (fun h => uses h _)); [apply r_uses|]. intros _.
  set (fuel := S (S (Z.to_nat (c_n co)))). set (buf := ht_buf ht). set (base := c_bwp_base co). set (w := c_bwp_width co). set (lp := c_lastptr co).
  pose (k5 := fun (pB : addr) (al : allocator) (h : heap) (s : his) =>
    let '(pR, h) := hmalloc al h (OOther (KMalloc, 16)) in
    pR <- deref pR ;; _ <- uses h ((Some pR, 16) :: (Some pB, alen (anew (A:=Z) (c_n co + 1))) :: cont_blocks co cp) ;;
    match hi_last s with None => Err Uninit | Some l => Ok (mkres l (hi_BWT s), Some pR, Some pB, h) end).
  pose (k4 := fun (pB : addr) Q (al : allocator) (s : his) =>
    h <- for_up 0 258 (fun i h => h <- h_delq h Q TYPE_L i ;; h_delq h Q TYPE_S i) (hi_h s) ;; k5 pB al h s).
  pose (k3 := fun (pB : addr) (al : allocator) (s : his) =>
    '(h, Q) <- h_reset_L al w (hi_h s) (hi_Q s) ;;
    _ <- uses h ((Some pB, alen (anew (A:=Z) (c_n co + 1))) :: cont_blocks co cp) ;;
    M2' <- bucket_ends (c_M co) (hi_M2 s) ;;
    s <- h_induce_pass2 al E fuel buf base lp (mkhis h Q (hi_BWT s) M2' (hi_C2 s) (hi_last s)) ;; k4 pB Q al s).
  pose (k1 := fun (al : allocator) (h : heap) =>
    '(pB, h) <- hnew al h (OOther (KNewArray, c_n co + 1)) ;;
    M2 <- bucket_starts (c_M co) ;;
    C2 <- stype_starts M2 (c_NL co) ;;
    _ <- uses h ((Some pB, alen (anew (A:=Z) (c_n co + 1))) :: cont_blocks co cp) ;;
    s <- h_induce_first al E buf base (mkhis h Q (anew (c_n co + 1)) M2 C2 None) ;;
    s <- h_induce_pass1 al E fuel buf base lp (c_M co) M2 (c_C co) s ;; k3 pB al s).
  apply (reif_bind _ ph _ (fun al h => h <- h_delete_arrays h SAs ;; k1 al h)); [apply f_fill|]. intros [].
  apply (reif_bind _ ph _ k1); [apply f_delete_arrays|]. intros []. unfold k1, ph.
  apply (reif_bind _ pr); [apply reif_new|]. intros pB. cbn [pr]. apply reif_pure. intros M2. apply reif_pure. intros C2.
  apply (reif_read _ (fun h => uses h _)); [apply r_uses|]. intros _.
  apply (reif_bind _ phis _ (fun al s => s <- h_induce_pass1 al E fuel buf base lp (c_M co) M2 (c_C co) s ;; k3 pB al s)); [exact (f_first E buf base (Q, anew (c_n co + 1), M2, C2, None))|].
  intros x1. apply (reif_bind _ phis _ (k3 pB)); [apply f_pass1|]. intros [[[[Q2 B2] M3] C3] l2]. unfold k3. cbn [phis hi_h hi_Q hi_BWT hi_M2 hi_C2 hi_last].
  apply (reif_bind _ php); [apply f_reset|]. intros Q3. cbn [php]. apply (reif_read _ (fun h => uses h _)); [apply r_uses|]. intros _.
  apply reif_pure. intros M4. apply (reif_bind _ phis _ (k4 pB Q3)); [exact (f_pass2 E fuel buf base lp (Q3, B2, M4, C3, l2))|].
  intros [[[[Q5 B5] M5] C5] l5]. unfold k4. cbn [phis hi_h hi_Q hi_BWT hi_M2 hi_C2 hi_last].
  apply (reif_bind _ ph _ (fun al h => let '(pR, h) := hmalloc al h (OOther (KMalloc, 16)) in
    pR <- deref pR ;; _ <- uses h ((Some pR, 16) :: (Some pB, alen (anew (A:=Z) (c_n co + 1))) :: cont_blocks co cp) ;; match l5 with None => Err Uninit | Some l => Ok (mkres l B5, Some pR, Some pB, h) end)).
  - apply (reif_for_up ph (fun _ i h => h <- h_delq h Q3 TYPE_L i ;; h_delq h Q3 TYPE_S i) 0 258 tt). intros c [].
    apply (reif_bind _ ph _ (fun _ h => h_delq h Q3 TYPE_S c)); [apply f_delq|]. intros []. apply f_delq.
  - intros []. unfold ph. apply reif_malloc. intros pR. apply reif_pure. intros a. apply (reif_read _ (fun h => uses h _)); [apply r_uses|]. intros _.
    destruct l5 as [l5|]; [|apply reif_err]. exact (reif_ret pr (_, _, _)).
Qed.
Lemma f_new_t1 sz : reif pr (fun al h => h_new_t1 al h sz).
Proof.
  unfold h_new_t1. apply (reif_bind _ pr); [apply reif_new|]. intros pt. cbn [pr]. apply reif_malloc. intros pw. apply reif_pure. intros a.
  exact (reif_ret pr (_, _)).
Qed.
Lemma f_delete_t1 pt pw : reif ph (fun _ h => h_delete_t1 h pt pw).
Proof. unfold h_delete_t1. apply (reif_bind _ ph _ (fun _ h => hfree KNew h pt)); [apply reif_free|]. intros []. apply reif_free. Qed.
Lemma f_tail E ps pt pw SAs rd co cp live need : reif pr (fun al h => _ <- uses h live ;; h <- hfree KMalloc h ps ;; h <- h_delete_t1 h pt pw ;; h_induce_bwt al E h SAs need rd co cp).
Proof.
  apply (reif_read _ (fun h => uses h _)); [apply r_uses|]. intros _.
  apply (reif_bind _ ph _ (fun al h => h <- h_delete_t1 h pt pw ;; h_induce_bwt al E h SAs need rd co cp)); [apply reif_free|]. intros [].
  apply (reif_bind _ ph _ (fun al h => h_induce_bwt al E h SAs need rd co cp)); [apply f_delete_t1|]. intros []. apply f_induce.
Qed.
Lemma f_branch E W Sv ps T1 pt pw co cp : reif pr (fun al h => h_branch al E W h Sv ps T1 pt pw co cp).
Proof.
  unfold h_branch. destruct (c_ht co) as [ht|]; [|apply reif_err]. cbv zeta.
  apply (reif_bind _ pr); [apply f_new_arrays|]. intros SAs. cbn [pr]. apply (reif_bind _ pr); [apply f_sais|]. intros s. cbn [pr].
  apply reif_pure. intros SA1. apply reif_pure. intros SA2. apply f_tail.
Qed.
Lemma f_branch2 E uw Sv ps T1 pt pw co cp : reif pr (fun al h => h_branch2 al E uw h Sv ps T1 pt pw co cp).
Proof.
  unfold h_branch2. destruct (c_ht co) as [ht|]; [|apply reif_err]. cbv zeta.
  apply (reif_bind _ pr); [apply f_new_arrays|]. intros SAs. cbn [pr]. apply (reif_bind _ pr); [apply f_sais|]. intros s. cbn [pr].
  apply reif_pure. intros [L1 U1]. apply reif_pure. intros [L2 U2]. apply f_tail.
Qed.
Lemma f_branch3 E Sv ps T1 pt pw co cp : reif pr (fun al h => h_branch3 al E h Sv ps T1 pt pw co cp).
Proof.
  unfold h_branch3. destruct (c_ht co) as [ht|]; [|apply reif_err]. cbv zeta.
  apply (reif_bind _ pr); [apply f_new_arrays|]. intros SAs. cbn [pr]. apply (reif_bind _ pr); [apply f_sais|]. intros s. cbn [pr].
  apply reif_pure. intros [[L1 M1] U1]. apply reif_pure. intros [[L2 M2] U2]. apply f_tail.
Qed.
Lemma f_branch_of E W Sv ps T1 pt pw co cp : reif pr (fun al h => h_branch_of al E W h Sv ps T1 pt pw co cp).
Proof.
  unfold h_branch_of. destruct (W =? 40); [apply f_branch2|]. destruct (W =? 48); [apply f_branch2|]. destruct (W =? 56); [apply f_branch3|apply f_branch].
Qed.
Lemma f_bwt_is E srt hts pT T n free_T : reif pr (fun al h => h_bwt_is al E srt hts h pT T n free_T).
Proof.
  unfold h_bwt_is. apply (reif_bind _ pr); [apply f_extract|]. intros [co cp]. cbn [pr].
  apply (reif_bind _ pr); [apply f_sort|]. intros [[[Sv ps] co'] cp']. cbn [pr]. apply reif_pure. intros T1.
  apply (reif_bind _ pr); [apply f_new_t1|]. intros [pt pw]. cbn [pr]. apply (reif_read _ (fun h => uses h _)); [apply r_uses|]. intros _.
  pose (k := fun (al : allocator) (h : heap) =>
    let total := u64 (c_num co' + 2) in
    let max_value := if c_sa_max co' <? total then total else c_sa_max co' in
    bits <- position_of_msb max_value ;;
    match sa_width bits with
    | None => h <- h_cont_delete h cp' ;; Ok (None, h)
    | Some W =>
      '(r, pR, pB, h) <- h_branch_of al E W h Sv ps T1 pt pw co' cp' ;;
      h <- h_cont_delete h cp' ;;
      Ok (Some (r, pR, pB), h)
    end).
  apply (reif_bind _ ph _ k); [destruct free_T; [apply reif_free|exact (reif_ret ph tt)]|]. intros []. unfold k, ph. cbv zeta.
  apply reif_pure. intros bits. destruct (sa_width bits) as [W|].
  - apply (reif_bind _ pr); [apply f_branch_of|]. intros [[r pR] pB]. cbn [pr].
    apply (reif_bind _ ph _ (fun _ h => Ok (Some (r, pR, pB), h))); [apply f_cont_delete|]. intros []. exact (reif_ret pr (Some (r, pR, pB))).
  - apply (reif_bind _ ph _ (fun _ h => Ok (None, h))); [apply f_cont_delete|]. intros []. exact (reif_ret pr None).
Qed.
Lemma f_bwt_string hts E srt pT T n free_T : reif pr (fun al h => h_bwt_string al hts E srt h pT T n free_T).
Proof. unfold h_bwt_string. destruct pT; [|apply reif_err]. destruct (n <=? 0); [apply reif_err|apply f_bwt_is]. Qed.
(** fopen or malloc, with a branch for failure *)
Lemma reif_open {A R} (pack : A -> heap -> R) ok k (g : allocator -> addr -> heap -> res R) (g0 : allocator -> heap -> res R) :
  (forall a, reif pack (fun al h => g al a h)) -> reif pack g0 ->
  reif pack (fun al h => match h_open al h ok k with (None, h') => g0 al h' | (Some a, h') => g al a h' end).
Proof. intros Hg H0. unfold h_open. destruct ok; [apply reif_alloc; assumption|exact H0]. Qed.
Definition pf (x : res unit * option (list Z)) (h : heap) : heap * res unit * option (list Z) := (h, fst x, snd x).
Lemma f_bwt_file hts E srt f : reif pf (fun al h => h_bwt_file al hts E srt h f).
Proof.
  unfold h_bwt_file. apply (reif_open pf); [|exact (reif_ret pf (_, _))]. intros fp. cbv zeta.
  apply (reif_open pf); [|apply (reif_bind _ ph _ (fun _ h => Ok (h, Err RuntimeError, None))); [apply reif_free|]; intros []; exact (reif_ret pf (_, _))]. intros pT.
  apply (reif_read _ (fun h => uses h _)); [apply r_uses|]. intros _. apply reif_pure. intros [T k].
  destruct (k <=? 0); [exact (reif_ret pf (_, _))|].
  pose (k2 := fun (B : option (bwt_result * pointer * pointer)) (al : allocator) (h : heap) =>
    match h_open al h (out_open f) (KFile, 0) with
    | (None, h) => Ok (h, Err InvalidArgument, None)
    | (Some fp, h) =>
    match B with
    | None => h <- hfree KFile h (Some fp) ;; Ok (h, Ok tt, Some [])
    | Some (B, pR, pB) =>
    match hmalloc al h (OOther (KNewArray, 8)) with
    | (None, h) => Ok (h, Err BadAlloc, Some [])
    | (Some rank, h) =>
    _ <- uses h [(Some fp, 0); (Some rank, 8); (pR, 16); (pB, alen (r_BWT B))] ;;
    h <- hfree KNewArray h (Some rank) ;;
    out <- write_result (out_limit f) (u64 (in_tell f)) (Some B) ;;
    h <- hfree KFile h (Some fp) ;;
    h <- hfree KNewArray h pB ;;
    h <- hfree KMalloc h pR ;;
    Ok (h, Ok tt, Some out)
    end end end).
  apply (reif_bind _ ph _ (fun al h => _ <- uses h [(Some pT, alen T)] ;; T <- aset T (u64 (in_tell f)) 0 ;;
     '(B, h) <- h_bwt_string al hts E srt h (Some pT) T (u64 (in_tell f)) true ;; k2 B al h)); [apply reif_free|]. intros [].
  apply (reif_read _ (fun h => uses h _)); [apply r_uses|]. intros _. apply reif_pure. intros T'.
  apply (reif_bind _ pr); [apply f_bwt_string|]. intros B. cbn [pr]. unfold k2.
  apply (reif_open pf); [|exact (reif_ret pf (_, _))]. intros fq. destruct B as [[[B pR] pB]|].
  2:{ apply (reif_bind _ ph _ (fun _ h => Ok (h, Ok tt, Some []))); [apply reif_free|]. intros []. exact (reif_ret pf (_, _)). }
  pose (k3 := fun (al : allocator) (rank : addr) (h : heap) =>
    _ <- uses h [(Some fq, 0); (Some rank, 8); (pR, 16); (pB, alen (r_BWT B))] ;;
    h <- hfree KNewArray h (Some rank) ;;
    out <- write_result (out_limit f) (u64 (in_tell f)) (Some B) ;;
    h <- hfree KFile h (Some fq) ;;
    h <- hfree KNewArray h pB ;;
    h <- hfree KMalloc h pR ;;
    Ok (h, Ok tt, Some out)).
  assert (Hk : reif pf (fun al h => match hmalloc al h (OOther (KNewArray, 8)) with (None, h') => Ok (h', Err BadAlloc, Some []) | (Some a, h') => k3 al a h' end)).
  { apply reif_alloc; [|exact (reif_ret pf (_, _))]. intros rank. unfold k3. apply (reif_read _ (fun h => uses h _)); [apply r_uses|]. intros _.
    apply (reif_bind _ ph _ (fun _ h => out <- write_result (out_limit f) (u64 (in_tell f)) (Some B) ;; h <- hfree KFile h (Some fq) ;; h <- hfree KNewArray h pB ;; h <- hfree KMalloc h pR ;; Ok (h, Ok tt, Some out))); [apply reif_free|]. intros [].
    apply reif_pure. intros out.
    apply (reif_bind _ ph _ (fun _ h => h <- hfree KNewArray h pB ;; h <- hfree KMalloc h pR ;; Ok (h, Ok tt, Some out))); [apply reif_free|]. intros [].
    apply (reif_bind _ ph _ (fun _ h => h <- hfree KMalloc h pR ;; Ok (h, Ok tt, Some out))); [apply reif_free|]. intros [].
    apply (reif_bind _ ph _ (fun _ h => Ok (h, Ok tt, Some out))); [apply reif_free|]. intros []. exact (reif_ret pf (_, _)). }
  destruct Hk as [t [Ht Tt]]. exists t. split; [|exact Tt]. intros al h. specialize (Ht al h). cbv beta in *. destruct (hmalloc al h _) as [[a|] h']; exact Ht.
Qed.
Lemma reif_both {A} (f : allocator -> heap -> res (A * heap)) : reif pr f -> exists t, represents t f /\ always_ends t.
Proof.
  intros [t [H T]]. exists t. split; [|exact T]. intros al h Hd. specialize (H al h). destruct (f al h) as [[a h']|e]; [|apply H; congruence].
  destruct H as (b & h2 & He & Heq). unfold pr in Heq. inversion Heq; subst. exact He.
Qed.
Lemma rep_represents {A} (f : allocator -> heap -> res (A * heap)) t : rep pr f t -> represents t f.
Proof.
  intros H al h Hd. specialize (H al h). destruct (f al h) as [[a h']|e]; [|apply H; congruence].
  destruct H as (b & h2 & He & Heq). unfold pr in Heq. inversion Heq; subst. exact He.
Qed.
