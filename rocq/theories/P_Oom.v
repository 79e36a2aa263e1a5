(** A run with an allocator that may fail agrees with the run of an allocator that does not, up to
    the failure. *)
From Verif Require Import Base M_PackedArray M_Queue M_HashTable M_Cells M_Sais M_Split M_Induce M_Flbwt M_File M_Heap M_HeapProg
  Histories Pool.
From Coq Require Import FMapPositive.
Open Scope Z_scope.

Section Oom.
Context (pal al : allocator) (F : Prop) (Href : forall h sz, pal h sz = al h sz \/ (F /\ pal h sz = None)) (Hpal : fresh_alloc pal).

(** what a successful run of the second allocator says about the first *)
Definition oom {A} (m m' : res A) : Prop := forall x, m' = Ok x -> m = Ok x \/ (F /\ (m = Err BadAlloc \/ m = Err NullDeref)).

Lemma oom_refl {A} (m : res A) : oom m m.
Proof. left. assumption. Qed.
Lemma oom_fail {A} (m m' : res A) : F -> m = Err BadAlloc \/ m = Err NullDeref -> oom m m'.
Proof. right. auto. Qed.
Lemma oom_bind {A B} (m m' : res A) (f f' : A -> res B) : oom m m' -> (forall a, oom (f a) (f' a)) -> oom (bind m f) (bind m' f').
Proof.
  intros H H' x Hx. destruct m' as [a|e]; [|discriminate]. destruct (H a eq_refl) as [->|[HF [->| ->]]].
  - apply H', Hx.
  - right. cbn. auto.
  - right. cbn. auto.
Qed.
Lemma oom_for_up {S} lo hi (b b' : Z -> S -> res S) s : (forall i s, oom (b i s) (b' i s)) -> oom (for_up lo hi b s) (for_up lo hi b' s).
Proof.
  intros H. unfold for_up. generalize (Z.to_nat (hi - lo)) as c. intros c. revert lo s.
  induction c as [|c IH]; intros i s; cbn; [apply oom_refl|]. apply oom_bind; [apply H|]. intros x. apply IH.
Qed.
Lemma oom_for_down {S} lo hi (b b' : Z -> S -> res S) s : (forall i s, oom (b i s) (b' i s)) -> oom (for_down hi lo b s) (for_down hi lo b' s).
Proof.
  intros H. unfold for_down. generalize (Z.to_nat (hi - lo + 1)) as c. intros c. revert hi s.
  induction c as [|c IH]; intros i s; cbn; [apply oom_refl|]. apply oom_bind; [apply H|]. intros x. apply IH.
Qed.
Lemma oom_loop {S R} fuel (f f' : S -> res (S + R)) s : (forall s, oom (f s) (f' s)) -> oom (loop fuel f s) (loop fuel f' s).
Proof.
  intros H. revert s. induction fuel as [|n IH]; intros s; cbn; [apply oom_refl|]. apply oom_bind; [apply H|].
  intros [x|x]; [apply IH|apply oom_refl].
Qed.

Lemma oom_hnew h o : oom (hnew pal h o) (hnew al h o).
Proof. unfold hnew. destruct (Href h (osize o)) as [->|[HF ->]]; [apply oom_refl|apply oom_fail; auto]. Qed.
(** an unchecked malloc followed by the first use *)
Lemma oom_malloc {A} h o (f f' : addr -> heap -> res A) : (forall a h, oom (f a h) (f' a h)) ->
  oom (let '(p, h) := hmalloc pal h o in p <- deref p ;; f p h) (let '(p, h) := hmalloc al h o in p <- deref p ;; f' p h).
Proof.
  intros H. unfold hmalloc. destruct (Href h (osize o)) as [->|[HF ->]]; [|apply oom_fail; auto].
  destruct (al h (osize o)); cbn [deref bind]; [apply H|apply oom_refl].
Qed.

Ltac ostep := cbv beta zeta; match goal with
  | |- oom ?m ?m => apply oom_refl
  | |- oom (hnew pal _ _) _ => apply oom_hnew
  | |- oom (let '(p, h) := hmalloc pal _ _ in _ <- deref p ;; _) _ => apply oom_malloc; intros ? ?
  | |- oom (bind _ _) (bind _ _) => apply oom_bind; [|intros ?]
  | |- oom (for_up _ _ _ _) _ => apply oom_for_up; intros ? ?
  | |- oom (for_down _ _ _ _) _ => apply oom_for_down; intros ? ?
  | |- oom (loop _ _ _) _ => apply oom_loop; intros ?
  | |- oom (match ?x with _ => _ end) (match ?x with _ => _ end) => destruct x
  end.

(** the words of a new PackedArray are first used after the block is linked in: what is known when
    their malloc failed.  [h']: the heap if it had not *)
Definition blocks_in (h' h : heap) : Prop := forall p x y z, hfind p h' = Some (OBlock x y z) -> hfind p h = Some (OBlock x y z).
Definition null_words (h : heap) (pa : addr) : Prop := exists p, hfind pa h = Some (OPacked p None).
Definition block_of (h : heap) (qb : pointer) (pa : addr) : Prop := exists a x y, qb = Some a /\ hfind a h = Some (OBlock x y (Some (Some pa))).
Definition broken (h' h : heap) (qb : pointer) (pa : addr) : Prop := blocks_in h' h /\ null_words h pa /\ block_of h qb pa.

Lemma load_block h p o : hload h p = Ok o -> exists a, p = Some a /\ hfind a h = Some o.
Proof. destruct p as [a|]; cbn; [|discriminate]. destruct (hfind a h) as [x|] eqn:Hf; [|discriminate]. intros H. exists a. split; [reflexivity|]. destruct x; congruence. Qed.
Lemma blocks_add h' h (a : addr) x y z : blocks_in h' h -> blocks_in (hadd a (OBlock x y z) h') (hadd a (OBlock x y z) h).
Proof.
  intros H p x' y' z'. destruct (Pos.eq_dec p a) as [->|Hn].
  - rewrite !hgss. auto.
  - rewrite !hgso by congruence. apply H.
Qed.
Lemma set_next_broken h' h qb pa p v h1' : broken h' h qb pa -> set_next h' p v = Ok h1' -> exists h1, set_next h p v = Ok h1 /\ broken h1' h1 qb pa.
Proof.
  intros (Hb & (pk & Hw) & (a & x & y & -> & Hq)) Hs. unfold set_next in Hs. destruct (hload h' p) as [o|] eqn:Hl; [|discriminate]. cbn [bind] in Hs.
  destruct (load_block _ _ _ Hl) as (b & -> & Hf). destruct o as [x0 y0 z0| | |]; try discriminate. unfold hstore in Hs. rewrite Hf in Hs. inversion Hs; subst h1'.
  apply Hb in Hf as Hf'. unfold set_next, hstore. cbn [hload]. rewrite Hf'. cbn [bind]. eexists. split; [reflexivity|].
  split; [apply blocks_add, Hb|]. split.
  - exists pk. rewrite hgso; [exact Hw|]. congruence.
  - destruct (Pos.eq_dec a b) as [->|Hn].
    + exists b. rewrite Hq in Hf'. inversion Hf'; subst. eexists _, _. split; [reflexivity|]. apply hgss.
    + exists a, x, y. split; [reflexivity|]. rewrite hgso by congruence. exact Hq.
Qed.
Lemma set_prev_broken h' h qb pa p v h1' : broken h' h qb pa -> set_prev h' p v = Ok h1' -> exists h1, set_prev h p v = Ok h1 /\ broken h1' h1 qb pa.
Proof.
  intros (Hb & (pk & Hw) & (a & x & y & -> & Hq)) Hs. unfold set_prev in Hs. destruct (hload h' p) as [o|] eqn:Hl; [|discriminate]. cbn [bind] in Hs.
  destruct (load_block _ _ _ Hl) as (b & -> & Hf). destruct o as [x0 y0 z0| | |]; try discriminate. unfold hstore in Hs. rewrite Hf in Hs. inversion Hs; subst h1'.
  apply Hb in Hf as Hf'. unfold set_prev, hstore. cbn [hload]. rewrite Hf'. cbn [bind]. eexists. split; [reflexivity|].
  split; [apply blocks_add, Hb|]. split.
  - exists pk. rewrite hgso; [exact Hw|]. congruence.
  - destruct (Pos.eq_dec a b) as [->|Hn].
    + exists b. rewrite Hq in Hf'. inversion Hf'; subst. eexists _, _. split; [reflexivity|]. apply hgss.
    + exists a, x, y. split; [reflexivity|]. rewrite hgso by congruence. exact Hq.
Qed.
Lemma write_broken {A} E h' h qb pa i x (k : heap -> res A) : broken h' h qb pa -> bind (get_b h qb) (fun b => bind (pa_set_at E h b i x) k) = Err NullDeref.
Proof.
  intros (_ & (pk & Hw) & (a & y & z & -> & Hq)). unfold get_b. cbn [hload]. rewrite Hq. cbn [bind as_field]. unfold pa_set_at. cbn [hload]. rewrite Hw. reflexivity.
Qed.
(** a new block: the same, a failure, or a block without words *)
Lemma oom_new_block h w h' qb : new_block al h w = Ok (h', qb) ->
  new_block pal h w = Ok (h', qb) \/ (F /\ (new_block pal h w = Err BadAlloc \/ new_block pal h w = Err NullDeref)) \/
  (F /\ exists h1 pa, new_block pal h w = Ok (h1, qb) /\ broken h' h1 qb pa).
Proof.
  unfold new_block, hmalloc. intros Hr. set (ob := OBlock None None None) in *.
  destruct (Href h (osize ob)) as [->|[HF ->]].
  2:{ right. left. split; [exact HF|]. unfold new_packed. destruct (hnew pal (htick h) _) as [[a h1]|e] eqn:Hn.
      - cbn [bind]. destruct (hmalloc pal h1 _) as [w1 h2] eqn:Hm. right.
        assert (Hx : exists p, hfind a h2 = Some (OPacked p None)).
        { unfold hnew in Hn. destruct (pal (htick h) _); [|discriminate]. inversion Hn; subst. unfold hmalloc in Hm.
          destruct (pal (hadd _ _ _) _) as [a2|] eqn:Ha2; inversion Hm; subst; clear Hm.
          - apply Hpal in Ha2. destruct (Pos.eq_dec a a2) as [->|]; [rewrite hgss in Ha2; discriminate|rewrite hgso, hgss by assumption; eauto].
          - rewrite hgtick, hgss. eauto. }
        destruct Hx as (o & Hx). unfold hstore. rewrite Hx. reflexivity.
      - unfold hnew in Hn. destruct (pal (htick h) _); [discriminate|]. inversion Hn. auto. }
  destruct (al h (osize ob)) as [q|].
  2:{ left. destruct (new_packed al (htick h) QSIZ w) as [[? ?]|]; discriminate Hr. }
  set (hq := hadd q ob h) in *. unfold new_packed in *. set (pk := pa_new QSIZ w) in *.
  unfold hnew in *.
  destruct (Href hq (osize (OPacked pk None))) as [->|[HF ->]]; [|right; left; split; [exact HF|left; reflexivity]].
  destruct (al hq (osize (OPacked pk None))) as [pa|]; [|discriminate]. cbn [bind] in *.
  set (hp := hadd pa (OPacked pk None) hq) in *. unfold hmalloc in *.
  destruct (Href hp (osize (OOther (KMalloc, pa_bytes pk)))) as [->|[HF ->]]; [left; exact Hr|].
  right. right. split; [exact HF|].
  assert (Hs : forall o, hstore (htick hp) (Some pa) o = Ok (hadd pa o (htick hp))) by (intros o; unfold hstore, hp; rewrite hgtick, hgss; reflexivity).
  rewrite Hs. cbn [bind].
  set (hs := hadd pa (OPacked pk None) (htick hp)).
  assert (Hw : exists w', (exists hs', hstore w' (Some pa) (OPacked pk (fst (match al hp (osize (OOther (KMalloc, pa_bytes pk))) with Some a => (Some a, hadd a (OOther (KMalloc, pa_bytes pk)) hp) | None => (None, htick hp) end))) = Ok hs' /\ set_b hs' (Some q) (Some pa) = Ok h' /\ blocks_in hs' hs) /\ qb = Some q).
  { destruct (al hp _) as [a|].
    - exists (hadd a (OOther (KMalloc, pa_bytes pk)) hp). cbn [fst].
      destruct (hstore _ (Some pa) _) as [hs'|] eqn:Hst; [|discriminate]. cbn [bind] in Hr. destruct (set_b hs' _ _) as [h2|] eqn:Hsb; [|discriminate].
      inversion Hr; subst. split; [|reflexivity]. exists hs'. split; [reflexivity|]. split; [exact Hsb|].
      unfold hstore in Hst. assert (Hst' : hs' = hadd pa (OPacked pk (Some a)) (hadd a (OOther (KMalloc, pa_bytes pk)) hp)) by (destruct (hfind pa _) as [[]|]; congruence).
      subst hs'. intros p x y z. unfold hs.
      destruct (Pos.eq_dec p pa) as [->|Hn]; [rewrite hgss; discriminate|]. rewrite !(hgso _ _ Hn), hgtick.
      destruct (Pos.eq_dec p a) as [->|Hn2]; [rewrite hgss; discriminate|]. rewrite (hgso _ _ Hn2). auto.
    - exists (htick hp). cbn [fst]. rewrite Hs in *. cbn [bind] in Hr. destruct (set_b _ _ _) as [h2|] eqn:Hsb; [|discriminate]. inversion Hr; subst.
      split; [|reflexivity]. eexists. split; [reflexivity|]. split; [exact Hsb|]. intros p x y z. auto. }
  destruct Hw as (_ & (hs' & _ & Hsb & Hin) & ->). unfold set_b in Hsb. destruct (hload hs' (Some q)) as [o|] eqn:Hl; [|discriminate].
  destruct (load_block _ _ _ Hl) as (? & Heq & Hf). inversion Heq; subst. cbn [bind] in Hsb. destruct o as [x0 y0 z0| | |]; try discriminate.
  unfold hstore in Hsb. rewrite Hf in Hsb. inversion Hsb; subst h'. apply Hin in Hf as Hf'. unfold set_b, hstore. cbn [hload]. rewrite Hf'. cbn [bind].
  eexists _, pa. split; [reflexivity|]. split; [apply blocks_add, Hin|]. split.
  - exists pk. rewrite hgso; [apply hgss|]. intros ->. unfold hs in Hf'. rewrite hgss in Hf'. discriminate.
  - eexists _, _, _. split; [reflexivity|apply hgss].
Qed.
(** the rest of enqueue and enqueue_l, with [k] the linking and [wr] the write *)
Lemma oom_linked {A} h w (k : heap * pointer -> res A) :
  (forall h' h1 qb pa x, broken h' h1 qb pa -> k (h', qb) = Ok x -> k (h1, qb) = Err NullDeref) ->
  oom (bind (new_block pal h w) k) (bind (new_block al h w) k).
Proof.
  intros Hk x Hx. destruct (new_block al h w) as [[h' qb]|] eqn:Hn; [|discriminate]. cbn [bind] in Hx.
  destruct (oom_new_block _ _ _ _ Hn) as [->|[[HF [->| ->]]|(HF & h1 & pa & -> & Hb)]].
  - left. exact Hx.
  - right. auto.
  - right. auto.
  - right. split; [exact HF|]. right. cbn [bind]. eapply Hk; eassumption.
Qed.
Ltac unbind H := match type of H with bind ?m _ = Ok _ => let x := fresh "h" in let e := fresh "Hs" in destruct m as [x|] eqn:e; [cbn [bind] in H|discriminate H] end.
Ltac link := match goal with
  | B : broken ?h' ?h ?q ?pa, e : set_next ?h' _ _ = Ok _ |- _ => let x := fresh "h" in let Hx := fresh "Hx" in
      destruct (set_next_broken _ _ _ _ _ _ _ B e) as (x & Hx & ?); rewrite Hx; cbn [bind]; clear B e Hx
  | B : broken ?h' ?h ?q ?pa, e : set_prev ?h' _ _ = Ok _ |- _ => let x := fresh "h" in let Hx := fresh "Hx" in
      destruct (set_prev_broken _ _ _ _ _ _ _ B e) as (x & Hx & ?); rewrite Hx; cbn [bind]; clear B e Hx
  end.
Ltac written := eapply write_broken; eassumption.
Lemma bind_assoc {A B C} (m : res A) (f : A -> res B) (g : B -> res C) : bind (bind m f) g = bind m (fun x => bind (f x) g).
Proof. destruct m; reflexivity. Qed.
Lemma oom_enqueue E h q x : oom (hq_enqueue pal E h q x) (hq_enqueue al E h q x).
Proof.
  unfold hq_enqueue. destruct (hq_e q =? QSIZ - 1); [|apply oom_refl]. rewrite !bind_assoc.
  match goal with |- oom (bind (new_block pal h ?w) ?f) _ => apply (oom_linked h w f) end.
  intros h' h1 qb pa r Hb Hr. cbv beta in *. destruct (hq_eb q) as [eb|]; rewrite !bind_assoc in *.
  - unbind Hr. rewrite !bind_assoc in *. unbind Hr. rewrite !bind_assoc in *. unbind Hr. link. rewrite !bind_assoc. link. rewrite !bind_assoc. link. written.
  - unbind Hr. rewrite !bind_assoc in *. unbind Hr. link. rewrite !bind_assoc. link. written.
Qed.
Lemma oom_enqueue_l E h q x : oom (hq_enqueue_l pal E h q x) (hq_enqueue_l al E h q x).
Proof.
  unfold hq_enqueue_l. destruct (hq_s q =? 0); [|apply oom_refl]. rewrite !bind_assoc.
  match goal with |- oom (bind (new_block pal h ?w) ?f) _ => apply (oom_linked h w f) end.
  intros h' h1 qb pa r Hb Hr. cbv beta in *. destruct (hq_sb q) as [sb|]; rewrite !bind_assoc in *.
  - unbind Hr. rewrite !bind_assoc in *. unbind Hr. rewrite !bind_assoc in *. unbind Hr. link. rewrite !bind_assoc. link. rewrite !bind_assoc. link. written.
  - unbind Hr. rewrite !bind_assoc in *. unbind Hr. link. rewrite !bind_assoc. link. written.
Qed.
Lemma oom_new_queue h w : oom (new_queue pal h w) (new_queue al h w).
Proof. apply oom_hnew. Qed.
Lemma oom_p_enqueue E h p x : oom (p_enqueue pal E h p x) (p_enqueue al E h p x).
Proof. unfold p_enqueue. repeat (first [apply oom_enqueue | ostep]). Qed.
Lemma oom_p_enqueue_l E h p x : oom (p_enqueue_l pal E h p x) (p_enqueue_l al E h p x).
Proof. unfold p_enqueue_l. repeat (first [apply oom_enqueue_l | ostep]). Qed.
Lemma oom_pool_exec E h v op : oom (pool_exec pal E h v op) (pool_exec al E h v op).
Proof. unfold pool_exec. repeat (first [apply oom_new_queue | apply oom_p_enqueue | apply oom_p_enqueue_l | ostep]). Qed.
Lemma oom_pool_run E ops : forall h v, oom (pool_run pal E h v ops) (pool_run al E h v ops).
Proof. induction ops as [|op ops IH]; intros h v; cbn [pool_run]; repeat (first [apply oom_pool_exec | apply IH | ostep]). Qed.

Lemma oom_realloc h p sz : oom (hrealloc pal h p sz) (hrealloc al h p sz).
Proof. unfold hrealloc. repeat ostep. Qed.
Lemma oom_ht_new h hts : oom (h_ht_new pal h hts) (h_ht_new al h hts).
Proof. unfold h_ht_new. repeat ostep. Qed.
Lemma oom_extract E hts h pT T n : oom (h_extract pal E hts h pT T n) (h_extract al E hts h pT T n).
Proof. unfold h_extract, h_extract_step. repeat (first [apply oom_ht_new | apply oom_realloc | ostep]). Qed.
Lemma oom_sort E srt h pT T co cp : oom (h_sort pal E srt h pT T co cp) (h_sort al E srt h pT T co cp).
Proof. unfold h_sort. repeat (first [apply oom_realloc | ostep]). Qed.
Lemma oom_new_arrays na : forall h, oom (h_new_arrays pal na h) (h_new_arrays al na h).
Proof. induction na as [|sz na IH]; intros h; cbn [h_new_arrays]; repeat (first [apply IH | ostep]). Qed.
Lemma oom_buckets na h k fs : oom (h_buckets pal na h k fs) (h_buckets al na h k fs).
Proof. unfold h_buckets. repeat (first [apply oom_new_arrays | ostep]). Qed.
Lemma oom_sais St na live SAs need bneed ch s1 co tr s3 fuel : forall h s T fs n k,
  oom (h_sais pal St na live SAs need bneed ch s1 co tr s3 fuel h s T fs n k) (h_sais al St na live SAs need bneed ch s1 co tr s3 fuel h s T fs n k).
Proof. induction fuel as [|f IH]; intros; cbn [h_sais]; repeat (first [apply oom_buckets | apply IH | ostep]). Qed.

Lemma oom_add E h Q t c x : oom (h_add pal E h Q t c x) (h_add al E h Q t c x).
Proof. unfold h_add. repeat (first [apply oom_p_enqueue | ostep]). Qed.
Lemma oom_addl E h Q t c x : oom (h_addl pal E h Q t c x) (h_addl al E h Q t c x).
Proof. unfold h_addl. repeat (first [apply oom_p_enqueue_l | ostep]). Qed.
Lemma oom_newq h Q t c w : oom (h_newq pal h Q t c w) (h_newq al h Q t c w).
Proof. unfold h_newq. repeat (first [apply oom_new_queue | ostep]). Qed.
Ltac qstep := first [apply oom_add | apply oom_addl | apply oom_newq | ostep].
Lemma oom_init h w : oom (h_init_queues pal h w) (h_init_queues al h w).
Proof. unfold h_init_queues. repeat qstep. Qed.
Lemma oom_fill E buf base num rd Q h : oom (h_fill_lms pal E buf base num rd Q h) (h_fill_lms al E buf base num rd Q h).
Proof. unfold h_fill_lms. repeat qstep. Qed.
Lemma oom_first E buf base s : oom (h_induce_first pal E buf base s) (h_induce_first al E buf base s).
Proof. unfold h_induce_first. repeat qstep. Qed.
Lemma oom_step1 E buf base lp t c x : oom (h_induce_step1 pal E buf base lp t c x) (h_induce_step1 al E buf base lp t c x).
Proof. unfold h_induce_step1. repeat qstep. Qed.
Lemma oom_pass1 E fuel buf base lp M M3 C s : oom (h_induce_pass1 pal E fuel buf base lp M M3 C s) (h_induce_pass1 al E fuel buf base lp M M3 C s).
Proof. unfold h_induce_pass1. repeat (first [apply oom_step1 | qstep]). Qed.
Lemma oom_reset w h Q : oom (h_reset_L pal w h Q) (h_reset_L al w h Q).
Proof. unfold h_reset_L. repeat qstep. Qed.
Lemma oom_step2 E buf base lp t c x : oom (h_induce_step2 pal E buf base lp t c x) (h_induce_step2 al E buf base lp t c x).
Proof. unfold h_induce_step2. repeat qstep. Qed.
Lemma oom_pass2 E fuel buf base lp s : oom (h_induce_pass2 pal E fuel buf base lp s) (h_induce_pass2 al E fuel buf base lp s).
Proof. unfold h_induce_pass2. repeat (first [apply oom_step2 | qstep]). Qed.
Lemma oom_induce E h SAs need rd co cp : oom (h_induce_bwt pal E h SAs need rd co cp) (h_induce_bwt al E h SAs need rd co cp).
Proof.
  unfold h_induce_bwt.
  repeat (first [apply oom_init | apply oom_fill | apply oom_first | apply oom_pass1 | apply oom_reset | apply oom_pass2 | ostep]).
Qed.
Lemma oom_new_t1 h sz : oom (h_new_t1 pal h sz) (h_new_t1 al h sz).
Proof. unfold h_new_t1. repeat ostep. Qed.
Lemma oom_branch E W h Sv ps T1 pt pw co cp : oom (h_branch pal E W h Sv ps T1 pt pw co cp) (h_branch al E W h Sv ps T1 pt pw co cp).
Proof. unfold h_branch, h_sais1. repeat (first [apply oom_new_arrays | apply oom_sais | apply oom_induce | ostep]). Qed.
Lemma oom_branch2 E uw h Sv ps T1 pt pw co cp : oom (h_branch2 pal E uw h Sv ps T1 pt pw co cp) (h_branch2 al E uw h Sv ps T1 pt pw co cp).
Proof. unfold h_branch2, h_sais2. repeat (first [apply oom_new_arrays | apply oom_sais | apply oom_induce | ostep]). Qed.
Lemma oom_branch3 E h Sv ps T1 pt pw co cp : oom (h_branch3 pal E h Sv ps T1 pt pw co cp) (h_branch3 al E h Sv ps T1 pt pw co cp).
Proof. unfold h_branch3, h_sais2. repeat (first [apply oom_new_arrays | apply oom_sais | apply oom_induce | ostep]). Qed.
Lemma oom_branch_of E W h Sv ps T1 pt pw co cp : oom (h_branch_of pal E W h Sv ps T1 pt pw co cp) (h_branch_of al E W h Sv ps T1 pt pw co cp).
Proof.
  unfold h_branch_of. destruct (W =? 40); [apply oom_branch2|]. destruct (W =? 48); [apply oom_branch2|].
  destruct (W =? 56); [apply oom_branch3|apply oom_branch].
Qed.
Lemma oom_bwt_is E srt hts h pT T n free_T : oom (h_bwt_is pal E srt hts h pT T n free_T) (h_bwt_is al E srt hts h pT T n free_T).
Proof. unfold h_bwt_is. repeat (first [apply oom_extract | apply oom_new_t1 | apply oom_sort | apply oom_branch_of | ostep]). Qed.
Lemma oom_bwt_string hts E srt h pT T n free_T : oom (h_bwt_string pal hts E srt h pT T n free_T) (h_bwt_string al hts E srt h pT T n free_T).
Proof. unfold h_bwt_string. repeat (first [apply oom_bwt_is | ostep]). Qed.

(** bwt_file: fopen and its own malloc report the failure by an exception, before there is any output;
    the allocation of the rank bytes fails when the output file exists already *)
Definition thrown (K : heap -> Prop) (m : res (heap * res unit * option (list Z))) : Prop :=
  (exists h e, m = Ok (h, Err e, None) /\ (e = InvalidArgument \/ e = RuntimeError) /\ K h) \/ (exists h, m = Ok (h, Err BadAlloc, Some []) /\ K h).
Section File.
Context (K : heap -> Prop) (HK : forall h sz, pal h sz <> al h sz -> K h) (HKt : forall h, K h -> K (htick h)).
Definition oomf (m m' : res (heap * res unit * option (list Z))) : Prop :=
  forall x, m' = Ok x -> m = Ok x \/ (F /\ (m = Err BadAlloc \/ m = Err NullDeref \/ thrown K m)).
Lemma oomf_oom m m' : oom m m' -> oomf m m'.
Proof. intros H x Hx. destruct (H x Hx) as [?|[HF [?|?]]]; auto. Qed.
Lemma oomf_thrown m m' : F -> thrown K m -> oomf m m'.
Proof. right. auto. Qed.
Lemma oomf_bind {B} (m m' : res B) f f' : oom m m' -> (forall a, oomf (f a) (f' a)) -> oomf (bind m f) (bind m' f').
Proof.
  intros H H' x Hx. destruct m' as [a|e]; [|discriminate]. destruct (H a eq_refl) as [->|[HF [->| ->]]].
  - apply H', Hx.
  - right. cbn. auto.
  - right. cbn. auto.
Qed.
Lemma al_cases h sz : pal h sz = al h sz \/ (F /\ K h /\ pal h sz = None).
Proof.
  assert (Hd : {pal h sz = al h sz} + {pal h sz <> al h sz}) by (decide equality; apply Pos.eq_dec).
  destruct Hd as [H|H]; [left; exact H|]. destruct (Href h sz) as [H'|[HF H']]; [contradiction|]. right. split; [exact HF|]. split; [exact (HK _ _ H)|exact H'].
Qed.
Lemma open_cases h ok k : h_open pal h ok k = h_open al h ok k \/ (F /\ K (htick h) /\ h_open pal h ok k = (None, htick h)).
Proof. unfold h_open, hmalloc. destruct ok; [|auto]. destruct (al_cases h (osize (OOther k))) as [->|(HF & Hk & ->)]; auto. Qed.
Lemma open_free a h ok k p h1 : h_open a h ok k = (Some p, h1) -> hfree (fst k) (htick h1) (Some p) = Ok (hremove p (htick h1)).
Proof.
  unfold h_open, hmalloc. destruct ok; [|discriminate]. destruct (a h _) as [x|]; [|discriminate]. intros H. inversion H; subst.
  unfold hfree. rewrite hgtick, hgss. cbn [kind_of]. replace (kind_eqb (fst k) (fst k)) with true by (destruct (fst k); reflexivity). reflexivity.
Qed.
Ltac fstep := cbv beta zeta; match goal with
  | |- oomf ?m ?m => apply oomf_oom, oom_refl
  | |- oomf (bind _ _) (bind _ _) => apply oomf_bind; [|intros ?]
  | |- oomf (match ?x with _ => _ end) (match ?x with _ => _ end) => destruct x
  end.
Lemma oom_bwt_file hts E srt h f : (forall sz a o, al h sz = Some a -> K h -> K (hremove a (htick (hadd a o h)))) -> K h -> oomf (h_bwt_file pal hts E srt h f) (h_bwt_file al hts E srt h f).
Proof.
  intros HKr HKh. unfold h_bwt_file. destruct (open_cases h (in_open f) (KFile, 0)) as [->|(HF & Hk & ->)].
  2:{ apply oomf_thrown; [exact HF|]. left. eexists _, _. split; [reflexivity|]. split; [left; reflexivity|exact Hk]. }
  destruct (h_open al h (in_open f) (KFile, 0)) as [[fp|] h1] eqn:Ho; [|apply oomf_oom, oom_refl]. cbv zeta.
  destruct (open_cases h1 (malloc_ok f) (KMalloc, u64 (u64 (in_tell f) + 1))) as [->|(HF & Hk & ->)].
  2:{ pose proof (open_free _ _ _ _ _ _ Ho) as Hf; cbn [fst] in Hf; rewrite Hf. apply oomf_thrown; [exact HF|]. cbn [bind]. left. eexists _, _. split; [reflexivity|]. split; [right; reflexivity|].
    unfold h_open, hmalloc in Ho. destruct (in_open f); [|discriminate]. destruct (al h _) as [x|] eqn:Hx; [|discriminate]. inversion Ho; subst. eapply HKr; eassumption. }
  destruct (h_open al h1 (malloc_ok f) (KMalloc, u64 (u64 (in_tell f) + 1))) as [[pT|] h2]; [|apply oomf_oom, oom_refl].
  repeat (first [apply oom_bwt_string | apply oom_refl | fstep]).
  match goal with |- oomf (match h_open pal ?x ?o ?k with _ => _ end) _ => destruct (open_cases x o k) as [->|(HF & Hk & ->)] end.
  2:{ apply oomf_thrown; [exact HF|]. left. eexists _, _. split; [reflexivity|]. split; [left; reflexivity|exact Hk]. }
  match goal with |- oomf (match ?x with _ => _ end) _ => destruct x as [[fp2|] h3] end; [|apply oomf_oom, oom_refl].
  match goal with |- oomf (match ?x with _ => _ end) _ => destruct x as [[[B pR] pB]|] end; [|apply oomf_oom; repeat ostep].
  match goal with |- oomf (match hmalloc pal ?x ?o with _ => _ end) _ => assert (HN : hmalloc pal x o = hmalloc al x o \/ (F /\ K (htick x) /\ hmalloc pal x o = (None, htick x))) end.
  { unfold hmalloc. destruct (al_cases h3 (osize (OOther (KNewArray, 8)))) as [->|(HF & Hk & ->)]; auto. }
  destruct HN as [->|(HF & Hk & ->)]; [apply oomf_oom; repeat ostep|].
  apply oomf_thrown; [exact HF|]. right. eexists. split; [reflexivity|exact Hk].
Qed.
End File.
End Oom.
