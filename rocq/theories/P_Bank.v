(** A set of queues living in one heap: each owns its blocks, the rest of the heap is untouched. *)
From Verif Require Import Base M_PackedArray M_Queue M_Heap Histories Pool P_Size P_Heap.
From Coq Require Import FMapPositive.
Open Scope Z_scope.

Definition cells (a : addr) (l : list node) : list addr := a :: foot l.
(** g: the live queue objects (address and abstract queue) *)
Record bank (h0 : heap) (g : Z -> option (addr * queue)) (h : heap) (nl : Z -> list node) : Prop := {
  b_q : forall i a q, g i = Some (a, q) -> exists hq, find a h = Some (OQueue hq) /\ qr h hq q (nl i);
  b_nd : forall i a q, g i = Some (a, q) -> ~ In a (foot (nl i));
  b_dis : forall i j a q b q', i <> j -> g i = Some (a, q) -> g j = Some (b, q') ->
          forall x, In x (cells a (nl i)) -> ~ In x (cells b (nl j));
  b_new : forall i a q, g i = Some (a, q) -> forall x, In x (cells a (nl i)) -> find x h0 = None;
  b_out : forall x, (forall i a q, g i = Some (a, q) -> ~ In x (cells a (nl i))) -> find x h = find x h0 }.

Lemma bank_live h0 g h nl i a q x : bank h0 g h nl -> g i = Some (a, q) -> In x (cells a (nl i)) -> find x h <> None.
Proof.
  intros B Hg [<-|Hx]; destruct (b_q _ _ _ _ B _ _ _ Hg) as (hq & H1 & H2); [congruence|].
  eapply chain_live; [exact Hx|apply (qr_ch _ _ _ _ H2)].
Qed.
Lemma bank_fresh h0 g h nl x : bank h0 g h nl -> find x h = None ->
  (forall i a q, g i = Some (a, q) -> ~ In x (cells a (nl i))) /\ find x h0 = None.
Proof.
  intros B Hx. assert (H : forall i a q, g i = Some (a, q) -> ~ In x (cells a (nl i))).
  { intros i a q Hg Hi. eapply bank_live in Hi; eauto. }
  split; [exact H|]. rewrite <- (b_out _ _ _ _ B x H). exact Hx.
Qed.
Lemma bank_empty h0 : bank h0 (fun _ => None) h0 (fun _ => []).
Proof. constructor; try discriminate. reflexivity. Qed.
Lemma bank_done h0 g h nl : bank h0 g h nl -> (forall i, g i = None) -> same_heap h h0.
Proof. intros B Hn a. apply (b_out _ _ _ _ B). intros i x q Hg. rewrite Hn in Hg. discriminate. Qed.
Lemma bank_outside h0 g h nl a : bank h0 g h nl -> find a h0 <> None -> find a h = find a h0.
Proof. intros B Ha. apply (b_out _ _ _ _ B). intros i x q Hg Hi. apply Ha. eapply (b_new _ _ _ _ B); eauto. Qed.
(** only the extension of g matters *)
Lemma bank_ext h0 g g' h nl : bank h0 g h nl -> (forall i, g' i = g i) -> bank h0 g' h nl.
Proof.
  intros [A B C D F] H. constructor; intros *; rewrite ?H.
  - apply A.
  - apply B.
  - apply C.
  - apply D.
  - intros Hx. apply F. intros i a q. specialize (Hx i a q). rewrite H in Hx. exact Hx.
Qed.

(** replace queue i: its blocks change from l to l' *)
Lemma bank_change h0 g h nl i a q h' hq' q' l' :
  bank h0 g h nl -> g i = Some (a, q) ->
  find a h' = Some (OQueue hq') -> qr h' hq' q' l' ->
  (forall x, ~ In x (cells a (nl i)) -> ~ In x (foot l') -> find x h' = find x h) ->
  (forall x, In x (foot l') -> In x (foot (nl i)) \/ find x h = None) ->
  (forall x, In x (foot (nl i)) -> ~ In x (foot l') -> find x h' = None) ->
  bank h0 (fupd g i (Some (a, q'))) h' (fupd nl i l').
Proof.
  intros B Hg Ha Hq Hfr Hnew Hfree.
  assert (Hsub : forall x, In x (cells a l') -> In x (cells a (nl i)) \/ find x h = None).
  { intros x [<-|Hx]; [left; left; reflexivity|]. destruct (Hnew x Hx); [left; right; assumption|auto]. }
  assert (Hoth : forall j b qj x, j <> i -> g j = Some (b, qj) -> In x (cells b (nl j)) -> ~ In x (cells a l')).
  { intros j b qj x Hj Hgj Hx Hc. destruct (Hsub x Hc) as [H|H].
    - exact (b_dis _ _ _ _ B _ _ _ _ _ _ Hj Hgj Hg x Hx H).
    - exact (bank_live _ _ _ _ _ _ _ _ B Hgj Hx H). }
  constructor.
  - intros j b qj. unfold fupd. destruct (Z.eqb_spec j i) as [->|Hj].
    + intros H. inversion H; subst. exists hq'. auto.
    + intros Hgj. destruct (b_q _ _ _ _ B _ _ _ Hgj) as (hq & H1 & H2). exists hq.
      assert (Hx : forall x, In x (cells b (nl j)) -> find x h' = find x h).
      { intros x Hx. apply Hfr.
        - intros Hc. exact (b_dis _ _ _ _ B _ _ _ _ _ _ Hj Hgj Hg x Hx Hc).
        - intros Hc. eapply (Hoth j b qj x Hj Hgj Hx). right. exact Hc. }
      split; [rewrite Hx by (left; reflexivity); exact H1|]. eapply qr_frame; [|exact H2]. intros x Hi. apply Hx. right. exact Hi.
  - intros j b qj. unfold fupd. destruct (Z.eqb_spec j i) as [->|Hj]; [|apply (b_nd _ _ _ _ B)].
    intros H. inversion H; subst. intros Hi. destruct (Hnew b Hi) as [H'|H'].
    + exact (b_nd _ _ _ _ B _ _ _ Hg H').
    + eapply bank_live in H'; eauto. left. reflexivity.
  - intros j k b qb c qc Hjk. unfold fupd. destruct (Z.eqb_spec j i) as [->|Hj]; destruct (Z.eqb_spec k i) as [->|Hk]; [congruence| | |].
    + intros H Hgk x Hx Hc. inversion H; subst. exact (Hoth k c qc x Hk Hgk Hc Hx).
    + intros Hgj H x Hx. inversion H; subst. exact (Hoth j b qb x Hj Hgj Hx).
    + apply (b_dis _ _ _ _ B); exact Hjk.
  - intros j b qj. unfold fupd. destruct (Z.eqb_spec j i) as [->|Hj]; [|apply (b_new _ _ _ _ B)].
    intros H x Hx. inversion H; subst. destruct (Hsub x Hx) as [H'|H'].
    + exact (b_new _ _ _ _ B _ _ _ Hg x H').
    + exact (proj2 (bank_fresh _ _ _ _ _ B H')).
  - intros x Hx. assert (Hxi : ~ In x (cells a l')).
    { specialize (Hx i a q'). unfold fupd in Hx. rewrite Z.eqb_refl in Hx. apply Hx. reflexivity. }
    assert (Hxj : forall j b qj, j <> i -> g j = Some (b, qj) -> ~ In x (cells b (nl j))).
    { intros j b qj Hj Hgj. specialize (Hx j b qj). unfold fupd in Hx. destruct (Z.eqb_spec j i); [contradiction|]. apply Hx. exact Hgj. }
    destruct (in_dec Pos.eq_dec x (cells a (nl i))) as [Hi|Hi].
    + destruct Hi as [<-|Hi]; [exfalso; apply Hxi; left; reflexivity|].
      rewrite (Hfree x Hi) by (intros Hc; apply Hxi; right; exact Hc). symmetry. eapply (b_new _ _ _ _ B); [exact Hg|right; exact Hi].
    + rewrite Hfr; [|exact Hi|intros Hc; apply Hxi; right; exact Hc]. apply (b_out _ _ _ _ B).
      intros j b qj Hgj. destruct (Z.eq_dec j i) as [->|Hj]; [rewrite Hg in Hgj; inversion Hgj; subst; exact Hi|eauto].
Qed.

Section Ops.
Context (al : allocator) (Bd : bound) (Hal : fresh_alloc al) (Hroom : room al Bd).

(** new Queue(w) *)
Lemma bank_add h0 g h nl i w : within Bd h (hsize h + 56) -> bank h0 g h nl -> g i = None ->
  exists a h', new_queue al h w = Ok (a, h') /\ find a h = None /\ bank h0 (fupd g i (Some (a, q_new w))) h' (fupd nl i []).
Proof using Hal Hroom.
  intros HB Hbk Hg. destruct (alloc_ok al Bd Hal Hroom h (OQueue (hq_new w)) HB) as (a & _ & Ha & F & _ & _).
  exists a, (hadd a (OQueue (hq_new w)) h). split; [exact F|]. split; [exact Ha|]. set (h' := hadd a (OQueue (hq_new w)) h).
  destruct (hupd_add h a (OQueue (hq_new w))) as [Hn Ho]. fold h' in Hn, Ho.
  destruct (bank_fresh _ _ _ _ _ Hbk Ha) as [Hfr Ha0].
  constructor.
  - intros j b qj. unfold fupd. destruct (Z.eqb_spec j i) as [->|Hj].
    + intros H. inversion H; subst. exists (hq_new w). split; [exact Hn|apply qr_new].
    + intros Hgj. destruct (b_q _ _ _ _ Hbk _ _ _ Hgj) as (hq & H1 & H2). exists hq.
      assert (Hx : forall x, In x (cells b (nl j)) -> find x h' = find x h).
      { intros x Hx. apply Ho. intros ->. exact (Hfr _ _ _ Hgj Hx). }
      split; [rewrite Hx by (left; reflexivity); exact H1|]. eapply qr_frame; [|exact H2]. intros x Hi. apply Hx. right. exact Hi.
  - intros j b qj. unfold fupd. destruct (Z.eqb_spec j i) as [->|Hj]; [|apply (b_nd _ _ _ _ Hbk)]. intros _ [].
  - intros j k b qb c qc Hjk. unfold fupd. destruct (Z.eqb_spec j i) as [->|Hj]; destruct (Z.eqb_spec k i) as [->|Hk]; [congruence| | |].
    + intros H Hgk x [<-|[]] Hc. inversion H; subst. exact (Hfr _ _ _ Hgk Hc).
    + intros Hgj H x Hx [<-|[]]. inversion H; subst. exact (Hfr _ _ _ Hgj Hx).
    + apply (b_dis _ _ _ _ Hbk); exact Hjk.
  - intros j b qj. unfold fupd. destruct (Z.eqb_spec j i) as [->|Hj]; [|apply (b_new _ _ _ _ Hbk)].
    intros H x [<-|[]]. inversion H; subst. exact Ha0.
  - intros x Hx. assert (x <> a).
    { intros ->. specialize (Hx i a (q_new w)). unfold fupd in Hx. rewrite Z.eqb_refl in Hx. apply Hx; [reflexivity|left; reflexivity]. }
    rewrite Ho by assumption. apply (b_out _ _ _ _ Hbk). intros j b qj Hgj.
    specialize (Hx j b qj). unfold fupd in Hx. destruct (Z.eqb_spec j i) as [->|Hj]; [congruence|]. apply Hx. exact Hgj.
Qed.

(** the calls through a pointer *)
Lemma load_queue_ok h (a : addr) hq : find a h = Some (OQueue hq) -> load_queue h (Some a) = Ok hq.
Proof. intros H. unfold load_queue. rewrite (hload_ok _ _ _ H I). reflexivity. Qed.

(** an operation of queue i that performs [delta] and the store of the object *)
Lemma bank_step h0 g h nl i a q h1 hq' q' l' :
  bank h0 g h nl -> g i = Some (a, q) -> qr h1 hq' q' l' -> delta h (foot (nl i)) h1 (foot l') ->
  exists h', hstore h1 (Some a) (OQueue hq') = Ok h' /\ bank h0 (fupd g i (Some (a, q'))) h' (fupd nl i l').
Proof.
  intros B Hg Hq [D1 D2 D3]. destruct (b_q _ _ _ _ B _ _ _ Hg) as (hq & H1 & H2).
  assert (Hnal : ~ In a (foot l')).
  { intros Hi. destruct (D2 a Hi) as [H|H]; [exact (b_nd _ _ _ _ B _ _ _ Hg H)|congruence]. }
  assert (Ha1 : find a h1 = find a h) by (apply D1; [exact (b_nd _ _ _ _ B _ _ _ Hg)|exact Hnal]). rewrite H1 in Ha1.
  destruct (hstore_ok h1 a _ (OQueue hq') Ha1 ltac:(discriminate)) as (h' & Hs & Hn & Ho). exists h'. split; [exact Hs|].
  eapply bank_change; try eassumption.
  - eapply qr_frame; [|exact Hq]. intros x Hx. apply Ho. intros ->. contradiction.
  - intros x Hx1 Hx2. rewrite Ho by (intros ->; apply Hx1; left; reflexivity). apply D1; [|exact Hx2].
    intros Hc. apply Hx1. right. exact Hc.
  - intros x Hx1 Hx2. rewrite Ho; [apply D3; assumption|]. intros ->. exact (b_nd _ _ _ _ B _ _ _ Hg Hx1).
Qed.

Lemma bank_enqueue E h0 g h nl i a q x q' : within Bd h (hsize h + block_bytes (q_w q)) -> bank h0 g h nl -> g i = Some (a, q) -> enqueue E q x = Ok q' ->
  exists h' l', p_enqueue al E h (Some a) x = Ok h' /\ bank h0 (fupd g i (Some (a, q'))) h' (fupd nl i l').
Proof using Hal Hroom.
  intros HB Hbk Hg He. destruct (b_q _ _ _ _ Hbk _ _ _ Hg) as (hq & H1 & H2).
  destruct (hq_enqueue_ok al Bd Hal Hroom E h hq q _ x q' HB H2 He) as (h1 & hq' & l' & H3 & H4 & H5).
  destruct (bank_step _ _ _ _ _ _ _ _ _ _ _ Hbk Hg H4 H5) as (h' & H6 & H7). exists h', l'.
  split; [|exact H7]. unfold p_enqueue. rewrite (load_queue_ok _ _ _ H1). cbn [bind]. rewrite H3. exact H6.
Qed.
Lemma bank_enqueue_l E h0 g h nl i a q x q' : within Bd h (hsize h + block_bytes (q_w q)) -> bank h0 g h nl -> g i = Some (a, q) -> enqueue_l E q x = Ok q' ->
  exists h' l', p_enqueue_l al E h (Some a) x = Ok h' /\ bank h0 (fupd g i (Some (a, q'))) h' (fupd nl i l').
Proof using Hal Hroom.
  intros HB Hbk Hg He. destruct (b_q _ _ _ _ Hbk _ _ _ Hg) as (hq & H1 & H2).
  destruct (hq_enqueue_l_ok al Bd Hal Hroom E h hq q _ x q' HB H2 He) as (h1 & hq' & l' & H3 & H4 & H5).
  destruct (bank_step _ _ _ _ _ _ _ _ _ _ _ Hbk Hg H4 H5) as (h' & H6 & H7). exists h', l'.
  split; [|exact H7]. unfold p_enqueue_l. rewrite (load_queue_ok _ _ _ H1). cbn [bind]. rewrite H3. exact H6.
Qed.
Lemma bank_dequeue E h0 g h nl i a q x q' : bank h0 g h nl -> g i = Some (a, q) -> dequeue E q = Ok (x, q') ->
  exists h' l', p_dequeue E h (Some a) = Ok (x, h') /\ bank h0 (fupd g i (Some (a, q'))) h' (fupd nl i l').
Proof.
  intros B Hg He. destruct (b_q _ _ _ _ B _ _ _ Hg) as (hq & H1 & H2).
  destruct (hq_dequeue_ok E h hq q _ x q' H2 He) as (h1 & hq' & l' & H3 & H4 & H5).
  destruct (bank_step _ _ _ _ _ _ _ _ _ _ _ B Hg H4 H5) as (h' & H6 & H7). exists h', l'.
  split; [|exact H7]. unfold p_dequeue. rewrite (load_queue_ok _ _ _ H1). cbn [bind]. rewrite H3. cbn [bind]. rewrite H6. reflexivity.
Qed.
Lemma bank_is_empty h0 g h nl i a q : bank h0 g h nl -> g i = Some (a, q) -> p_is_empty h (Some a) = Ok (q_is_empty q).
Proof.
  intros B Hg. destruct (b_q _ _ _ _ B _ _ _ Hg) as (hq & H1 & H2). unfold p_is_empty. rewrite (load_queue_ok _ _ _ H1). cbn [bind].
  unfold hq_is_empty, q_is_empty. rewrite (qr_n _ _ _ _ H2). reflexivity.
Qed.
Lemma bank_delete h0 g h nl i a q : bank h0 g h nl -> g i = Some (a, q) ->
  exists h', delete_queue h (Some a) = Ok h' /\ bank h0 (fupd g i None) h' nl.
Proof.
  intros B Hg. destruct (b_q _ _ _ _ B _ _ _ Hg) as (hq & H1 & H2).
  destruct (hq_destroy_ok h hq q _ H2) as (h1 & H3 & [D1 D2 D3]).
  assert (Ha1 : find a h1 = find a h) by (apply D1; [exact (b_nd _ _ _ _ B _ _ _ Hg)|auto]). rewrite H1 in Ha1.
  destruct (hfree_ok KNew h1 a _ Ha1 eq_refl) as (h' & H4 & Hn & Ho).
  exists h'. split. { unfold delete_queue. rewrite (load_queue_ok _ _ _ H1). cbn [bind]. rewrite H3. exact H4. }
  assert (Hoth : forall j b qj, j <> i -> g j = Some (b, qj) -> forall x, In x (cells b (nl j)) -> find x h' = find x h).
  { intros j b qj Hj Hgj x Hx. rewrite Ho.
    - apply D1; [|auto]. intros Hc. eapply (b_dis _ _ _ _ B _ _ _ _ _ _ Hj Hgj Hg x Hx). right. exact Hc.
    - intros ->. eapply (b_dis _ _ _ _ B _ _ _ _ _ _ Hj Hgj Hg a Hx). left. reflexivity. }
  constructor.
  - intros j b qj. unfold fupd. destruct (Z.eqb_spec j i) as [->|Hj]; [discriminate|]. intros Hgj.
    destruct (b_q _ _ _ _ B _ _ _ Hgj) as (hqj & G1 & G2). exists hqj. pose proof (Hoth _ _ _ Hj Hgj) as Hx.
    split; [rewrite Hx by (left; reflexivity); exact G1|]. eapply qr_frame; [|exact G2]. intros x Hi. apply Hx. right. exact Hi.
  - intros j b qj. unfold fupd. destruct (Z.eqb_spec j i); [discriminate|apply (b_nd _ _ _ _ B)].
  - intros j k b qb c qc Hjk. unfold fupd. destruct (Z.eqb_spec j i); [discriminate|]. destruct (Z.eqb_spec k i); [discriminate|].
    apply (b_dis _ _ _ _ B); exact Hjk.
  - intros j b qj. unfold fupd. destruct (Z.eqb_spec j i); [discriminate|apply (b_new _ _ _ _ B)].
  - intros x Hx. destruct (in_dec Pos.eq_dec x (cells a (nl i))) as [Hi|Hi].
    + assert (find x h' = None) as ->.
      { destruct Hi as [<-|Hi]; [exact Hn|]. rewrite Ho; [apply D3; auto|]. intros ->. exact (b_nd _ _ _ _ B _ _ _ Hg Hi). }
      symmetry. eapply (b_new _ _ _ _ B); eassumption.
    + rewrite Ho by (intros ->; apply Hi; left; reflexivity). rewrite D1; [|intros Hc; apply Hi; right; exact Hc|auto].
      apply (b_out _ _ _ _ B). intros j b qj Hgj. destruct (Z.eq_dec j i) as [->|Hj]; [rewrite Hg in Hgj; inversion Hgj; subst; exact Hi|].
      apply (Hx j b qj). unfold fupd. destruct (Z.eqb_spec j i); [contradiction|exact Hgj].
Qed.
(** changes elsewhere in the heap *)
Lemma bank_alloc h0 g h nl o : within Bd h (hsize h + osize o) -> bank h0 g h nl ->
  exists a, hnew al h o = Ok (a, hadd a o h) /\ hmalloc al h o = (Some a, hadd a o h) /\
    find a h0 = None /\ bank (hadd a o h0) g (hadd a o h) nl.
Proof using Hal Hroom.
  intros HB Hbk. destruct (alloc_ok al Bd Hal Hroom h o HB) as (a & _ & Ha & F1 & F2 & _). exists a. split; [exact F1|]. split; [exact F2|].
  destruct (bank_fresh _ _ _ _ _ Hbk Ha) as [Hfr Ha0]. split; [exact Ha0|].
  destruct (hupd_add h a o) as [Hn Ho]. destruct (hupd_add h0 a o) as [Hn0 Ho0].
  constructor.
  - intros j b qj Hgj. destruct (b_q _ _ _ _ Hbk _ _ _ Hgj) as (hq & H1 & H2). exists hq.
    assert (Hx : forall x, In x (cells b (nl j)) -> find x (hadd a o h) = find x h).
    { intros x Hx. apply Ho. intros ->. exact (Hfr _ _ _ Hgj Hx). }
    split; [rewrite Hx by (left; reflexivity); exact H1|]. eapply qr_frame; [|exact H2]. intros x Hi. apply Hx. right. exact Hi.
  - apply (b_nd _ _ _ _ Hbk).
  - apply (b_dis _ _ _ _ Hbk).
  - intros j b qj Hgj x Hx. rewrite Ho0; [eapply (b_new _ _ _ _ Hbk); eauto|]. intros ->. exact (Hfr _ _ _ Hgj Hx).
  - intros x Hx. destruct (Pos.eq_dec x a) as [->|Hne]; [rewrite Hn, Hn0; reflexivity|].
    rewrite Ho, Ho0 by assumption. apply (b_out _ _ _ _ Hbk). exact Hx.
Qed.
Lemma bank_free k h0 g h nl (a : addr) h0' : bank h0 g h nl -> find a h0 <> None -> hfree k h0 (Some a) = Ok h0' ->
  exists h', hfree k h (Some a) = Ok h' /\ bank h0' g h' nl.
Proof.
  intros B Ha Hf.
  assert (Hfr : forall i b q, g i = Some (b, q) -> ~ In a (cells b (nl i))).
  { intros i b q Hg Hi. apply Ha. eapply (b_new _ _ _ _ B); eauto. }
  pose proof (bank_outside _ _ _ _ _ B Ha) as Hah. unfold hfree in *. rewrite Hah.
  destruct (find a h0) as [o|]; [|congruence]. destruct (kind_eqb (kind_of o) k); [|discriminate]. inversion Hf; subst h0'; clear Hf.
  eexists. split; [reflexivity|].
  assert (Hn : forall hh, find a (hremove a hh) = None) by (intros; apply hgrs).
  assert (Ho : forall hh x, x <> a -> find x (hremove a hh) = find x hh) by (intros; apply hgro; congruence).
  constructor.
  - intros j b qj Hgj. destruct (b_q _ _ _ _ B _ _ _ Hgj) as (hq & H1 & H2). exists hq.
    assert (Hx : forall x, In x (cells b (nl j)) -> find x (hremove a h) = find x h).
    { intros x Hx. apply Ho. intros ->. exact (Hfr _ _ _ Hgj Hx). }
    split; [rewrite Hx by (left; reflexivity); exact H1|]. eapply qr_frame; [|exact H2]. intros x Hi. apply Hx. right. exact Hi.
  - apply (b_nd _ _ _ _ B).
  - apply (b_dis _ _ _ _ B).
  - intros j b qj Hgj x Hx. rewrite Ho; [eapply (b_new _ _ _ _ B); eauto|]. intros ->. exact (Hfr _ _ _ Hgj Hx).
  - intros x Hx. destruct (Pos.eq_dec x a) as [->|Hne]; [rewrite !Hn; reflexivity|].
    rewrite !Ho by assumption. apply (b_out _ _ _ _ B). exact Hx.
Qed.
End Ops.

(** * Sizes *)
Definition nodes_bytes (l : list node) : Z := fold_right (fun x s => 56 + pa_bytes (n_p x) + s) 0 l.
Definition qbytes (g : Z -> option (addr * queue)) (nl : Z -> list node) (i : Z) : Z :=
  match g i with None => 0 | Some _ => 56 + nodes_bytes (nl i) end.
Definition objs (h : heap) (l : list addr) : list (addr * obj) :=
  map (fun x : addr => @pair addr obj x (match find x h with Some o => o | None => OOther (KMalloc, 0) end)) l.
Lemma objs_app h l1 l2 : objs h (l1 ++ l2) = objs h l1 ++ objs h l2.
Proof. apply map_app. Qed.
Lemma objs_fst h l : map fst (objs h l) = l.
Proof. unfold objs. rewrite map_map. cbn [fst]. apply map_id. Qed.
Lemma chain_bytes h l : forall prev nxt, chain h prev l nxt -> bytes (objs h (foot l)) = nodes_bytes l.
Proof.
  induction l as [|x l IH]; intros prev nxt Hc; [reflexivity|]. cbn [chain] in Hc. destruct Hc as (H1 & H2 & H3 & H4).
  cbn [foot]. cbn [objs map bytes fold_right snd]. rewrite H1, H2, H3. cbn [osize words snd].
  change (fold_right _ 0 _) with (bytes (objs h (foot l))). rewrite (IH _ _ H4). cbn [nodes_bytes fold_right]. fold (nodes_bytes l). lia.
Qed.
Lemma NoDup_app_dis {A} (l1 l2 : list A) : NoDup l1 -> NoDup l2 -> (forall x, In x l1 -> ~ In x l2) -> NoDup (l1 ++ l2).
Proof.
  induction l1 as [|x l IH]; intros H1 H2 H3; [exact H2|]. cbn. inversion H1; subst. constructor.
  - rewrite in_app_iff. intros [H|H]; [contradiction|]. apply (H3 x); [left; reflexivity|exact H].
  - apply IH; [assumption|exact H2|]. intros y Hy. apply H3. right. exact Hy.
Qed.
Lemma bank_size h0 g h nl vs : bank h0 g h nl -> NoDup vs -> (forall i, g i <> None -> In i vs) ->
  hsize h = hsize h0 + fold_right (fun i s => qbytes g nl i + s) 0 vs.
Proof.
  intros Bk Hv Hd. set (cl := fun i => match g i with Some (a, _) => cells a (nl i) | None => [] end).
  assert (Hcl : forall i x, In x (cl i) -> exists a q, g i = Some (a, q) /\ In x (cells a (nl i))).
  { intros i x. unfold cl. destruct (g i) as [[a q]|]; [eauto|intros []]. }
  rewrite (hsize_plus h h0 (objs h (flat_map cl vs))).
  - f_equal. clear Hv Hd. induction vs as [|i vs IH]; [reflexivity|]. cbn [flat_map fold_right]. rewrite objs_app, bytes_app. rewrite IH. f_equal. unfold cl, qbytes. destruct (g i) as [[a q]|] eqn:Hg; [|reflexivity].
    destruct (b_q _ _ _ _ Bk _ _ _ Hg) as (hq & H1 & H2). cbn [cells objs map bytes fold_right snd]. rewrite H1. cbn [osize].
    f_equal. exact (chain_bytes h (nl i) _ _ (qr_ch _ _ _ _ H2)).
  - rewrite objs_fst. clear Hd. induction vs as [|i vs IH]; [constructor|]. inversion Hv as [|? ? V1 V2]; subst. cbn [flat_map].
    apply NoDup_app_dis; [|apply IH, V2|].
    + unfold cl. destruct (g i) as [[a q]|] eqn:Hg; [|constructor]. destruct (b_q _ _ _ _ Bk _ _ _ Hg) as (hq & _ & H2).
      constructor; [exact (b_nd _ _ _ _ Bk _ _ _ Hg)|exact (qr_nd _ _ _ _ H2)].
    + intros x Hx Hc. apply in_flat_map in Hc as (j & Hj & Hc). apply Hcl in Hx as (a & q & Hg & Hx). apply Hcl in Hc as (b & q' & Hg' & Hc).
      assert (i <> j) by (intros ->; contradiction). exact (b_dis _ _ _ _ Bk _ _ _ _ _ _ H Hg Hg' x Hx Hc).
  - intros a o Hin. unfold objs in Hin. apply in_map_iff in Hin as (x & He & Hx). inversion He; subst x; clear He.
    apply in_flat_map in Hx as (i & _ & Hx). apply Hcl in Hx as (b & q & Hg & Hx). split; [exact (b_new _ _ _ _ Bk _ _ _ Hg a Hx)|].
    pose proof (bank_live _ _ _ _ _ _ _ _ Bk Hg Hx) as Hl. destruct (find a h); [subst o; reflexivity|congruence].
  - intros a Ha. rewrite objs_fst in Ha. apply (b_out _ _ _ _ Bk). intros i b q Hg Hx. apply Ha. apply in_flat_map. exists i.
    split; [apply Hd; congruence|]. unfold cl. rewrite Hg. exact Hx.
Qed.
