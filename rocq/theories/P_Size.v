(** The number of bytes of the live blocks of a heap. *)
From Verif Require Import Base M_PackedArray M_Queue M_Heap Pool.
From Coq Require Import FMapPositive Permutation.
Open Scope Z_scope.

Definition bytes (l : list (addr * obj)) : Z := fold_right (fun x s => osize (snd x) + s) 0 l.
Lemma bytes_app l1 l2 : bytes (l1 ++ l2) = bytes l1 + bytes l2.
Proof. induction l1 as [|x l IH]; cbn; [reflexivity|]. fold (bytes (l ++ l2)) (bytes l). rewrite IH. lia. Qed.
Lemma bytes_perm l1 l2 : Permutation l1 l2 -> bytes l1 = bytes l2.
Proof.
  induction 1; [reflexivity| | |congruence].
  - cbn. fold (bytes l) (bytes l'). lia.
  - cbn. fold (bytes l). lia.
Qed.
Lemma elements_keys h : NoDup (map fst (helements h)).
Proof.
  unfold helements. pose proof (PositiveMap.elements_3w (blocks h)) as Hn. induction Hn as [|[k o] l Hni Hn' IHn]; [constructor|]. cbn. constructor; [|exact IHn].
  intros Hi. apply Hni. apply in_map_iff in Hi as ([k' o'] & Hk & Hin). cbn in Hk. subst k'. apply SetoidList.InA_alt. exists (k, o').
  split; [reflexivity|exact Hin].
Qed.
Lemma elements_nodup h : NoDup (helements h).
Proof. eapply NoDup_map_inv. apply elements_keys. Qed.
Lemma elements_in h a o : In (a, o) (helements h) <-> hfind a h = Some o.
Proof. split; [apply helements_complete|apply helements_correct]. Qed.
(** the heap as a list *)
Lemma hsize_list h (l : list (addr * obj)) : NoDup l -> (forall a o, In (a, o) l <-> hfind a h = Some o) -> hsize h = bytes l.
Proof.
  intros Hn Hi. apply (bytes_perm (helements h) l). apply NoDup_Permutation; [apply elements_nodup|exact Hn|].
  intros [a o]. rewrite Hi. apply elements_in.
Qed.
Lemma hsize_same h h' : same_heap h h' -> hsize h = hsize h'.
Proof. intros H. apply (hsize_list h (helements h')); [apply elements_nodup|]. intros a o. rewrite elements_in, (H a). reflexivity. Qed.
(** disjoint parts: h is h0 with the blocks l added *)
Lemma hsize_plus h h0 (l : list (addr * obj)) : NoDup (map fst l) ->
  (forall a o, In (a, o) l -> hfind a h0 = None /\ hfind a h = Some o) ->
  (forall a, ~ In a (map fst l) -> hfind a h = hfind a h0) ->
  hsize h = hsize h0 + bytes l.
Proof.
  intros Hn Hl Ho. rewrite (hsize_list h (l ++ helements h0)).
  - rewrite bytes_app. change (hsize h0) with (bytes (helements h0)). lia.
  - clear Ho. induction l as [|[a o] l IH]; [apply elements_nodup|]. cbn. cbn in Hn. inversion Hn as [|? ? H1 H2]; subst. constructor.
    + rewrite in_app_iff. intros [Hi|Hi].
      * apply H1. apply in_map_iff. exists (a, o). auto.
      * apply elements_in in Hi. destruct (Hl a o (or_introl eq_refl)) as [Hx _]. congruence.
    + apply IH; [exact H2|]. intros x y Hx. apply Hl. right. exact Hx.
  - intros a o. rewrite in_app_iff, elements_in. split.
    + intros [Hi|Hi]; [apply Hl, Hi|]. rewrite Ho; [exact Hi|]. intros Hc. apply in_map_iff in Hc as ([x y] & He & Hc). cbn in He. subst x.
      destruct (Hl a y Hc) as [Hx _]. congruence.
    + intros Hf. destruct (in_dec Pos.eq_dec a (map fst l)) as [Hi|Hi].
      * apply in_map_iff in Hi as ([x y] & He & Hi). cbn in He. subst x. destruct (Hl a y Hi) as [_ Hx]. left. replace o with y by congruence. exact Hi.
      * right. rewrite <- (Ho a Hi). exact Hf.
Qed.
Lemma hsize_add h (a : addr) o : hfind a h = None -> hsize (hadd a o h) = hsize h + osize o.
Proof.
  intros Ha. rewrite (hsize_plus _ h [(a, o)]).
  - cbn. lia.
  - constructor; [intros []|constructor].
  - intros x y [H|[]]. inversion H; subst. split; [exact Ha|apply hgss].
  - intros x Hx. apply hgso. intros ->. apply Hx. left. reflexivity.
Qed.

(** what is required of a heap in which an allocation may be assumed to succeed: at most so many bytes (None is
    unlimited), and the blocks of a given heap are there *)
Definition bound := (option Z * heap)%type.
Definition below (B : option Z) (x : Z) : Prop := match B with None => True | Some b => x <= b end.
Definition within (B : bound) (h : heap) (x : Z) : Prop := keeps (snd B) h /\ below (fst B) x.
Definition no_heap : heap := hempty.
Lemma keeps_nothing h : keeps no_heap h.
Proof. intros a o H. unfold no_heap in H. rewrite hgempty in H. discriminate. Qed.
Lemma keeps_refl h : keeps h h.
Proof. intros a o H. exact H. Qed.
Lemma keeps_trans h1 h2 h3 : keeps h1 h2 -> keeps h2 h3 -> keeps h1 h3.
Proof. intros H1 H2 a o H. apply H2, H1, H. Qed.
Lemma keeps_add h (a : addr) o : hfind a h = None -> keeps h (hadd a o h).
Proof. intros Ha b o' Hb. rewrite hgso; [exact Hb|]. intros ->. congruence. Qed.
Lemma within_le B h x y : within B h y -> x <= y -> within B h x.
Proof. destruct B as [[b|] hb]; unfold within; cbn; [|auto]. intros [H1 H2] H. split; [exact H1|lia]. Qed.
Lemma within_keeps B h h' x y : within B h y -> keeps h h' -> x <= y -> within B h' x.
Proof. intros [H1 H2] Hk H. apply (within_le B h' x y); [|exact H]. split; [eapply keeps_trans; eassumption|exact H2]. Qed.
Definition room (al : allocator) (B : bound) : Prop := forall h sz, within B h (hsize h + sz) -> al h sz <> None.
Lemma room_none al hb : never_fails al -> room al (None, hb).
Proof. intros H h sz _. apply H. Qed.
Lemma room_some al b hb : enough al b -> room al (Some b, hb).
Proof. intros H h sz [_ Hx]. apply H, Hx. Qed.

Section Alloc.
Context (al : allocator) (B : bound) (Hal : fresh_alloc al) (Hroom : room al B).
Lemma alloc_ok h o : within B h (hsize h + osize o) -> exists a, al h (osize o) = Some a /\ hfind a h = None /\
  hnew al h o = Ok (a, hadd a o h) /\ hmalloc al h o = (Some a, hadd a o h) /\
  hsize (hadd a o h) = hsize h + osize o.
Proof.
  intros H. destruct (al h (osize o)) as [a|] eqn:Ha; [|destruct (Hroom _ _ H Ha)]. exists a. split; [reflexivity|].
  pose proof (Hal _ _ _ Ha) as Hf. split; [exact Hf|]. unfold hnew, hmalloc. rewrite Ha.
  split; [reflexivity|]. split; [reflexivity|]. apply hsize_add, Hf.
Qed.
End Alloc.
