(** The linked-block queue of M_Heap.v refines the list-of-blocks queue of M_Queue.v; it
    touches only its own blocks and blocks it allocates, and its destructor releases them all. *)
From Verif Require Import Base M_PackedArray M_Queue M_Heap Histories Pool P_Size.
From Coq Require Import FMapPositive.
Open Scope Z_scope.

Notation find := hfind.

(** a qblock, its PackedArray, the words *)
Definition node : Type := addr * addr * addr * packed.
Definition n_a (x : node) : addr := fst (fst (fst x)).
Definition n_b (x : node) : addr := snd (fst (fst x)).
Definition n_c (x : node) : addr := snd (fst x).
Definition n_p (x : node) : packed := snd x.
Lemma aset_alen {A} (a a' : arr A) i v : aset a i v = Ok a' -> alen a' = alen a.
Proof.
  intros H. destruct (Z_lt_ge_dec i 0); [rewrite aset_oob in H by lia; discriminate|]. destruct (Z_lt_ge_dec i (alen a)); [|rewrite aset_oob in H by lia; discriminate].
  rewrite aset_ok in H by lia. inversion H; subst. apply alen_upd.
Qed.
Definition words (p : packed) : obj := OOther (KMalloc, pa_bytes p).
Lemma pa_set_bytes E p i v p' : pa_set E p i v = Ok p' -> pa_bytes p' = pa_bytes p.
Proof.
  intros H. unfold pa_bytes. f_equal. revert H. unfold pa_set.
  destruct (pa_bits p <=? _).
  - destruct (rdw _ _ _) as [w|]; [|discriminate]. cbn [bind]. destruct (aset _ _ _) as [a|] eqn:Ha; [|discriminate]. cbn [bind].
    intros H. inversion H; subst. cbn [pa_arr]. eapply aset_alen; exact Ha.
  - destruct (rdw E (pa_arr p) _) as [w|]; [|discriminate]. cbn [bind]. destruct (aset (pa_arr p) _ _) as [a|] eqn:Ha; [|discriminate]. cbn [bind].
    destruct (rdw E a _) as [w2|]; [|discriminate]. cbn [bind]. destruct (aset a _ _) as [a2|] eqn:Ha2; [|discriminate]. cbn [bind].
    intros H. inversion H; subst. cbn [pa_arr]. apply aset_alen in Ha2. apply aset_alen in Ha. congruence.
Qed.

Definition first_of (l : list node) (d : pointer) : pointer :=
  match l with [] => d | x :: _ => Some (n_a x) end.
Definition last_of (l : list node) (d : pointer) : pointer :=
  match l with [] => d | _ => Some (n_a (last l (1%positive, 1%positive, 1%positive, pa_new 0 1))) end.
(** the blocks l are linked in h; prev / nxt are the outer links *)
Fixpoint chain (h : heap) (prev : pointer) (l : list node) (nxt : pointer) : Prop :=
  match l with
  | [] => True
  | x :: r => find (n_a x) h = Some (OBlock (Some prev) (Some (first_of r nxt)) (Some (Some (n_b x)))) /\
              find (n_b x) h = Some (OPacked (n_p x) (Some (n_c x))) /\ find (n_c x) h = Some (words (n_p x)) /\
              chain h (Some (n_a x)) r nxt
  end.
Fixpoint foot (l : list node) : list addr :=
  match l with [] => [] | x :: r => n_a x :: n_b x :: n_c x :: foot r end.

Lemma foot_app l1 l2 : foot (l1 ++ l2) = foot l1 ++ foot l2.
Proof. induction l1 as [|x l IH]; cbn; [reflexivity|]. rewrite IH. reflexivity. Qed.
Lemma chain_frame h h' l : (forall a, In a (foot l) -> find a h' = find a h) ->
  forall prev nxt, chain h prev l nxt -> chain h' prev l nxt.
Proof.
  induction l as [|x l IH]; intros Hf prev nxt H; cbn in *; [exact I|]. destruct H as (H1 & H2 & H2' & H3).
  split; [rewrite Hf by auto; exact H1|]. split; [rewrite Hf by auto; exact H2|]. split; [rewrite Hf by auto; exact H2'|]. apply IH; [|exact H3]. intros; apply Hf; auto.
Qed.
Lemma last_of_cons x l d : last_of (x :: l) d = last_of l (Some (n_a x)).
Proof. destruct l; reflexivity. Qed.
Lemma last_of_snoc l x d : last_of (l ++ [x]) d = Some (n_a x).
Proof. revert d. induction l as [|y l IH]; intros d; [reflexivity|]. cbn [app]. rewrite last_of_cons. apply IH. Qed.
Lemma first_of_app l1 l2 d : first_of (l1 ++ l2) d = first_of l1 (first_of l2 d).
Proof. destruct l1; reflexivity. Qed.
Lemma chain_app h l1 : forall prev l2 nxt,
  chain h prev (l1 ++ l2) nxt <-> chain h prev l1 (first_of l2 nxt) /\ chain h (last_of l1 prev) l2 nxt.
Proof.
  induction l1 as [|x l IH]; intros prev l2 nxt; [cbn; tauto|]. cbn [app chain]. rewrite first_of_app, last_of_cons, IH. tauto.
Qed.
Lemma chain_live h l a : In a (foot l) -> forall prev nxt, chain h prev l nxt -> find a h <> None.
Proof.
  induction l as [|x l IH]; intros Ha prev nxt H; cbn in *; [contradiction|]. destruct H as (H1 & H2 & H2' & H3).
  destruct Ha as [<-|[<-|[<-|Ha]]]; [congruence|congruence|congruence|eapply IH; eassumption].
Qed.

(** * Single stores *)
Definition hupd (h h' : heap) (a : addr) (o : obj) : Prop :=
  find a h' = Some o /\ forall x, x <> a -> find x h' = find x h.
Lemma hupd_add h a o : hupd h (hadd a o h) a o.
Proof. split; [apply hgss|]. intros x Hx. apply hgso. congruence. Qed.
Lemma hload_ok h (a : addr) o : find a h = Some o -> match o with OOther _ => False | _ => True end -> hload h (Some a) = Ok o.
Proof. intros H Ho. unfold hload. rewrite H. destruct o; [reflexivity|reflexivity|reflexivity|destruct Ho]. Qed.
Lemma huse_ok h (a : addr) o z : find a h = Some o -> z <= osize o -> huse h (Some a) z = Ok tt.
Proof. intros H Hz. unfold huse. rewrite H. destruct (Z.ltb_spec (osize o) z); [lia|reflexivity]. Qed.
Lemma hstore_ok h (a : addr) o o' : find a h = Some o -> (forall x, o <> OOther x) -> exists h', hstore h (Some a) o' = Ok h' /\ hupd h h' a o'.
Proof.
  intros H Ho. unfold hstore. rewrite H. exists (hadd a o' h). split; [|apply hupd_add]. destruct o; try reflexivity. exfalso. apply (Ho x). reflexivity.
Qed.
Lemma hfree_ok k h (a : addr) o : find a h = Some o -> kind_of o = k ->
  exists h', hfree k h (Some a) = Ok h' /\ find a h' = None /\ forall x, x <> a -> find x h' = find x h.
Proof.
  intros H <-. unfold hfree. rewrite H. assert (kind_eqb (kind_of o) (kind_of o) = true) as -> by (destruct (kind_of o); reflexivity).
  eexists. split; [reflexivity|]. split; [apply hgrs|]. intros x Hx. apply hgro. congruence.
Qed.
Lemma set_next_ok h (a : addr) p n b v : find a h = Some (OBlock p n b) ->
  exists h', set_next h (Some a) v = Ok h' /\ hupd h h' a (OBlock p (Some v) b).
Proof. intros H. unfold set_next. rewrite (hload_ok _ _ _ H I). cbn [bind]. eapply hstore_ok; [exact H|discriminate]. Qed.
Lemma set_prev_ok h (a : addr) p n b v : find a h = Some (OBlock p n b) ->
  exists h', set_prev h (Some a) v = Ok h' /\ hupd h h' a (OBlock (Some v) n b).
Proof. intros H. unfold set_prev. rewrite (hload_ok _ _ _ H I). cbn [bind]. eapply hstore_ok; [exact H|discriminate]. Qed.
Lemma set_b_ok h (a : addr) p n b v : find a h = Some (OBlock p n b) ->
  exists h', set_b h (Some a) v = Ok h' /\ hupd h h' a (OBlock p n (Some v)).
Proof. intros H. unfold set_b. rewrite (hload_ok _ _ _ H I). cbn [bind]. eapply hstore_ok; [exact H|discriminate]. Qed.
Lemma get_next_ok h (a : addr) p n b : find a h = Some (OBlock p (Some n) b) -> get_next h (Some a) = Ok n.
Proof. intros H. unfold get_next. rewrite (hload_ok _ _ _ H I). reflexivity. Qed.
Lemma get_b_ok h (a : addr) p n b : find a h = Some (OBlock p n (Some b)) -> get_b h (Some a) = Ok b.
Proof. intros H. unfold get_b. rewrite (hload_ok _ _ _ H I). reflexivity. Qed.
Lemma pa_set_at_ok E h (a w : addr) p p' i x : find a h = Some (OPacked p (Some w)) -> find w h = Some (words p) -> pa_set E p i x = Ok p' ->
  exists h', pa_set_at E h (Some a) i x = Ok h' /\ hupd h h' a (OPacked p' (Some w)).
Proof.
  intros H Hw Hp. unfold pa_set_at. rewrite (hload_ok _ _ _ H I). cbn [bind]. rewrite (huse_ok _ _ _ _ Hw) by apply Z.le_refl. cbn [bind].
  rewrite Hp. cbn [bind]. eapply hstore_ok; [exact H|discriminate].
Qed.
Lemma pa_get_at_ok E h (a w : addr) p i v : find a h = Some (OPacked p (Some w)) -> find w h = Some (words p) -> pa_get E p i = Ok v -> pa_get_at E h (Some a) i = Ok v.
Proof. intros H Hw Hp. unfold pa_get_at. rewrite (hload_ok _ _ _ H I). cbn [bind]. rewrite (huse_ok _ _ _ _ Hw) by apply Z.le_refl. exact Hp. Qed.
Lemma delete_packed_ok h (a w : addr) p : find a h = Some (OPacked p (Some w)) -> find w h = Some (words p) -> a <> w ->
  exists h', delete_packed h (Some a) = Ok h' /\ find a h' = None /\ find w h' = None /\ forall x, x <> a -> x <> w -> find x h' = find x h.
Proof.
  intros H Hw Hne. unfold delete_packed. rewrite (hload_ok _ _ _ H I). cbn [bind].
  destruct (hfree_ok KMalloc h w _ Hw eq_refl) as (h1 & -> & F1 & O1). cbn [bind].
  assert (H1 : find a h1 = Some (OPacked p (Some w))) by (rewrite O1 by assumption; exact H).
  destruct (hfree_ok KNew h1 a _ H1 eq_refl) as (h2 & -> & F2 & O2). exists h2. split; [reflexivity|]. split; [exact F2|].
  split; [rewrite O2 by congruence; exact F1|]. intros x N1 N2. rewrite O2, O1 by assumption. reflexivity.
Qed.

Section Queue.
Context (al : allocator) (B : bound) (Hal : fresh_alloc al) (Hroom : room al B).

(** bytes of one block of a queue of width w *)
Definition block_bytes (w : Z) : Z := 56 + pa_bytes (pa_new QSIZ w).
Lemma new_block_ok h w : within B h (hsize h + block_bytes w) -> exists a pa pw h1, new_block al h w = Ok (h1, Some a) /\ a <> pa /\ a <> pw /\ pa <> pw /\
  find a h = None /\ find pa h = None /\ find pw h = None /\
  find a h1 = Some (OBlock None None (Some (Some pa))) /\ find pa h1 = Some (OPacked (pa_new QSIZ w) (Some pw)) /\
  find pw h1 = Some (words (pa_new QSIZ w)) /\
  forall x, x <> a -> x <> pa -> x <> pw -> find x h1 = find x h.
Proof.
  intros HB. unfold new_block, new_packed, block_bytes in *. set (p0 := pa_new QSIZ w) in *.
  assert (Hp0 : 0 <= pa_bytes p0).
  { unfold pa_bytes, p0, pa_new. cbn [pa_arr]. rewrite alen_new. pose proof (Z.div_pos (u64 (QSIZ * w)) 64). unfold u64 in *.
    pose proof (Z.mod_pos_bound (QSIZ * w) (2 ^ 64)). unfold wrap in *. lia. }
  destruct (alloc_ok al B Hal Hroom h (OBlock None None None)) as (a & _ & Ha & _ & -> & S1). { eapply within_le; [exact HB|cbn [osize]; lia]. }
  set (h1 := hadd a (OBlock None None None) h) in *. cbv zeta.
  destruct (alloc_ok al B Hal Hroom h1 (OPacked p0 None)) as (pa & _ & Hpa & -> & _ & S2). { eapply within_keeps; [exact HB|apply keeps_add, Ha|]. rewrite S1. cbn [osize]. lia. }
  set (h2 := hadd pa (OPacked p0 None) h1) in *. cbn [bind]. cbv zeta.
  destruct (alloc_ok al B Hal Hroom h2 (OOther (KMalloc, pa_bytes p0))) as (pw & _ & Hpw & _ & -> & S3). { eapply within_keeps; [exact HB|eapply keeps_trans; [apply keeps_add, Ha|apply keeps_add, Hpa]|]. rewrite S2, S1. cbn [osize snd]. lia. }
  set (h3 := hadd pw (OOther (KMalloc, pa_bytes p0)) h2) in *.
  destruct (hupd_add h a (OBlock None None None)) as [Ha1 Ho1]. fold h1 in Ha1, Ho1.
  destruct (hupd_add h1 pa (OPacked p0 None)) as [Ha2 Ho2]. fold h2 in Ha2, Ho2.
  destruct (hupd_add h2 pw (OOther (KMalloc, pa_bytes p0))) as [Ha3 Ho3]. fold h3 in Ha3, Ho3.
  assert (N1 : a <> pa) by (intros ->; congruence).
  assert (N2 : pa <> pw) by (intros ->; congruence).
  assert (N3 : a <> pw) by (intros ->; rewrite Ho2 in Hpw by assumption; congruence).
  assert (H3 : find pa h3 = Some (OPacked p0 None)) by (rewrite Ho3 by assumption; exact Ha2).
  destruct (hstore_ok h3 pa _ (OPacked p0 (Some pw)) H3 ltac:(discriminate)) as (h4 & -> & H4 & Ho4). cbn [bind].
  assert (H5 : find a h4 = Some (OBlock None None None)) by (rewrite Ho4, Ho3, Ho2 by assumption; exact Ha1).
  destruct (set_b_ok h4 a _ _ _ (Some pa) H5) as (h5 & -> & H6 & Ho5). cbn [bind].
  exists a, pa, pw, h5. split; [reflexivity|]. split; [assumption|]. split; [assumption|]. split; [assumption|]. split; [assumption|].
  split; [rewrite <- (Ho1 pa) by congruence; assumption|].
  split; [rewrite Ho2, Ho1 in Hpw by congruence; assumption|].
  split; [assumption|]. split; [rewrite Ho5 by congruence; assumption|].
  split; [rewrite Ho5, Ho4 by congruence; assumption|].
  intros x X1 X2 X3. rewrite Ho5, Ho4, Ho3, Ho2, Ho1 by assumption. reflexivity.
Qed.

(** hq, living in h with the nodes l, is the queue q *)
Record qr (h : heap) (hq : hqueue) (q : queue) (l : list node) : Prop := {
  qr_n : hq_n hq = q_n q; qr_w : hq_w hq = q_w q; qr_s : hq_s hq = q_s q; qr_e : hq_e hq = q_e q;
  qr_sb : hq_sb hq = first_of l None; qr_eb : hq_eb hq = last_of l None;
  qr_bl : q_blocks q = map n_p l;
  qr_ch : chain h None l None;
  qr_nd : NoDup (foot l) }.
(** only nodes of l are changed or released, and only fresh blocks are added *)
Record delta (h : heap) (l : list addr) (h' : heap) (l' : list addr) : Prop := {
  d_frame : forall a, ~ In a l -> ~ In a l' -> find a h' = find a h;
  d_fresh : forall a, In a l' -> In a l \/ find a h = None;
  d_freed : forall a, In a l -> ~ In a l' -> find a h' = None }.

Lemma qr_new h w : qr h (hq_new w) (q_new w) [].
Proof. constructor; try reflexivity. constructor. Qed.
Lemma qr_frame h h' hq q l : (forall a, In a (foot l) -> find a h' = find a h) -> qr h hq q l -> qr h' hq q l.
Proof. intros Hf []. constructor; try assumption. eapply chain_frame; eassumption. Qed.

Lemma foot_not (a : addr) l h prev nxt : chain h prev l nxt -> find a h = None -> ~ In a (foot l).
Proof. intros Hc Ha Hi. eapply chain_live in Hi; try eassumption. contradiction. Qed.

Lemma NoDup_foot_snoc l (a pa pw : addr) p : NoDup (foot l) -> ~ In a (foot l) -> ~ In pa (foot l) -> ~ In pw (foot l) ->
  a <> pa -> a <> pw -> pa <> pw -> NoDup (foot (l ++ @cons node (a, pa, pw, p) nil)).
Proof.
  intros Hn Ha Hp Hw N1 N2 N3. rewrite foot_app. cbn [foot n_a n_b n_c fst snd].
  assert (H3 : NoDup (@cons addr a (@cons addr pa (@cons addr pw nil)))).
  { constructor; [cbn; intuition congruence|]. constructor; [cbn; intuition congruence|]. constructor; [intros []|constructor]. }
  induction (foot l) as [|x r IH]; [exact H3|]. cbn. inversion Hn as [|? ? R1 R2]; subst. cbn in *. constructor.
  - rewrite in_app_iff. cbn. intuition congruence.
  - apply IH; intuition.
Qed.

Lemma upd_last_snoc f (bs : list packed) bs' : upd_last f bs = Ok bs' ->
  exists r b b', bs = r ++ [b] /\ bs' = r ++ [b'] /\ f b = Ok b'.
Proof.
  revert bs'. induction bs as [|b bs IH]; intros bs' H; [discriminate|]. destruct bs as [|b2 bs].
  - cbn in H. destruct (f b) as [b'|] eqn:Hf; [|discriminate]. cbn in H. inversion H; subst. exists [], b, b'. auto.
  - change (upd_last f (b :: b2 :: bs)) with (r' <- upd_last f (b2 :: bs) ;; Ok (b :: r')) in H.
    destruct (upd_last f (b2 :: bs)) as [r'|] eqn:Hr; [|discriminate]. cbn in H. inversion H; subst.
    destruct (IH r' eq_refl) as (r & x & y & -> & -> & Hf). exists (b :: r), x, y. auto.
Qed.

(** the last three addresses *)
Lemma NoDup_last3 (l : list addr) a pb pw : NoDup (l ++ @cons addr a (@cons addr pb (@cons addr pw nil))) ->
  ~ In a l /\ ~ In pb l /\ ~ In pw l /\ a <> pb /\ a <> pw /\ pb <> pw.
Proof.
  intros Hn. pose proof (NoDup_remove_2 _ _ _ Hn) as H1. pose proof (NoDup_remove_1 _ _ _ Hn) as Hn1.
  pose proof (NoDup_remove_2 _ _ _ Hn1) as H2. pose proof (NoDup_remove_1 _ _ _ Hn1) as Hn2.
  pose proof (NoDup_remove_2 _ _ _ Hn2) as H3. rewrite !in_app_iff in *. cbn in *. intuition congruence.
Qed.
Lemma NoDup_first3 (l : list addr) a pb pw : NoDup (@cons addr a (@cons addr pb (@cons addr pw l))) ->
  ~ In a l /\ ~ In pb l /\ ~ In pw l /\ a <> pb /\ a <> pw /\ pb <> pw /\ NoDup l.
Proof.
  intros Hn. inversion Hn as [|? ? H1 Hn1]; subst. inversion Hn1 as [|? ? H2 Hn2]; subst. inversion Hn2 as [|? ? H3 Hn3]; subst.
  cbn in *. intuition congruence.
Qed.

(** store x in the last block *)
Lemma last_store E h l r b b' e x : chain h None l None -> NoDup (foot l) -> map n_p l = r ++ [b] -> pa_set E b e x = Ok b' ->
  exists a pb h' l', last_of l None = Some a /\ get_b h (Some a) = Ok (Some pb) /\ pa_set_at E h (Some pb) e x = Ok h' /\
    foot l' = foot l /\ map n_p l' = r ++ [b'] /\ chain h' None l' None /\ first_of l' None = first_of l None /\
    last_of l' None = last_of l None /\ forall y, ~ In y (foot l) -> find y h' = find y h.
Proof.
  intros Hc Hn Hm Hs. destruct l as [|x0 l0] using rev_ind; [symmetry in Hm; apply app_eq_nil in Hm as [_ Hm]; discriminate|].
  clear IHl0. rewrite map_app in Hm. cbn in Hm. apply app_inj_tail in Hm as [Hr Hb]. destruct x0 as [[[a pb] pw] p0]. cbn in Hb. subst p0 r.
  apply chain_app in Hc as [Hc1 Hc2]. cbn [chain first_of n_a n_b n_c n_p fst snd] in Hc1, Hc2. destruct Hc2 as (H1 & H2 & H2' & _).
  destruct (pa_set_at_ok E h pb pw b b' e x H2 H2' Hs) as (h' & Hw & H3 & H4).
  rewrite foot_app in Hn. cbn [foot n_a n_b n_c fst snd] in Hn.
  destruct (NoDup_last3 _ _ _ _ Hn) as (Hd1 & Hd2 & Hd3 & N1 & N2 & N3).
  exists a, pb, h', (l0 ++ @cons node (a, pb, pw, b') nil). split; [apply last_of_snoc|]. split; [eapply get_b_ok; exact H1|]. split; [exact Hw|].
  split; [rewrite !foot_app; reflexivity|]. split; [rewrite map_app; reflexivity|]. split; [|split; [|split]].
  - apply chain_app. cbn [chain first_of n_a n_b n_c n_p fst snd]. split.
    + eapply chain_frame; [|exact Hc1]. intros y Hy. apply H4. congruence.
    + split; [rewrite H4 by assumption; exact H1|]. split; [exact H3|]. split; [|exact I].
      rewrite H4 by congruence. unfold words. rewrite (pa_set_bytes _ _ _ _ _ Hs). exact H2'.
  - rewrite !first_of_app. reflexivity.
  - rewrite !last_of_snoc. reflexivity.
  - intros y Hy. apply H4. intros ->. apply Hy. rewrite foot_app, in_app_iff. cbn. auto.
Qed.

Lemma hq_enqueue_ok E h hq q l x q' : within B h (hsize h + block_bytes (q_w q)) -> qr h hq q l -> enqueue E q x = Ok q' ->
  exists h' hq' l', hq_enqueue al E h hq x = Ok (h', hq') /\ qr h' hq' q' l' /\ delta h (foot l) h' (foot l').
Proof.
  intros HB [Rn Rw Rs Re Rsb Reb Rbl Rch Rnd] He. unfold enqueue in He. unfold hq_enqueue. rewrite Rn, Rw, Rs, Re, Rsb, Reb.
  rewrite Rbl in He. destruct (q_e q =? QSIZ - 1) eqn:Hfull.
  - destruct (new_block_ok h (q_w q) HB) as (a & pa & pw & h1 & Hnb & Hne & Hnw & Hnpw & Ha & Hpa & Hpw & Ha1 & Hpa1 & Hpw1 & Ho1). rewrite Hnb. cbn [bind].
    pose proof (foot_not a l h _ _ Rch Ha) as Hal1. pose proof (foot_not pa l h _ _ Rch Hpa) as Hpl1. pose proof (foot_not pw l h _ _ Rch Hpw) as Hwl1.
    destruct l as [|x0 l0] using rev_ind.
    + cbn [last_of map first_of] in *.
      destruct (set_next_ok h1 a _ _ _ None Ha1) as (h2 & -> & Ha2 & Ho2). cbn [bind].
      destruct (set_prev_ok h2 a _ _ _ None Ha2) as (h3 & -> & Ha3 & Ho3). cbn [bind].
      destruct (upd_last _ _) as [bs|] eqn:Hu; [|discriminate]. cbn [bind] in He. inversion He; subst q'; clear He.
      cbn [upd_last] in Hu. destruct (pa_set E (pa_new QSIZ (q_w q)) (-1 + 1) x) as [p'|] eqn:Hp; [|discriminate].
      cbn [bind] in Hu. inversion Hu; subst bs; clear Hu.
      rewrite (get_b_ok _ _ _ _ _ Ha3). cbn [bind].
      assert (Hpa3 : find pa h3 = Some (OPacked (pa_new QSIZ (q_w q)) (Some pw))) by (rewrite Ho3, Ho2 by congruence; exact Hpa1).
      assert (Hpw3 : find pw h3 = Some (words (pa_new QSIZ (q_w q)))) by (rewrite Ho3, Ho2 by congruence; exact Hpw1).
      destruct (pa_set_at_ok E h3 pa pw _ p' (-1 + 1) x Hpa3 Hpw3 Hp) as (h4 & -> & Ha4 & Ho4). cbn [bind].
      exists h4. eexists. exists [(a, pa, pw, p')]. split; [reflexivity|]. split.
      * constructor; try reflexivity.
        -- cbn. split; [rewrite Ho4 by assumption; exact Ha3|]. split; [exact Ha4|]. split; [|exact I].
           rewrite Ho4 by congruence. unfold words in *. rewrite (pa_set_bytes _ _ _ _ _ Hp). exact Hpw3.
        -- apply (NoDup_foot_snoc [] a pa pw p'); try constructor; auto.
      * constructor; cbn.
        -- intros y _ Hy. rewrite Ho4, Ho3, Ho2, Ho1 by intuition congruence. reflexivity.
        -- intros y [<-|[<-|[<-|[]]]]; auto.
        -- intros y [].
    + clear IHl0. rewrite last_of_snoc in *. destruct x0 as [[[ae pe] we] pp]. cbn [n_a fst snd] in *.
      pose proof Rch as Rch0. apply chain_app in Rch as [Rc1 Rc2]. cbn [chain first_of n_a n_b n_c n_p fst snd] in Rc1, Rc2. destruct Rc2 as (Rc2 & Rc3 & Rc4 & _).
      assert (Hae : In ae (foot (l0 ++ [(ae, pe, we, pp)]))) by (rewrite foot_app, in_app_iff; cbn; auto).
      assert (Hpe : In pe (foot (l0 ++ [(ae, pe, we, pp)]))) by (rewrite foot_app, in_app_iff; cbn; auto).
      assert (Hwe : In we (foot (l0 ++ [(ae, pe, we, pp)]))) by (rewrite foot_app, in_app_iff; cbn; auto 6).
      assert (Hae1 : find ae h1 = find ae h) by (apply Ho1; congruence). rewrite Rc2 in Hae1.
      destruct (set_next_ok h1 ae _ _ _ (Some a) Hae1) as (h2 & -> & Ha2 & Ho2). cbn [bind].
      assert (Hxx : find a h2 = Some (OBlock None None (Some (Some pa)))) by (rewrite Ho2 by congruence; exact Ha1).
      destruct (set_prev_ok h2 a _ _ _ (Some ae) Hxx) as (h3 & -> & Ha3 & Ho3). cbn [bind].
      destruct (set_next_ok h3 a _ _ _ None Ha3) as (h4 & -> & Ha4 & Ho4). cbn [bind].
      assert (Hpa4 : find pa h4 = Some (OPacked (pa_new QSIZ (q_w q)) (Some pw))) by (rewrite Ho4, Ho3, Ho2 by congruence; exact Hpa1).
      assert (Hpw4 : find pw h4 = Some (words (pa_new QSIZ (q_w q)))) by (rewrite Ho4, Ho3, Ho2 by congruence; exact Hpw1).
      (* list level *)
      set (l := l0 ++ (@cons node (ae, pe, we, pp) nil)) in *.
      assert (Hnl : map n_p l <> []) by (unfold l; rewrite map_app; destruct (map n_p l0); discriminate).
      assert (Hml : exists p1 ps, map n_p l = p1 :: ps) by (destruct (map n_p l) as [|p1 ps]; [congruence|eauto]).
      destruct Hml as (p1 & ps & Hml). rewrite Hml in He. cbv beta iota in He. rewrite <- Hml in He. clear Hnl Hml p1 ps.
      destruct (upd_last _ _) as [bs|] eqn:Hu; [|discriminate]. cbn [bind] in He. inversion He; subst q'; clear He.
      apply upd_last_snoc in Hu as (r & b & b' & Hr & -> & Hp). apply app_inj_tail in Hr as [Hr <-]. subst r.
      set (l1 := l ++ (@cons node (a, pa, pw, pa_new QSIZ (q_w q)) nil)).
      assert (Hd : ~ In ae (foot l0) /\ ~ In pe (foot l0) /\ ~ In we (foot l0) /\ ae <> pe /\ ae <> we /\ pe <> we).
      { unfold l in Rnd. rewrite foot_app in Rnd. cbn [foot n_a n_b n_c fst snd] in Rnd. exact (NoDup_last3 _ _ _ _ Rnd). }
      destruct Hd as (D1 & D2 & D3 & D4 & D5 & D6).
      assert (Hc4 : chain h4 None l1 None).
      { unfold l1, l. apply chain_app. rewrite last_of_snoc. cbn [chain first_of n_a n_b n_c n_p fst snd]. split.
        - apply chain_app. cbn [chain first_of n_a n_b n_c n_p fst snd]. split.
          + eapply chain_frame; [|exact Rc1]. intros y Hy.
            assert (Hy' : In y (foot l)) by (unfold l; rewrite foot_app, in_app_iff; auto).
            assert (y <> ae) by (intros ->; contradiction).
            rewrite Ho4, Ho3, Ho2, Ho1 by congruence. reflexivity.
          + split; [rewrite Ho4, Ho3 by congruence; exact Ha2|]. split; [|split; [|exact I]].
            * rewrite Ho4, Ho3, Ho2, Ho1 by congruence. exact Rc3.
            * rewrite Ho4, Ho3, Ho2, Ho1 by congruence. exact Rc4.
        - split; [exact Ha4|]. split; [exact Hpa4|]. split; [exact Hpw4|exact I]. }
      assert (Hn1 : NoDup (foot l1)) by (apply NoDup_foot_snoc; assumption).
      assert (Hm1 : map n_p l1 = map n_p l ++ [pa_new QSIZ (q_w q)]) by (unfold l1; rewrite map_app; reflexivity).
      destruct (last_store E h4 l1 _ _ b' (-1 + 1) x Hc4 Hn1 Hm1 Hp) as (a' & pb & h5 & l' & L1 & L2 & L3 & L4 & L5 & L6 & L7 & L8 & L9).
      unfold l1 in L1. rewrite last_of_snoc in L1. cbn [n_a fst] in L1. inversion L1; subst a'. rewrite L2. cbn [bind]. rewrite L3. cbn [bind].
      exists h5. eexists. exists l'. split; [reflexivity|]. split.
      * constructor; try reflexivity; cbn [hq_n hq_w hq_sb hq_eb hq_s hq_e q_n q_w q_s q_e q_blocks].
        -- rewrite L7. unfold l1, l. rewrite !first_of_app. cbn. destruct l0; reflexivity.
        -- rewrite L8. unfold l1. rewrite last_of_snoc. reflexivity.
        -- symmetry. exact L5.
        -- exact L6.
        -- rewrite L4. exact Hn1.
      * rewrite L4. unfold l1 in *. constructor.
        -- intros y Hy1 Hy2. rewrite L9 by assumption. rewrite foot_app, in_app_iff in Hy2. cbn in Hy2.
           assert (y <> ae) by (intros ->; contradiction).
           assert (y <> a) by (intros ->; apply Hy2; auto). assert (y <> pa) by (intros ->; apply Hy2; auto). assert (y <> pw) by (intros ->; apply Hy2; auto 6).
           rewrite Ho4, Ho3, Ho2, Ho1 by assumption. reflexivity.
        -- intros y Hy. rewrite foot_app, in_app_iff in Hy. cbn in Hy. destruct Hy as [Hy|[<-|[<-|[<-|[]]]]]; auto.
        -- intros y Hy1 Hy2. exfalso. apply Hy2. rewrite foot_app, in_app_iff. auto.
  - cbn [bind]. destruct (upd_last _ _) as [bs|] eqn:Hu; [|discriminate]. cbn [bind] in He. inversion He; subst q'; clear He.
    apply upd_last_snoc in Hu as (r & b & b' & Hr & -> & Hp).
    destruct (last_store E h l _ _ b' _ x Rch Rnd Hr Hp) as (a' & pb & h5 & l' & L1 & L2 & L3 & L4 & L5 & L6 & L7 & L8 & L9).
    rewrite L1, L2. cbn [bind]. rewrite L3. cbn [bind].
    exists h5. eexists. exists l'. split; [reflexivity|]. split.
    + constructor; try reflexivity; cbn [hq_n hq_w hq_sb hq_eb hq_s hq_e q_n q_w q_s q_e q_blocks].
      * symmetry. exact L7.
      * congruence.
      * symmetry. exact L5.
      * exact L6.
      * rewrite L4. exact Rnd.
    + rewrite L4. constructor; [intros; apply L9; assumption|auto|intros; contradiction].
Qed.

Lemma hq_enqueue_l_ok E h hq q l x q' : within B h (hsize h + block_bytes (q_w q)) -> qr h hq q l -> enqueue_l E q x = Ok q' ->
  exists h' hq' l', hq_enqueue_l al E h hq x = Ok (h', hq') /\ qr h' hq' q' l' /\ delta h (foot l) h' (foot l').
Proof.
  intros HB [Rn Rw Rs Re Rsb Reb Rbl Rch Rnd] He. unfold enqueue_l in He. unfold hq_enqueue_l. rewrite Rn, Rw, Rs, Re, Rsb, Reb.
  rewrite Rbl in He. destruct (q_s q =? 0) eqn:Hfull.
  - destruct (new_block_ok h (q_w q) HB) as (a & pa & pw & h1 & Hnb & Hne & Hnw & Hnpw & Ha & Hpa & Hpw & Ha1 & Hpa1 & Hpw1 & Ho1). rewrite Hnb. cbn [bind].
    pose proof (foot_not a l h _ _ Rch Ha) as Hal1. pose proof (foot_not pa l h _ _ Rch Hpa) as Hpl1. pose proof (foot_not pw l h _ _ Rch Hpw) as Hwl1.
    destruct l as [|x0 l0].
    + cbn [last_of map first_of] in *.
      destruct (set_next_ok h1 a _ _ _ None Ha1) as (h2 & -> & Ha2 & Ho2). cbn [bind].
      destruct (set_prev_ok h2 a _ _ _ None Ha2) as (h3 & -> & Ha3 & Ho3). cbn [bind].
      destruct (pa_set E (pa_new QSIZ (q_w q)) (QSIZ - 1) x) as [p'|] eqn:Hp; [|discriminate].
      cbn [bind] in He. inversion He; subst q'; clear He.
      rewrite (get_b_ok _ _ _ _ _ Ha3). cbn [bind].
      assert (Hpa3 : find pa h3 = Some (OPacked (pa_new QSIZ (q_w q)) (Some pw))) by (rewrite Ho3, Ho2 by congruence; exact Hpa1).
      assert (Hpw3 : find pw h3 = Some (words (pa_new QSIZ (q_w q)))) by (rewrite Ho3, Ho2 by congruence; exact Hpw1).
      destruct (pa_set_at_ok E h3 pa pw _ p' (QSIZ - 1) x Hpa3 Hpw3 Hp) as (h4 & -> & Ha4 & Ho4). cbn [bind].
      exists h4. eexists. exists [(a, pa, pw, p')]. split; [reflexivity|]. split.
      * constructor; try reflexivity.
        -- cbn. split; [rewrite Ho4 by assumption; exact Ha3|]. split; [exact Ha4|]. split; [|exact I].
           rewrite Ho4 by congruence. unfold words in *. rewrite (pa_set_bytes _ _ _ _ _ Hp). exact Hpw3.
        -- apply (NoDup_foot_snoc [] a pa pw p'); try constructor; auto.
      * constructor; cbn.
        -- intros y _ Hy. rewrite Ho4, Ho3, Ho2, Ho1 by intuition congruence. reflexivity.
        -- intros y [<-|[<-|[<-|[]]]]; auto.
        -- intros y [].
    + destruct x0 as [[[ae pe] we] pp]. cbn [first_of map n_a n_b n_c n_p fst snd] in *. cbn [foot n_a n_b n_c fst snd] in *. cbn [chain n_a n_b n_c n_p fst snd] in Rch.
      destruct Rch as (Rc1 & Rc2 & Rc4 & Rc3).
      destruct (NoDup_first3 _ _ _ _ Rnd) as (D1 & D2 & D3 & D4 & D5 & D6 & D7).
      assert (ae <> a /\ ae <> pa /\ ae <> pw /\ pe <> a /\ pe <> pa /\ pe <> pw /\ we <> a /\ we <> pa /\ we <> pw) as (N1 & N2 & N3 & N4 & N5 & N6 & N7 & N8 & N9)
        by (cbn in Hal1, Hpl1, Hwl1; intuition congruence).
      assert (Hae1 : find ae h1 = find ae h) by (apply Ho1; congruence). rewrite Rc1 in Hae1.
      destruct (set_prev_ok h1 ae _ _ _ (Some a) Hae1) as (h2 & -> & Ha2 & Ho2). cbn [bind].
      assert (Hxx : find a h2 = Some (OBlock None None (Some (Some pa)))) by (rewrite Ho2 by congruence; exact Ha1).
      destruct (set_next_ok h2 a _ _ _ (Some ae) Hxx) as (h3 & -> & Ha3 & Ho3). cbn [bind].
      destruct (set_prev_ok h3 a _ _ _ None Ha3) as (h4 & -> & Ha4 & Ho4). cbn [bind].
      assert (Hpa4 : find pa h4 = Some (OPacked (pa_new QSIZ (q_w q)) (Some pw))) by (rewrite Ho4, Ho3, Ho2 by congruence; exact Hpa1).
      assert (Hpw4 : find pw h4 = Some (words (pa_new QSIZ (q_w q)))) by (rewrite Ho4, Ho3, Ho2 by congruence; exact Hpw1).
      destruct (pa_set E (pa_new QSIZ (q_w q)) (QSIZ - 1) x) as [p'|] eqn:Hp; [|discriminate].
      cbn [bind] in He. inversion He; subst q'; clear He.
      rewrite (get_b_ok _ _ _ _ _ Ha4). cbn [bind].
      destruct (pa_set_at_ok E h4 pa pw _ p' (QSIZ - 1) x Hpa4 Hpw4 Hp) as (h5 & -> & Ha5 & Ho5). cbn [bind].
      exists h5. eexists. exists ((a, pa, pw, p') :: (ae, pe, we, pp) :: l0). split; [reflexivity|].
      cbn [foot n_a n_b n_c fst snd] in *.
      assert (Hl0 : forall y, In y (foot l0) -> y <> ae /\ y <> a /\ y <> pa /\ y <> pw).
      { intros y Hy. cbn in Hal1, Hpl1, Hwl1. repeat split; intros ->; tauto. }
      split.
      * constructor; try reflexivity; cbn [chain first_of n_a n_b n_c n_p fst snd foot].
        -- split; [rewrite Ho5 by congruence; exact Ha4|]. split; [exact Ha5|].
           split. { rewrite Ho5 by congruence. unfold words in *. rewrite (pa_set_bytes _ _ _ _ _ Hp). exact Hpw4. }
           split; [rewrite Ho5, Ho4, Ho3 by congruence; exact Ha2|].
           split; [rewrite Ho5, Ho4, Ho3, Ho2, Ho1 by congruence; exact Rc2|].
           split; [rewrite Ho5, Ho4, Ho3, Ho2, Ho1 by congruence; exact Rc4|].
           eapply chain_frame; [|exact Rc3]. intros y Hy. destruct (Hl0 y Hy) as (? & ? & ? & ?).
           rewrite Ho5, Ho4, Ho3, Ho2, Ho1 by congruence. reflexivity.
        -- constructor; [|constructor; [|constructor; [exact Hwl1|exact Rnd]]].
           ++ intros [?|[?|Hi]]; [congruence|congruence|contradiction].
           ++ intros [?|Hi]; [congruence|contradiction].
      * constructor.
        -- intros y Hy1 Hy2. cbn in Hy1, Hy2. rewrite Ho5, Ho4, Ho3, Ho2, Ho1 by (intros ->; tauto). reflexivity.
        -- intros y [<-|[<-|[<-|Hy]]]; auto.
        -- intros y Hy1 Hy2. exfalso. apply Hy2. cbn. cbn in Hy1. tauto.
  - cbn [bind]. destruct l as [|x0 l0]; [discriminate|]. destruct x0 as [[[ae pe] we] pp].
    cbn [first_of map n_a n_b n_c n_p fst snd] in *. cbn [foot n_a n_b n_c fst snd] in *. cbn [chain n_a n_b n_c n_p fst snd] in Rch.
    destruct Rch as (Rc1 & Rc2 & Rc4 & Rc3).
    destruct (NoDup_first3 _ _ _ _ Rnd) as (D1 & D2 & D3 & D4 & D5 & D6 & D7).
    destruct (pa_set E pp (q_s q - 1) x) as [p'|] eqn:Hp; [|discriminate]. cbn [bind] in He. inversion He; subst q'; clear He.
    rewrite (get_b_ok _ _ _ _ _ Rc1). cbn [bind].
    destruct (pa_set_at_ok E h pe we _ p' (q_s q - 1) x Rc2 Rc4 Hp) as (h5 & -> & Ha5 & Ho5). cbn [bind].
    exists h5. eexists. exists ((ae, pe, we, p') :: l0). split; [reflexivity|]. split.
    + constructor; try reflexivity; cbn [chain first_of n_a n_b n_c n_p fst snd foot].
      * cbn. destruct l0; reflexivity.
      * split; [rewrite Ho5 by assumption; exact Rc1|]. split; [exact Ha5|].
        split. { rewrite Ho5 by congruence. unfold words in *. rewrite (pa_set_bytes _ _ _ _ _ Hp). exact Rc4. }
        eapply chain_frame; [|exact Rc3]. intros y Hy. apply Ho5. intros ->. contradiction.
      * exact Rnd.
    + cbn [foot n_a n_b n_c fst snd]. constructor; [intros; apply Ho5; intros ->; cbn in *; tauto|auto|intros; contradiction].
Qed.

Lemma hq_dequeue_ok E h hq q l x q' : qr h hq q l -> dequeue E q = Ok (x, q') ->
  exists h' hq' l', hq_dequeue E h hq = Ok (x, h', hq') /\ qr h' hq' q' l' /\ delta h (foot l) h' (foot l').
Proof.
  intros [Rn Rw Rs Re Rsb Reb Rbl Rch Rnd] He. unfold dequeue in He. unfold hq_dequeue. rewrite Rn, Rw, Rs, Re, Rsb, Reb.
  rewrite Rbl in He. destruct l as [|x0 l0]; [discriminate|]. destruct x0 as [[[ae pe] we] pp].
  cbn [first_of map n_a n_b n_c n_p fst snd] in *. cbn [foot n_a n_b n_c fst snd] in *. cbn [chain n_a n_b n_c n_p fst snd] in Rch.
  destruct Rch as (Rc1 & Rc2 & Rc4 & Rc3).
  destruct (NoDup_first3 _ _ _ _ Rnd) as (D1 & D2 & D3 & D4 & D5 & D6 & R4).
  rewrite (get_b_ok _ _ _ _ _ Rc1). cbn [bind].
  destruct (pa_get E pp (q_s q)) as [v|] eqn:Hv; [|discriminate]. cbn [bind] in He.
  rewrite (pa_get_at_ok E h pe we _ _ _ Rc2 Rc4 Hv). cbn [bind]. destruct (q_s q + 1 =? QSIZ) eqn:Hs.
  - rewrite (get_next_ok _ _ _ _ _ Rc1). cbn [bind].
    destruct (delete_packed_ok h pe we _ Rc2 Rc4 D6) as (h1 & -> & F1 & F1' & O1). cbn [bind].
    assert (Ra1 : find ae h1 = find ae h) by (apply O1; assumption). rewrite Rc1 in Ra1.
    destruct (hfree_ok KMalloc h1 ae _ Ra1 eq_refl) as (h2 & -> & F2 & O2). cbn [bind].
    destruct l0 as [|[[[a1 p1] w1] pp1] l1].
    + cbn [first_of bind]. cbn [map] in He. inversion He; subst x q'; clear He.
      exists h2. eexists. exists []. split; [reflexivity|]. split.
      * constructor; try reflexivity. constructor.
      * constructor; cbn.
        -- intros y Hy _. rewrite O2, O1 by (intros ->; tauto). reflexivity.
        -- intros y [].
        -- intros y [<-|[<-|[<-|[]]]] _; [exact F2| |]; rewrite O2 by congruence; assumption.
    + cbn [first_of n_a n_b n_c n_p fst snd map] in *. inversion He; subst x q'; clear He.
      cbn [foot n_a n_b n_c fst snd] in *. cbn [chain n_a n_b n_c n_p fst snd] in Rc3. destruct Rc3 as (C1 & C2 & C4 & C3).
      destruct (NoDup_first3 _ _ _ _ R4) as (E1 & E2 & E3 & E4 & E5 & E6 & E7). cbn in D1, D2, D3.
      assert (Ra2 : find a1 h2 = find a1 h) by (rewrite O2, O1 by (intros ->; tauto); reflexivity). rewrite C1 in Ra2.
      destruct (set_prev_ok h2 a1 _ _ _ None Ra2) as (h3 & -> & G3 & O3). cbn [bind].
      exists h3. eexists. exists ((a1, p1, w1, pp1) :: l1). split; [reflexivity|]. split.
      * constructor; try reflexivity; cbn [chain first_of n_a n_b n_c n_p fst snd foot].
        -- split; [exact G3|]. split; [rewrite O3, O2, O1 by (intros ->; tauto); exact C2|].
           split; [rewrite O3, O2, O1 by (intros ->; tauto); exact C4|].
           eapply chain_frame; [|exact C3]. intros y Hy. rewrite O3, O2, O1 by (intros ->; tauto). reflexivity.
        -- exact R4.
      * constructor; cbn.
        -- intros y Hy1 Hy2. rewrite O3, O2, O1 by (intros ->; tauto). reflexivity.
        -- tauto.
        -- intros y [<-|[<-|[<-|Hy]]] Hn; [| | |tauto]; rewrite O3 by (intros ->; tauto); [exact F2| |]; rewrite O2 by congruence; assumption.
  - cbn [bind]. inversion He; subst x q'; clear He.
    exists h. eexists. exists ((ae, pe, we, pp) :: l0). split; [reflexivity|]. split.
    + constructor; try reflexivity; cbn [chain first_of n_a n_b n_c n_p fst snd foot]; auto.
    + constructor; auto. intros; contradiction.
Qed.

(** the destructor releases the blocks of the queue and nothing else *)
Lemma destroy_loop l : forall h prev f, chain h prev l None -> NoDup (foot l) -> (length l < f)%nat ->
  exists h', loop f (fun '(h, qb) =>
    match qb with
    | None => Ok (inr h)
    | Some _ =>
      q <- get_next h qb ;;
      b <- get_b h qb ;;
      h <- delete_packed h b ;;
      h <- hfree KMalloc h qb ;;
      Ok (inl (h, q))
    end) (h, first_of l None) = Ok h' /\
    (forall a, In a (foot l) -> find a h' = None) /\ (forall a, ~ In a (foot l) -> find a h' = find a h).
Proof.
  induction l as [|[[[ae pe] we] pp] l IH]; intros h prev f Hc Hn Hf; (destruct f as [|f]; [cbn in Hf; lia|]).
  - exists h. split; [reflexivity|]. split; [intros a []|auto].
  - cbn [foot first_of chain n_a n_b n_c n_p fst snd] in *. destruct Hc as (Rc1 & Rc2 & Rc4 & Rc3).
    destruct (NoDup_first3 _ _ _ _ Hn) as (D1 & D2 & D3 & D4 & D5 & D6 & R4).
    cbn [loop]. rewrite (get_next_ok _ _ _ _ _ Rc1). cbn [bind]. rewrite (get_b_ok _ _ _ _ _ Rc1). cbn [bind].
    destruct (delete_packed_ok h pe we _ Rc2 Rc4 D6) as (h1 & -> & F1 & F1' & O1). cbn [bind].
    assert (Ra1 : find ae h1 = find ae h) by (apply O1; assumption). rewrite Rc1 in Ra1.
    destruct (hfree_ok KMalloc h1 ae _ Ra1 eq_refl) as (h2 & -> & F2 & O2). cbn [bind].
    assert (Hc2 : chain h2 (Some ae) l None).
    { eapply chain_frame; [|exact Rc3]. intros y Hy. rewrite O2, O1 by (intros ->; tauto). reflexivity. }
    destruct (IH h2 _ f Hc2 R4 ltac:(cbn in Hf; lia)) as (h' & Hl & Hf1 & Hf2).
    exists h'. split; [exact Hl|]. split.
    + intros y [<-|[<-|[<-|Hy]]]; [rewrite Hf2 by tauto; exact F2| | |apply Hf1; exact Hy].
      * rewrite Hf2 by assumption. rewrite O2 by congruence. exact F1.
      * rewrite Hf2 by assumption. rewrite O2 by congruence. exact F1'.
    + intros y Hy. cbn in Hy. rewrite Hf2 by tauto. rewrite O2, O1 by (intros ->; tauto). reflexivity.
Qed.

Lemma foot_length l : length (foot l) = (3 * length l)%nat.
Proof. induction l; cbn; [reflexivity|]. rewrite IHl. cbn. lia. Qed.
Lemma live_le (l : list addr) h : NoDup l -> (forall a, In a l -> find a h <> None) -> (length l <= hcount h)%nat.
Proof.
  intros Hn Hl. rewrite hcount_1, <- (map_length fst). apply NoDup_incl_length; [exact Hn|].
  intros a Ha. specialize (Hl a Ha). destruct (find a h) as [o|] eqn:Hf; [|congruence].
  apply helements_correct in Hf. apply in_map_iff. exists (a, o). auto.
Qed.
Lemma hq_destroy_ok h hq q l : qr h hq q l ->
  exists h', hq_destroy h hq = Ok h' /\ delta h (foot l) h' [].
Proof.
  intros [Rn Rw Rs Re Rsb Reb Rbl Rch Rnd]. unfold hq_destroy. rewrite Rsb.
  assert (Hlen : (length l < S (hcount h))%nat).
  { assert (length (foot l) <= hcount h)%nat by (apply live_le; [exact Rnd|]; intros a Ha; eapply chain_live; eassumption).
    rewrite foot_length in H. lia. }
  destruct (destroy_loop l h None _ Rch Rnd Hlen) as (h' & Hd & H1 & H2). exists h'. split; [exact Hd|].
  constructor; [intros; auto|intros a []|auto].
Qed.
End Queue.
