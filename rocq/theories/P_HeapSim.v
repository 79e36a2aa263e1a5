(** Simulation between the value-level model and the heap-level model; ownership of blocks. *)
From Verif Require Import Base M_PackedArray M_Queue M_HashTable M_Sais M_Split M_Induce M_Flbwt M_Heap M_HeapProg Histories Pool P_Size P_Heap P_Bank Sums.
From Coq Require Import FMapPositive ZifyBool Permutation.
Open Scope Z_scope.

(** whenever the first computation succeeds so does the second, with related results *)
Definition rsim {A B} (m : res A) (m' : res B) (R : A -> B -> Prop) : Prop := forall a, m = Ok a -> exists b, m' = Ok b /\ R a b.

Lemma rsim_ok {A B} a b (R : A -> B -> Prop) : R a b -> rsim (Ok a) (Ok b) R.
Proof. intros H x Hx. inversion Hx; subst. eauto. Qed.
Lemma rsim_err {A B} e m' (R : A -> B -> Prop) : rsim (Err e) m' R.
Proof. intros a H. discriminate. Qed.
Lemma rsim_bind {A B A' B'} (m : res A) (m' : res B) f f' (R1 : A -> B -> Prop) (R : A' -> B' -> Prop) :
  rsim m m' R1 -> (forall a b, m = Ok a -> R1 a b -> rsim (f a) (f' b) R) -> rsim (bind m f) (bind m' f') R.
Proof.
  intros H1 H2 x. destruct m as [a|]; [|discriminate]. cbn [bind]. destruct (H1 a eq_refl) as (b & -> & Hb). cbn [bind].
  apply H2; [reflexivity|exact Hb].
Qed.
Lemma rsim_same {A A' B'} (m : res A) f f' (R : A' -> B' -> Prop) :
  (forall a, m = Ok a -> rsim (f a) (f' a) R) -> rsim (bind m f) (bind m f') R.
Proof. intros H. destruct m as [a|]; [apply H; reflexivity|apply rsim_err]. Qed.
Lemma rsim_left {A A' B'} (m : res A) f m' (R : A' -> B' -> Prop) :
  (forall a, m = Ok a -> rsim (f a) m' R) -> rsim (bind m f) m' R.
Proof. intros H. destruct m as [a|]; [apply H; reflexivity|apply rsim_err]. Qed.
(** only the heap level does something *)
Lemma rsim_right {B A' B'} (m : res A') (m' : res B) f' (b : B) (R : A' -> B' -> Prop) :
  m' = Ok b -> rsim m (f' b) R -> rsim m (bind m' f') R.
Proof. intros -> H. exact H. Qed.
Lemma rsim_mono {A B} (m : res A) (m' : res B) (R R' : A -> B -> Prop) :
  rsim m m' R -> (forall a b, R a b -> R' a b) -> rsim m m' R'.
Proof. intros H1 H2 a Ha. destruct (H1 a Ha) as (b & Hb & Hr). eauto. Qed.
Lemma rsim_for_up {A B} (R : Z -> A -> B -> Prop) lo hi body body' a b :
  lo <= hi -> R lo a b ->
  (forall i a b, lo <= i < hi -> R i a b -> rsim (body i a) (body' i b) (R (i + 1))) ->
  rsim (for_up lo hi body a) (for_up lo hi body' b) (R hi).
Proof.
  intros Hle H0 Hs. unfold for_up.
  assert (Hg : forall c i a b, lo <= i -> i + Z.of_nat c = hi -> R i a b -> rsim (for_n c i body a) (for_n c i body' b) (R hi)).
  { induction c as [|c IH]; intros i x y Hi He HR; simpl.
    - replace hi with i by lia. apply rsim_ok, HR.
    - eapply rsim_bind; [apply Hs; [lia|exact HR]|]. intros x' y' _ HR'. apply IH; [lia|lia|exact HR']. }
  apply Hg; [lia|lia|exact H0].
Qed.
Lemma rsim_for_down {A B} (R : A -> B -> Prop) hi lo body body' a b : R a b ->
  (forall i a b, lo <= i <= hi -> R a b -> rsim (body i a) (body' i b) R) ->
  rsim (for_down hi lo body a) (for_down hi lo body' b) R.
Proof.
  intros H0 Hs. unfold for_down.
  assert (Hg : forall c i a b, i <= hi -> lo <= i - Z.of_nat c + 1 -> R a b -> rsim (ford_n c i body a) (ford_n c i body' b) R).
  { induction c as [|c IH]; intros i x y Hi He HR; simpl.
    - apply rsim_ok, HR.
    - eapply rsim_bind; [apply Hs; [lia|exact HR]|]. intros x' y' _ HR'. apply IH; [lia|lia|exact HR']. }
  destruct (Z_le_gt_dec lo (hi + 1)).
  - apply Hg; [lia|lia|exact H0].
  - replace (Z.to_nat (hi - lo + 1)) with O by lia. apply rsim_ok, H0.
Qed.
Lemma rsim_for_down_i {A B} (R : Z -> A -> B -> Prop) hi lo body body' a b : lo <= hi + 1 -> R (hi + 1) a b ->
  (forall i a b, lo <= i <= hi -> R (i + 1) a b -> rsim (body i a) (body' i b) (R i)) ->
  rsim (for_down hi lo body a) (for_down hi lo body' b) (R lo).
Proof.
  intros Hle H0 Hs. unfold for_down.
  assert (Hg : forall c i a b, i <= hi -> lo = i - Z.of_nat c + 1 -> R (i + 1) a b -> rsim (ford_n c i body a) (ford_n c i body' b) (R lo)).
  { induction c as [|c IH]; intros i x y Hi He HR; simpl.
    - replace lo with (i + 1) by lia. apply rsim_ok, HR.
    - eapply rsim_bind; [apply Hs; [lia|exact HR]|]. intros x' y' _ HR'. apply IH; [lia|lia|]. replace (i - 1 + 1) with i by lia. exact HR'. }
  apply Hg; [lia|lia|exact H0].
Qed.
Lemma rsim_loop {A B A' B'} (R : A -> B -> Prop) (Q : A' -> B' -> Prop) step step' :
  (forall a b, R a b -> rsim (step a) (step' b) (fun x y =>
     match x, y with inl a, inl b => R a b | inr a, inr b => Q a b | _, _ => False end)) ->
  forall fuel a b, R a b -> rsim (loop fuel step a) (loop fuel step' b) Q.
Proof.
  intros Hs. induction fuel as [|f IH]; intros a b HR; [apply rsim_err|]. cbn [loop].
  eapply rsim_bind; [apply Hs, HR|]. intros [a'|a'] [b'|b'] _ H; try contradiction; [apply IH, H|apply rsim_ok, H].
Qed.

(** * Ownership: h is h0 together with the blocks L *)
Definition addrs (L : list (addr * (kind * Z))) : list addr := map fst L.
Record own (h0 : heap) (L : list (addr * (kind * Z))) (h : heap) : Prop := {
  own_nd : NoDup (addrs L);
  own_new : forall a, In a (addrs L) -> find a h0 = None;
  own_live : forall a k, In (a, k) L -> find a h = Some (OOther k);
  own_rest : forall a, ~ In a (addrs L) -> find a h = find a h0 }.

Lemma own_nil h0 h : same_heap h h0 -> own h0 [] h.
Proof. intros H. constructor; [constructor|intros a []|intros a k []|intros a _; apply H]. Qed.
Lemma own_nil_inv h0 h : own h0 [] h -> same_heap h h0.
Proof. intros H a. apply (own_rest _ _ _ H). intros []. Qed.
Lemma own_same h0 L h h' : own h0 L h -> same_heap h' h -> own h0 L h'.
Proof.
  intros [A B C D] H. constructor; [exact A|exact B| |].
  - intros a k Ha. rewrite (H a). apply C, Ha.
  - intros a Ha. rewrite (H a). apply D, Ha.
Qed.
Lemma own_perm h0 L L' h : own h0 L h -> Permutation L L' -> own h0 L' h.
Proof.
  intros [A B C D] P. assert (P' : Permutation (addrs L) (addrs L')) by (apply Permutation_map, P).
  constructor.
  - eapply Permutation_NoDup; eassumption.
  - intros a Ha. apply B. eapply Permutation_in; [apply Permutation_sym, P'|exact Ha].
  - intros a k Ha. apply C. eapply Permutation_in; [apply Permutation_sym, P|exact Ha].
  - intros a Ha. apply D. intros Hc. apply Ha. eapply Permutation_in; [exact P'|exact Hc].
Qed.
Lemma own_add h0 L h (a : addr) k : own h0 L h -> find a h = None -> own h0 (@cons (addr * (kind * Z)) (a, k) L) (hadd a (OOther k) h).
Proof.
  intros [A B C D] Ha. destruct (hupd_add h a (OOther k)) as [Hn Ho].
  assert (Hni : ~ In a (addrs L)).
  { intros Hi. unfold addrs in Hi. apply in_map_iff in Hi. destruct Hi as ([x k'] & He & Hi). cbn in He. subst x.
    rewrite (C _ _ Hi) in Ha. discriminate. }
  constructor.
  - cbn. constructor; assumption.
  - intros x [<-|Hx]; [|apply B, Hx]. etransitivity; [symmetry; exact (D a Hni)|exact Ha].
  - intros x k' [Hx|Hx]; [inversion Hx; subst; exact Hn|]. rewrite Ho; [apply C, Hx|].
    intros ->. apply Hni. unfold addrs. apply in_map_iff. exists (a, k'). auto.
  - intros x Hx. cbn in Hx. rewrite Ho by (intros ->; apply Hx; left; reflexivity). apply D. intros Hc. apply Hx. right. exact Hc.
Qed.
Lemma own_free h0 L h (a : addr) k : own h0 (@cons (addr * (kind * Z)) (a, k) L) h ->
  exists h', hfree (fst k) h (Some a) = Ok h' /\ own h0 L h'.
Proof.
  intros [A B C D]. pose proof (C a k (or_introl eq_refl)) as Hl. unfold hfree. rewrite Hl.
  replace (kind_eqb (kind_of (OOther k)) (fst k)) with true by (destruct k as [[] ?]; reflexivity).
  eexists. split; [reflexivity|]. cbn in A. inversion A as [|? ? A1 A2]; subst.
  assert (Hn : find a (hremove a h) = None) by apply hgrs.
  assert (Ho : forall x, x <> a -> find x (hremove a h) = find x h) by (intros; apply hgro; congruence).
  constructor.
  - exact A2.
  - intros x Hx. apply B. right. exact Hx.
  - intros x k' Hx. rewrite Ho; [apply C; right; exact Hx|]. intros ->. apply A1. unfold addrs. apply in_map_iff. exists (a, k'). auto.
  - intros x Hx. destruct (Pos.eq_dec x a) as [->|Hne].
    + rewrite Hn. symmetry. apply B. left. reflexivity.
    + rewrite Ho by exact Hne. apply D. intros [Hc|Hc]; [cbn in Hc; congruence|]. contradiction.
Qed.
(** release a block anywhere in the list *)
Lemma own_free_in h0 L1 L2 h (a : addr) k : own h0 (L1 ++ @cons (addr * (kind * Z)) (a, k) L2) h ->
  exists h', hfree (fst k) h (Some a) = Ok h' /\ own h0 (L1 ++ L2) h'.
Proof.
  intros H. apply own_free. eapply own_perm; [exact H|]. apply Permutation_sym, Permutation_middle.
Qed.
(** the blocks alloc'ed on top of h form a heap of their own *)
Lemma own_app h0 L1 L2 h h1 : own h0 L1 h1 -> own h1 L2 h -> own h0 (L2 ++ L1) h.
Proof.
  intros [A B C D] [A' B' C' D']. assert (Hd : forall a, In a (addrs L1) -> ~ In a (addrs L2)).
  { intros a H1 H2. unfold addrs in H1. apply in_map_iff in H1. destruct H1 as ([x k] & He & Hi). cbn in He. subst x.
    pose proof (C _ _ Hi). rewrite (B' a H2) in H. discriminate. }
  unfold addrs in *. constructor; unfold addrs; rewrite ?map_app.
  - clear - A A' Hd. induction (map fst L2) as [|x l IH]; cbn; [exact A|]. inversion A'; subst. constructor.
    + rewrite in_app_iff. intros [H|H]; [contradiction|]. apply (Hd x H). left. reflexivity.
    + apply IH; [assumption|]. intros a Ha Hc. apply (Hd a Ha). right. exact Hc.
  - intros a. rewrite in_app_iff. intros [H|H]; [|apply B, H].
    destruct (in_dec Pos.eq_dec a (map fst L1)) as [H1|H1]; [apply B, H1|]. rewrite <- (D a H1). apply B', H.
  - intros a k. rewrite in_app_iff. intros [H|H]; [apply C', H|]. rewrite D'; [apply C, H|].
    intros Hc. apply (Hd a); [|exact Hc]. apply in_map_iff. exists (a, k). auto.
  - intros a Ha. rewrite in_app_iff in Ha. rewrite D', D; tauto.
Qed.


(** sizes *)
Definition lsz (L : list (addr * (kind * Z))) : Z := fold_right (fun x s => snd (snd x) + s) 0 L.
Lemma lsz_app L1 L2 : lsz (L1 ++ L2) = lsz L1 + lsz L2.
Proof. induction L1 as [|x L IH]; cbn; [reflexivity|]. fold (lsz (L ++ L2)) (lsz L). rewrite IH. lia. Qed.
Lemma lsz_cons x L : lsz (x :: L) = snd (snd x) + lsz L.
Proof. reflexivity. Qed.
Lemma own_size h0 L h : own h0 L h -> hsize h = hsize h0 + lsz L.
Proof.
  intros [A B C D]. rewrite (hsize_plus h h0 (map (fun x => @pair addr obj (fst x) (OOther (snd x))) L)).
  - f_equal. clear. induction L as [|x L IH]; [reflexivity|]. cbn. fold (lsz L). rewrite <- IH. reflexivity.
  - rewrite map_map. exact A.
  - intros a o Hi. apply in_map_iff in Hi as ([x k] & He & Hi). inversion He; subst; clear He. split; [|apply C, Hi].
    apply B. unfold addrs. apply in_map_iff. exists (a, k). auto.
  - intros a Ha. rewrite map_map in Ha. apply D. exact Ha.
Qed.
(** blocks that are alive *)
Definition alive (h0 : heap) (L : list (addr * (kind * Z))) (p : pointer * Z) : Prop :=
  exists a k, fst p = Some a /\ snd p <= snd k /\ (In (a, k) L \/ find a h0 = Some (OOther k)).
Lemma alive_here h0 a k L z : z <= snd k -> alive h0 ((a, k) :: L) (Some a, z).
Proof. intros H. exists a, k. split; [reflexivity|]. split; [exact H|left; left; reflexivity]. Qed.
Lemma alive_in h0 L (a : addr) k z : In (a, k) L -> z <= snd k -> alive h0 L (Some a, z).
Proof. intros H Hz. exists a, k. split; [reflexivity|]. split; [exact Hz|left; exact H]. Qed.
Lemma alive_incl h0 L L' p : incl L L' -> alive h0 L p -> alive h0 L' p.
Proof. intros H (a & k & Hp & Hz & [Hi|Hi]); exists a, k; auto. Qed.
Lemma uses_ok h l : (forall p, In p l -> exists (a : addr) o, fst p = Some a /\ find a h = Some o /\ snd p <= osize o) -> uses h l = Ok tt.
Proof.
  induction l as [|[p z] l IH]; intros H1; [reflexivity|]. cbn [uses fst snd]. destruct (H1 _ (or_introl eq_refl)) as (a & o & Hp & Ha & Hz).
  cbn [fst snd] in Hp, Hz. subst p. rewrite (huse_ok _ _ _ _ Ha Hz). cbn [bind]. apply IH. intros q Hq. apply H1. right. exact Hq.
Qed.
Lemma own_keeps h0 L h : own h0 L h -> keeps h0 h.
Proof.
  intros HO a o Ha. rewrite (own_rest _ _ _ HO); [exact Ha|]. intros Hi. rewrite (own_new _ _ _ HO a Hi) in Ha. discriminate.
Qed.
Lemma own_alive h0 L h (a : addr) k : own h0 L h -> In (a, k) L \/ find a h0 = Some (OOther k) -> find a h = Some (OOther k).
Proof. intros HO [H|H]; [apply (own_live _ _ _ HO), H|apply (own_keeps _ _ _ HO), H]. Qed.
Lemma within_own B h0 L h x y : own h0 L h -> within B h0 y -> x <= y -> within B h x.
Proof. intros HO HB Hx. eapply within_keeps; [exact HB|eapply own_keeps, HO|exact Hx]. Qed.
Lemma own_uses h0 L h l : own h0 L h -> Forall (alive h0 L) l -> uses h l = Ok tt.
Proof.
  intros HO HF. apply uses_ok. intros p Hp. eapply Forall_forall in HF; [|exact Hp]. destruct HF as (a & k & He & Hz & Hi).
  exists a, (OOther k). split; [exact He|]. split; [apply (own_alive _ _ _ _ _ HO Hi)|exact Hz].
Qed.

(** * The array of queues *)
(** the number of elements of a queue, from its blocks *)
Definition wt (q : queue) : Z := 1024 * Z.of_nat (length (q_blocks q)) - q_s q - 1023 + q_e q.
Record qc (w : Z) (q : queue) : Prop := {
  qc_w : q_w q = w;
  qc_n : q_n q = u64 (wt q);
  qc_pos : 0 <= wt q;
  qc_nil : q_blocks q = [] -> q_s q = 0 /\ q_e q = 1023;
  qc_se : 0 <= q_s q <= 1023 /\ 0 <= q_e q <= 1023;
  qc_bytes : Forall (fun p => pa_bytes p = pa_bytes (pa_new QSIZ w)) (q_blocks q) }.
Lemma qc_new w : qc w (q_new w).
Proof. constructor; try reflexivity; unfold wt; cbn; try lia. constructor. Qed.
Lemma qc_blocks w q : qc w q -> 1024 * Z.of_nat (length (q_blocks q)) <= wt q + 2046.
Proof. intros []. unfold wt in *. lia. Qed.
Lemma u64_shift x y d : x = u64 y -> u64 (x + d) = u64 (y + d).
Proof. intros ->. unfold u64. apply Zplus_mod_idemp_l. Qed.
Lemma upd_last_bytes E e x P : (forall b b', pa_set E b e x = Ok b' -> pa_bytes b' = pa_bytes b) -> forall l l', upd_last (fun b => pa_set E b e x) l = Ok l' ->
  length l' = length l /\ (Forall (fun p => pa_bytes p = P) l -> Forall (fun p => pa_bytes p = P) l').
Proof.
  intros Hb. induction l as [|b l IH]; intros l' H; [discriminate|]. cbn [upd_last] in H. destruct l as [|c l].
  - destruct (pa_set E b e x) as [b'|] eqn:Hs; [|discriminate]. cbn in H. inversion H; subst. split; [reflexivity|].
    intros HF. inversion HF as [|? ? Hx]; subst. constructor; [|constructor]. rewrite (Hb _ _ Hs). reflexivity.
  - destruct (upd_last (fun b => pa_set E b e x) (c :: l)) as [l1|] eqn:Hs; [|discriminate]. cbn [bind] in H. inversion H; subst.
    destruct (IH _ eq_refl) as [H1 H2]. split; [cbn [length] in *; lia|]. intros HF. apply Forall_cons_iff in HF as [F1 F2]. constructor; auto.
Qed.
Lemma qc_enqueue E w q x q' : qc w q -> enqueue E q x = Ok q' -> qc w q' /\ wt q' = wt q + 1.
Proof.
  intros [A B C D F G] H. unfold enqueue in H. unfold QSIZ in H.
  set (z := if q_e q =? 1024 - 1 then _ else _) in H.
  assert (Hz : let '(bl, s, e) := z in 1024 * Z.of_nat (length bl) - s - 1023 + (e + 1) = wt q + 1 /\ 0 <= s <= 1023 /\ 0 <= e + 1 <= 1023 /\
     Forall (fun p => pa_bytes p = pa_bytes (pa_new QSIZ w)) bl /\ bl <> []).
  { subst z. unfold wt in *. destruct (q_e q =? 1024 - 1) eqn:He.
    - destruct (q_blocks q) as [|b bs] eqn:Hbl.
      + destruct (D eq_refl) as [-> ->]. cbn [length]. repeat split; try lia; [|discriminate]. rewrite A. constructor; [reflexivity|constructor].
      + cbv beta iota zeta. rewrite app_length. cbn [length] in *. repeat split; try lia; [|discriminate]. apply Forall_app. split; [exact G|]. rewrite A. constructor; [reflexivity|constructor].
    - cbv beta iota zeta. repeat split; try lia; [exact G|]. intros Hn. destruct (D Hn). lia. }
  destruct z as [[bl s] e]. cbv zeta in H. cbv beta iota zeta in Hz. destruct Hz as (Z1 & Z2 & Z3 & Z4 & Z5).
  destruct (upd_last (fun b => pa_set E b (e + 1) x) bl) as [bl'|] eqn:Hu; [|discriminate]. cbn [bind] in H. inversion H; subst q'; clear H.
  destruct (upd_last_bytes E (e + 1) x (pa_bytes (pa_new QSIZ w)) ltac:(intros; eapply pa_set_bytes; eassumption) _ _ Hu) as [U1 U2].
  assert (Hw : wt (mkqueue (u64 (q_n q + 1)) (q_w q) bl' s (e + 1)) = wt q + 1) by (unfold wt; cbn [q_blocks q_s q_e]; rewrite U1; exact Z1).
  split; [|exact Hw]. constructor; cbn [q_w q_n q_blocks q_s q_e]; try assumption; try lia.
  - rewrite Hw. apply u64_shift, B.
  - intros ->. cbn in U1. destruct bl; [congruence|discriminate].
  - apply U2, Z4.
Qed.
Lemma qc_enqueue_l E w q x q' : qc w q -> enqueue_l E q x = Ok q' -> qc w q' /\ wt q' = wt q + 1.
Proof.
  intros [A B C D F G] H. unfold enqueue_l in H. unfold QSIZ in H.
  set (z := if q_s q =? 0 then _ else _) in H.
  assert (Hz : let '(bl, s, e) := z in 1024 * Z.of_nat (length bl) - (s - 1) - 1023 + e = wt q + 1 /\ 0 <= s - 1 <= 1023 /\ 0 <= e <= 1023 /\
     Forall (fun p => pa_bytes p = pa_bytes (pa_new QSIZ w)) bl).
  { subst z. unfold wt in *. destruct (q_s q =? 0) eqn:He.
    - destruct (q_blocks q) as [|b bs] eqn:Hbl.
      + destruct (D eq_refl) as [-> ->]. cbn [length]. repeat split; try lia. rewrite A. constructor; [reflexivity|constructor].
      + cbn [length] in *. repeat split; try lia. constructor; [rewrite A; reflexivity|exact G].
    - repeat split; try lia; exact G. }
  destruct z as [[bl s] e]. cbv zeta in H. cbv beta iota zeta in Hz. destruct Hz as (Z1 & Z2 & Z3 & Z4).
  destruct bl as [|b r]; [discriminate|].
  destruct (pa_set E b (s - 1) x) as [b'|] eqn:Hu; [|discriminate]. cbn [bind] in H. inversion H; subst q'; clear H.
  assert (Hw : wt (mkqueue (u64 (q_n q + 1)) (q_w q) (b' :: r) (s - 1) e) = wt q + 1) by (unfold wt at 1; cbn [q_blocks q_s q_e length] in *; lia).
  split; [|exact Hw]. constructor; cbn [q_w q_n q_blocks q_s q_e]; try assumption; try lia.
  - rewrite Hw. apply u64_shift, B.
  - discriminate.
  - inversion Z4; subst. constructor; [rewrite (pa_set_bytes _ _ _ _ _ Hu); assumption|assumption].
Qed.
Lemma qc_dequeue E w q x q' : qc w q -> 1 <= wt q -> dequeue E q = Ok (x, q') -> qc w q' /\ wt q' = wt q - 1.
Proof.
  intros [A B C D F G] Hp H. unfold dequeue in H. unfold QSIZ in H. destruct (q_blocks q) as [|b r] eqn:Hbl; [discriminate|].
  destruct (pa_get E b (q_s q)) as [v|]; [|discriminate]. cbn [bind] in H. cbv zeta in H.
  set (z := if q_s q + 1 =? 1024 then _ else _) in H.
  assert (Hz : let '(bl, s, e) := z in 1024 * Z.of_nat (length bl) - s - 1023 + e = wt q - 1 /\ 0 <= s <= 1023 /\ 0 <= e <= 1023 /\
     Forall (fun p => pa_bytes p = pa_bytes (pa_new QSIZ w)) bl /\ (bl = [] -> s = 0 /\ e = 1023)).
  { subst z. unfold wt in *. rewrite Hbl in *. cbn [length] in *. inversion G; subst. destruct (q_s q + 1 =? 1024) eqn:He.
    - destruct r as [|c r]; cbn [length] in *.
      + repeat split; try lia. constructor.
      + (split; [lia|split; [lia|split; [lia|split; [assumption|discriminate]]]]).
    - cbv beta iota zeta. cbn [length]. (split; [lia|split; [lia|split; [lia|split; [exact G|discriminate]]]]). }
  destruct z as [[bl s] e]. cbv beta iota zeta in Hz, H. destruct Hz as (Z1 & Z2 & Z3 & Z4 & Z5). inversion H; subst x q'; clear H.
  assert (Hw : wt (mkqueue (u64 (q_n q - 1)) (q_w q) bl s e) = wt q - 1) by (unfold wt at 1; cbn [q_blocks q_s q_e]; exact Z1).
  split; [|exact Hw]. constructor; cbn [q_w q_n q_blocks q_s q_e]; try assumption; try lia.
  rewrite Hw. apply u64_shift, B.
Qed.
Lemma qc_nonempty w q : qc w q -> q_is_empty q = false -> 1 <= wt q.
Proof. intros [A B C D F G] H. unfold q_is_empty in H. destruct (Z.eq_dec (wt q) 0) as [He|]; [|lia]. rewrite He in B. change (u64 0) with 0 in B. lia. Qed.

(** sums over the 774 queues *)
Definition vs774 : list Z := map Z.of_nat (seq 0 774).
Lemma vs_nodup : NoDup vs774.
Proof. unfold vs774. apply FinFun.Injective_map_NoDup; [intros x y; lia|apply seq_NoDup]. Qed.
Lemma vs_in i : In i vs774 <-> 0 <= i < 774.
Proof.
  unfold vs774. rewrite in_map_iff. split.
  - intros (x & <- & Hx). apply in_seq in Hx. lia.
  - intros H. exists (Z.to_nat i). split; [lia|]. apply in_seq. lia.
Qed.
Lemma vs_len : Z.of_nat (length vs774) = 774.
Proof. unfold vs774. rewrite map_length, seq_length. reflexivity. Qed.
Definition wtq (D : Z -> bool) (Q : arr queue) (i : Z) : Z :=
  if D i then match av Q i with Some q => wt q | None => 0 end else 0.
(** the queues with index in D are alive and hold at most N elements: QP holds their addresses, Q their
    values; hb is the rest of the heap *)
Definition qs (hb : heap) (D : Z -> bool) (w N : Z) (Q : arr queue) (QP : arr pointer) (h : heap) : Prop :=
  alen QP = 774 /\ (forall i, D i = true -> 0 <= i < 774) /\
  (exists g nl, bank hb g h nl /\ (forall i, D i = false -> g i = None) /\
    (forall i, D i = true -> exists a q, av QP i = Some (Some a) /\ av Q i = Some q /\ g i = Some (a, q) /\ qc w q)) /\
  sum (wtq D Q) vs774 <= N.

Lemma wtq_upd D Q i q q' : D i = true -> av Q i = Some q -> 0 <= i < 774 ->
  sum (wtq D (aupd Q i q')) vs774 = sum (wtq D Q) vs774 - wt q + wt q'.
Proof.
  intros HD HQ Hi. pose proof (av_bounds _ _ _ HQ) as Hb. rewrite (sum_upd (wtq D Q) _ i).
  - unfold wtq. rewrite HD, HQ, av_upd_same by exact Hb. reflexivity.
  - apply vs_nodup.
  - apply vs_in, Hi.
  - intros j Hj. unfold wtq. rewrite av_upd_other by (lia || exact Hj). reflexivity.
Qed.
Lemma qs_mono hb D w N N' Q QP h : qs hb D w N Q QP h -> N <= N' -> qs hb D w N' Q QP h.
Proof. intros (A & B & C & F) H. split; [exact A|]. split; [exact B|]. split; [exact C|lia]. Qed.

Lemma qs_empty hb w Q : qs hb (fun _ => false) w 0 Q (anew 774) hb.
Proof.
  split; [apply alen_new|]. split; [discriminate|]. split.
  - exists (fun _ => None), (fun _ => []). split; [apply bank_empty|]. split; [reflexivity|discriminate].
  - apply Z.eq_le_incl. transitivity (sum (fun _ => 0) vs774); [reflexivity|]. generalize vs774. induction l; cbn; [reflexivity|]. exact IHl.
Qed.
Lemma qs_done hb w N Q QP h D : qs hb D w N Q QP h -> (forall i, D i = false) -> same_heap h hb.
Proof. intros (_ & _ & (g & nl & B & H1 & _) & _) H. eapply bank_done; [exact B|]. intros i. apply H1, H. Qed.
Lemma qs_ext hb D D' w N Q Q' QP h : qs hb D w N Q QP h -> (forall i, D' i = D i) -> (forall i, D i = true -> av Q' i = av Q i) -> qs hb D' w N Q' QP h.
Proof.
  intros (Hl & Hd & (g & nl & B & H1 & H2) & Hs) HD HQ. split; [exact Hl|]. split; [intros i; rewrite HD; apply Hd|]. split.
  - exists g, nl. split; [exact B|]. split.
    + intros i. rewrite HD. apply H1.
    + intros i. rewrite HD. intros Hi. rewrite HQ by exact Hi. apply H2, Hi.
  - rewrite (sum_ext _ (wtq D Q)); [exact Hs|]. intros i _. unfold wtq. rewrite HD. destruct (D i) eqn:Hi; [|reflexivity]. rewrite HQ by exact Hi. reflexivity.
Qed.
Lemma fupd_same {A} (f : Z -> A) i x : fupd f i x i = x.
Proof. unfold fupd. rewrite Z.eqb_refl. reflexivity. Qed.
Lemma fupd_other {A} (f : Z -> A) i j x : j <> i -> fupd f i x j = f j.
Proof. intros H. unfold fupd. destruct (Z.eqb_spec j i); [contradiction|reflexivity]. Qed.

(** queue i changes to q' *)
Lemma qs_upd hb D w N N' Q QP g h' nl i a q q' :
  alen QP = 774 -> (forall i, D i = true -> 0 <= i < 774) -> D i = true -> av Q i = Some q -> av QP i = Some (Some a) ->
  bank hb (fupd g i (Some (a, q'))) h' nl ->
  (forall j, D j = false -> g j = None) ->
  (forall j, D j = true -> exists a q, av QP j = Some (Some a) /\ av Q j = Some q /\ g j = Some (a, q) /\ qc w q) ->
  qc w q' -> sum (wtq D Q) vs774 <= N -> N - wt q + wt q' <= N' ->
  qs hb D w N' (aupd Q i q') QP h'.
Proof.
  intros Hl Hd HD HQ HP B H1 H2 Hq Hs HN. pose proof (av_bounds _ _ _ HQ) as Hb. split; [exact Hl|]. split; [exact Hd|]. split.
  - eexists _, _. split; [exact B|]. split.
    + intros j Hj. destruct (Z.eq_dec j i) as [->|Hne]; [congruence|]. rewrite fupd_other by exact Hne. apply H1, Hj.
    + intros j Hj. destruct (Z.eq_dec j i) as [->|Hne].
      * exists a, q'. rewrite fupd_same, av_upd_same by exact Hb. auto.
      * rewrite fupd_other by exact Hne. rewrite av_upd_other by (lia || exact Hne). apply H2, Hj.
  - rewrite (wtq_upd D Q i q q' HD HQ (Hd _ HD)). lia.
Qed.

(** memory of the queues: N elements of w bits, and one more block *)
Definition qneed (w N : Z) : Z := 43344 + block_bytes w * (N / 1024 + 1548).
Lemma block_bytes_pos w : 56 <= block_bytes w.
Proof.
  unfold block_bytes, pa_bytes, pa_new. cbn [pa_arr]. rewrite alen_new. set (x := u64 _). assert (H : 0 <= x) by (apply Z.mod_pos_bound; reflexivity).
  pose proof (Z.div_pos x 64 H ltac:(lia)). lia.
Qed.
Lemma nodes_bytes_blocks w l : Forall (fun p => pa_bytes p = pa_bytes (pa_new QSIZ w)) (map n_p l) -> nodes_bytes l = block_bytes w * Z.of_nat (length l).
Proof.
  induction l as [|x l IH]; intros H; [cbn; lia|]. cbn [map] in H. inversion H; subst. cbn [nodes_bytes fold_right length]. fold (nodes_bytes l).
  rewrite (IH H3), H2. unfold block_bytes. lia.
Qed.
Lemma qs_size hb D w N Q QP h : qs hb D w N Q QP h -> hsize h + block_bytes w <= hsize hb + qneed w N.
Proof.
  intros (Hl & Hd & (g & nl & B & H1 & H2) & Hs).
  rewrite (bank_size hb g h nl vs774 B vs_nodup).
  2:{ intros i Hi. apply vs_in, Hd. destruct (D i) eqn:HD; [reflexivity|]. destruct (Hi (H1 i HD)). }
  change (fold_right _ 0 vs774) with (sum (qbytes g nl) vs774).
  set (nb := fun i => if D i then Z.of_nat (length (nl i)) else 0).
  assert (Hq : sum (qbytes g nl) vs774 <= sum (fun i => block_bytes w * nb i + 56) vs774).
  { apply sum_le. intros i _. unfold qbytes, nb. destruct (D i) eqn:HD.
    - destruct (H2 i HD) as (a & q & _ & _ & G & Hc). rewrite G. destruct (b_q _ _ _ _ B _ _ _ G) as (hq & _ & R).
      pose proof (qc_bytes _ _ Hc) as Hf. rewrite (qr_bl _ _ _ _ R) in Hf. rewrite (nodes_bytes_blocks w _ Hf). lia.
    - rewrite (H1 i HD). lia. }
  rewrite sum_lin, vs_len in Hq.
  assert (Hn : sum (fun i => 1024 * nb i + 0) vs774 <= sum (fun i => 1 * wtq D Q i + 2046) vs774).
  { apply sum_le. intros i _. unfold nb, wtq. destruct (D i) eqn:HD; [|lia]. destruct (H2 i HD) as (a & q & _ & G2 & G & Hc).
    rewrite G2. destruct (b_q _ _ _ _ B _ _ _ G) as (hq & _ & R). pose proof (qc_blocks _ _ Hc) as Hb. rewrite (qr_bl _ _ _ _ R), map_length in Hb. lia. }
  rewrite !sum_lin, vs_len in Hn. unfold qneed. pose proof (block_bytes_pos w).
  assert (Hnb : sum nb vs774 <= N / 1024 + 1547).
  { apply Z.lt_succ_r. pose proof (Z.div_mod N 1024 ltac:(lia)). pose proof (Z.mod_pos_bound N 1024 ltac:(lia)). lia. }
  nia.
Qed.

Lemma qs_keeps hb D w N Q QP h : qs hb D w N Q QP h -> keeps hb h.
Proof.
  intros (_ & _ & (g & nl & B & _) & _) a o Ha. rewrite (bank_outside _ _ _ _ a B); [exact Ha|]. rewrite Ha. discriminate.
Qed.

Section Ops.
Context (al : allocator) (Bd : bound) (Hal : fresh_alloc al) (Hroom : room al Bd) (E : env).

Lemma qs_within hb D w N Q QP h : within Bd hb (hsize hb + qneed w N) -> qs hb D w N Q QP h -> within Bd h (hsize h + block_bytes w).
Proof. intros H R. eapply within_keeps; [exact H|eapply qs_keeps, R|]. eapply qs_size, R. Qed.

Lemma qs_add hb D w N Q QP h t c x : within Bd hb (hsize hb + qneed w N) -> qs hb D w N Q QP h -> (0 <= c < 258 -> D (qidx t c) = true) ->
  rsim (q_add E Q t c x) (h_add al E h QP t c x) (fun Q' h' => qs hb D w (N + 1) Q' QP h').
Proof using Hal Hroom.
  intros HB R HD. pose proof (qs_within _ _ _ _ _ _ _ HB R) as HW. destruct R as (Hl & Hd & (g & nl & B & H1 & H2) & Hs).
  unfold q_add, h_add. destruct ((0 <=? c) && (c <? 258)) eqn:Hc; [|apply rsim_err].
  specialize (HD ltac:(lia)). destruct (H2 _ HD) as (a & q & G1 & G2 & G3 & G4).
  rewrite (aget_ok _ _ _ G1), (aget_ok _ _ _ G2). cbn [bind]. apply rsim_left. intros q' Hq.
  rewrite <- (qc_w _ _ G4) in HW. destruct (qc_enqueue _ _ _ _ _ G4 Hq) as [G5 G6].
  destruct (bank_enqueue al Bd Hal Hroom E hb g h nl _ a q x q' HW B G3 Hq) as (h' & l' & F1 & F2).
  intros Q' HQ'. exists h'. split; [exact F1|]. rewrite aset_ok in HQ' by (eapply av_bounds; exact G2). inversion HQ'; subst Q'.
  eapply qs_upd; try eassumption. lia.
Qed.
Lemma qs_addl hb D w N Q QP h t c x : within Bd hb (hsize hb + qneed w N) -> qs hb D w N Q QP h -> (0 <= c < 258 -> D (qidx t c) = true) ->
  rsim (q_addl E Q t c x) (h_addl al E h QP t c x) (fun Q' h' => qs hb D w (N + 1) Q' QP h' /\ exists q, av Q' (qidx t c) = Some q /\ 1 <= wt q).
Proof using Hal Hroom.
  intros HB R HD. pose proof (qs_within _ _ _ _ _ _ _ HB R) as HW. destruct R as (Hl & Hd & (g & nl & B & H1 & H2) & Hs).
  unfold q_addl, h_addl. destruct ((0 <=? c) && (c <? 258)) eqn:Hc; [|apply rsim_err].
  specialize (HD ltac:(lia)). destruct (H2 _ HD) as (a & q & G1 & G2 & G3 & G4).
  rewrite (aget_ok _ _ _ G1), (aget_ok _ _ _ G2). cbn [bind]. apply rsim_left. intros q' Hq.
  rewrite <- (qc_w _ _ G4) in HW. destruct (qc_enqueue_l _ _ _ _ _ G4 Hq) as [G5 G6].
  destruct (bank_enqueue_l al Bd Hal Hroom E hb g h nl _ a q x q' HW B G3 Hq) as (h' & l' & F1 & F2).
  intros Q' HQ'. exists h'. split; [exact F1|]. pose proof (av_bounds _ _ _ G2) as Hb. rewrite aset_ok in HQ' by exact Hb. inversion HQ'; subst Q'. split.
  - eapply qs_upd; try eassumption. lia.
  - exists q'. rewrite av_upd_same by exact Hb. split; [reflexivity|]. pose proof (qc_pos _ _ G4). lia.
Qed.
Lemma qs_pop hb D w N Q QP h t c q : qs hb D w N Q QP h -> D (qidx t c) = true -> av Q (qidx t c) = Some q -> 1 <= wt q ->
  rsim (q_pop E Q t c) (h_pop E h QP t c) (fun x y => fst x = fst y /\ qs hb D w (N - 1) (snd x) QP (snd y)).
Proof.
  intros (Hl & Hd & (g & nl & B & H1 & H2) & Hs) HD HQ Hp. unfold q_pop, h_pop. destruct (H2 _ HD) as (a & q1 & G1 & G2 & G3 & G4).
  assert (q1 = q) by congruence. subst q1.
  rewrite (aget_ok _ _ _ G1), (aget_ok _ _ _ G2). cbn [bind]. apply rsim_left. intros [x q'] Hq.
  destruct (qc_dequeue _ _ _ _ _ G4 Hp Hq) as [G5 G6].
  destruct (bank_dequeue E hb g h nl _ a q x q' B G3 Hq) as (h' & l' & F1 & F2).
  rewrite aset_ok by (eapply av_bounds; exact G2). cbn [bind]. rewrite F1. apply rsim_ok. split; [reflexivity|]. cbn [snd].
  eapply qs_upd; try eassumption. lia.
Qed.
Lemma qs_is_empty hb D w N Q QP h t c : qs hb D w N Q QP h -> D (qidx t c) = true ->
  exists q, av Q (qidx t c) = Some q /\ h_empty h QP t c = Ok (q_is_empty q) /\ (q_is_empty q = false -> 1 <= wt q).
Proof.
  intros (Hl & Hd & (g & nl & B & H1 & H2) & Hs) HD. destruct (H2 _ HD) as (a & q & G1 & G2 & G3 & G4). exists q. split; [exact G2|].
  split; [|apply (qc_nonempty w q G4)].
  unfold h_empty. rewrite (aget_ok _ _ _ G1). cbn [bind]. eapply bank_is_empty; eassumption.
Qed.
Lemma qs_new hb D w N Q QP h t c : within Bd hb (hsize hb + qneed w N) -> qs hb D w N Q QP h -> D (qidx t c) = false -> 0 <= qidx t c < 774 -> av Q (qidx t c) = Some (q_new w) ->
  exists h' QP', h_newq al h QP t c w = Ok (h', QP') /\ qs hb (fun i => (i =? qidx t c) || D i) w N Q QP' h'.
Proof using Hal Hroom.
  intros HB R HD Hi HQ. pose proof (qs_within _ _ _ _ _ _ _ HB R) as HW. destruct R as (Hl & Hd & (g & nl & B & H1 & H2) & Hs). unfold h_newq.
  assert (HW' : within Bd h (hsize h + 56)) by (eapply within_le; [exact HW|]; pose proof (block_bytes_pos w); lia).
  destruct (bank_add al Bd Hal Hroom hb g h nl (qidx t c) w HW' B (H1 _ HD)) as (a & h' & Hnq & _ & B').
  rewrite Hnq. cbn [bind]. rewrite aset_ok by lia. cbn [bind]. eexists _, _. split; [reflexivity|].
  split; [rewrite alen_upd; exact Hl|]. set (i := qidx t c) in *. split; [|split].
  - intros j Hj. destruct (Z.eq_dec j i) as [->|]; [exact Hi|]. apply Hd. lia.
  - eexists _, _. split; [exact B'|]. split.
    + intros j Hj. rewrite fupd_other by lia. apply H1. lia.
    + intros j Hj. destruct (Z.eq_dec j i) as [->|Hne].
      * exists a, (q_new w). rewrite fupd_same, av_upd_same by lia. split; [reflexivity|]. split; [exact HQ|]. split; [reflexivity|apply qc_new].
      * rewrite fupd_other, av_upd_other by lia. apply H2. lia.
  - rewrite (sum_ext _ (wtq D Q)); [exact Hs|]. intros j _. unfold wtq. destruct (Z.eqb_spec j i) as [->|]; [|reflexivity].
    cbn [orb]. rewrite HQ, HD. reflexivity.
Qed.
Lemma qs_del hb D w N Q QP h t c : qs hb D w N Q QP h -> D (qidx t c) = true ->
  exists h', h_delq h QP t c = Ok h' /\ qs hb (fun i => negb (i =? qidx t c) && D i) w N Q QP h'.
Proof.
  intros (Hl & Hd & (g & nl & B & H1 & H2) & Hs) HD. destruct (H2 _ HD) as (a & q & G1 & G2 & G3 & G4). unfold h_delq.
  rewrite (aget_ok _ _ _ G1). cbn [bind]. destruct (bank_delete hb g h nl _ a q B G3) as (h' & F1 & F2).
  exists h'. split; [exact F1|]. split; [exact Hl|]. split; [|split].
  - intros j Hj. apply Hd. lia.
  - eexists _, _. split; [exact F2|]. split.
    + intros j Hj. destruct (Z.eq_dec j (qidx t c)) as [->|Hne]; [apply fupd_same|]. rewrite fupd_other by exact Hne. apply H1. lia.
    + intros j Hj. rewrite fupd_other by lia. apply H2. lia.
  - etransitivity; [|exact Hs]. apply sum_le. intros j _. unfold wtq. destruct (Z.eqb_spec j (qidx t c)) as [->|]; [|reflexivity].
    cbn [negb andb]. rewrite HD, G2. exact (qc_pos _ _ G4).
Qed.
(** blocks allocated and released beside the queues *)
Lemma qs_alloc hb D w N Q QP h h0 L k : within Bd hb (hsize hb + qneed w N + snd k) -> own h0 L hb -> qs hb D w N Q QP h ->
  exists a hb', hnew al h (OOther k) = Ok (a, hadd a (OOther k) h) /\
    own h0 (@cons (addr * (kind * Z)) (a, k) L) hb' /\ qs hb' D w N Q QP (hadd a (OOther k) h).
Proof using Hal Hroom.
  intros HB HO R. pose proof (qs_size _ _ _ _ _ _ _ R) as Hsz. pose proof (qs_keeps _ _ _ _ _ _ _ R) as Hkp. destruct R as (Hl & Hd & (g & nl & B & H1 & H2) & Hs).
  assert (HW : within Bd h (hsize h + osize (OOther k))).
  { eapply within_keeps; [exact HB|exact Hkp|]. cbn [osize]. pose proof (block_bytes_pos w). lia. }
  destruct (bank_alloc al Bd Hal Hroom hb g h nl (OOther k) HW B) as (a & F1 & _ & F2 & F3).
  exists a, (hadd a (OOther k) hb). split; [exact F1|]. split; [apply own_add; assumption|]. split; [exact Hl|]. split; [exact Hd|]. split; [|exact Hs]. exists g, nl. auto.
Qed.
Lemma qs_free hb D w N Q QP h h0 L (a : addr) k : own h0 (@cons (addr * (kind * Z)) (a, k) L) hb -> qs hb D w N Q QP h ->
  exists hb' h', hfree (fst k) h (Some a) = Ok h' /\ own h0 L hb' /\ qs hb' D w N Q QP h'.
Proof.
  intros HO (Hl & Hd & (g & nl & B & H1 & H2) & Hs). destruct (own_free _ _ _ _ _ HO) as (hb' & F1 & F2).
  assert (Ha : find a hb <> None). { rewrite (own_live _ _ _ HO a k) by (left; reflexivity). discriminate. }
  destruct (bank_free (fst k) hb g h nl a hb' B Ha F1) as (h' & F3 & F4).
  exists hb', h'. split; [exact F3|]. split; [exact F2|]. split; [exact Hl|]. split; [exact Hd|]. split; [|exact Hs]. exists g, nl. auto.
Qed.
Lemma qs_uses hb D w N Q QP h h0 L l : own h0 L hb -> qs hb D w N Q QP h -> Forall (alive h0 L) l -> uses h l = Ok tt.
Proof.
  intros HO (_ & _ & (g & nl & B & _) & _) HF. apply uses_ok. intros p Hp. eapply Forall_forall in HF; [|exact Hp]. destruct HF as (a & k & He & Hz & Hi).
  pose proof (own_alive _ _ _ _ _ HO Hi) as Hv. assert (Hn : find a hb <> None) by (rewrite Hv; discriminate).
  exists a, (OOther k). split; [exact He|]. split; [|exact Hz]. rewrite (bank_outside _ _ _ _ _ B Hn). exact Hv.
Qed.
End Ops.
