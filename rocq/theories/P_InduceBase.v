(** Infrastructure for induce_bwt: arrays of queues, rank inverses, LMS ranks. *)
From Verif Require Import Base M_PackedArray M_Queue M_HashTable M_Induce Spec Count Text Induced P_Queue.
From Coq Require Import ZifyBool.
Open Scope Z_scope.
(** * 64-bit counters *)
Lemma u64_small v : 0 <= v < 2 ^ 64 -> u64 v = v.
Proof. exact (wrap_small 64 v). Qed.
Lemma sw64_small v : - 2 ^ 63 <= v < 2 ^ 63 -> swrap 64 v = v.
Proof. intros H. apply swrap_small; lia. Qed.
Lemma inc64_ok m : m < 2 ^ 63 - 1 -> inc64 m = Ok (m + 1).
Proof. intros H. unfold inc64. destruct (Z.ltb_spec m (2 ^ 63 - 1)); [reflexivity|lia]. Qed.


(** * zseq *)
Lemma zseq_snoc lo hi : lo <= hi -> zseq lo (hi + 1) = zseq lo hi ++ [hi].
Proof.
  intros H. unfold zseq. replace (Z.to_nat (hi + 1 - lo)) with (S (Z.to_nat (hi - lo))) by lia.
  remember (Z.to_nat (hi - lo)) as k eqn:Hk. revert lo H Hk. induction k as [|k IH]; intros lo H Hk.
  - cbn. f_equal. lia.
  - change (zseq_n (S (S k)) lo) with (lo :: zseq_n (S k) (lo + 1)). rewrite (IH (lo + 1)) by lia. reflexivity.
Qed.
Lemma zseq_rev_cons lo hi : lo <= hi -> rev (zseq lo (hi + 1)) = hi :: rev (zseq lo hi).
Proof. intros H. rewrite zseq_snoc by lia. rewrite rev_app_distr. reflexivity. Qed.
Lemma inc_zseq l : forall lo hi, StronglySorted Z.lt l -> (forall x, In x l <-> lo <= x < hi) -> l = zseq lo hi.
Proof.
  induction l as [|x l IH]; intros lo hi Hs Hin.
  - destruct (Z_lt_ge_dec lo hi) as [Hl|Hl]; [destruct (proj2 (Hin lo) ltac:(lia))|rewrite zseq_nil by lia; reflexivity].
  - inversion Hs as [|? ? Hs' Hf]; subst. rewrite Forall_forall in Hf.
    pose proof (proj1 (Hin x) (or_introl eq_refl)) as Hx.
    assert (x = lo) as ->.
    { destruct (proj2 (Hin lo) ltac:(lia)) as [H|H]; [assumption|]. specialize (Hf _ H). lia. }
    rewrite zseq_cons by lia. f_equal. apply IH; [assumption|]. intros y. split.
    + intros Hy. specialize (Hf _ Hy). pose proof (proj1 (Hin y) (or_intror Hy)). lia.
    + intros Hy. destruct (proj2 (Hin y) ltac:(lia)) as [H|H]; [lia|assumption].
Qed.
Lemma zseq_sorted lo hi : StronglySorted Z.lt (zseq lo hi).
Proof.
  unfold zseq. generalize (Z.to_nat (hi - lo)) as k. intros k. revert lo. induction k as [|k IH]; intros lo; cbn [zseq_n]; constructor.
  - apply IH.
  - apply Forall_forall. intros x Hx. apply zseq_n_in in Hx. lia.
Qed.
Lemma ss_filter {A} (R : A -> A -> Prop) (P : A -> bool) l : StronglySorted R l -> StronglySorted R (filter P l).
Proof.
  induction 1 as [|x l Hs IH Hf]; cbn [filter]; [constructor|]. destruct (P x); [|assumption]. constructor; [assumption|].
  rewrite Forall_forall in *. intros y Hy. apply filter_In in Hy. apply Hf. tauto.
Qed.
Lemma ss_map {A B} (R : A -> A -> Prop) (R' : B -> B -> Prop) (f : A -> B) (l : list A) :
  (forall x y, In x l -> In y l -> R x y -> R' (f x) (f y)) -> StronglySorted R l -> StronglySorted R' (map f l).
Proof.
  intros H Hs. induction Hs as [|x l Hs IH Hf]; cbn [map]; constructor.
  - apply IH. intros a b Ha Hb. apply H; right; assumption.
  - rewrite Forall_forall in *. intros y Hy. apply in_map_iff in Hy as (z & <- & Hz). apply H; [left; reflexivity|right; assumption|auto].
Qed.

(** * Arrays of queues: LL t c is the content of queue (t, c) *)
Definition qs (E : env) (w : Z) (Q : arr queue) (LL : Z -> Z -> list Z) : Prop :=
  alen Q = 774 /\ forall t c, 0 <= t < 3 -> 0 <= c < 258 -> exists q, av Q (qidx t c) = Some q /\ qrep E w q (LL t c).
Definition qup (LL : Z -> Z -> list Z) (t c : Z) (l : list Z) : Z -> Z -> list Z :=
  fun t' c' => if (t' =? t) && (c' =? c) then l else LL t' c'.
Lemma qup_same LL t c l : qup LL t c l t c = l.
Proof. unfold qup. rewrite !Z.eqb_refl. reflexivity. Qed.
Lemma qup_other LL t c l t' c' : t' <> t \/ c' <> c -> qup LL t c l t' c' = LL t' c'.
Proof. intros H. unfold qup. replace ((t' =? t) && (c' =? c)) with false by lia. reflexivity. Qed.
Lemma qs_ext E w Q LL LL' : qs E w Q LL -> (forall t c, 0 <= t < 3 -> 0 <= c < 258 -> LL t c = LL' t c) -> qs E w Q LL'.
Proof. intros [H1 H2] H. split; [assumption|]. intros t c Ht Hc. rewrite <- H by assumption. apply H2; assumption. Qed.
Lemma qidx_inj t c t' c' : 0 <= c < 258 -> 0 <= c' < 258 -> qidx t c = qidx t' c' -> t = t' /\ c = c'.
Proof. unfold qidx. intros. lia. Qed.
Lemma qs_set E w Q LL t c q l : qs E w Q LL -> 0 <= t < 3 -> 0 <= c < 258 -> qrep E w q l ->
  aset Q (qidx t c) q = Ok (aupd Q (qidx t c) q) /\ qs E w (aupd Q (qidx t c) q) (qup LL t c l).
Proof.
  intros [H1 H2] Ht Hc Hq. assert (Hb : 0 <= qidx t c < alen Q) by (unfold qidx; lia).
  split; [apply aset_ok; assumption|]. split; [rewrite alen_upd; assumption|]. intros t' c' Ht' Hc'. rewrite av_upd by assumption.
  unfold qup. destruct (Z.eqb_spec (qidx t' c') (qidx t c)) as [He|Hne].
  - apply qidx_inj in He as [-> ->]; [|assumption|assumption]. rewrite !Z.eqb_refl. exists q. split; [reflexivity|assumption].
  - replace ((t' =? t) && (c' =? c)) with false; [apply H2; assumption|].
    destruct (Z.eqb_spec t' t) as [->|]; [|reflexivity]. destruct (Z.eqb_spec c' c) as [->|]; [congruence|reflexivity].
Qed.
Lemma q_add_ok E w Q LL t c x : qs E w Q LL -> 0 <= t < 3 -> 0 <= c < 258 -> 0 <= x < 2 ^ w ->
  exists Q', q_add E Q t c x = Ok Q' /\ qs E w Q' (qup LL t c (LL t c ++ [x])).
Proof.
  intros H Ht Hc Hx. destruct (proj2 H t c Ht Hc) as (q & Hq & Hr). unfold q_add.
  replace ((0 <=? c) && (c <? 258)) with true by lia. rewrite (aget_ok _ _ _ Hq). cbn [bind].
  destruct (enqueue_ok E w q _ x Hr Hx) as (q' & -> & Hr'). cbn [bind].
  destruct (qs_set E w Q LL t c q' _ H Ht Hc Hr') as [-> H']. eauto.
Qed.
Lemma q_addl_ok E w Q LL t c x : qs E w Q LL -> 0 <= t < 3 -> 0 <= c < 258 -> 0 <= x < 2 ^ w ->
  exists Q', q_addl E Q t c x = Ok Q' /\ qs E w Q' (qup LL t c (x :: LL t c)).
Proof.
  intros H Ht Hc Hx. destruct (proj2 H t c Ht Hc) as (q & Hq & Hr). unfold q_addl.
  replace ((0 <=? c) && (c <? 258)) with true by lia. rewrite (aget_ok _ _ _ Hq). cbn [bind].
  destruct (enqueue_l_ok E w q _ x Hr Hx) as (q' & -> & Hr'). cbn [bind].
  destruct (qs_set E w Q LL t c q' _ H Ht Hc Hr') as [-> H']. eauto.
Qed.
Lemma q_pop_ok E w Q LL t c x l : qs E w Q LL -> 0 <= t < 3 -> 0 <= c < 258 -> LL t c = x :: l ->
  exists Q', q_pop E Q t c = Ok (x, Q') /\ qs E w Q' (qup LL t c l).
Proof.
  intros H Ht Hc Hl. destruct (proj2 H t c Ht Hc) as (q & Hq & Hr). rewrite Hl in Hr. unfold q_pop.
  rewrite (aget_ok _ _ _ Hq). cbn [bind]. destruct (dequeue_ok E w q _ _ Hr) as (q' & -> & Hr'). cbn [bind].
  destruct (qs_set E w Q LL t c q' _ H Ht Hc Hr') as [-> H']. cbn [bind]. eauto.
Qed.
Lemma q_empty_ok E w Q LL t c : qs E w Q LL -> 0 <= t < 3 -> 0 <= c < 258 -> Z.of_nat (length (LL t c)) < 2 ^ 64 ->
  exists q, aget Q (qidx t c) = Ok q /\ q_is_empty q = match LL t c with [] => true | _ => false end.
Proof.
  intros H Ht Hc Hl. destruct (proj2 H t c Ht Hc) as (q & Hq & Hr). exists q. split; [apply aget_ok; assumption|].
  apply (q_is_empty_ok E w q _ Hr Hl).
Qed.
Lemma init_queues_ok E w : 1 <= w <= 63 -> wp (init_queues w) (fun Q => qs E w Q (fun _ _ => [])).
Proof.
  intros Hw. unfold init_queues. change (3 * 258) with 774. eapply wp_mono.
  { apply (wp_for_up (fun i Q => alen Q = 774 /\ forall k, 0 <= k < i -> av Q k = Some (q_new w))); [lia| |].
    - split; [apply alen_new|intros; lia].
    - intros i Q Hi [H1 H2]. rewrite aset_ok by lia. cbn [wp]. split; [rewrite alen_upd; assumption|].
      intros k Hk. rewrite av_upd by lia. destruct (Z.eqb_spec k i); [reflexivity|]. apply H2. lia. }
  cbn beta. intros Q [H1 H2]. split; [assumption|]. intros t c Ht Hc. exists (q_new w). split.
  - apply H2. unfold qidx. lia.
  - apply q_new_rep. assumption.
Qed.
Lemma reset_L_ok E w Q LL : 1 <= w <= 63 -> qs E w Q LL ->
  wp (reset_L w Q) (fun Q => qs E w Q (fun t c => if t =? TYPE_L then [] else LL t c)).
Proof.
  intros Hw HQ. unfold reset_L, TYPE_L. eapply wp_mono.
  { apply (wp_for_up (fun i Q => qs E w Q (fun t c => if (t =? 1) && (c <? i) then [] else LL t c))); [lia| |].
    - apply (qs_ext _ _ _ _ _ HQ). intros t c Ht Hc. replace ((t =? 1) && (c <? 0)) with false by lia. reflexivity.
    - intros i Q' Hi H. destruct (qs_set E w Q' _ 1 i (q_new w) [] H ltac:(lia) ltac:(lia) (q_new_rep E w Hw)) as [-> H']. cbn [wp].
      apply (qs_ext _ _ _ _ _ H'). intros t c Ht Hc. unfold qup. destruct (Z.eqb_spec t 1), (Z.eqb_spec c i); cbn [andb]; try reflexivity.
      + replace (c <? i + 1) with true by lia. reflexivity.
      + replace (c <? i + 1) with (c <? i) by lia. reflexivity. }
  cbn beta. intros Q' H. apply (qs_ext _ _ _ _ _ H). intros t c Ht Hc. replace (c <? 258) with true by lia. rewrite andb_true_r. reflexivity.
Qed.

(** * Ranks *)
Section Ranks.
Context (t : Z -> Z) (n : Z).
Context (Hn : 1 <= n).
Context (Hb : forall i, 0 <= i < n -> 0 <= t i < 256).
Notation isS := (isS t n).
Notation LMS := (LMS t n).
Notation slt := (slt t n).
Notation rk := (rk n slt).
Notation startc := (startc t n).
Notation endc := (endc t n).
Notation nL := (nL t n).
Notation nS := (nS t n).
Notation slot := (slot t n slt slt).
Notation item := (item t n).
Notation cntL := (cntL t n slt slt).
Notation cntS := (cntS t n slt).
Let IO := suf_indord t n.

Definition sa (r : Z) : Z := sel (fun x => rk x =? r) 0 n 0.
Lemma sa_rk x : 0 <= x < n -> sa (rk x) = x.
Proof.
  intros Hx. unfold sa. destruct (sel_spec (fun y => rk y =? rk x) n 0 0) as (H1 & H2 & _).
  - pose proof (cnt_pos (fun y => rk y =? rk x) x 0 n Hx ltac:(lia)). lia.
  - apply (rk_inj t n _ _ IO); [assumption|assumption|lia].
Qed.
Lemma rk_sa r : 0 <= r < n -> 0 <= sa r < n /\ rk (sa r) = r.
Proof. intros Hr. destruct (rk_surj t n _ _ IO r Hr) as (x & Hx & <-). rewrite sa_rk by assumption. split; [assumption|reflexivity]. Qed.

Definition itemb (x : Z) : bool := negb (isS x) || LMS x.
Definition it (s : Z) : Z := sel (fun x => itemb x && (slot x =? s)) 0 n 0.
Lemma itemb_item x : 0 <= x < n -> (itemb x = true <-> item x).
Proof. intros Hx. unfold itemb, Induced.item. destruct (isS x) eqn:H; cbn [negb orb]; [|intuition]. split; [tauto|]. intros [H1|[H1|H1]]; [lia|destruct H1; discriminate|assumption]. Qed.
Lemma it_slot x : 0 <= x < n -> item x -> it (slot x) = x.
Proof.
  intros Hx Hi. unfold it. destruct (sel_spec (fun y => itemb y && (slot y =? slot x)) n 0 0) as (H1 & H2 & _).
  - pose proof (proj2 (itemb_item x Hx) Hi). pose proof (cnt_pos (fun y => itemb y && (slot y =? slot x)) x 0 n Hx ltac:(lia)). lia.
  - apply andb_true_iff in H2 as [H2 H3]. apply (slot_inj t n _ _ IO); [apply itemb_item; assumption|assumption|lia].
Qed.

Lemma bucket_disj a b r : startc a <= r < endc a -> startc b <= r < endc b -> a = b.
Proof.
  intros H1 H2. destruct (Z.lt_trichotomy a b) as [H|[H|H]]; [|assumption|].
  - pose proof (endc_startc t n a b H). lia.
  - pose proof (endc_startc t n b a H). lia.
Qed.
Lemma startc_succ c : startc (c + 1) = endc c.
Proof. apply cnt_ext. intros. lia. Qed.
Lemma startc_0 : startc 0 = 0.
Proof. apply cnt_false. intros i Hi. specialize (Hb i Hi). lia. Qed.
Lemma endc_m1 : endc (-1) = 0.
Proof. apply cnt_false. intros i Hi. specialize (Hb i Hi). lia. Qed.
Lemma startc_256 : startc 256 = n.
Proof. unfold Induced.startc. rewrite cnt_true; [lia|lia|]. intros i Hi. specialize (Hb i Hi). lia. Qed.
Lemma rk_bucket x : 0 <= x < n -> startc (t x) <= rk x < endc (t x) /\ (isS x = false -> rk x < startc (t x) + nL (t x)) /\
   (isS x = true -> startc (t x) + nL (t x) <= rk x).
Proof.
  intros Hx. pose proof (endc_split t n (t x)). destruct (isS x) eqn:HS.
  - pose proof (rk_S t n _ _ IO x Hx HS). pose proof (nL_nonneg t n (t x)). split; [lia|]. split; [discriminate|intros; lia].
  - pose proof (rk_L t n _ _ IO x Hx HS). pose proof (nS_nonneg t n (t x)). split; [lia|]. split; [intros; lia|discriminate].
Qed.
Lemma sa_bucket r d : startc d <= r < endc d -> 0 <= sa r < n /\ rk (sa r) = r /\ t (sa r) = d /\
  (isS (sa r) = false <-> r < startc d + nL d).
Proof.
  intros Hr. pose proof (startc_nonneg t n d). pose proof (endc_le_n t n d ltac:(lia)).
  destruct (rk_sa r ltac:(lia)) as [H1 H2]. split; [assumption|]. split; [assumption|].
  pose proof (rk_bucket (sa r) H1) as (H3 & H4 & H5). rewrite H2 in *.
  assert (Ht : t (sa r) = d) by (eapply bucket_disj; eassumption). split; [assumption|]. rewrite Ht in *.
  destruct (isS (sa r)); split; intros; try lia; try congruence; auto.
Qed.

(** LMS positions of a bucket *)
Definition nM (c : Z) : Z := cnt (fun f => LMS f && (t f =? c)) 0 n.
Definition lidx (x : Z) : Z := cnt (fun f => LMS f && (t f =? t x) && slt f x) 0 n.
Lemma nM_nS c : 0 <= nM c <= nS c.
Proof. split; [apply cnt_nonneg|]. apply cnt_le. intros f Hf H. apply andb_true_iff in H as [H1 H2]. rewrite (LMS_S t n f H1). lia. Qed.
Lemma lidx_range x : LMS x = true -> 0 <= lidx x < nM (t x).
Proof.
  intros Hx. pose proof (LMS_rng t n x Hx). split; [apply cnt_nonneg|]. apply (cnt_strict _ _ x); [|lia| |].
  - intros i Hi H'. lia.
  - lia.
  - rewrite slt_irr. lia.
Qed.
Lemma slot_LMS x : LMS x = true -> slot x = endc (t x) - nM (t x) + lidx x.
Proof.
  intros Hx. pose proof (LMS_rng t n x Hx). unfold Induced.slot. replace (x =? n) with false by lia. rewrite (LMS_S t n x Hx).
  unfold pos0.
  assert (H' : nM (t x) = lidx x + cnt (fun f => (LMS f && (t f =? t x) && slt x f) || (f =? x)) 0 n).
  { unfold nM, lidx. apply cnt_disj.
    - intros i Hi. destruct (Z.eqb_spec i x) as [->|Hne]; [rewrite slt_irr, Hx; lia|].
      rewrite (slt_neg t n x i) by lia. destruct (LMS i), (t i =? t x), (slt i x); reflexivity.
    - intros i Hi. destruct (Z.eqb_spec i x) as [->|Hne]; [rewrite slt_irr; lia|].
      destruct (slt i x) eqn:H1; [rewrite (slt_asym t n i x H1)|]; lia. }
  rewrite (cnt_add1 (fun f => LMS f && (t f =? t x) && slt x f) _ x) in H'; [lia|lia|rewrite slt_irr; lia|reflexivity].
Qed.
Lemma slot_L x : 0 <= x < n -> isS x = false -> slot x = rk x.
Proof. intros Hx HS. unfold Induced.slot. replace (x =? n) with false by lia. rewrite HS. reflexivity. Qed.
Lemma lidx_surj c k : 0 <= k < nM c -> exists x, LMS x = true /\ t x = c /\ lidx x = k.
Proof.
  intros Hk. destruct (rank_surj (fun f => LMS f && (t f =? c)) slt 0 n) with (q := k) as (x & [Hx1 Hx2] & Hr).
  - intros x Hx. apply slt_irr.
  - intros i j l _ _ _. apply slt_trans.
  - intros i j Hi Hj Hij. unfold mem_ in *; apply slt_total; [lia|lia|assumption].
  - exact Hk.
  - exists x. apply andb_true_iff in Hx2 as [H1 H2]. split; [assumption|]. split; [lia|]. rewrite <- Hr. unfold lidx, rank.
    replace (t x) with c by lia. reflexivity.
Qed.
Lemma it_bucket s d : endc d - nM d <= s < endc d -> LMS (it s) = true /\ t (it s) = d /\ slot (it s) = s.
Proof.
  intros Hs. destruct (lidx_surj d (s - (endc d - nM d)) ltac:(lia)) as (x & H1 & H2 & H3).
  assert (Hx : slot x = s) by (rewrite slot_LMS, H2, H3 by assumption; lia).
  pose proof (LMS_rng t n x H1). rewrite <- Hx. rewrite it_slot; [|lia|right; right; assumption]. split; [assumption|]. split; [assumption|reflexivity].
Qed.
Lemma lidx_lt x y : LMS x = true -> LMS y = true -> t x = t y -> (slt x y = true <-> lidx x < lidx y).
Proof.
  intros Hx Hy Ht. pose proof (LMS_rng t n x Hx). pose proof (LMS_rng t n y Hy).
  unfold lidx. rewrite Ht. apply (rank_lt_iff (fun f => LMS f && (t f =? t y)) slt 0 n).
  - intros i _. apply slt_irr.
  - intros i j l _ _ _. apply slt_trans.
  - intros i j Hi Hj Hij. unfold mem_ in *; apply slt_total; [lia|lia|assumption].
  - split; [lia|]. lia.
  - split; [lia|]. lia.
Qed.
Lemma lidx_inj x y : LMS x = true -> LMS y = true -> t x = t y -> lidx x = lidx y -> x = y.
Proof.
  intros Hx Hy Ht H. destruct (Z.eq_dec x y) as [|Hne]; [assumption|]. pose proof (LMS_rng t n x Hx). pose proof (LMS_rng t n y Hy).
  destruct (slt_total t n x y ltac:(lia) ltac:(lia) Hne) as [G|G]; apply lidx_lt in G; try assumption; lia.
Qed.
End Ranks.
