(** induce_bwt on the heap follows the value-level model and releases everything but its result. *)
From Verif Require Import Base M_PackedArray M_Queue M_HashTable M_Sais M_Split M_Induce M_Flbwt M_Heap M_HeapProg Histories Pool P_Size P_Heap P_Bank P_HeapSim.
From Coq Require Import FMapPositive ZifyBool Permutation.
Open Scope Z_scope.

Section HeapInduce.
Context (al : allocator) (Bd : bound) (Hal : fresh_alloc al) (Hroom : room al Bd) (E : env).

Lemma qneed_mono w N N' : N <= N' -> qneed w N <= qneed w N'.
Proof.
  intros H. unfold qneed. pose proof (block_bytes_pos w). pose proof (Z.div_le_mono N N' 1024 ltac:(lia) H). nia.
Qed.
Lemma within_mono hb w N N' : within Bd hb (hsize hb + qneed w N') -> N <= N' -> within Bd hb (hsize hb + qneed w N).
Proof. intros H Hle. eapply within_le; [exact H|]. pose proof (qneed_mono w N N' Hle). lia. Qed.
Record ri (hb : heap) (D : Z -> bool) (w N : Z) (QP : arr pointer) (s : ist) (hs : his) : Prop := {
  ri_q : qs hb D w N (i_Q s) QP (hi_h hs);
  ri_p : hi_Q hs = QP;
  ri_B : hi_BWT hs = i_BWT s; ri_M : hi_M2 hs = i_M2 s; ri_C : hi_C2 hs = i_C2 s; ri_l : hi_last hs = i_last s }.

(** all queues; the TYPE_S and TYPE_L queues; the TYPE_S queues *)
Definition Dall (i : Z) : bool := (0 <=? i) && (i <? 774).
Definition DSL (i : Z) : bool := (0 <=? i) && (i <? 516).
Definition DS (i : Z) : bool := (0 <=? i) && (i <? 258).

Lemma put_M2_sim hb D w N QP s hs c v : ri hb D w N QP s hs -> rsim (put_M2_up s c v) (hput_M2_up hs c v) (ri hb D w N QP).
Proof.
  intros [H1 H2 H3 H4 H5 H6]. unfold put_M2_up, hput_M2_up. rewrite H3, H4.
  apply rsim_same. intros m _. apply rsim_same. intros M2 _. apply rsim_same. intros B _. apply rsim_ok. constructor; cbn; auto.
Qed.
Lemma put_C2_sim hb D w N QP s hs c v : ri hb D w N QP s hs -> rsim (put_C2_up s c v) (hput_C2_up hs c v) (ri hb D w N QP).
Proof.
  intros [H1 H2 H3 H4 H5 H6]. unfold put_C2_up, hput_C2_up. rewrite H3, H5.
  apply rsim_same. intros m _. apply rsim_same. intros M2 _. apply rsim_same. intros B _. apply rsim_ok. constructor; cbn; auto.
Qed.

Lemma first_sim hb w N QP buf base s hs q0 : within Bd hb (hsize hb + qneed w N) -> ri hb Dall w N QP s hs ->
  av (i_Q s) (qidx TYPE_LMS 0) = Some q0 -> 1 <= wt q0 ->
  rsim (induce_first E buf base s) (h_induce_first al E buf base hs) (ri hb Dall w N QP).
Proof using Hal Hroom.
  intros HB [H1 H2 H3 H4 H5 H6] Hq Hp. unfold induce_first, h_induce_first. rewrite H2.
  eapply rsim_bind. { apply (qs_pop E hb Dall w N _ QP _ _ _ q0); [exact H1|reflexivity|exact Hq|exact Hp]. }
  intros [x Q] [y h] _ [G1 G2]. cbn in G1, G2. subst y. apply rsim_same. intros c1 _. rewrite H3. apply rsim_same. intros B _.
  eapply rsim_bind. { apply (qs_add al Bd Hal Hroom E hb Dall w (N - 1) _ QP); [eapply within_mono; [exact HB|lia]|exact G2|]. unfold qidx, TYPE_L, Dall. lia. }
  intros Q' h' _ G3. apply qs_mono with (N' := N) in G3; [|lia]. apply rsim_same. intros c2 _. eapply rsim_bind.
  - apply put_M2_sim with (hb := hb) (D := Dall) (w := w) (N := N) (QP := QP). constructor; cbn; auto.
  - intros s' hs' _ G4. apply put_C2_sim, G4.
Qed.

Definition lsim {A B} (R : A -> B -> Prop) {A' B'} (Q : A' -> B' -> Prop) (x : A + A') (y : B + B') : Prop :=
  match x, y with inl a, inl b => R a b | inr a, inr b => Q a b | _, _ => False end.

Lemma step1_sim hb w N QP buf base lp t c x y : within Bd hb (hsize hb + qneed w N) -> (t = 1 \/ t = 2) -> 0 <= c < 258 ->
  ri hb Dall w N QP (fst x) (fst y) -> snd x = snd y ->
  rsim (induce_step1 E buf base lp t c x) (h_induce_step1 al E buf base lp t c y)
    (lsim (fun x y => ri hb Dall w N QP (fst x) (fst y) /\ snd x = snd y) (ri hb Dall w N QP)).
Proof.
  destruct x as [s m], y as [hs m']. cbn [fst snd]. intros HB Ht Hc R Hm. subst m'. pose proof R as [H1 H2 H3 H4 H5 H6].
  unfold induce_step1, h_induce_step1. rewrite H2.
  assert (HD : Dall (qidx t c) = true) by (unfold Dall, qidx; lia).
  destruct (qs_is_empty hb Dall w N _ QP _ t c H1 HD) as (q & G1 & G2 & Gp). rewrite (aget_ok _ _ _ G1), G2. cbn [bind].
  destruct (q_is_empty q); [apply rsim_ok; exact R|]. specialize (Gp eq_refl).
  eapply rsim_bind. { apply (qs_pop E hb Dall w N _ QP _ _ _ q); [exact H1|exact HD|exact G1|exact Gp]. }
  intros [v Q] [y h] _ [G3 G4]. cbn in G3, G4. subst y. cbn zeta. pose proof (qs_mono _ _ _ _ N _ _ _ G4 ltac:(lia)) as G4'.
  assert (HB' : within Bd hb (hsize hb + qneed w (N - 1))) by (eapply within_mono; [exact HB|lia]).
  eapply rsim_bind with (R1 := ri hb Dall w N QP).
  2:{ intros s' hs' _ R'. apply rsim_same. intros m' _. apply rsim_ok. split; [exact R'|reflexivity]. }
  destruct (base + v =? lp). { apply rsim_ok. constructor; cbn; auto. }
  apply rsim_same. intros c1 _. destruct (c - 1 <=? c1).
  - cbn [hi_Q hwith_h hi_h i_Q with_Q]. rewrite ?H2. eapply rsim_bind.
    { apply (qs_add al Bd Hal Hroom E hb Dall w (N - 1) _ QP); [exact HB'|exact G4|]. unfold qidx, TYPE_L, Dall. lia. }
    intros Q' h' _ G5. apply qs_mono with (N' := N) in G5; [|lia]. apply rsim_same. intros c2 _. eapply rsim_bind.
    { apply put_M2_sim with (hb := hb) (D := Dall) (w := w) (N := N) (QP := QP). constructor; cbn; auto. }
    intros s' hs' _ R'. destruct (t =? TYPE_LMS); [apply put_C2_sim, R'|apply rsim_ok, R'].
  - cbn [hi_Q hwith_h hi_h i_Q with_Q]. rewrite ?H2. eapply rsim_bind.
    { apply (qs_addl al Bd Hal Hroom E hb Dall w (N - 1) _ QP); [exact HB'|exact G4|]. unfold qidx, TYPE_S, Dall. lia. }
    intros Q' h' _ [G5 _]. apply qs_mono with (N' := N) in G5; [|lia]. apply rsim_ok. constructor; cbn; auto.
Qed.
Lemma pass1_sim hb w N QP fuel buf base lp M M3 C s hs : within Bd hb (hsize hb + qneed w N) -> ri hb Dall w N QP s hs ->
  rsim (induce_pass1 E fuel buf base lp M M3 C s) (h_induce_pass1 al E fuel buf base lp M M3 C hs) (ri hb Dall w N QP).
Proof.
  intros HB R. unfold induce_pass1, h_induce_pass1. apply rsim_for_up with (R := fun _ => ri hb Dall w N QP); [lia|exact R|].
  intros c s1 hs1 Hc R1. apply rsim_for_up with (R := fun _ => ri hb Dall w N QP); [lia|exact R1|].
  intros t s2 hs2 Ht R2. apply rsim_same. intros m3 _. apply rsim_same. intros m _.
  eapply rsim_loop with (R := fun x y => ri hb Dall w N QP (fst x) (fst y) /\ snd x = snd y).
  2:{ split; [exact R2|reflexivity]. }
  intros x y [Rx Ry]. apply step1_sim; [exact HB|lia|lia|exact Rx|exact Ry].
Qed.

Lemma step2_sim hb w N QP buf base lp t c s hs : within Bd hb (hsize hb + qneed w N) -> 0 <= t <= 1 -> 0 <= c < 258 -> ri hb DSL w N QP s hs ->
  rsim (induce_step2 E buf base lp t c s) (h_induce_step2 al E buf base lp t c hs) (lsim (ri hb DSL w N QP) (ri hb DSL w N QP)).
Proof.
  intros HB Ht Hc R. pose proof R as [H1 H2 H3 H4 H5 H6].
  unfold induce_step2, h_induce_step2. rewrite H2.
  assert (HD : DSL (qidx t c) = true) by (unfold DSL, qidx; lia).
  destruct (qs_is_empty hb DSL w N _ QP _ t c H1 HD) as (q & G1 & G2 & Gp). rewrite (aget_ok _ _ _ G1), G2. cbn [bind].
  destruct (q_is_empty q); [apply rsim_ok; exact R|]. specialize (Gp eq_refl).
  eapply rsim_bind. { apply (qs_pop E hb DSL w N _ QP _ _ _ q); [exact H1|exact HD|exact G1|exact Gp]. }
  intros [v Q] [y h] _ [G3 G4]. cbn in G3, G4. subst y. cbn zeta. pose proof (qs_mono _ _ _ _ N _ _ _ G4 ltac:(lia)) as G4'.
  assert (HB' : within Bd hb (hsize hb + qneed w (N - 1))) by (eapply within_mono; [exact HB|lia]).
  apply rsim_same. intros c1 _. destruct (c1 <=? c - 1); [|apply rsim_ok; constructor; cbn; auto].
  cbn [hi_Q hwith_h hi_h i_Q with_Q hi_M2 i_M2 hi_C2 i_C2 hi_BWT i_BWT hi_last i_last]. rewrite H2, H4. eapply rsim_bind.
  { apply (qs_add al Bd Hal Hroom E hb DSL w (N - 1) _ QP); [exact HB'|exact G4|]. unfold qidx, TYPE_L, DSL. lia. }
  intros Q' h' _ G5. apply qs_mono with (N' := N) in G5; [|lia]. cbn [hi_Q hwith_h hi_h i_Q with_Q hi_M2 i_M2 hi_C2 i_C2 hi_BWT i_BWT hi_last i_last].
  rewrite ?H2, ?H3, ?H4, ?H5. apply rsim_same. intros m _. apply rsim_same. intros M2 _.
  destruct (base + v - 1 =? lp). { apply rsim_ok. constructor; cbn; auto. }
  apply rsim_same. intros c0 _. apply rsim_same. intros [x C2] _. apply rsim_same. intros B _. apply rsim_ok. constructor; cbn; auto.
Qed.
Lemma pass2_sim hb w N QP fuel buf base lp s hs : within Bd hb (hsize hb + qneed w N) -> ri hb DSL w N QP s hs ->
  rsim (induce_pass2 E fuel buf base lp s) (h_induce_pass2 al E fuel buf base lp hs) (ri hb DSL w N QP).
Proof.
  intros HB R. unfold induce_pass2, h_induce_pass2. apply rsim_for_down; [exact R|].
  intros c s1 hs1 Hc R1. apply rsim_for_down; [exact R1|].
  intros t s2 hs2 Ht R2. eapply rsim_loop with (R := ri hb DSL w N QP); [|exact R2].
  intros x y Rx. apply step2_sim; [exact HB|lia|lia|exact Rx].
Qed.

(** the queues [0..k) of each type *)
Definition D3 (k i : Z) : bool :=
  ((0 <=? i) && (i <? k)) || ((258 <=? i) && (i <? 258 + k)) || ((516 <=? i) && (i <? 516 + k)).
Lemma init_sim hb w Q : within Bd hb (hsize hb + qneed w 0) -> (forall i, 0 <= i < 774 -> av Q i = Some (q_new w)) ->
  exists h QP, h_init_queues al hb w = Ok (h, QP) /\ qs hb Dall w 0 Q QP h.
Proof.
  intros HB HQ. unfold h_init_queues.
  assert (H : wp (for_up 0 258 (fun i '(h, Q) =>
    '(h, Q) <- h_newq al h Q TYPE_LMS i w ;;
    '(h, Q) <- h_newq al h Q TYPE_L i w ;;
    h_newq al h Q TYPE_S i w) (hb, anew (3 * 258))) (fun x => qs hb (D3 258) w 0 Q (snd x) (fst x))).
  { apply wp_for_up with (Inv := fun k x => qs hb (D3 k) w 0 Q (snd x) (fst x)); [lia| |].
    - cbn [fst snd]. change (3 * 258) with 774. eapply qs_ext; [exact (qs_empty hb w Q)| |discriminate]. unfold D3. intros i. lia.
    - intros i [h QP] Hi R. cbn [fst snd] in R. unfold TYPE_LMS, TYPE_L, TYPE_S.
      destruct (qs_new al Bd Hal Hroom hb _ w _ Q QP h 2 i HB R) as (h1 & Q1 & F1 & R1); [unfold D3, qidx; lia|unfold qidx; lia|apply HQ; unfold qidx; lia|].
      rewrite F1. cbn [bind].
      destruct (qs_new al Bd Hal Hroom hb _ w _ Q Q1 h1 1 i HB R1) as (h2 & Q2 & F2 & R2); [unfold D3, qidx; lia|unfold qidx; lia|apply HQ; unfold qidx; lia|].
      rewrite F2. cbn [bind].
      destruct (qs_new al Bd Hal Hroom hb _ w _ Q Q2 h2 0 i HB R2) as (h3 & Q3 & F3 & R3); [unfold D3, qidx; lia|unfold qidx; lia|apply HQ; unfold qidx; lia|].
      rewrite F3. cbn [wp fst snd]. eapply qs_ext; [exact R3| |reflexivity]. unfold D3, qidx. intros j. lia. }
  destruct (wp_inv _ _ H) as ([h QP] & H1 & H2). exists h, QP. split; [exact H1|].
  eapply qs_ext; [exact H2| |reflexivity]. unfold D3, Dall. intros i. lia.
Qed.
Lemma fill_sim hb w QP buf base num rd Q h : 0 <= num -> within Bd hb (hsize hb + qneed w (num + 1)) -> qs hb Dall w 0 Q QP h ->
  rsim (fill_lms E buf base num rd Q) (h_fill_lms al E buf base num rd QP h) (fun Q h => qs hb Dall w (num + 1) Q QP h /\
    exists q, av Q (qidx TYPE_LMS 0) = Some q /\ 1 <= wt q).
Proof using Hal Hroom.
  intros Hn HB R. unfold fill_lms, h_fill_lms. eapply rsim_mono.
  { apply (rsim_for_down_i (fun i Q h => qs hb Dall w (num + 1 - i) Q QP h /\ (i = 0 -> exists q, av Q (qidx TYPE_LMS 0) = Some q /\ 1 <= wt q))).
    - lia.
    - split; [eapply qs_mono; [exact R|lia]|lia].
    - intros i Q1 h1 Hi [R1 _]. apply rsim_same. intros v _. apply rsim_same. intros c Hc.
      eapply rsim_mono. { apply (qs_addl al Bd Hal Hroom E hb Dall w (num + 1 - (i + 1)) _ QP); [|exact R1|].
        - eapply within_mono; [exact HB|lia].
        - unfold qidx, TYPE_LMS, Dall. lia. }
      cbn beta. intros Q2 h2 [G1 G2]. split; [eapply qs_mono; [exact G1|lia]|]. intros ->. cbn in Hc. inversion Hc; subst c. exact G2. }
  cbn beta. intros Q2 h2 [G1 G2]. split; [eapply qs_mono; [exact G1|lia]|auto].
Qed.
Lemma reset_inv w Q Q' : reset_L w Q = Ok Q' ->
  (forall i, 0 <= i < 258 -> av Q' i = av Q i) /\ (forall i, 258 <= i < 516 -> av Q' i = Some (q_new w)).
Proof.
  intros H. unfold reset_L in H.
  assert (G : forall k q q', alen q = alen Q -> for_n k (258 - Z.of_nat k) (fun c Q => aset Q (qidx TYPE_L c) (q_new w)) q = Ok q' ->
     (k <= 258)%nat ->
     (forall i, 0 <= i < 258 -> av q i = av Q i) ->
     (forall i, 258 <= i < 516 - Z.of_nat k -> av q i = Some (q_new w)) ->
     (forall i, 0 <= i < 258 -> av q' i = av Q i) /\ (forall i, 258 <= i < 516 -> av q' i = Some (q_new w))).
  { induction k as [|k IH]; intros q q' Hl Hf Hk A B.
    - cbn in Hf. inversion Hf; subst. split; [exact A|]. intros i Hi. apply B. lia.
    - cbn [for_n] in Hf. destruct (aset q (qidx TYPE_L (258 - Z.of_nat (S k))) (q_new w)) as [q1|] eqn:Hs; [|discriminate]. cbn [bind] in Hf.
      set (j := qidx TYPE_L (258 - Z.of_nat (S k))) in *. assert (Hj : j = 516 - Z.of_nat (S k)) by (unfold j, qidx, TYPE_L; lia).
      assert (Hjb : 0 <= j < alen q).
      { destruct (Z_lt_ge_dec j (alen q)); [lia|]. rewrite aset_oob in Hs by lia. discriminate. }
      rewrite aset_ok in Hs by exact Hjb. inversion Hs; subst q1.
      replace (258 - Z.of_nat (S k) + 1) with (258 - Z.of_nat k) in Hf by lia.
      apply (IH (aupd q j (q_new w)) q'); [rewrite alen_upd; exact Hl|exact Hf|lia| |].
      + intros i Hi. rewrite av_upd_other by lia. apply A, Hi.
      + intros i Hi. rewrite av_upd by exact Hjb. destruct (Z.eqb_spec i j); [reflexivity|]. apply B. lia. }
  apply (G 258%nat Q Q'); [reflexivity|exact H|lia|reflexivity|]. intros i Hi. lia.
Qed.
Lemma reset_sim hb w N Q Q' QP h : within Bd hb (hsize hb + qneed w N) -> qs hb Dall w N Q QP h -> reset_L w Q = Ok Q' ->
  exists h' QP', h_reset_L al w h QP = Ok (h', QP') /\ qs hb DSL w N Q' QP' h'.
Proof.
  intros HB R HQ. destruct (reset_inv _ _ _ HQ) as [HQ1 HQ2]. unfold h_reset_L.
  assert (H1 : wp (for_up 0 258 (fun c h => h <- h_delq h QP TYPE_LMS c ;; h_delq h QP TYPE_L c) h) (fun h => qs hb DS w N Q' QP h)).
  { eapply wp_mono. { apply wp_for_up with (Inv := fun k h => qs hb (fun i => ((0 <=? i) && (i <? 258)) || ((258 + k <=? i) && (i <? 516)) || ((516 + k <=? i) && (i <? 774))) w N Q QP h); [lia| |].
      - eapply qs_ext; [exact R| |reflexivity]. unfold Dall. intros i. lia.
      - intros c h1 Hc R1. unfold TYPE_LMS, TYPE_L.
        destruct (qs_del hb _ w N Q QP h1 2 c R1) as (h2 & F2 & R2); [unfold qidx; lia|]. rewrite F2. cbn [bind].
        destruct (qs_del hb _ w N Q QP h2 1 c R2) as (h3 & F3 & R3); [unfold qidx; lia|]. rewrite F3. cbn [wp].
        eapply qs_ext; [exact R3| |reflexivity]. unfold qidx. intros i. lia. }
    cbn beta. intros h' R'. eapply qs_ext; [exact R'| |].
    - unfold DS. intros i. lia.
    - intros i Hi. apply HQ1. lia. }
  destruct (wp_inv _ _ H1) as (h1 & F1 & R1). rewrite F1. cbn [bind].
  assert (H2 : wp (for_up 0 258 (fun c '(h, Q) => h_newq al h Q TYPE_L c w) (h1, QP)) (fun x => qs hb DSL w N Q' (snd x) (fst x))).
  { eapply wp_mono. { apply wp_for_up with (Inv := fun k x => qs hb (fun i => (0 <=? i) && (i <? 258 + k)) w N Q' (snd x) (fst x)); [lia| |].
      - eapply qs_ext; [exact R1| |reflexivity]. unfold DS. intros i. lia.
      - intros c [h2 Q2] Hc R2. cbn [fst snd] in R2. unfold TYPE_L.
        destruct (qs_new al Bd Hal Hroom hb _ w _ Q' Q2 h2 1 c HB R2) as (h3 & Q3 & F3 & R3); [unfold qidx; lia|unfold qidx; lia|apply HQ2; unfold qidx; lia|].
        rewrite F3. cbn [wp fst snd]. eapply qs_ext; [exact R3| |reflexivity]. unfold qidx. intros i. lia. }
    cbn beta. intros x R'. eapply qs_ext; [exact R'| |reflexivity]. unfold DSL. intros i. lia. }
  destruct (wp_inv _ _ H2) as ([h' QP'] & F2 & R2). exists h', QP'. split; [exact F2|exact R2].
Qed.
Lemma final_sim hb w N Q QP h : qs hb DSL w N Q QP h ->
  exists h', for_up 0 258 (fun i h => h <- h_delq h QP TYPE_L i ;; h_delq h QP TYPE_S i) h = Ok h' /\ same_heap h' hb.
Proof.
  intros R.
  assert (H1 : wp (for_up 0 258 (fun i h => h <- h_delq h QP TYPE_L i ;; h_delq h QP TYPE_S i) h) (fun h => same_heap h hb)).
  { eapply wp_mono. { apply wp_for_up with (Inv := fun k h => qs hb (fun i => ((k <=? i) && (i <? 258)) || ((258 + k <=? i) && (i <? 516))) w N Q QP h); [lia| |].
      - eapply qs_ext; [exact R| |reflexivity]. unfold DSL. intros i. lia.
      - intros c h1 Hc R1. unfold TYPE_L, TYPE_S.
        destruct (qs_del hb _ w N Q QP h1 1 c R1) as (h2 & F2 & R2); [unfold qidx; lia|]. rewrite F2. cbn [bind].
        destruct (qs_del hb _ w N Q QP h2 0 c R2) as (h3 & F3 & R3); [unfold qidx; lia|]. rewrite F3. cbn [wp].
        eapply qs_ext; [exact R3| |reflexivity]. unfold qidx. intros i. lia. }
    cbn beta. intros h' R'. eapply qs_done; [exact R'|]. intros i. lia. }
  destruct (wp_inv _ _ H1) as (h' & F & R'). eauto.
Qed.
Lemma init_inv w Q : init_queues w = Ok Q -> forall i, 0 <= i < 774 -> av Q i = Some (q_new w).
Proof.
  intros H. unfold init_queues in H. change (3 * 258) with 774 in H.
  assert (G : wp (for_up 0 774 (fun i Q => aset Q i (q_new w)) (anew 774)) (fun Q => alen Q = 774 /\ forall i, 0 <= i < 774 -> av Q i = Some (q_new w))).
  { apply wp_for_up with (Inv := fun k Q => alen Q = 774 /\ forall i, 0 <= i < k -> av Q i = Some (q_new w)); [lia| |].
    - split; [apply alen_new|]. intros i Hi. lia.
    - intros k q Hk [A B]. apply wp_aset; [lia|]. split; [rewrite alen_upd; exact A|]. intros i Hi. rewrite av_upd by lia.
      destruct (Z.eqb_spec i k); [reflexivity|]. apply B. lia. }
  rewrite H in G. apply G.
Qed.

Definition arrays (SAs : list (addr * Z)) : list (addr * (kind * Z)) := map (fun x => (fst x, (KNewArray, snd x))) SAs.
Definition ptrs (l : list (addr * Z)) : list pointer := map (fun x => Some (fst x)) l.
Lemma alive_arrays h0 l L need : Forall2 Z.le need (map snd l) -> Forall (alive h0 (arrays l ++ L)) (combine (ptrs l) need).
Proof.
  intros H. assert (G : forall L0, Forall (alive h0 (L0 ++ arrays l ++ L)) (combine (ptrs l) need)); [|apply (G [])].
  revert need H. induction l as [|[a z] l IH]; intros need H L0; inversion H as [|x y need' ? Hx Hn]; subst; [constructor|]. cbn [ptrs map combine fst]. constructor.
  - apply (alive_in _ _ a (KNewArray, z)); [|exact Hx]. apply in_app_iff. right. left. reflexivity.
  - specialize (IH _ Hn (L0 ++ [(a, (KNewArray, z))])). rewrite <- app_assoc in IH. exact IH.
Qed.
Lemma Forall_alive_incl h0 L L' l : incl L L' -> Forall (alive h0 L) l -> Forall (alive h0 L') l.
Proof. intros H. apply Forall_impl. intros p. apply alive_incl, H. Qed.
Lemma qs_delete_arrays h0 L D w N Q QP : forall SAs hb h, own h0 (arrays SAs ++ L) hb -> qs hb D w N Q QP h ->
  exists hb' h', h_delete_arrays h (ptrs SAs) = Ok h' /\ own h0 L hb' /\ qs hb' D w N Q QP h'.
Proof.
  induction SAs as [|[a z] l IH]; intros hb h HO HR; [exists hb, h; auto|]. cbn [ptrs map fst h_delete_arrays].
  destruct (qs_free hb D w N Q QP h h0 _ a (KNewArray, z) HO HR) as (hb1 & h1 & F1 & O1 & R1). cbn [fst] in F1. rewrite F1. cbn [bind]. eapply IH; eassumption.
Qed.

(** memory needed by induce_bwt beside its arguments *)
Definition induce_need (w num n : Z) : Z := qneed w (num + 1) + (n + 1) + 16.
Lemma qneed_pos w N : 0 <= N -> 0 <= qneed w N.
Proof. intros H. unfold qneed. pose proof (block_bytes_pos w). pose proof (Z.div_pos N 1024 H ltac:(lia)). nia. Qed.

Theorem induce_sim h0 L h SAs need rd co cp : own h0 (arrays SAs ++ L) h -> Forall2 Z.le need (map snd SAs) -> 0 <= c_num co -> 0 <= c_n co -> 0 <= lsz (arrays SAs) ->
  within Bd h0 (hsize h0 + lsz L + lsz (arrays SAs) + qneed (c_bwp_width co) (c_num co + 1)) ->
  within Bd h0 (hsize h0 + lsz L + induce_need (c_bwp_width co) (c_num co) (c_n co)) ->
  Forall (alive h0 L) (cont_blocks co cp) ->
  rsim (induce_bwt_rd E rd co) (h_induce_bwt al E h (ptrs SAs) need rd co cp)
    (fun r '(r', pR, pB, h') => r' = r /\ exists aR aB, pR = Some aR /\ pB = Some aB /\
       own h0 (@cons (addr * (kind * Z)) (aR, (KMalloc, 16)) (@cons (addr * (kind * Z)) (aB, (KNewArray, c_n co + 1)) L)) h').
Proof using Hal Hroom.
  intros HO Hneed Hnum Hn Hsz HB1 HB2 HL. unfold induce_bwt_rd, h_induce_bwt. destruct (c_ht co) as [ht|] eqn:Hht; [|apply rsim_err]. cbn zeta.
  set (buf := ht_buf ht). set (base := c_bwp_base co). set (w := c_bwp_width co) in *. set (N := c_num co + 1) in *. unfold induce_need in HB2. fold N in HB2.
  assert (Hs0 : hsize h = hsize h0 + lsz L + lsz (arrays SAs)) by (rewrite (own_size _ _ _ HO), lsz_app; lia).
  assert (HBh : within Bd h (hsize h + qneed w N)) by (eapply within_own; [exact HO|exact HB1|lia]).
  pose proof (alive_arrays h0 SAs L need Hneed) as HA1. pose proof (Forall_alive_incl h0 L (arrays SAs ++ L) _ ltac:(intros x Hx; apply in_app_iff; right; exact Hx) HL) as HA2.
  apply rsim_left. intros Q HQ. destruct (init_sim h w Q ltac:(eapply within_mono; [exact HBh|lia]) (init_inv w Q HQ)) as (h1 & QP & F1 & R1).
  eapply rsim_right; [exact F1|]. cbn beta iota.
  eapply rsim_right; [eapply qs_uses; [exact HO|exact R1|apply Forall_app; split; [exact HA1|exact HA2]]|].
  eapply rsim_bind; [apply (fill_sim h w QP); [exact Hnum|exact HBh|exact R1]|].
  intros Q2 h2 _ [R2 (q0 & Hq0 & Hp0)]. fold N in R2. cbn beta.
  destruct (qs_delete_arrays h0 L Dall w N Q2 QP SAs h h2 HO R2) as (hb3 & h3 & F3 & O3 & R3).
  assert (Hs3 : hsize hb3 = hsize h0 + lsz L) by apply (own_size _ _ _ O3).
  eapply rsim_right; [exact F3|].
  destruct (qs_alloc al Bd Hal Hroom hb3 Dall w N Q2 QP h3 h0 L (KNewArray, c_n co + 1) ltac:(eapply within_own; [exact O3|exact HB2|cbn [snd]; lia]) O3 R3) as (aB & hb4 & F4 & O4 & R4).
  assert (Hs4 : hsize hb4 = hsize h0 + lsz L + (c_n co + 1)) by (rewrite (own_size _ _ _ O4); cbn [lsz fold_right snd]; fold (lsz L); lia).
  eapply rsim_right; [exact F4|]. cbn beta iota.
  assert (HB4 : within Bd hb4 (hsize hb4 + qneed w N)) by (eapply within_own; [exact O4|exact HB2|lia]).
  assert (HA4 : Forall (alive h0 ((aB, (KNewArray, c_n co + 1)) :: L)) ((Some aB, alen (@anew Z (c_n co + 1))) :: cont_blocks co cp)).
  { constructor; [apply alive_here; cbn [snd]; rewrite alen_new; lia|]. eapply Forall_alive_incl; [|exact HL]. intros x Hx. right. exact Hx. }
  apply rsim_same. intros M2 _. apply rsim_same. intros C2 _.
  eapply rsim_right; [eapply qs_uses; [exact O4|exact R4|exact HA4]|].
  eapply rsim_bind. { apply first_sim with (hb := hb4) (w := w) (N := N) (QP := QP) (q0 := q0); [exact HB4|constructor; cbn; auto|exact Hq0|exact Hp0]. }
  intros s5 hs5 _ R5. eapply rsim_bind; [apply pass1_sim; [exact HB4|exact R5]|].
  intros s6 hs6 _ R6. destruct R6 as [R6 P6 B6 M6 C6 L6]. apply rsim_left. intros Q7 HQ7. rewrite P6.
  destruct (reset_sim hb4 w N _ Q7 QP _ HB4 R6 HQ7) as (h7 & QP7 & F7 & R7). eapply rsim_right; [exact F7|]. cbn beta iota.
  eapply rsim_right; [eapply qs_uses; [exact O4|exact R7|exact HA4]|].
  rewrite M6, B6, C6, L6. apply rsim_same. intros M2' _.
  eapply rsim_bind. { apply pass2_sim with (hb := hb4) (w := w) (N := N) (QP := QP7); [exact HB4|constructor; cbn; auto]. }
  intros s8 hs8 _ [R8 P8 B8 M8 C8 L8]. destruct (final_sim hb4 w N _ QP7 _ R8) as (h9 & F9 & R9).
  eapply rsim_right; [exact F9|]. assert (O9 := own_same _ _ _ _ O4 R9).
  assert (HB9 : within Bd h9 (hsize h9 + osize (OOther (KMalloc, 16)))).
  { eapply within_own; [exact O9|exact HB2|]. rewrite (hsize_same _ _ R9). cbn [osize snd]. pose proof (qneed_pos w N ltac:(lia)). lia. }
  destruct (alloc_ok al Bd Hal Hroom h9 _ HB9) as (aR & _ & Ha & _ & FR & _). rewrite FR. cbn [deref bind]. cbn beta iota.
  pose proof (own_add _ _ _ aR (KMalloc, 16) O9 Ha) as O10.
  eapply rsim_right. { eapply own_uses; [exact O10|]. constructor; [apply alive_here, Z.le_refl|]. eapply Forall_alive_incl; [|exact HA4]. intros x Hx. right. exact Hx. }
  rewrite L8, B8. destruct (i_last s8); [|apply rsim_err].
  apply rsim_ok. split; [reflexivity|]. exists aR, aB. split; [reflexivity|]. split; [reflexivity|]. exact O10.
Qed.
End HeapInduce.
