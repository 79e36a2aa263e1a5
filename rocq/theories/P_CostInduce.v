(** The number of steps of induce_bwt (M_Cost.v) is linear in the length of the text. *)
From Verif Require Import Base Spec Count Text Induced M_PackedArray M_Queue M_HashTable M_Induce M_SaisCost M_Cost P_Queue P_Extract P_InduceBase P_Induce1 P_Induce2 P_SaisCost P_SaisLinear P_Cost.
From Coq Require Import ZifyBool.
Open Scope Z_scope.

(** * Rules *)
Lemma wpc_loop {S R} (Inv : Z -> S -> Prop) (step : S -> cres (S + R)) (Q : R -> Prop) K : 0 <= K ->
  (forall T s, Inv T s -> 0 <= T) ->
  (forall T s, Inv T s -> wpc (step s) (fun x c => c <= K /\ match x with inl s' => exists T', T' < T /\ Inv T' s' | inr r => Q r end)) ->
  forall fuel T s, Inv T s -> T < Z.of_nat fuel -> wpc (cloop fuel step s) (fun r c => Q r /\ c <= (K + 1) * (T + 1)).
Proof.
  intros HK Hpos Hstep. induction fuel as [|f IH]; intros T s HI Hf.
  - specialize (Hpos T s HI). lia.
  - cbn [cloop]. apply (wpc_bind _ _ (fun _ k => k = 1)); [reflexivity|]. intros _ k1 ->.
    eapply wpc_bind; [apply (Hstep T); exact HI|]. intros x k2 [Hk2 Hx]. destruct x as [s'|r].
    + destruct Hx as (T' & HT' & HI'). eapply wpc_mono; [apply (IH T'); [assumption|lia]|].
      intros r k3 [Hr Hk3]. split; [assumption|]. specialize (Hpos T' s' HI'). pose proof (Z.mul_add_distr_l (K + 1) T 1).
      assert ((K + 1) * (T' + 1) <= (K + 1) * T) by (apply Z.mul_le_mono_nonneg_l; lia). lia.
    + unfold cret, wpc. split; [assumption|]. specialize (Hpos T s HI).
      assert ((K + 1) * 1 <= (K + 1) * (T + 1)) by (apply Z.mul_le_mono_nonneg_l; lia). lia.
Qed.
Lemma wpc_up {S} (Inv : Z -> S -> Prop) (phi : Z -> Z) lo hi b s : lo <= hi -> Inv lo s ->
  (forall i s, lo <= i < hi -> Inv i s -> wpc (b i s) (fun s' c => Inv (i + 1) s' /\ c <= phi (i + 1) - phi i)) ->
  wpc (cfor_up lo hi b s) (fun s' c => Inv hi s' /\ c <= phi hi - phi lo + (hi - lo) + 1).
Proof.
  intros Hle H0 Hb. unfold cfor_up.
  assert (Hg : forall c i s, lo <= i -> i + Z.of_nat c = hi -> Inv i s ->
    wpc (cfor_n c i b s) (fun s' k => Inv hi s' /\ k <= phi hi - phi i + (hi - i) + 1)).
  { clear s H0. induction c as [|c IH]; intros i s Hi He HI; cbn [cfor_n].
    - replace i with hi in * by lia. cbn. split; [assumption|lia].
    - apply (wpc_bind _ _ (fun _ k => k = 1)); [reflexivity|]. intros _ k1 ->.
      eapply wpc_bind; [apply Hb; [lia|exact HI]|]. intros s' k2 [HI' Hk2].
      eapply wpc_mono; [apply IH; [lia|lia|exact HI']|]. intros s2 k3 [HI2 Hk3]. split; [assumption|]. lia. }
  apply Hg; [lia|lia|assumption].
Qed.
Lemma wpc_down {S} (Inv : Z -> S -> Prop) (phi : Z -> Z) hi lo b s : lo - 1 <= hi -> Inv hi s ->
  (forall i s, lo <= i <= hi -> Inv i s -> wpc (b i s) (fun s' c => Inv (i - 1) s' /\ c <= phi i - phi (i - 1))) ->
  wpc (cfor_down hi lo b s) (fun s' c => Inv (lo - 1) s' /\ c <= phi hi - phi (lo - 1) + (hi - lo + 1) + 1).
Proof.
  intros Hle H0 Hb. unfold cfor_down.
  assert (Hg : forall c i s, i <= hi -> i - Z.of_nat c = lo - 1 -> Inv i s ->
    wpc (cford_n c i b s) (fun s' k => Inv (lo - 1) s' /\ k <= phi i - phi (lo - 1) + (i - lo + 1) + 1)).
  { clear s H0. induction c as [|c IH]; intros i s Hi He HI; cbn [cford_n].
    - replace i with (lo - 1) in * by lia. cbn. split; [assumption|lia].
    - apply (wpc_bind _ _ (fun _ k => k = 1)); [reflexivity|]. intros _ k1 ->.
      eapply wpc_bind; [apply Hb; [lia|exact HI]|]. intros s' k2 [HI' Hk2].
      eapply wpc_mono; [apply IH; [lia|lia|exact HI']|]. intros s2 k3 [HI2 Hk3]. split; [assumption|]. lia. }
  apply Hg; [lia|lia|assumption].
Qed.
(** the result is known to exist: only the bound is at stake *)
Lemma wpc_split {A} (m : cres A) (P : A -> Prop) K : wpc m (fun a _ => P a) -> cb K m -> wpc m (fun a c => P a /\ c <= K).
Proof. destruct m as [[a c]|e]; cbn; [|tauto]. intros HP Hc. split; [assumption|]. apply (Hc a c). reflexivity. Qed.
Lemma wpc_tick {A} (m : res A) (P : A -> Prop) : wp m P -> wpc (tick m) (fun a c => P a /\ c = 1).
Proof. destruct m; cbn; auto. Qed.

(** * Unconditional bounds *)
Lemma cb_inc m : cb 0 (cscale 0 (tick (inc64 m))).
Proof. intros a c H. unfold cscale, tick in H. destruct (inc64 m) as [x|e]; cbn [bind] in H; [|discriminate]. inversion H. lia. Qed.
Lemma b_step1 E buf base lp t c x : cb 7 (induce_step1_steps E buf base lp t c x).
Proof. unfold induce_step1_steps. destruct x as [s m]. eapply cb_le; [solve [repeat first [apply cb_inc | cb1]]|lia]. Qed.
Lemma b_step2 E buf base lp t c s : cb 11 (induce_step2_steps E buf base lp t c s).
Proof. unfold induce_step2_steps. cbs. Qed.
Lemma b_init w : cb 1549 (init_queues_steps w).
Proof. unfold init_queues_steps. eapply cb_le; [apply (cb_for_up 1); [lia|intros; apply cb_tick]|]. lia. Qed.
Lemma b_fill E buf base num rd Q : 0 <= num -> cb (4 * num + 5) (fill_steps E buf base num rd Q).
Proof. intros H. unfold fill_steps. eapply cb_le; [apply (cb_for_down 3); [lia|intros; cbs]|]. lia. Qed.
Lemma b_bstarts M : cb 775 (bucket_starts_steps M).
Proof. unfold bucket_starts_steps. eapply cb_le; [eapply cb_bind; [apply (cb_for_up 2); [lia|intros i [M2 cc]; cbs]|intros [M2 cc]; apply cb_ret]|]. lia. Qed.
Lemma b_sstarts M2 NL : cb 1033 (stype_starts_steps M2 NL).
Proof. unfold stype_starts_steps. eapply cb_le; [apply (cb_for_up 3); [lia|intros; cbs]|]. lia. Qed.
Lemma b_first E buf base s : cb 7 (induce_first_steps E buf base s).
Proof. unfold induce_first_steps. cbs. Qed.
Lemma b_reset w Q : cb 517 (reset_L_steps w Q).
Proof. unfold reset_L_steps. eapply cb_le; [apply (cb_for_up 1); [lia|intros; apply cb_tick]|]. lia. Qed.
Lemma b_bends M M2 : cb 1030 (bucket_ends_steps M M2).
Proof. unfold bucket_ends_steps. eapply cb_le; [eapply cb_bind; [apply cb_tick|intros ?; apply (cb_for_up 3); [lia|intros; cbs]]|]. lia. Qed.

(** * The two passes *)
Section Pass.
Context (E : env) (buf : arr Z) (t : Z -> Z) (n : Z) (ptr : Z -> Z) (base lastptr w : Z).
Context (Hn : 2 <= n < 2 ^ 62).
Context (Hb : forall i, 0 <= i < n -> 0 <= t i < 256).
Context (HP : ptrs E buf t n ptr base lastptr w).
Notation startc := (startc t n).
Notation endc := (endc t n).
Notation nL := (nL t n).
Notation nS := (nS t n).
Notation nM := (nM t n).
Notation I1 := (I1 E t n ptr base w).
Notation I2 := (I2 E t n ptr base w).

Lemma cloop_L fuel d s : 0 <= d < 257 -> n < Z.of_nat fuel -> I1 (startc d) s ->
  wpc (cloop fuel (induce_step1_steps E buf base lastptr TYPE_L (d + 1)) (s, 1 + startc d)) (fun s' c => I1 (startc d + nL d) s' /\ c <= (7 + 1) * (nL d + 1)).
Proof.
  intros Hd Hf HI. pose proof (endc_split t n d). pose proof (nS_nonneg t n d). pose proof (nL_nonneg t n d).
  pose proof (endc_le_n t n d ltac:(lia)). pose proof (startc_nonneg t n d).
  apply (wpc_loop (fun k '(s, mm) => k = startc d + nL d - (mm - 1) /\ startc d <= mm - 1 <= startc d + nL d /\ I1 (mm - 1) s)); [lia| | | |lia].
  - intros T [s' mm] (? & ? & _). lia.
  - intros k [s' mm] (-> & Hr & HI'). eapply wpc_mono; [eapply wpc_lift; [apply d_step1| |apply b_step1]|].
    2: { intros x c [Hx Hc]. split; [exact Hc|exact Hx]. }
    replace mm with (1 + (mm - 1)) at 1 by lia. set (T := mm - 1) in *.
    destruct (Z.eq_dec T (startc d + nL d)) as [He|Hne].
    + rewrite (stop1 E buf t n ptr base lastptr w); [cbn [wp]; rewrite <- He; assumption|assumption|unfold TYPE_L; lia| |assumption].
      unfold Q1. cbn. replace (d + 1 - 1) with d by lia. apply Lq_done. lia.
    + eapply wp_mono; [apply (step_L E buf t n ptr base lastptr w Hn Hb HP); [lia|assumption]|]. intros [[s'' mm']|r]; [|contradiction]. intros [H1' ->].
      exists (startc d + nL d - (1 + (T + 1) - 1)). replace (1 + (T + 1) - 1) with (T + 1) by lia. split; [lia|]. split; [reflexivity|]. split; [lia|assumption].
  - replace (1 + startc d - 1) with (startc d) by lia. split; [lia|]. split; [lia|assumption].
Qed.
Lemma cloop_M fuel d s : 0 <= d < 257 -> n < Z.of_nat fuel -> I1 (endc d - nM d) s ->
  wpc (cloop fuel (induce_step1_steps E buf base lastptr TYPE_LMS (d + 1)) (s, 1 + (endc d - nM d))) (fun s' c => I1 (endc d) s' /\ c <= (7 + 1) * (nM d + 1)).
Proof.
  intros Hd Hf HI. pose proof (endc_split t n d). pose proof (nM_nS t n d). pose proof (nL_nonneg t n d).
  pose proof (endc_le_n t n d ltac:(lia)). pose proof (startc_nonneg t n d).
  apply (wpc_loop (fun k '(s, mm) => k = endc d - (mm - 1) /\ endc d - nM d <= mm - 1 <= endc d /\ I1 (mm - 1) s)); [lia| | | |lia].
  - intros T [s' mm] (? & ? & _). lia.
  - intros k [s' mm] (-> & Hr & HI'). eapply wpc_mono; [eapply wpc_lift; [apply d_step1| |apply b_step1]|].
    2: { intros x c [Hx Hc]. split; [exact Hc|exact Hx]. }
    replace mm with (1 + (mm - 1)) at 1 by lia. set (T := mm - 1) in *.
    destruct (Z.eq_dec T (endc d)) as [He|Hne].
    + rewrite (stop1 E buf t n ptr base lastptr w); [cbn [wp]; rewrite <- He; assumption|assumption|unfold TYPE_LMS; lia| |assumption].
      unfold Q1. cbn. replace (d + 1 - 1) with d by lia. apply Mq_done. lia.
    + eapply wp_mono; [apply (step_M E buf t n ptr base lastptr w Hn Hb HP); [lia|assumption]|]. intros [[s'' mm']|r]; [|contradiction]. intros [H1' ->].
      exists (endc d - (1 + (T + 1) - 1)). replace (1 + (T + 1) - 1) with (T + 1) by lia. split; [lia|]. split; [reflexivity|]. split; [lia|assumption].
  - replace (1 + (endc d - nM d) - 1) with (endc d - nM d) by lia. split; [lia|]. split; [lia|assumption].
Qed.
Lemma cloop2_S fuel d s : -1 <= d < 257 -> n < Z.of_nat fuel -> I2 (endc d - 1) s ->
  wpc (cloop fuel (induce_step2_steps E buf base lastptr TYPE_L (d + 1)) s) (fun s' c => I2 (startc d + nL d - 1) s' /\ c <= (11 + 1) * (nS d + 1)).
Proof.
  intros Hd Hf HI. pose proof (endc_split t n d). pose proof (nS_nonneg t n d). pose proof (nL_nonneg t n d).
  pose proof (endc_le_n t n d ltac:(lia)). pose proof (startc_nonneg t n d).
  apply (wpc_loop (fun k s => startc d + nL d - 1 <= startc d + nL d - 1 + k <= endc d - 1 /\ I2 (startc d + nL d - 1 + k) s)); [lia| | | |lia].
  - intros T s' [? _]. lia.
  - intros k s' [Hr HI']. eapply wpc_mono; [eapply wpc_lift; [apply d_step2| |apply b_step2]|].
    2: { intros x c [Hx Hc]. split; [exact Hc|exact Hx]. }
    destruct (Z.eq_dec k 0) as [Hk|Hk].
    + rewrite (stop2 E buf t n ptr base lastptr w _ _ (startc d + nL d - 1 + k)); [cbn [wp]; rewrite Hk, Z.add_0_r in HI'; assumption|lia|unfold TYPE_L; lia| |assumption].
      unfold Q2. cbn. replace (d + 1 - 1) with d by lia. apply L2q_empty. lia.
    + pose proof (bucket_ne t n Hn Hb d (startc d + nL d - 1 + k) ltac:(lia)) as Hdd.
      eapply wp_mono; [apply (step2_S E buf t n ptr base lastptr w Hn Hb HP d (startc d + nL d - 1 + k)); [lia|lia|assumption]|]. intros [s''|r]; [|contradiction].
      intros HI''. exists (k - 1). split; [lia|]. split; [lia|]. replace (startc d + nL d - 1 + (k - 1)) with (startc d + nL d - 1 + k - 1) by lia. assumption.
  - split; [lia|]. replace (startc d + nL d - 1 + nS d) with (endc d - 1) by lia. assumption.
Qed.
Lemma cloop2_L fuel d s : -1 <= d < 257 -> n < Z.of_nat fuel -> I2 (startc d + nL d - 1) s ->
  wpc (cloop fuel (induce_step2_steps E buf base lastptr TYPE_S (d + 1)) s) (fun s' c => I2 (startc d - 1) s' /\ c <= (11 + 1) * (nL d + 1)).
Proof.
  intros Hd Hf HI. pose proof (endc_split t n d). pose proof (nS_nonneg t n d). pose proof (nL_nonneg t n d).
  pose proof (endc_le_n t n d ltac:(lia)). pose proof (startc_nonneg t n d).
  apply (wpc_loop (fun k s => 0 <= k <= nL d /\ I2 (startc d - 1 + k) s)); [lia| | | |lia].
  - intros T s' [? _]. lia.
  - intros k s' [Hr HI']. eapply wpc_mono; [eapply wpc_lift; [apply d_step2| |apply b_step2]|].
    2: { intros x c [Hx Hc]. split; [exact Hc|exact Hx]. }
    destruct (norm2 E t n ptr base w Hn Hb d s' k Hr HI') as (k' & Hk' & HI'' & Hor). destruct (Z.eq_dec k' 0) as [Hk|Hk].
    + subst k'. rewrite (stop2 E buf t n ptr base lastptr w _ _ (startc d - 1 + 0)); [cbn [wp]; rewrite Z.add_0_r in HI''; assumption|lia|unfold TYPE_S; lia| |assumption].
      unfold Q2. cbn. replace (d + 1 - 1) with d by lia. apply Sq_todo. lia.
    + destruct Hor as [?|HPk]; [lia|]. pose proof (bucket_ne t n Hn Hb d (startc d - 1 + k') ltac:(lia)) as Hdd.
      eapply wp_mono; [apply (step2_L E buf t n ptr base lastptr w Hn Hb HP d (startc d - 1 + k')); [lia|lia|assumption|assumption]|]. intros [s''|r]; [|contradiction].
      intros HI3. exists (k' - 1). split; [lia|]. split; [lia|]. replace (startc d - 1 + (k' - 1)) with (startc d - 1 + k' - 1) by lia. assumption.
  - split; [lia|]. replace (startc d - 1 + nL d) with (startc d + nL d - 1) by lia. assumption.
Qed.

Context (M NL C : arr Z).
Context (HM : carr M (fM t n (-1))) (HNL : carr NL (fNL t n (-1))) (HC : carr C (fC t n (-1))).
Lemma cpass1 fuel M3 s : n < Z.of_nat fuel -> (forall c, 1 <= c < 258 -> av M3 c = Some (1 + startc (c - 1))) -> I1 0 s ->
  wpc (induce_pass1_steps E fuel buf base lastptr M M3 C s) (fun s' c => I1 n s' /\ c <= 8 * n + 7000).
Proof.
  intros Hf HM3 HI. unfold induce_pass1_steps.
  assert (Hend : startc (258 - 1) = n).
  { change (258 - 1) with (256 + 1). rewrite startc_succ. apply endc_256; assumption. }
  eapply wpc_mono.
  { apply (wpc_up (fun c s => I1 (startc (c - 1)) s) (fun c => 8 * startc (c - 1) + 23 * c)); [lia| |].
    - change (1 - 1) with 0. rewrite startc_0 by assumption. assumption.
    - intros c s' Hc HI'. set (d := c - 1) in *. replace (c + 1 - 1) with (d + 1) by lia. rewrite startc_succ.
      assert (Hcd : c = d + 1) by lia. clearbody d. subst c. pose proof (endc_split t n d). pose proof (nM_nS t n d).
      pose proof (nL_nonneg t n d). pose proof (endc_le_n t n d ltac:(lia)). pose proof (startc_nonneg t n d).
      pose proof (HM3 (d + 1) ltac:(lia)) as Hm3. replace (d + 1 - 1) with d in Hm3 by lia.
      unfold cfor_up. change (Z.to_nat (3 - 1)) with 2%nat. cbn [cfor_n].
      rewrite (aget_ok _ _ _ Hm3). change (1 =? TYPE_LMS) with false. change (1 + 1 =? TYPE_LMS) with true. cbv iota.
      rewrite (aget_ok _ _ _ (proj2 HM (d + 1) ltac:(lia))). rewrite (aget_ok _ _ _ (proj2 HC (d + 1) ltac:(lia))).
      apply (wpc_bind _ _ (fun _ k => k = 1)); [reflexivity|]. intros _ k1 ->.
      apply (wpc_bind _ _ (fun s c => I1 (startc d + nL d) s /\ c <= 8 * (nL d + 1) + 1)).
      { apply (wpc_bind _ _ (fun a k => a = 1 + startc d /\ k = 1)); [split; reflexivity|]. intros ? ? [-> ->].
        apply (wpc_bind _ _ (fun a k => a = 1 + startc d /\ k = 0)); [split; [apply sw64_small; lia|reflexivity]|]. intros ? ? [-> ->].
        eapply wpc_mono; [apply (cloop_L fuel d s'); [lia|assumption|assumption]|]. intros ? ? [? ?]; split; [assumption|lia]. }
      intros s1 k1 HI1. cbn beta in HI1. destruct HI1 as [HI1 Hk1].
      apply (wpc_bind _ _ (fun _ k => k = 1)); [reflexivity|]. intros _ ? ->.
      apply (wpc_bind _ _ (fun s c => I1 (endc d) s /\ c <= 8 * (nM d + 1) + 3)).
      { apply (wpc_bind _ _ (fun a k => a = 1 + startc d /\ k = 1)); [split; reflexivity|]. intros ? ? [-> ->].
        apply (wpc_bind _ _ (fun a k => a = 1 + (endc d - nM d) /\ k = 2)).
        - cbn [tick bind cbind cret wpc]. rewrite (fM_val t n), (fC_val t n) by lia. replace (d + 1 - 1) with d by lia. split; [rewrite sw64_small by lia; lia|reflexivity].
        - intros ? ? [-> ->]. eapply wpc_mono; [apply (cloop_M fuel d s1); [lia|assumption|]|].
          + apply (I1_jump E t n ptr base w); assumption.
          + intros ? ? [? ?]; split; [assumption|lia]. }
      intros s2 k2 HI2. cbn beta in HI2. destruct HI2 as [HI2 Hk2]. cbn [tick bind wpc]. split; [exact HI2|]. lia. }
  cbn beta. intros s' c [HI' Hc]. rewrite Hend in *. change (1 - 1) with 0 in Hc. rewrite startc_0 in Hc by assumption. split; [assumption|lia].
Qed.
Lemma cpass2 fuel s : n < Z.of_nat fuel -> I2 (n - 1) s -> wpc (induce_pass2_steps E fuel buf base lastptr s) (fun s' c => I2 (-1) s' /\ c <= 12 * n + 7300).
Proof.
  intros Hf HI. unfold induce_pass2_steps.
  assert (Hend : endc (0 - 1 - 1) = 0). { apply cnt_false. intros i Hi. specialize (Hb i Hi). lia. }
  eapply wpc_mono.
  { apply (wpc_down (fun c s => I2 (endc (c - 1) - 1) s) (fun c => 12 * endc (c - 1) + 27 * c)); [lia| |].
    - change (257 - 1) with 256. rewrite endc_256 by assumption. assumption.
    - intros c s' Hc HI'. set (d := c - 1) in *. assert (Hcd : c = d + 1) by lia. clearbody d. subst c.
      replace (d + 1 - 1 - 1) with (d - 1) by lia. rewrite <- (startc_succ t n (d - 1)). replace (d - 1 + 1) with d by lia. replace (d + 1 - 1) with d by lia.
      pose proof (endc_split t n d).
      unfold cfor_down. change (Z.to_nat (1 - 0 + 1)) with 2%nat. cbn [cford_n]. change (1 - 1) with TYPE_S.
      apply (wpc_bind _ _ (fun _ k => k = 1)); [reflexivity|]. intros _ ? ->.
      eapply wpc_bind; [apply (cloop2_S fuel d s'); [lia|assumption|assumption]|]. cbn beta. intros s1 k1 [HI1 Hk1].
      apply (wpc_bind _ _ (fun _ k => k = 1)); [reflexivity|]. intros _ ? ->.
      eapply wpc_bind; [apply (cloop2_L fuel d s1); [lia|assumption|assumption]|]. cbn beta. intros s2 k2 [HI2 Hk2].
      cbn [tick bind wpc]. split; [exact HI2|]. lia. }
  cbn beta. intros s' c [HI' Hc]. rewrite Hend in *. change (257 - 1) with 256 in Hc. rewrite endc_256 in Hc by assumption. split; [exact HI'|lia].
Qed.
End Pass.

Section Induce.
Context (E : env) (buf : arr Z) (t : Z -> Z) (n : Z) (ptr : Z -> Z) (base lastptr w : Z).
Context (Hn : 2 <= n < 2 ^ 62).
Context (Hb : forall i, 0 <= i < n -> 0 <= t i < 256).
Context (HP : ptrs E buf t n ptr base lastptr w).
Context (M NL C : arr Z).
Context (HM : carr M (fM t n (-1))) (HNL : carr NL (fNL t n (-1))) (HC : carr C (fC t n (-1))).
Context (star : Z -> Z) (Hst : stars t n star).
Notation rk := (rk n (slt t n)).

Theorem cinduce SA co h : c_ht co = Some h -> ht_buf h = buf -> c_bwp_base co = base -> c_bwp_width co = w -> c_lastptr co = lastptr ->
  c_num co = cnt (LMS t n) 0 n -> c_n co = n -> c_M co = M -> c_NL co = NL -> c_C co = C ->
  (forall i, 0 <= i <= cnt (LMS t n) 0 n -> av SA i = Some (ptr (star i) - base)) ->
  cb (24 * n + 20000) (induce_steps E (aget SA) co).
Proof.
  intros Hht Hbuf Hbase Hw Hlp Hnum Hcn HcM HcNL HcC HSA. apply (cb_wpc _ (fun _ c => c <= 24 * n + 20000)); [|intros; assumption].
  unfold induce_steps. rewrite Hht, Hbuf, Hbase, Hw, Hlp, Hnum, Hcn, HcM, HcNL, HcC.
  cbv zeta. set (fuel := S (S (Z.to_nat n))). assert (Hf : n < Z.of_nat fuel) by lia.
  pose proof (p_w _ _ _ _ _ _ _ _ HP) as Hwr. pose proof (suf_indord t n) as IO.
  pose proof (cnt_range (LMS t n) n 0) as Hm0.
  eapply wpc_bind; [eapply wpc_lift; [|apply (init_queues_ok E w Hwr)|apply b_init]|].
  { unfold init_queues_steps, init_queues; apply dr_for_up; intros ? ?; apply dr_tick. }
  cbn beta. intros Q k1 [HQ Hk1].
  eapply wpc_bind; [eapply wpc_lift; [|apply (fill_lms_ok E buf t n ptr base lastptr w Hn Hb HP star Hst SA Q HSA HQ)|apply b_fill; lia]|].
  { unfold fill_steps, fill_lms; rdr. }
  cbn beta. intros Q' k2 [HQ' Hk2].
  eapply wpc_bind; [eapply wpc_lift; [|apply (bucket_starts_ok t n Hn Hb M HM)|apply b_bstarts]|].
  { unfold bucket_starts_steps, bucket_starts; rdr. }
  cbn beta. intros M2 k3 [(HM2l & HM20 & HM2) Hk3].
  eapply wpc_bind; [eapply wpc_lift; [|apply (stype_starts_ok t n Hn Hb NL HNL M2 HM2l HM20 HM2)|apply b_sstarts]|].
  { unfold stype_starts_steps, stype_starts; rdr. }
  cbn beta. intros C2 k4 [(HC2l & HC20 & HC2) Hk4].
  apply (wpc_bind _ _ (fun B k => B = anew (n + 1) /\ k = 1)); [split; reflexivity|]. intros ? ? [-> ->].
  eapply wpc_bind; [eapply wpc_lift; [|apply (first_ok E buf t n ptr base lastptr w Hn Hb HP (mkist Q' (anew (n + 1)) M2 C2 None)); [exact HQ'|apply alen_new|..]; assumption|apply b_first]|].
  { unfold induce_first_steps, induce_first; rdr. }
  cbn beta. intros s1 k5 [HI1 Hk5].
  eapply wpc_bind; [apply (cpass1 E buf t n ptr base lastptr w Hn Hb HP M C HM HC fuel M2 s1 Hf HM2 HI1)|].
  cbn beta. intros s2 k6 [[[H1 H2 H3 H4 H5 H6 H7 H8 H9] HQ2] Hk6].
  eapply wpc_bind; [eapply wpc_lift; [|apply (reset_L_ok E w _ _ Hwr HQ2)|apply b_reset]|].
  { unfold reset_L_steps, reset_L; rdr. }
  cbn beta. intros Q3 k7 [HQ3 Hk7].
  eapply wpc_bind; [eapply wpc_lift; [|apply (bucket_ends_ok t n Hn Hb M HM _ H1)|apply b_bends]|].
  { unfold bucket_ends_steps, bucket_ends; rdr. }
  cbn beta. intros M2' k8 [(HM2l' & HM2') Hk8].
  eapply wpc_bind; [apply (cpass2 E buf t n ptr base lastptr w Hn Hb HP fuel _ Hf)|].
  { split.
    - constructor; cbn [i_M2 i_C2 i_BWT i_last i_Q]; try assumption.
      + intros e He. rewrite HM2' by lia. replace (e + 1 - 1) with e by lia. rewrite (cntS_top t n _ _ IO). f_equal. lia.
      + intros e He. rewrite H4 by lia. rewrite cK_full by lia. rewrite cM_top. reflexivity.
      + intros j Hj HL. apply H7; [assumption|assumption|].
        destruct (Z.eq_dec (j + 1) n) as [He|Hne]; [unfold Induced.slot; replace (j + 1 =? n) with true by lia; lia|].
        pose proof (slot_bucket t n _ _ IO (j + 1) (succ_item t n j ltac:(lia) HL) Hne) as (B & _). pose proof (endc_le_n t n (t (j + 1)) ltac:(lia)). lia.
      + intros j Hj HS Hr. pose proof (isS_bound t n j ltac:(lia) HS). pose proof (rk_range t n _ _ IO (j + 1) ltac:(lia)). lia.
      + intros x Hx _. apply H8; [assumption|].
        pose proof (slot_LMS t n x Hx). pose proof (lidx_range t n x Hx). pose proof (endc_le_n t n (t x) ltac:(lia)). lia.
      + intros HL. apply H9; [assumption|]. apply (rk_range t n _ _ IO). lia.
      + intros HS Hr. pose proof (rk_range t n _ _ IO 1 ltac:(lia)). lia.
    - cbn [i_Q]. apply (qs_ext _ _ _ _ _ HQ3). intros ty c Hty Hc. unfold Q1, Q2, TYPE_L, TYPE_S. replace (n - 1 + 1) with n by lia.
      destruct (Z.eqb_spec ty 1) as [->|]; [|reflexivity]. cbn. unfold L2q. rewrite (cntS_top t n _ _ IO). rewrite zseq_nil by lia. reflexivity. }
  cbn beta. intros s4 k9 [[[G1 G2 G3 G4 G5 G6 G7 G8 G9 G10 G11] _] Hk9].
  assert (Hlast : i_last s4 = Some (1 + rk 0)).
  { destruct (isS t n 0) eqn:HS; [|apply G10; reflexivity]. apply G11; [reflexivity|]. pose proof (rk_range t n _ _ IO 1 ltac:(lia)). lia. }
  rewrite Hlast. unfold cret, wpc. lia.
Qed.
End Induce.
