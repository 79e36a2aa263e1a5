(** The number of steps of the hash table operations and of extract_LMS_strings and create_shortened_string (M_Cost.v). *)
From Verif Require Import Base Spec Count Text M_PackedArray M_Queue M_HashTable M_Cells M_Sais M_Split M_Induce M_Flbwt M_SaisCost M_Cost
  P_PackedArray P_Cells P_HashTable Sums P_Insert P_Buffer P_SaisCost P_SaisLinear P_Cost.
From Coq Require Import ZifyBool.
Open Scope Z_scope.

(** * What holds of the result and of the number of steps if there is a result *)
Definition cens {A} (m : cres A) (Q : A -> Z -> Prop) : Prop := forall a c, m = Ok (a, c) -> Q a c.
Lemma cens_bind {A B} (m : cres A) (f : A -> cres B) (P : A -> Z -> Prop) Q :
  cens m P -> (forall a c, P a c -> cens (f a) (fun b d => Q b (c + d))) -> cens (cbind m f) Q.
Proof.
  intros Hm Hf b k H. unfold cbind in H. destruct m as [[a c]|e]; cbn [bind] in H; [|discriminate].
  specialize (Hf a c (Hm a c eq_refl)). destruct (f a) as [[b' d]|e]; cbn [bind] in H; [|discriminate].
  specialize (Hf b' d eq_refl). inversion H; subst. exact Hf.
Qed.
Lemma cens_mono {A} (m : cres A) (P Q : A -> Z -> Prop) : cens m P -> (forall a c, P a c -> Q a c) -> cens m Q.
Proof. intros H HQ a c Hm. apply HQ, H, Hm. Qed.
Lemma cens_cb {A} K (m : cres A) : cb K m -> cens m (fun _ c => c <= K).
Proof. intros H a c Hm. exact (H a c Hm). Qed.
Lemma cb_cens {A} K (m : cres A) : cens m (fun _ c => c <= K) -> cb K m.
Proof. intros H a c Hm. exact (H a c Hm). Qed.
Lemma cens_lift {A} K (m : cres A) m' (Q : A -> Prop) : drop m = m' -> ens m' Q -> cb K m -> cens m (fun a c => Q a /\ c <= K).
Proof. intros <- Hw Hc a c ->. split; [apply Hw; reflexivity|]. apply (Hc a c). reflexivity. Qed.
Lemma cens_ok {A} (a : A) c (Q : A -> Z -> Prop) : Q a c -> cens (Ok (a, c)) Q.
Proof. intros H a' c' E. inversion E; subst. exact H. Qed.
Lemma cens_tick {A} (m : res A) (P : A -> Prop) : ens m P -> cens (tick m) (fun a c => P a /\ c = 1).
Proof. intros H a c E. destruct m as [x|]; cbn in E; [|discriminate]. inversion E; subst. split; [apply H|]; reflexivity. Qed.
Lemma cens_down {S} (Inv : Z -> S -> Prop) (pot : Z -> S -> Z) hi lo b s : lo - 1 <= hi -> Inv hi s ->
  (forall i s, lo <= i <= hi -> Inv i s -> cens (b i s) (fun s' c => Inv (i - 1) s' /\ c + pot (i - 1) s' <= pot i s)) ->
  cens (cfor_down hi lo b s) (fun s' c => Inv (lo - 1) s' /\ c + pot (lo - 1) s' <= pot hi s + (hi - lo + 1) + 1).
Proof.
  intros Hle H0 Hb. unfold cfor_down.
  assert (Hg : forall c i s, i <= hi -> i - Z.of_nat c = lo - 1 -> Inv i s ->
    cens (cford_n c i b s) (fun s' k => Inv (lo - 1) s' /\ k + pot (lo - 1) s' <= pot i s + (i - lo + 1) + 1)).
  { clear s H0. induction c as [|c IH]; intros i s Hi He HI; cbn [cford_n].
    - replace i with (lo - 1) in * by lia. apply cens_ok. split; [assumption|lia].
    - apply (cens_bind _ _ (fun _ k => k = 1)); [apply cens_ok; reflexivity|]. intros _ k1 ->.
      eapply cens_bind; [apply Hb; [lia|exact HI]|]. intros s' k2 [HI' Hk2].
      eapply cens_mono; [apply IH; [lia|lia|exact HI']|]. intros s2 k3 [HI2 Hk3]. split; [assumption|]. lia. }
  apply Hg; [lia|lia|assumption].
Qed.
Lemma cens_up {S} (Inv : Z -> S -> Prop) (phi : Z -> Z) lo hi b s : lo <= hi -> Inv lo s ->
  (forall i s, lo <= i < hi -> Inv i s -> cens (b i s) (fun s' c => Inv (i + 1) s' /\ c <= phi (i + 1) - phi i)) ->
  cens (cfor_up lo hi b s) (fun s' c => Inv hi s' /\ c <= phi hi - phi lo + (hi - lo) + 1).
Proof.
  intros Hle H0 Hb. unfold cfor_up.
  assert (Hg : forall c i s, lo <= i -> i + Z.of_nat c = hi -> Inv i s ->
    cens (cfor_n c i b s) (fun s' k => Inv hi s' /\ k <= phi hi - phi i + (hi - i) + 1)).
  { clear s H0. induction c as [|c IH]; intros i s Hi He HI; cbn [cfor_n].
    - replace i with hi in * by lia. apply cens_ok. split; [assumption|lia].
    - apply (cens_bind _ _ (fun _ k => k = 1)); [apply cens_ok; reflexivity|]. intros _ k1 ->.
      eapply cens_bind; [apply Hb; [lia|exact HI]|]. intros s' k2 [HI' Hk2].
      eapply cens_mono; [apply IH; [lia|lia|exact HI']|]. intros s2 k3 [HI2 Hk3]. split; [assumption|]. lia. }
  apply Hg; [lia|lia|assumption].
Qed.
Lemma cb_loop {S R} K (step : S -> cres (S + R)) : 0 <= K -> (forall s, cb K (step s)) ->
  forall fuel s, cb ((K + 1) * Z.of_nat fuel) (cloop fuel step s).
Proof.
  intros HK Hs. induction fuel as [|f IH]; intros s; cbn [cloop]; [intros a c H; discriminate|].
  eapply cb_le; [apply (cb_bind 1); [apply cb_tick|intros _]; apply (cb_bind K); [apply Hs|intros [s'|r]]|].
  - apply IH.
  - eapply cb_le; [apply cb_ret|]. lia.
  - lia.
Qed.
Lemma cb_scale {A} k K (m : cres A) : 0 <= k -> cb K m -> cb (k * K) (cscale k m).
Proof.
  intros Hk Hm a c H. unfold cscale in H. destruct m as [[a' c']|e]; cbn [bind] in H; [|discriminate].
  specialize (Hm a' c' eq_refl). apply ok_snd in H. subst c. apply Z.mul_le_mono_nonneg_l; assumption.
Qed.

(** * Hash table operations *)
Lemma b_azeros len : 0 <= len -> cb (2 * len + 2) (azeros_steps len).
Proof. intros H. unfold azeros_steps. eapply cb_le; [apply (cb_bind 1); [apply cb_tick|intros a; apply (cb_for_up 1); [lia|intros; apply cb_tick]]|]. lia. Qed.
Lemma b_ht_new hts n : 0 <= hts -> cb (4 * hts + 5) (ht_new_steps hts n).
Proof.
  intros H. unfold ht_new_steps. eapply cb_le; [eapply cb_bind; [apply b_azeros; assumption|intros ?]; eapply cb_bind; [apply b_azeros; assumption|intros ?];
    cbn zeta; eapply cb_bind; [apply cb_tick|intros ?; apply cb_ret]|]. lia.
Qed.
Lemma b_cont n : cb 1554 (cont_new_steps n).
Proof.
  unfold cont_new_steps. eapply cb_le; [eapply cb_bind; [apply cb_scale; [lia|apply b_azeros; lia]|intros ?; apply cb_ret]|]. lia.
Qed.
Lemma b_hash h T m p : 0 <= m -> cb (2 * m + 1) (hash_steps h T m p).
Proof.
  intros Hm. unfold hash_steps. eapply cb_le; [eapply cb_bind; [apply (cb_for_up 1); [lia|intros; cbs]|intros ?; apply cb_ret]|]. lia.
Qed.
Lemma b_same E b T m p q l2 : 0 <= m -> cb (3 * m + 3) (same_string_steps E b T m p q l2).
Proof.
  intros Hm. unfold same_string_steps. eapply cb_le; [apply (cb_loop 2); [lia|intros; cbs]|]. lia.
Qed.
Lemma b_scan1 E h T m p q : 0 <= m -> cb (3 * m + 6) (scan_steps1 E h T m p q).
Proof.
  intros Hm. unfold scan_steps1. eapply cb_le.
  { repeat first [apply b_same; assumption | cb1]. }
  lia.
Qed.
Lemma b_scan E h T m p q0 : 0 <= m -> 0 <= alen (ht_buf h) -> cb ((3 * m + 7) * (alen (ht_buf h) + 2)) (scan_chain_steps E h T m p q0).
Proof.
  intros Hm Hl. unfold scan_chain_steps. cbn zeta. eapply cb_le; [apply (cb_loop (3 * m + 6)); [lia|intros; apply b_scan1; assumption]|].
  replace (Z.of_nat (S (S (Z.to_nat (alen (ht_buf h)))))) with (alen (ht_buf h) + 2) by lia. lia.
Qed.
Lemma b_write E h T m p lb b r : 0 <= m -> cb (3 * m + 29) (write_record_steps E h T m p lb b r).
Proof.
  intros Hm. unfold write_record_steps. eapply cb_le.
  { eapply cb_bind; [apply cb_tick|intros ?]. cbn zeta. eapply cb_bind; [apply cb_tick|intros ?]. eapply cb_bind; [apply cb_tick|intros ?].
    eapply cb_bind; [apply (cb_for_up 2); [lia|intros; cbs]|intros ?]. apply (cb_for_up 1); [lia|intros; apply cb_tick]. }
  lia.
Qed.
Lemma b_insert pw E h T m p : 0 <= pw -> 0 <= m -> 0 <= alen (ht_buf h) ->
  cb (5 * m + 40 + pw * ((3 * m + 7) * (alen (ht_buf h) + 2))) (insert_steps pw E h T m p).
Proof.
  intros Hp Hm Hl. unfold insert_steps. eapply cb_le.
  { eapply cb_bind; [apply b_hash; assumption|intros hv]. eapply cb_bind; [apply cb_tick|intros q0].
    eapply cb_bind; [apply cb_scale; [assumption|apply b_scan; assumption]|intros sc].
    apply (cb_le (3 * m + 38)); [|apply Z.le_refl].
    destruct sc as [q|q]; [eapply cb_le; [apply cb_ret|lia]|].
    eapply cb_le.
    { eapply cb_bind; [apply cb_tick|intros lb]. cbn zeta. eapply cb_bind; [apply cb_tick|intros rest].
      eapply cb_bind; [repeat cb1|intros [h1 r]]. eapply cb_bind; [apply b_write; assumption|intros b].
      eapply cb_bind; [apply cb_tick|intros r1]. eapply cb_bind; [apply cb_tick|intros r2]. apply cb_ret. }
    lia. }
  lia.
Qed.
Lemma b_find pw E h T m p : 0 <= pw -> 0 <= m -> 0 <= alen (ht_buf h) ->
  cb (2 * m + 3 + pw * ((3 * m + 7) * (alen (ht_buf h) + 2))) (find_steps pw E h T m p).
Proof.
  intros Hp Hm Hl. unfold find_steps. eapply cb_le.
  { eapply cb_bind; [apply b_hash; assumption|intros hv]. eapply cb_bind; [apply cb_tick|intros q0].
    eapply cb_bind; [apply cb_scale; [assumption|apply b_scan; assumption]|intros sc].
    apply (cb_le 1); [|apply Z.le_refl]. destruct sc as [q|q]; [apply cb_tick|intros ? ? ?; discriminate]. }
  lia.
Qed.

(** * extract_LMS_strings *)
Lemma cens_and {A} (m : cres A) (P Q : A -> Z -> Prop) : cens m P -> cens m Q -> cens m (fun a c => P a c /\ Q a c).
Proof. intros H1 H2 a c H. split; [apply H1|apply H2]; assumption. Qed.
Lemma cens_drop {A} (m : cres A) m' (Q : A -> Prop) : drop m = m' -> ens m' Q -> cens m (fun a _ => Q a).
Proof. intros <- Hw a c ->. apply Hw. reflexivity. Qed.
Lemma cens_any {A B} K (m : cres A) (f : A -> cres B) (Q : B -> Z -> Prop) :
  cb K m -> (forall a c, c <= K -> cens (f a) (fun b d => Q b (c + d))) -> cens (cbind m f) Q.
Proof. intros Hm Hf. eapply cens_bind; [apply cens_cb, Hm|]. exact Hf. Qed.
Lemma cens_ret {A} (a : A) (Q : A -> Z -> Prop) : Q a 0 -> cens (cret a) Q.
Proof. apply cens_ok. Qed.

Section Phases.
Context (pw : Z) (E : env) (hts n : Z).
Context (Hpw : 0 <= pw) (Hts : 0 <= hts) (Hn : 3 <= n < 2 ^ 59).
(** per character of the strings, and per call *)
Definition gst (L : Z) : Z := 5 + pw * (3 * (L + 2)).
Definition kst (L : Z) : Z := 51 + pw * (10 * (L + 2)).
Lemma m_bound L m : 0 <= m -> 5 * m + 40 + pw * ((3 * m + 7) * (L + 2)) <= gst L * (m - 1) + kst L - 6.
Proof.
  intros Hm. unfold gst, kst. replace (pw * ((3 * m + 7) * (L + 2))) with (pw * (3 * (L + 2)) * (m - 1) + pw * (10 * (L + 2))) by ring. rewrite (Z.mul_add_distr_r 5). lia.
Qed.
Lemma gst_mono L L' : 0 <= L <= L' -> gst L <= gst L' /\ kst L <= kst L' /\ 5 <= gst L /\ 50 <= kst L.
Proof.
  intros H. unfold gst, kst.
  assert (pw * (3 * (L + 2)) <= pw * (3 * (L' + 2))) by (apply Z.mul_le_mono_nonneg_l; lia).
  assert (pw * (10 * (L + 2)) <= pw * (10 * (L' + 2))) by (apply Z.mul_le_mono_nonneg_l; lia).
  assert (0 <= pw * (3 * (L + 2))) by (apply Z.mul_nonneg_nonneg; lia).
  assert (0 <= pw * (10 * (L + 2))) by (apply Z.mul_nonneg_nonneg; lia). lia.
Qed.
Let B := buf_bound hts n.
Lemma c_extract_step T i s : 0 <= i -> xb hts n i s ->
  cens (extract_step_steps pw E T i s) (fun s' c => c + gst B * x_q s' <= gst B * x_q s + kst B).
Proof.
  intros Hi Hx. pose proof (xb_bound hts n i s Hx Hts ltac:(lia)) as HB. fold B in HB. destruct Hx as [H1 H2 H3 H4].
  destruct (gst_mono _ _ HB) as (G1 & G2 & G3 & G4).
  unfold extract_step_steps. eapply (cens_any 1); [apply cb_tick|intros ti c1 Hc1]. eapply (cens_any 1); [apply cb_tick|intros ti1 c2 Hc2].
  eapply (cens_any 1); [apply cb_tick|intros M c3 Hc3].
  destruct (ti <? ti1); [apply cens_ret; cbn [x_q]; lia|]. destruct (ti1 <? ti).
  - eapply (cens_bind _ _ (fun '(ht, C, num, uniq, p, q) c => c + gst B * q <= gst B * x_q s + kst B - 4)).
    + destruct (x_prevS s); [|apply cens_ret; lia]. cbn zeta.
      eapply (cens_any 1); [apply cb_tick|intros tp c4 Hc4]. eapply (cens_any 1); [apply cb_tick|intros C c5 Hc5].
      assert (Hu : u64 (x_q s - (i + 1) + 1) = x_q s - i) by (unfold u64; rewrite wrap_small; lia). rewrite Hu.
      eapply cens_any; [apply b_insert; lia|intros [ht r] c6 Hc6]. apply cens_ret.
      pose proof (m_bound (alen (ht_buf (x_ht s))) (x_q s - i) ltac:(lia)) as Hmb.
      assert (Hg : gst (alen (ht_buf (x_ht s))) * (x_q s - i - 1) <= gst B * (x_q s - i - 1)) by (apply Z.mul_le_mono_nonneg_r; lia).
      assert (He : gst B * (x_q s - i - 1) = gst B * x_q s - gst B * (i + 1)) by ring. lia.
    + intros [[[[[ht C] num] uniq] p] q] c Hc. eapply (cens_any 1); [apply cb_tick|intros NL c4 Hc4]. apply cens_ret. cbn [x_q]. lia.
  - eapply (cens_any 1); [eapply cb_le; [apply cb_if; [apply cb_ret|apply cb_tick]|lia]|intros NL c4 Hc4]. apply cens_ret. cbn [x_q]. lia.
Qed.
Lemma c_extract T : cens (extract_steps pw E hts T n) (fun _ c => c <= 1600 + 4 * hts + (gst B + kst B + 1) * n).
Proof.
  unfold extract_steps. eapply cens_any; [apply b_cont|intros co c1 Hc1]. destruct (Z.leb_spec n 2); [lia|].
  eapply cens_bind; [apply cens_and; [apply cens_cb, b_ht_new, Hts|eapply cens_drop; [apply d_ht_new|]; intros a Ha; exact Ha]|].
  cbn beta. intros ht c2 [Hc2 Hht].
  eapply (cens_any 1); [apply cb_tick|intros M c3 Hc3]. eapply (cens_any 1); [apply cb_tick|intros t c4 Hc4].
  eapply (cens_any 1); [apply cb_tick|intros M' c5 Hc5]. eapply (cens_any 1); [apply cb_tick|intros NL c6 Hc6].
  eapply (cens_any 1); [apply cb_tick|intros C c7 Hc7].
  destruct (ht_new_xb hts n ht M' C NL Hts ltac:(lia) Hht) as [Hx _].
  eapply cens_bind.
  - apply (cens_down (xb hts n) (fun i s => gst B * x_q s + kst B * (i + 1))); [lia|exact Hx|].
    intros i s Hi HI. eapply cens_mono; [apply cens_and; [eapply cens_drop; [apply d_extract_step|apply (extract_step_xb E hts T n i s); [lia|lia|exact HI]]|
      apply c_extract_step; [lia|exact HI]]|]. cbn beta. intros s' c [HX Hc]. split; [exact HX|].
    replace (i - 1 + 1) with i by lia. rewrite (Z.mul_add_distr_l (kst B) i 1). lia.
  - cbn beta. intros s c8 [HX Hc8]. apply cens_ret. cbn [x_q] in Hc8.
    assert (HB : 0 <= B) by (unfold B, buf_bound; lia). destruct (gst_mono B B ltac:(lia)) as (_ & _ & G3 & G4).
    assert (0 <= gst B * x_q s) by (apply Z.mul_nonneg_nonneg; [lia|]; pose proof (xb_q _ _ _ _ HX); lia). lia.
Qed.

(** * create_shortened_string *)
Lemma c_create_step h T i x L : 0 <= i -> 0 <= alen (ht_buf h) <= L -> i + 1 <= snd (fst x) <= n ->
  cens (create_step pw E h T i x) (fun x' c => i <= snd (fst x') <= n /\ c + gst L * snd (fst x') <= gst L * snd (fst x) + kst L).
Proof.
  intros Hi HL Hq. destruct x as [[[T1 prevS] q] j]. cbn [fst snd] in *. destruct (gst_mono _ _ HL) as (G1 & G2 & G3 & G4).
  unfold create_step. eapply (cens_any 1); [apply cb_tick|intros ti c1 Hc1]. eapply (cens_any 1); [apply cb_tick|intros ti1 c2 Hc2].
  destruct (ti <? ti1); [apply cens_ret; cbn [fst snd]; lia|]. destruct (ti1 <? ti); [|apply cens_ret; cbn [fst snd]; lia].
  destruct prevS; [|apply cens_ret; cbn [fst snd]; lia]. cbn zeta.
  assert (Hu : u64 (q - (i + 1) + 1) = q - i) by (unfold u64; rewrite wrap_small; lia). rewrite Hu.
  eapply cens_any; [apply b_find; lia|intros name c3 Hc3]. eapply (cens_any 1); [apply cb_tick|intros T1' c4 Hc4]. apply cens_ret. cbn [fst snd].
  pose proof (m_bound (alen (ht_buf h)) (q - i) ltac:(lia)) as Hmb.
  assert (Hg : gst (alen (ht_buf h)) * (q - i - 1) <= gst L * (q - i - 1)) by (apply Z.mul_le_mono_nonneg_r; lia).
  assert (He : gst L * (q - i - 1) = gst L * q - gst L * (i + 1)) by ring. lia.
Qed.
Lemma c_create T co h L : c_ht co = Some h -> 0 <= alen (ht_buf h) <= L ->
  cens (create_steps pw E T n co) (fun _ c => c <= 10 + (gst L + kst L + 1) * n).
Proof.
  intros Hh HL. unfold create_steps. rewrite Hh. cbn zeta. eapply (cens_any 1); [apply cb_tick|intros bits c1 Hc1].
  eapply (cens_any 1); [apply cb_tick|intros T1 c2 Hc2]. eapply (cens_any 1); [apply cb_tick|intros T1' c3 Hc3].
  eapply cens_bind.
  - apply (cens_down (fun i x => i + 1 <= snd (fst x) <= n) (fun i x => gst L * snd (fst x) + kst L * (i + 1))); [lia|cbn [fst snd]; lia|].
    intros i x Hi HI. eapply cens_mono; [apply (c_create_step h T i x L); [lia|exact HL|exact HI]|]. cbn beta. intros x' c [HX Hc].
    replace (i - 1 + 1) with i by lia. split; [exact HX|]. rewrite (Z.mul_add_distr_l (kst L) i 1). lia.
  - cbn beta. intros [[[T2 ps] q] j] c8 [HX Hc8]. cbn [fst snd] in *.
    eapply cens_mono; [apply cens_cb, cb_tick|]. cbn beta. intros _ c9 Hc9.
    destruct (gst_mono L L ltac:(lia)) as (_ & _ & G3 & G4).
    assert (0 <= gst L * q) by (apply Z.mul_nonneg_nonneg; lia). lia.
Qed.
End Phases.
