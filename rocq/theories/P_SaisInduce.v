(** induce_SA of M_Sais sorts all positions, given the LMS positions in their initial slots. *)
From Verif Require Import Base M_PackedArray M_Sais Count Spec Text Induced Keys P_SaisMem.
From Coq Require Import ZifyBool.
Open Scope Z_scope.

Definition fupd (f : Z -> Z) (i v : Z) : Z -> Z := fun x => if x =? i then v else f x.
Lemma fupd_same f i v : fupd f i v i = v.
Proof. unfold fupd. rewrite Z.eqb_refl. reflexivity. Qed.
Lemma fupd_other f i v x : x <> i -> fupd f i v x = f x.
Proof. intros H. unfold fupd. replace (x =? i) with false by lia. reflexivity. Qed.

Section Induce.
Context (E : env) (W : Z) (HW : 1 <= W).
Context (T : text) (t : Z -> Z) (n k : Z).
Context (Hn : 1 <= n) (Hk : 1 <= k) (HnW : n < 2 ^ (W - 1)).
Context (tr : forall i, 0 <= i < n -> 0 <= t i < k).
Context (HkL : k <= 2 ^ (lw W - 1)).
Notation chr := (chr E W).
Notation txt := (txt E W T t n).
Notation isS := (isS t n).
Notation LMS := (LMS t n).

(** * States seen as two functions *)
Section View.
Context (B : ptr) (s0 : st).
Context (HB : inalloc k s0 B) (HBn : sp B = InMem -> n <= off B).
Context (Hmem : n <= alen (mem s0)).
Notation R := (runion (reg SA n) (reg B k)).
Context (Hts : tsafe T n R) (Ht0 : txt s0).

Definition stt (s : st) (sa bb : Z -> Z) : Prop :=
  unch R s0 s /\ (forall x, 0 <= x < n -> ga s InMem x = Some (sa x)) /\
  (forall c, 0 <= c < k -> ga s (sp B) (off B + c) = Some (bb c)).

Lemma stt_txt s sa bb : stt s sa bb -> txt s.
Proof. intros (Hu & _). eapply txt_unch; eassumption. Qed.
Lemma stt_rdSA s sa bb i : stt s sa bb -> 0 <= i < n -> rd s SA i = Ok (sa i).
Proof. intros (_ & H & _) Hi. apply rd_ok. apply (H i Hi). Qed.
Lemma stt_rdB s sa bb c : stt s sa bb -> 0 <= c < k -> rd s B c = Ok (bb c).
Proof. intros (_ & _ & H) Hc. apply rd_ok. apply (H c Hc). Qed.
Lemma stt_chr s sa bb i : stt s sa bb -> 0 <= i < n -> chr s T i = Ok (t i).
Proof. intros H Hi. apply (stt_txt _ _ _ H i Hi). Qed.
Lemma stt_chrl s sa bb i : stt s sa bb -> 0 <= i < n -> chrl E W s T i = Ok (t i).
Proof. intros H Hi. apply (chrl_txt E W HW T t n k tr HkL s i (stt_txt _ _ _ H) Hi). Qed.
Lemma stt_chr64 s sa bb i : stt s sa bb -> 0 <= i < n -> chr64 E W s T i = Ok (t i).
Proof. intros H Hi. apply (chr64_txt E W HW T t n k tr HkL s i (stt_txt _ _ _ H) Hi). Qed.
Lemma stt_wrSA s sa bb i v : stt s sa bb -> 0 <= i < n -> inW W v ->
  exists s', wr W s SA i v = Ok s' /\ stt s' (fupd sa i v) bb.
Proof.
  intros (Hu & Hs & Hb) Hi Hv. destruct (wr_ok W HW s SA i v) as (s' & Hw & Hup); [|assumption|].
  { cbn [sp off SA sl]. pose proof (proj1 Hu InMem) as Hl. cbn [sl] in Hl. lia. }
  exists s'. split; [assumption|]. split; [|split].
  - eapply unch_trans; [exact Hu|]. apply (upd_unch _ _ _ _ _ _ Hup). left. split; [reflexivity|]. cbn [off SA]. lia.
  - intros x Hx. destruct (Z.eq_dec x i) as [->|Hne].
    + rewrite fupd_same. apply (upd_at _ _ _ _ _ Hup).
    + rewrite fupd_other by assumption. rewrite (upd_other _ _ _ _ _ _ _ Hup) by (right; cbn [off SA]; lia). apply Hs. assumption.
  - intros c Hc. rewrite (upd_other _ _ _ _ _ _ _ Hup); [apply Hb; assumption|].
    cbn [sp off SA]. destruct (space_eqb_spec (sp B) InMem) as [He|He]; [right|left; assumption]. specialize (HBn He). lia.
Qed.
Lemma stt_wrB s sa bb c v : stt s sa bb -> 0 <= c < k -> inW W v ->
  exists s', wr W s B c v = Ok s' /\ stt s' sa (fupd bb c v).
Proof.
  intros (Hu & Hs & Hb) Hi Hv. destruct HB as [HB1 HB2]. destruct (wr_ok W HW s B c v) as (s' & Hw & Hup); [|assumption|].
  { rewrite (proj1 Hu). lia. }
  exists s'. split; [assumption|]. split; [|split].
  - eapply unch_trans; [exact Hu|]. apply (upd_unch _ _ _ _ _ _ Hup). right. split; [reflexivity|]. lia.
  - intros x Hx. rewrite (upd_other _ _ _ _ _ _ _ Hup); [apply Hs; assumption|].
    destruct (space_eqb_spec (sp B) InMem) as [He|He]; [right|left; congruence]. specialize (HBn He). lia.
  - intros x Hx. destruct (Z.eq_dec x c) as [->|Hne].
    + rewrite fupd_same. apply (upd_at _ _ _ _ _ Hup).
    + rewrite fupd_other by assumption. rewrite (upd_other _ _ _ _ _ _ _ Hup) by (right; lia). apply Hb. assumption.
Qed.

(** bucket pointers with the current one held in a register *)
Definition eb (c1 b : Z) (bb : Z -> Z) (c : Z) : Z := if c =? c1 then b else bb c.

Lemma switch_ok s sa bb c0 c1 b : stt s sa bb -> 0 <= c0 < k -> 0 <= c1 < k -> inW W b ->
  exists s' bb', switch_bucket W s B c0 c1 b = Ok (s', c0, eb c1 b bb c0) /\ stt s' sa bb' /\
    forall c, 0 <= c < k -> eb c0 (eb c1 b bb c0) bb' c = eb c1 b bb c.
Proof.
  intros Hs Hc0 Hc1 Hb. unfold switch_bucket. destruct (Z.eqb_spec c0 c1) as [->|Hne].
  - exists s, bb. unfold eb at 1. rewrite Z.eqb_refl. split; [reflexivity|]. split; [assumption|].
    intros c Hc. unfold eb. rewrite Z.eqb_refl. reflexivity.
  - destruct (stt_wrB s sa bb c1 b Hs Hc1 Hb) as (s' & -> & Hs'). cbn [bind].
    rewrite (stt_rdB _ _ _ c0 Hs' Hc0). cbn [bind]. exists s', (fupd bb c1 b).
    assert (Heb : eb c1 b bb c0 = fupd bb c1 b c0).
    { unfold eb. replace (c0 =? c1) with false by lia. rewrite fupd_other by lia. reflexivity. }
    split; [rewrite Heb; reflexivity|]. split; [assumption|].
    intros c Hc. rewrite Heb. unfold eb, fupd. destruct (Z.eqb_spec c c0) as [->|]; [|reflexivity].
    replace (c0 =? c1) with false by lia. reflexivity.
Qed.

(** * The two scans *)
Context (lt lt0 : Z -> Z -> bool) (IO : indord t n lt lt0).
Notation rk := (rk n lt).
Notation slot := (slot t n lt lt0).
Notation pos0 := (pos0 t n lt0).
Notation startc := (startc t n).
Notation endc := (endc t n).
Notation cntL := (cntL t n lt lt0).
Notation cntS := (cntS t n lt).

Definition mkL (j : Z) : Z := if (0 <? j) && isS (j - 1) then lnot j else j.
Definition mkS (j : Z) : Z := if (j =? 0) || negb (isS (j - 1)) then lnot j else j.

Lemma markL_ok s sa bb j : stt s sa bb -> 0 <= j < n -> isS j = false -> markL E W s T j (t j) = Ok (mkL j).
Proof.
  intros Hs Hj HL. unfold markL, mkL. destruct (Z.ltb_spec 0 j); [|reflexivity].
  rewrite (stt_chr _ _ _ _ Hs) by lia. cbn [bind andb]. rewrite (wrap_char W HW t n k tr HkL) by lia. rewrite L_pred by (assumption || lia). reflexivity.
Qed.
Lemma markS_ok s sa bb j : stt s sa bb -> 0 <= j < n -> isS j = true -> markS E W s T j (t j) = Ok (mkS j).
Proof.
  intros Hs Hj HS. unfold markS, mkS. destruct (Z.eqb_spec j 0); [reflexivity|].
  rewrite (stt_chr _ _ _ _ Hs) by lia. cbn [bind orb]. rewrite (wrap_char W HW t n k tr HkL) by lia. rewrite S_pred by (assumption || lia). rewrite negb_involutive. reflexivity.
Qed.

Definition IL (i : Z) (sa : Z -> Z) : Prop :=
  (forall j, 0 <= j < n -> isS j = false -> slot (j + 1) < i -> sa (rk j) = if rk j <? i then lnot (mkL j) else mkL j) /\
  (forall e, LMS e = true -> i <= pos0 e -> sa (pos0 e) = e) /\
  (forall j, 0 <= j < n -> isS j = true -> i <= rk j -> (forall e, LMS e = true -> pos0 e <> rk j) -> sa (rk j) = 0).
Definition invL (i : Z) (x : st * Z * Z) : Prop :=
  let '(s, c1, b) := x in exists sa bb, stt s sa bb /\ 0 <= c1 < k /\
    (forall c, 0 <= c < k -> eb c1 b bb c = startc c + cntL i c) /\ IL i sa.

Lemma cntL_le i c : 0 <= startc c + cntL i c <= n.
Proof.
  pose proof (endc_le_n t n c ltac:(lia)). pose proof (endc_split t n c). pose proof (nS_nonneg t n c).
  assert (cntL i c <= nL t n c) by (apply cnt_le; intros; lia).
  assert (0 <= cntL i c) by apply cnt_nonneg. pose proof (startc_nonneg t n c). lia.
Qed.
Lemma cntS_le i c : 0 <= endc c - cntS i c <= n.
Proof.
  pose proof (endc_le_n t n c ltac:(lia)). pose proof (endc_split t n c). pose proof (nL_nonneg t n c).
  assert (cntS i c <= nS t n c) by (apply cnt_le; intros; lia).
  assert (0 <= cntS i c) by apply cnt_nonneg. pose proof (startc_nonneg t n c). lia.
Qed.

Lemma pos0_rng e : LMS e = true -> 0 <= pos0 e < n.
Proof.
  intros He. pose proof (pos0_range t n lt lt0 IO e He). pose proof (endc_le_n t n (t e) ltac:(lia)).
  pose proof (endc_split t n (t e)). pose proof (nL_nonneg t n (t e)). pose proof (startc_nonneg t n (t e)). lia.
Qed.
(** L slots and S slots are disjoint *)
Lemma L_S_disj j p c : 0 <= j < n -> isS j = false -> endc c - nS t n c <= p < endc c -> rk j <> p.
Proof.
  intros Hj HL Hp He. pose proof (rk_L t n lt lt0 IO j Hj HL) as [H1 H2].
  pose proof (endc_split t n c). pose proof (endc_split t n (t j)). pose proof (nS_nonneg t n (t j)). pose proof (nL_nonneg t n c).
  destruct (Z.lt_trichotomy (t j) c) as [Hc|[Hc|Hc]].
  - pose proof (endc_startc t n _ _ Hc). lia.
  - subst c. lia.
  - pose proof (endc_startc t n _ _ Hc). lia.
Qed.
Lemma L_not_pos0 j e : 0 <= j < n -> isS j = false -> LMS e = true -> rk j <> pos0 e.
Proof. intros Hj HL He. apply (L_S_disj j _ (t e)); auto. apply (pos0_range t n lt lt0 IO); assumption. Qed.

(** IL for the next index when slot i has been flipped but nothing inserted yet *)
Definition ILm (i : Z) (sa : Z -> Z) : Prop :=
  (forall j, 0 <= j < n -> isS j = false -> slot (j + 1) < i -> sa (rk j) = if rk j <? i + 1 then lnot (mkL j) else mkL j) /\
  (forall e, LMS e = true -> i + 1 <= pos0 e -> sa (pos0 e) = e) /\
  (forall j, 0 <= j < n -> isS j = true -> i + 1 <= rk j -> (forall e, LMS e = true -> pos0 e <> rk j) -> sa (rk j) = 0).

Lemma flipL i sa : 0 <= i < n -> IL i sa -> ILm i (fupd sa i (lnot (sa i))).
Proof.
  intros Hi (H1 & H2 & H3). split; [|split].
  - intros j Hj HL Hs. destruct (Z.eq_dec (rk j) i) as [He|Hne].
    + subst i. rewrite fupd_same. rewrite H1 by assumption.
      replace (rk j <? rk j) with false by lia. replace (rk j <? rk j + 1) with true by lia. reflexivity.
    + rewrite fupd_other by assumption. rewrite H1 by assumption.
      replace (rk j <? i + 1) with (rk j <? i) by lia. reflexivity.
  - intros e He Hp. rewrite fupd_other by lia. apply H2; [assumption|lia].
  - intros j Hj HS Hp Hno. rewrite fupd_other by lia. apply H3; auto. lia.
Qed.

Lemma skipL i sa : ILm i sa -> (forall j, 0 <= j < n -> isS j = false -> slot (j + 1) <> i) -> IL (i + 1) sa.
Proof.
  intros (H1 & H2 & H3) Hno. split; [|split; assumption].
  intros j Hj HL Hs. apply H1; auto. specialize (Hno j Hj HL). lia.
Qed.
Lemma insL_IL i sa j0 : ILm i sa -> 0 <= j0 < n -> isS j0 = false -> slot (j0 + 1) = i ->
  IL (i + 1) (fupd sa (rk j0) (mkL j0)).
Proof.
  intros (H1 & H2 & H3) Hj0 HL0 Hs0. split; [|split].
  - intros j Hj HL Hs. destruct (Z.eq_dec j j0) as [->|Hne].
    + rewrite fupd_same. pose proof (slot_before t n lt lt0 IO j0 Hj0 HL0). replace (rk j0 <? i + 1) with false by lia. reflexivity.
    + rewrite fupd_other; [|intros He; apply (rk_inj t n lt lt0 IO) in He; try assumption; congruence].
      apply H1; auto. assert (slot (j + 1) <> slot (j0 + 1)); [|lia].
      intros He. apply (slot_inj t n lt lt0 IO) in He; try (apply succ_item; assumption). lia.
  - intros e He Hp. rewrite fupd_other; [apply H2; assumption|]. intros Hc. symmetry in Hc. revert Hc. apply L_not_pos0; assumption.
  - intros j Hj HS Hp Hno. rewrite fupd_other; [apply H3; assumption|]. intros He. apply (rk_inj t n lt lt0 IO) in He; try assumption. congruence.
Qed.

(** the write of the induced position *)
Lemma insert_step i s c1 b sa bb j : 0 <= i < n -> stt s sa bb -> 0 <= c1 < k ->
  (forall c, 0 <= c < k -> eb c1 b bb c = startc c + cntL i c) -> ILm i sa ->
  0 <= j < n -> isS j = false -> slot (j + 1) = i ->
  wp ('(s, c1, b) <- switch_bucket W s B (t j) c1 b ;;
      v <- markL E W s T j c1 ;;
      s <- wr W s SA b v ;;
      Ok (s, c1, b + 1)) (invL (i + 1)).
Proof.
  intros Hi Hs Hc1 Heb HI Hj HL Hslot.
  pose proof (tr j Hj) as Htj.
  assert (Hb : inW W b).
  { specialize (Heb c1 Hc1). unfold eb in Heb. rewrite Z.eqb_refl in Heb. pose proof (cntL_le i c1). apply (inW_small W HW n HnW). lia. }
  destruct (switch_ok s sa bb (t j) c1 b Hs Htj Hc1 Hb) as (s1 & bb1 & -> & Hs1 & Heb1). cbn [bind].
  rewrite (markL_ok s1 sa bb1 j Hs1 Hj HL). cbn [bind].
  pose proof (insL_rank t n lt lt0 IO j Hj HL) as Hrk. rewrite Hslot in Hrk.
  assert (Hbv : eb c1 b bb (t j) = rk j) by (rewrite Heb by assumption; lia).
  rewrite Hbv in *. pose proof (rk_range t n lt lt0 IO j Hj) as Hrr.
  destruct (stt_wrSA s1 sa bb1 (rk j) (mkL j) Hs1 Hrr) as (s2 & -> & Hs2).
  { apply (inW_small W HW n HnW). unfold mkL, lnot. destruct (_ && _); lia. }
  cbn [bind wp]. exists (fupd sa (rk j) (mkL j)), bb1. split; [assumption|]. split; [assumption|]. split.
  - intros c Hc. destruct (Z.eq_dec c (t j)) as [->|Hne].
    + unfold eb. rewrite Z.eqb_refl. rewrite <- Hslot, (cntL_step t n lt lt0 IO j Hj HL), Hslot. lia.
    + specialize (Heb1 c Hc). unfold eb in Heb1 |- *. replace (c =? t j) with false in * by lia.
      rewrite Heb1. fold (eb c1 b bb c). rewrite Heb by assumption. rewrite cntL_step_none; [reflexivity|].
      intros j' Hj' HL' Hs'. rewrite <- Hslot in Hs'. apply (slot_inj t n lt lt0 IO) in Hs'; try (apply succ_item; assumption).
      replace j' with j by lia. congruence.
  - apply insL_IL; assumption.
Qed.

Lemma eb_no_insert i c1 b bb : (forall c, 0 <= c < k -> eb c1 b bb c = startc c + cntL i c) ->
  (forall j, 0 <= j < n -> isS j = false -> slot (j + 1) <> i) ->
  forall c, 0 <= c < k -> eb c1 b bb c = startc c + cntL (i + 1) c.
Proof.
  intros Heb Hno c Hc. rewrite Heb by assumption. rewrite cntL_step_none; [reflexivity|].
  intros j Hj HL Hs. exfalso. exact (Hno j Hj HL Hs).
Qed.

Lemma stepL_ok i x : 0 <= i < n -> invL i x -> wp (stepL E W T B i x) (invL (i + 1)).
Proof.
  intros Hi. destruct x as [[s c1] b]. intros (sa & bb & Hs & Hc1 & Heb & HI). unfold stepL.
  rewrite (stt_rdSA _ _ _ i Hs Hi). cbn [bind].
  destruct (rk_surj t n lt lt0 IO i Hi) as (j0 & Hj0 & Hr0).
  (* value met *)
  assert (Hcase : (exists j, 0 <= j < n /\ isS j = false /\ slot (j + 1) = i /\ sa i = j + 1) \/
                  (- n - 1 <= sa i <= 0 /\ (forall j, 0 <= j < n -> isS j = false -> slot (j + 1) <> i))).
  { destruct HI as (H1 & H2 & H3). destruct (isS j0) eqn:HS0.
    - destruct (exists_dec (fun e => LMS e && (pos0 e =? i)) 0 n) as [(e & He & Hp)|Hno].
      + left. assert (HeL : LMS e = true) by lia. assert (pos0 e = i) by lia.
        apply LMS_spec in HeL as HeS. exists (e - 1). replace (e - 1 + 1) with e by lia.
        split; [lia|]. split; [tauto|]. split.
        * unfold slot, Induced.slot. replace (e =? n) with false by lia. destruct HeS as (_ & -> & _). assumption.
        * rewrite <- H. apply H2; [assumption|lia].
      + right. assert (Hno' : forall e, LMS e = true -> pos0 e <> i).
        { intros e He Hp. pose proof (LMS_rng t n e He). specialize (Hno e ltac:(lia)). rewrite He in Hno. lia. }
        split.
        * rewrite <- Hr0. rewrite H3; auto; [lia|lia|]. rewrite Hr0. assumption.
        * intros j Hj HL Hsl. assert (Hit := succ_item t n j Hj HL). destruct Hit as [Hit|[[Hit HitL]|Hit]].
          -- unfold slot, Induced.slot in Hsl. rewrite Hit, Z.eqb_refl in Hsl. lia.
          -- unfold slot, Induced.slot in Hsl. replace (j + 1 =? n) with false in Hsl by lia. rewrite HitL in Hsl.
             rewrite <- Hsl in Hr0. apply (rk_inj t n lt lt0 IO) in Hr0; try assumption. congruence.
          -- apply (Hno' _ Hit). unfold slot, Induced.slot in Hsl. apply LMS_spec in Hit as HitS.
             replace (j + 1 =? n) with false in Hsl by lia. destruct HitS as (_ & HitS & _). rewrite HitS in Hsl. assumption.
    - pose proof (slot_before t n lt lt0 IO j0 Hj0 HS0) as Hbef.
      specialize (H1 j0 Hj0 HS0 ltac:(lia)). rewrite Hr0 in H1. replace (i <? i) with false in H1 by lia.
      assert (Hsl0 : slot j0 = i) by (unfold slot, Induced.slot; replace (j0 =? n) with false by lia; rewrite HS0; assumption).
      unfold mkL in H1. destruct (Z.ltb_spec 0 j0) as [H0|H0].
      + destruct (isS (j0 - 1)) eqn:HSp.
        * cbn [andb] in H1. right. split; [rewrite H1; unfold lnot; lia|].
          intros j Hj HL Hsl. rewrite <- Hsl0 in Hsl. apply (slot_inj t n lt lt0 IO) in Hsl; [|apply succ_item; assumption|right; left; auto].
          replace (j0 - 1) with j in HSp by lia. congruence.
        * cbn [andb] in H1. left. exists (j0 - 1). replace (j0 - 1 + 1) with j0 by lia.
          split; [lia|]. split; [assumption|]. split; assumption.
      + replace j0 with 0 in * by lia. cbn [andb] in H1. right. split; [lia|].
        intros j Hj HL Hsl. rewrite <- Hsl0 in Hsl. apply (slot_inj t n lt lt0 IO) in Hsl; [|apply succ_item; assumption|right; left; auto].
        lia. }
  destruct (stt_wrSA s sa bb i (lnot (sa i)) Hs Hi) as (s1 & -> & Hs1).
  { apply (inW_small W HW n HnW). unfold lnot. destruct Hcase as [(j & Hj & _ & _ & ->)|[Hv _]]; lia. }
  cbn [bind]. pose proof (flipL i sa Hi HI) as HIm.
  destruct Hcase as [(j & Hj & HL & Hsl & Hv)|[Hv Hno]].
  - replace (0 <? sa i) with true by lia. replace (sa i - 1) with j by lia.
    rewrite (stt_chrl _ _ _ j Hs1 Hj). cbn [bind].
    apply (insert_step i s1 c1 b (fupd sa i (lnot (sa i))) bb j); assumption.
  - replace (0 <? sa i) with false by lia. cbn [wp]. exists (fupd sa i (lnot (sa i))), bb.
    split; [assumption|]. split; [assumption|]. split; [apply eb_no_insert; assumption|apply skipL; assumption].
Qed.

(** * Right-to-left scan *)
Definition IS (i : Z) (sa : Z -> Z) : Prop :=
  (forall j, 0 <= j < n -> isS j = false -> sa (rk j) = if i <? rk j then j else if (0 <? j) && isS (j - 1) then j else lnot j) /\
  (forall j, 0 <= j < n -> isS j = true -> i < rk (j + 1) -> sa (rk j) = if i <? rk j then j else mkS j).
Definition invS (i : Z) (x : st * Z * Z) : Prop :=
  let '(s, c1, b) := x in exists sa bb, stt s sa bb /\ 0 <= c1 < k /\
    (forall c, 0 <= c < k -> eb c1 b bb c = endc c - cntS i c) /\ IS i sa.

Lemma insert_stepS i s c1 b sa bb j : 0 <= i < n -> stt s sa bb -> 0 <= c1 < k ->
  (forall c, 0 <= c < k -> eb c1 b bb c = endc c - cntS i c) ->
  0 <= j < n -> isS j = true -> rk (j + 1) = i -> sa i = j + 1 -> IS i sa ->
  wp ('(s, c1, b) <- switch_bucket W s B (t j) c1 b ;;
      v <- markS E W s T j c1 ;;
      s <- wr W s SA (b - 1) v ;;
      Ok (s, c1, b - 1)) (invS (i - 1)).
Proof.
  intros Hi Hs Hc1 Heb Hj HS Hrj Hsai (HI1 & HI2).
  pose proof (tr j Hj) as Htj.
  assert (Hb : inW W b).
  { specialize (Heb c1 Hc1). unfold eb in Heb. rewrite Z.eqb_refl in Heb. pose proof (cntS_le i c1). apply (inW_small W HW n HnW). lia. }
  destruct (switch_ok s sa bb (t j) c1 b Hs Htj Hc1 Hb) as (s1 & bb1 & -> & Hs1 & Heb1). cbn [bind].
  rewrite (markS_ok s1 sa bb1 j Hs1 Hj HS). cbn [bind].
  pose proof (insS_rank t n lt lt0 IO j Hj HS) as Hrk. rewrite Hrj in Hrk.
  assert (Hbv : eb c1 b bb (t j) - 1 = rk j) by (rewrite Heb by assumption; lia).
  rewrite Hbv in *. pose proof (rk_range t n lt lt0 IO j Hj) as Hrr.
  pose proof (S_succ t n j Hj HS) as Hj1. pose proof (rk_before t n lt lt0 IO j Hj HS) as Hbef.
  destruct (stt_wrSA s1 sa bb1 (rk j) (mkS j) Hs1 Hrr) as (s2 & -> & Hs2).
  { apply (inW_small W HW n HnW). unfold mkS, lnot. destruct (_ || _); lia. }
  cbn [bind wp]. exists (fupd sa (rk j) (mkS j)), bb1. split; [assumption|]. split; [assumption|]. split; [|split].
  - intros c Hc. destruct (Z.eq_dec c (t j)) as [->|Hne].
    + unfold eb. rewrite Z.eqb_refl. rewrite <- Hrj, (cntS_step t n lt lt0 IO j Hj HS), Hrj. lia.
    + specialize (Heb1 c Hc). unfold eb in Heb1 |- *. replace (c =? t j) with false in * by lia.
      rewrite Heb1. fold (eb c1 b bb c). rewrite Heb by assumption. rewrite cntS_step_none; [reflexivity|].
      intros j' Hj' HS' Hs'. rewrite <- Hrj in Hs'. apply (rk_inj t n lt lt0 IO) in Hs'; try (apply (S_succ t n); assumption).
      replace j' with j by lia. congruence.
  - intros j' Hj' HL'. rewrite fupd_other by (intros He; apply (rk_inj t n lt lt0 IO) in He; try assumption; congruence).
    rewrite HI1 by assumption. destruct (Z.eq_dec (rk j') i) as [He|Hne].
    + replace (i <? rk j') with false by lia. replace (i - 1 <? rk j') with true by lia.
      rewrite <- Hrj in He. apply (rk_inj t n lt lt0 IO) in He; try assumption. subst j'.
      replace (0 <? j + 1) with true by lia. replace (j + 1 - 1) with j by lia. rewrite HS. reflexivity.
    + replace (i - 1 <? rk j') with (i <? rk j') by lia. reflexivity.
  - intros j' Hj' HS' Hr'. destruct (Z.eq_dec j' j) as [->|Hjj].
    + rewrite fupd_same. replace (i - 1 <? rk j) with false by lia. reflexivity.
    + rewrite fupd_other by (intros He; apply (rk_inj t n lt lt0 IO) in He; try assumption; congruence).
      assert (rk (j' + 1) <> i).
      { rewrite <- Hrj. intros He. apply (rk_inj t n lt lt0 IO) in He; try (apply (S_succ t n); assumption). lia. }
      rewrite HI2 by (assumption || lia). destruct (Z.eq_dec (rk j') i) as [He|Hne].
      * replace (i <? rk j') with false by lia. replace (i - 1 <? rk j') with true by lia.
        rewrite <- Hrj in He. apply (rk_inj t n lt lt0 IO) in He; try assumption. subst j'.
        unfold mkS. replace (j + 1 - 1) with j by lia. rewrite HS. replace (j + 1 =? 0) with false by lia. reflexivity.
      * replace (i - 1 <? rk j') with (i <? rk j') by lia. reflexivity.
Qed.

Lemma stepS_ok i x : 0 <= i < n -> invS i x -> wp (stepS E W T B i x) (invS (i - 1)).
Proof.
  intros Hi. destruct x as [[s c1] b]. intros (sa & bb & Hs & Hc1 & Heb & HI). unfold stepS.
  rewrite (stt_rdSA _ _ _ i Hs Hi). cbn [bind].
  destruct (rk_surj t n lt lt0 IO i Hi) as (j0 & Hj0 & Hr0).
  assert (Hv : sa i = if (0 <? j0) && isS (j0 - 1) then j0 else lnot j0).
  { destruct HI as [H1 H2]. destruct (isS j0) eqn:HS0.
    - pose proof (rk_before t n lt lt0 IO j0 Hj0 HS0). specialize (H2 j0 Hj0 HS0 ltac:(lia)). rewrite Hr0 in H2.
      replace (i <? i) with false in H2 by lia. rewrite H2. unfold mkS.
      destruct (Z.eqb_spec j0 0); [subst; reflexivity|]. replace (0 <? j0) with true by lia. cbn [orb andb].
      destruct (isS (j0 - 1)); reflexivity.
    - specialize (H1 j0 Hj0 HS0). rewrite Hr0 in H1. replace (i <? i) with false in H1 by lia. assumption. }
  destruct ((0 <? j0) && isS (j0 - 1)) eqn:Hc.
  - assert (0 < j0 /\ isS (j0 - 1) = true) as [Hj HS] by lia.
    replace (0 <? sa i) with true by lia. replace (sa i - 1) with (j0 - 1) by lia.
    rewrite (stt_chrl _ _ _ (j0 - 1) Hs) by lia. cbn [bind].
    apply (insert_stepS i s c1 b sa bb (j0 - 1)); try assumption; try lia; replace (j0 - 1 + 1) with j0 by lia; lia.
  - assert (sa i <= -1) by (rewrite Hv; unfold lnot; lia).
    replace (0 <? sa i) with false by lia.
    destruct (stt_wrSA s sa bb i (lnot (sa i)) Hs Hi) as (s1 & -> & Hs1).
    { apply (inW_small W HW n HnW). rewrite Hv. unfold lnot. lia. }
    cbn [bind wp]. exists (fupd sa i (lnot (sa i))), bb. split; [assumption|]. split; [assumption|].
    assert (Hno : forall j, 0 <= j < n -> isS j = true -> rk (j + 1) <> i).
    { intros j Hj HS He. rewrite <- He in Hr0. apply (rk_inj t n lt lt0 IO) in Hr0; [|assumption|apply (S_succ t n); assumption].
      subst j0. replace (j + 1 - 1) with j in Hc by lia. rewrite HS in Hc. lia. }
    assert (Hlv : lnot (sa i) = j0) by (rewrite Hv; unfold lnot; lia). rewrite Hlv.
    split; [|split].
    + intros c Hcc. rewrite Heb by assumption. rewrite cntS_step_none; [reflexivity|]. intros j Hj HS He. exfalso. exact (Hno j Hj HS He).
    + destruct HI as [H1 H2]. intros j Hj HL. destruct (Z.eq_dec (rk j) i) as [He|Hne].
      * rewrite He, fupd_same. replace (i - 1 <? i) with true by lia. rewrite <- Hr0 in He. symmetry. apply (rk_inj t n lt lt0 IO) in He; assumption.
      * rewrite fupd_other by assumption. rewrite H1 by assumption. replace (i - 1 <? rk j) with (i <? rk j) by lia. reflexivity.
    + destruct HI as [H1 H2]. intros j Hj HS Hr. destruct (Z.eq_dec (rk j) i) as [He|Hne].
      * rewrite He, fupd_same. replace (i - 1 <? i) with true by lia. rewrite <- Hr0 in He. symmetry. apply (rk_inj t n lt lt0 IO) in He; assumption.
      * rewrite fupd_other by assumption. pose proof (Hno j Hj HS). rewrite H2 by (assumption || lia). replace (i - 1 <? rk j) with (i <? rk j) by lia. reflexivity.
Qed.

Lemma induceL_loop s sa : stt s sa startc ->
  (forall e, LMS e = true -> sa (pos0 e) = e) ->
  (forall p, 0 <= p < n -> (forall e, LMS e = true -> pos0 e <> p) -> sa p = 0) ->
  wp (c1 <- chrl E W s T (n - 1) ;;
      b <- rd s B c1 ;;
      v <- markL E W s T (n - 1) c1 ;;
      s <- wr W s SA b v ;;
      '(s, _, _) <- for_up 0 n (stepL E W T B) (s, c1, b + 1) ;;
      Ok s)
   (fun s' => exists sa' bb', stt s' sa' bb' /\ forall j, 0 <= j < n -> isS j = false -> sa' (rk j) = lnot (mkL j)).
Proof.
  intros Hs Hl Hz. assert (Hn1 : 0 <= n - 1 < n) by lia. assert (HL : isS (n - 1) = false) by apply isS_last.
  assert (Hsl : slot (n - 1 + 1) = -1).
  { unfold slot, Induced.slot. replace (n - 1 + 1 =? n) with true by lia. reflexivity. }
  pose proof (tr _ Hn1) as Htn.
  rewrite (stt_chrl _ _ _ _ Hs Hn1). cbn [bind]. rewrite (stt_rdB _ _ _ _ Hs Htn). cbn [bind].
  rewrite (markL_ok _ _ _ _ Hs Hn1 HL). cbn [bind].
  pose proof (insL_rank t n lt lt0 IO _ Hn1 HL) as Hrk. rewrite Hsl in Hrk.
  assert (Hm1 : forall c, cntL (-1) c = 0).
  { intros c. apply cnt_false. intros i Hi. unfold insL.
    assert (Hge : isS i = false -> -1 <= slot (i + 1)).
    { intros HLi. destruct (Z.eq_dec (i + 1) n) as [He|Hne]; [unfold slot, Induced.slot; rewrite He, Z.eqb_refl; lia|].
      pose proof (slot_bucket t n lt lt0 IO (i + 1) (succ_item t n i Hi HLi) Hne). pose proof (startc_nonneg t n (t (i + 1))). lia. }
    destruct (isS i); lia. }
  rewrite Hm1 in Hrk. rewrite Z.add_0_r in Hrk. rewrite <- Hrk. pose proof (rk_range t n lt lt0 IO _ Hn1) as Hrr.
  destruct (stt_wrSA s sa startc (rk (n - 1)) (mkL (n - 1)) Hs Hrr) as (s2 & -> & Hs2).
  { apply (inW_small W HW n HnW). unfold mkL, lnot. destruct (_ && _); lia. }
  cbn [bind]. eapply wp_bind_mono.
  { apply (wp_for_up invL); [lia| |apply stepL_ok].
    exists (fupd sa (rk (n - 1)) (mkL (n - 1))), startc. split; [assumption|]. split; [assumption|]. split.
    - intros c Hc. unfold eb. destruct (Z.eqb_spec c (t (n - 1))) as [->|Hne].
      + rewrite (cntL_zero_last t n lt lt0 IO) by lia. lia.
      + rewrite (cntL_zero t n lt lt0 IO) by assumption. lia.
    - replace 0 with (-1 + 1) by lia. apply insL_IL; [|assumption|assumption|assumption].
      split; [|split].
      + intros j Hj HLj Hlt. exfalso. specialize (Hm1 (t j)).
        assert (0 < cntL (-1) (t j)); [|lia]. apply cnt_pos with j; [lia|]. unfold insL. rewrite HLj. lia.
      + intros e He _. apply Hl. assumption.
      + intros j Hj HSj _ Hno. apply Hz; [apply (rk_range t n lt lt0 IO); assumption|assumption]. }
  intros [[s3 c3] b3] (sa3 & bb3 & Hs3 & _ & _ & HI & _). cbn [wp]. exists sa3, bb3. split; [assumption|].
  intros j Hj HLj. pose proof (slot_before t n lt lt0 IO j Hj HLj). pose proof (rk_range t n lt lt0 IO j Hj).
  rewrite HI by (assumption || lia). replace (rk j <? n) with true by lia. reflexivity.
Qed.

Lemma induceS_loop s sa : stt s sa endc ->
  (forall j, 0 <= j < n -> isS j = false -> sa (rk j) = lnot (mkL j)) ->
  wp (b <- rd s B 0 ;;
      '(s, _, _) <- for_down (n - 1) 0 (stepS E W T B) (s, 0, b) ;;
      Ok s)
   (fun s' => exists sa' bb', stt s' sa' bb' /\ forall j, 0 <= j < n -> sa' (rk j) = j).
Proof.
  intros Hs Hl. rewrite (stt_rdB _ _ _ 0 Hs) by lia. cbn [bind].
  eapply wp_bind_mono.
  { apply (wp_for_down invS); [lia| |intros i x Hi; apply stepS_ok; lia].
    exists sa, endc. split; [assumption|]. split; [lia|]. split; [|split].
    - intros c Hc. rewrite (cntS_top t n lt lt0 IO). unfold eb. destruct (Z.eqb_spec c 0); [subst|]; lia.
    - intros j Hj HL. pose proof (rk_range t n lt lt0 IO j Hj). replace (n - 1 <? rk j) with false by lia.
      rewrite Hl by assumption. unfold mkL, lnot. destruct (_ && _); lia.
    - intros j Hj HS Hr. pose proof (rk_range t n lt lt0 IO (j + 1) (S_succ t n j Hj HS)). lia. }
  intros [[s3 c3] b3] (sa3 & bb3 & Hs3 & _ & _ & H1 & H2). cbn [wp]. exists sa3, bb3. split; [assumption|].
  intros j Hj. pose proof (rk_range t n lt lt0 IO j Hj). destruct (isS j) eqn:HSj.
  - pose proof (rk_range t n lt lt0 IO (j + 1) (S_succ t n j Hj HSj)). rewrite H2 by (assumption || lia).
    replace (0 - 1 <? rk j) with true by lia. reflexivity.
  - rewrite H1 by assumption. replace (0 - 1 <? rk j) with true by lia. reflexivity.
Qed.
End View.

Lemma ptr_eqb_spec p q : reflect (p = q) (ptr_eqb p q).
Proof.
  destruct p as [a x], q as [b y]. unfold ptr_eqb; cbn [sp off].
  destruct (space_eqb_spec a b); cbn [andb]; [|constructor; congruence].
  destruct (Z.eqb_spec x y); constructor; congruence.
Qed.

(** where the bucket arrays may live *)
Definition bok (s : st) (C B : ptr) : Prop :=
  inalloc k s C /\ inalloc k s B /\ (C = B \/ pdisj k C B) /\
  (sp C = InMem -> n <= off C) /\ (sp B = InMem -> n <= off B).
Definition RR (C B : ptr) : region := runion (reg SA n) (runion (reg C k) (reg B k)).
Definition hasC (s : st) (C B : ptr) : Prop :=
  C <> B -> forall c, 0 <= c < k -> ga s (sp C) (off C + c) = Some (occ t n c).

Lemma bok_unch R s s' C B : unch R s s' -> bok s C B -> bok s' C B.
Proof. intros [Hl _] ((A1 & A2) & (B1 & B2) & D). split; [|split; [|exact D]]; (split; [assumption|]); rewrite Hl; assumption. Qed.
Lemma tsafe_mono (R R' : region) : (forall p x, R' p x -> R p x) -> tsafe T n R -> tsafe T n R'.
Proof. intros H. unfold tsafe. destruct T; [trivial|]. intros Hs x Hx Hr. exact (Hs x Hx (H _ _ Hr)). Qed.

Lemma setup_ok s C B e : bok s C B -> tsafe T n (RR C B) -> txt s -> hasC s C B ->
  wp (s <- (if ptr_eqb C B then get_counts E W s T C n k else Ok s) ;; get_buckets W s C B k e)
   (fun s' => unch (reg B k) s s' /\ hasC s' C B /\
     forall c, 0 <= c < k -> ga s' (sp B) (off B + c) = Some (if e then endc t n c else startc t n c)).
Proof.
  intros Hb Hts Ht HC.
  assert (H1 : wp (if ptr_eqb C B then get_counts E W s T C n k else Ok s) (fun s1 =>
     unch (reg B k) s s1 /\ (forall c, 0 <= c < k -> ga s1 (sp C) (off C + c) = Some (occ t n c)))).
  { destruct (ptr_eqb_spec C B) as [->|Hne].
    - apply (get_counts_ok E W HW T t n k); auto; [|apply Hb].
      eapply tsafe_mono; [|exact Hts]. intros p x H. right; left; exact H.
    - cbn [wp]. split; [apply unch_refl|]. apply HC. assumption. }
  eapply wp_bind_mono; [exact H1|]. intros s1 [Hu1 HC1]. cbn beta.
  pose proof (bok_unch _ _ _ _ _ Hu1 Hb) as Hb1.
  eapply wp_mono.
  { apply (get_buckets_ok W HW t n k); [assumption|assumption|assumption|exact tr|apply Hb1|apply Hb1|apply Hb1|exact HC1]. }
  intros s2 [Hu2 HB2]. split; [eapply unch_trans; eassumption|]. split; [|assumption].
  intros Hne c Hc. rewrite (proj2 Hu2); [apply HC1; assumption|].
  intros [He Hx]. destruct Hb as (_ & _ & [He2|[Hd|Hd]] & _); [contradiction|congruence|lia].
Qed.

Context (lt lt0 : Z -> Z -> bool) (IO : indord t n lt lt0).

Definition sacells (s : st) (sa : Z -> Z) : Prop := forall x, 0 <= x < n -> ga s InMem x = Some (sa x).

Lemma stt_RR s0 s C B sa bb : stt B s0 s sa bb -> unch (RR C B) s0 s.
Proof. intros (Hu & _). eapply unch_mono; [|exact Hu]. intros p x [H|H]; [left|right; right]; assumption. Qed.
Lemma stt_hasC s0 s C B sa bb : bok s0 C B -> stt B s0 s sa bb -> hasC s0 C B -> hasC s C B.
Proof.
  intros Hb (Hu & _) HC Hne c Hc. rewrite (proj2 Hu); [apply HC; assumption|].
  destruct Hb as (HbC & _ & Hd & HCn & _). intros [[He Hx]|[He Hx]].
  - cbn [sp off SA] in *. specialize (HCn He). lia.
  - destruct Hd as [He2|[Hd|Hd]]; [contradiction|congruence|lia].
Qed.
Lemma bfree s s1 B sa : (sp B = InMem -> n <= off B) -> unch (reg B k) s s1 -> sacells s sa -> sacells s1 sa.
Proof.
  intros HB Hu Hs x Hx. rewrite (proj2 Hu); [apply Hs; assumption|]. intros [He Hx2]. specialize (HB (eq_sym He)). lia.
Qed.

Lemma induce_SA_ok s C B sa : bok s C B -> tsafe T n (RR C B) -> txt s -> hasC s C B ->
  n <= alen (mem s) -> sacells s sa ->
  (forall e, LMS e = true -> sa (pos0 t n lt0 e) = e) ->
  (forall p, 0 <= p < n -> (forall e, LMS e = true -> pos0 t n lt0 e <> p) -> sa p = 0) ->
  wp (induce_SA E W s T C B n k) (fun s' => unch (RR C B) s s' /\
     exists sa', sacells s' sa' /\ forall j, 0 <= j < n -> sa' (rk n lt j) = j).
Proof.
  intros Hb Hts Ht HC Hmem Hsa Hl Hz.
  assert (HtsB : tsafe T n (runion (reg SA n) (reg B k))).
  { eapply tsafe_mono; [|exact Hts]. intros p x [H|H]; [left|right; right]; exact H. }
  assert (HtsB1 : tsafe T n (reg B k)).
  { eapply tsafe_mono; [|exact Hts]. intros p x H. right; right; exact H. }
  assert (HBn : sp B = InMem -> n <= off B) by apply Hb.
  unfold induce_SA, induce_L, induce_S.
  assert (HL : wp (s1 <- (s1 <- (if ptr_eqb C B then get_counts E W s T C n k else Ok s) ;; get_buckets W s1 C B k false) ;;
      c1 <- chrl E W s1 T (n - 1) ;;
      b <- rd s1 B c1 ;;
      v <- markL E W s1 T (n - 1) c1 ;;
      s <- wr W s1 SA b v ;;
      '(s, _, _) <- for_up 0 n (stepL E W T B) (s, c1, b + 1) ;;
      Ok s) (fun s' => unch (RR C B) s s' /\ hasC s' C B /\ exists sa', sacells s' sa' /\ forall j, 0 <= j < n -> isS j = false -> sa' (rk n lt j) = lnot (mkL j))).
  { eapply wp_bind_mono; [apply setup_ok; eassumption|]. intros s1 (Hu1 & HC1 & HB1). cbn beta.
    pose proof (bok_unch _ _ _ _ _ Hu1 Hb) as Hb1. pose proof (bfree _ _ _ _ HBn Hu1 Hsa) as Hsa1.
    eapply wp_mono.
    { apply (induceL_loop B s1) with (lt := lt) (lt0 := lt0) (sa := sa); try assumption; try apply Hb1.
      - pose proof (proj1 Hu1 InMem) as Hl1. cbn [sl] in Hl1. lia.
      - eapply txt_unch; eassumption.
      - split; [apply unch_refl|]. split; assumption. }
    intros s2 (sa2 & bb2 & Hs2 & Hr2). split; [|split].
    - eapply unch_trans; [|eapply stt_RR; eassumption]. eapply unch_mono; [|exact Hu1]. intros p x H; right; right; exact H.
    - eapply stt_hasC; eassumption.
    - exists sa2. split; [exact (proj1 (proj2 Hs2))|assumption]. }
  apply wp_bind. 
  assert (Hassoc : forall (A1 B1 C1 : Type) (m : res A1) (f : A1 -> res B1) (g : B1 -> res C1),
     bind (bind m f) g = bind m (fun x => bind (f x) g)) by (intros A1 B1 C1 [] f g; reflexivity).
  rewrite Hassoc in HL. eapply wp_mono; [exact HL|]. clear HL.
  intros s1 (Hu1 & HC1 & sa1 & Hsa1 & Hr1). cbn beta.
  pose proof (bok_unch _ _ _ _ _ Hu1 Hb) as Hb1. assert (Ht1 : txt s1) by (eapply txt_unch; eassumption).
  rewrite <- Hassoc.
  eapply wp_bind_mono; [apply setup_ok; eassumption|]. intros s2 (Hu2 & HC2 & HB2). cbn beta.
  pose proof (bok_unch _ _ _ _ _ Hu2 Hb1) as Hb2. pose proof (bfree _ _ _ _ HBn Hu2 Hsa1) as Hsa2.
  eapply wp_mono.
  { apply (induceS_loop B s2) with (lt := lt) (lt0 := lt0) (sa := sa1); try assumption; try apply Hb2.
    - pose proof (proj1 Hu2 InMem) as Hl2. pose proof (proj1 Hu1 InMem) as Hl1. cbn [sl] in *. lia.
    - eapply txt_unch; eassumption.
    - split; [apply unch_refl|]. split; assumption. }
  intros s3 (sa3 & bb3 & Hs3 & Hr3). split.
  - eapply unch_trans; [exact Hu1|]. eapply unch_trans; [|eapply stt_RR; eassumption].
    eapply unch_mono; [|exact Hu2]. intros p x H; right; right; exact H.
  - exists sa3. split; [exact (proj1 (proj2 Hs3))|assumption].
Qed.
End Induce.
