(** The stages of sais (M_Sais): insertion and compaction of the LMS positions, naming,
    renaming, translation and final placement. *)
From Verif Require Import Base M_PackedArray M_Sais Count Spec Text Induced Keys P_SaisMem P_SaisInduce.
From Coq Require Import ZifyBool.
Open Scope Z_scope.

Section Stages.
Context (E : env) (W : Z) (HW : 1 <= W).
Context (T : text) (t : Z -> Z) (n k : Z).
Context (Hn : 1 <= n) (Hk : 1 <= k) (HnW : n < 2 ^ (W - 1)).
Context (tr : forall i, 0 <= i < n -> 0 <= t i < k).
Context (HkL : k <= 2 ^ (lw W - 1)).
Notation chr := (chr E W).
Notation txt := (txt E W T t n).
Notation isS := (isS t n).
Notation LMS := (LMS t n).
Notation slt := (slt t n).
Notation m := (cnt LMS 0 n).

(** * States seen as one function *)
Section View1.
Context (s0 : st) (Hmem : n <= alen (mem s0)).
Context (Hts : tsafe T n (reg SA n)) (Ht0 : txt s0).
Definition sav (s : st) (sa : Z -> Z) : Prop := unch (reg SA n) s0 s /\ sacells n s sa.
Lemma sav_txt s sa : sav s sa -> txt s.
Proof. intros (Hu & _). eapply txt_unch; eassumption. Qed.
Lemma sav_rd s sa i : sav s sa -> 0 <= i < n -> rd s SA i = Ok (sa i).
Proof. intros (_ & H) Hi. apply rd_ok. apply (H i Hi). Qed.
Lemma sav_chr s sa i : sav s sa -> 0 <= i < n -> chr s T i = Ok (t i).
Proof. intros H Hi. apply (sav_txt _ _ H i Hi). Qed.
Lemma sav_chrl s sa i : sav s sa -> 0 <= i < n -> chrl E W s T i = Ok (t i).
Proof. intros H Hi. apply (chrl_txt E W HW T t n k tr HkL s i (sav_txt _ _ H) Hi). Qed.
Lemma sav_chr64 s sa i : sav s sa -> 0 <= i < n -> chr64 E W s T i = Ok (t i).
Proof. intros H Hi. apply (chr64_txt E W HW T t n k tr HkL s i (sav_txt _ _ H) Hi). Qed.
Lemma sav_wr s sa i v : sav s sa -> 0 <= i < n -> inW W v ->
  exists s', wr W s SA i v = Ok s' /\ sav s' (fupd sa i v).
Proof.
  intros (Hu & Hs) Hi Hv. destruct (wr_ok W HW s SA i v) as (s' & Hw & Hup); [|assumption|].
  { cbn [sp off SA sl]. pose proof (proj1 Hu InMem) as Hl. cbn [sl] in Hl. lia. }
  exists s'. split; [assumption|]. split.
  - eapply unch_trans; [exact Hu|]. apply (upd_unch _ _ _ _ _ _ Hup). split; [reflexivity|]. cbn [off SA]. lia.
  - intros x Hx. destruct (Z.eq_dec x i) as [->|Hne].
    + rewrite fupd_same. apply (upd_at _ _ _ _ _ Hup).
    + rewrite fupd_other by assumption. rewrite (upd_other _ _ _ _ _ _ _ Hup) by (right; cbn [off SA]; lia). apply Hs. assumption.
Qed.

Lemma LMS_chk p : 0 < p < n -> t p < t (p - 1) -> LMS p = isS p.
Proof.
  intros Hp Hc. unfold Text.LMS. rewrite (isS_step t n (p - 1)) by lia. replace (p - 1 + 1) with p by lia. lia.
Qed.
Lemma skip_equal_ok s sa p : sav s sa -> 0 <= p < n ->
  wp (skip_equal E W s T n p (t p)) (fun r => (fst r <? n) && (t p <? snd r) = isS p).
Proof.
  intros Hs Hp. unfold skip_equal.
  apply (wp_loop (fun x => p + 1 <= fst x <= n /\ isS p = isS (fst x - 1) /\ t (fst x - 1) = t p) (fun x => n - fst x)).
  - intros [j c] H. cbn [fst] in *. lia.
  - intros [j c] (Hj & H1 & H2). cbn [fst] in *. destruct (Z.ltb_spec j n).
    + rewrite (sav_chr64 _ _ j Hs) by lia. cbn [bind]. rewrite (isS_step t n (j - 1)) in H1 by lia.
      replace (j - 1 + 1) with j in H1 by lia. rewrite H2 in H1.
      destruct (Z.eqb_spec (t p) (t j)); cbn [wp fst snd].
      * replace (j + 1 - 1) with j by lia. split; [split; [lia|]|lia]. split; [|lia]. rewrite H1. lia.
      * rewrite H1. lia.
    + cbn [wp fst snd]. replace j with n in * by lia. rewrite H1, isS_last. lia.
  - cbn [fst]. replace (p + 1 - 1) with p by lia. split; [lia|]. split; reflexivity.
  - cbn [fst]. lia.
Qed.

(** * Sorted LMS positions *)
Section Idx.
Context (lt : Z -> Z -> bool).
Definition idx (e : Z) : Z := rank LMS lt 0 n e.
Definition sorted (so : Z -> Z) : Prop := forall e, LMS e = true -> so (idx e) = e.
End Idx.

Section Compact.
Context (lt lt0 : Z -> Z -> bool) (IO : indord t n lt lt0).
Notation rk := (rk n lt).
Definition mle (i : Z) : Z := cnt (fun f => LMS f && (rk f <? i)) 0 n.
Lemma mle_le i : 0 <= i -> mle i <= i.
Proof.
  intros Hi. replace i with (cnt (fun _ => true) 0 i) at 2 by (rewrite cnt_true; (lia || reflexivity)).
  unfold mle. apply (cnt_map_le _ _ rk).
  - intros e He H. pose proof (rk_range t n lt lt0 IO e He). split; [lia|reflexivity].
  - intros a b Ha Hb _ _. apply (rk_inj t n lt lt0 IO); assumption.
Qed.
Lemma mle_n : mle n = m.
Proof. unfold mle. apply cnt_ext. intros e He. pose proof (rk_range t n lt lt0 IO e He). lia. Qed.
Lemma mle_step e : 0 <= e < n -> mle (rk e + 1) = mle (rk e) + if LMS e then 1 else 0.
Proof.
  intros He. unfold mle. destruct (LMS e) eqn:HL.
  - apply (cnt_add1 _ _ e); [lia|lia|]. intros f Hf. destruct (Z.eqb_spec f e) as [->|Hne]; [lia|].
    assert (rk f <> rk e) by (intros H; apply (rk_inj t n lt lt0 IO) in H; try assumption; lia). lia.
  - rewrite Z.add_0_r. apply cnt_ext. intros f Hf. destruct (Z.eq_dec f e) as [->|Hne]; [rewrite HL; reflexivity|].
    assert (rk f <> rk e) by (intros H; apply (rk_inj t n lt lt0 IO) in H; try assumption; lia). lia.
Qed.
Lemma mle_idx e : LMS e = true -> mle (rk e) = idx lt e.
Proof.
  intros He. pose proof (LMS_rng t n e He). unfold mle, idx, rank. apply cnt_ext. intros f Hf.
  rewrite (rk_ltb t n lt lt0 IO f e) by lia. reflexivity.
Qed.
Definition compact_body (i : Z) (x : st * Z) : res (st * Z) :=
  let '(s, m) := x in
  p <- rd s SA i ;;
  if 0 <? p then
    prev <- chrl E W s T (p - 1) ;;
    c0 <- chr64 E W s T p ;;
    if c0 <? prev then
      '(j, c1) <- skip_equal E W s T n p c0 ;;
      if (j <? n) && (c0 <? c1) then (s <- wr W s SA m p ;; Ok (s, m + 1)) else Ok (s, m)
    else Ok (s, m)
  else Ok (s, m).
Definition cinv (sa : Z -> Z) (i : Z) (r : st * Z) : Prop := snd r = mle i /\ exists sa', sav (fst r) sa' /\
      (forall x, i <= x < n -> sa' x = sa x) /\ forall e, LMS e = true -> rk e < i -> sa' (idx lt e) = e.
Lemma compact_init s sa : sav s sa -> cinv sa 0 (s, 0).
Proof.
  intros Hs. unfold cinv. cbn [fst snd]. split.
  + unfold mle. rewrite cnt_false; [reflexivity|]. intros e He. pose proof (rk_range t n lt lt0 IO e He). lia.
  + exists sa. split; [assumption|]. split; [auto|]. intros e He Hr. pose proof (LMS_rng t n e He).
    pose proof (rk_range t n lt lt0 IO e ltac:(lia)). lia.
Qed.
Lemma compact_step sa i x : (forall j, 0 <= j < n -> sa (rk j) = j) -> 0 <= i < n -> cinv sa i x ->
  wp (compact_body i x) (cinv sa (i + 1)).
Proof.
  intros Hsa Hi. destruct x as [s1 mm]. unfold cinv, compact_body. intros (Hm & sa1 & Hs1 & Hhi & Hlo). cbn [fst snd] in *. subst mm.
      destruct (rk_surj t n lt lt0 IO i Hi) as (p & Hp & Hrp).
      assert (Hsp : sa1 i = p) by (rewrite Hhi by lia; rewrite <- Hrp; apply Hsa; assumption).
      rewrite (sav_rd _ _ i Hs1 Hi), Hsp. cbn [bind].
      (* nothing to write *)
      assert (Hskip : LMS p = false -> wp (Ok (s1, mle i)) (fun r => snd r = mle (i + 1) /\ exists sa', sav (fst r) sa' /\
        (forall x, i + 1 <= x < n -> sa' x = sa x) /\ forall e, LMS e = true -> rk e < i + 1 -> sa' (idx lt e) = e)).
      { intros HL. cbn [wp fst snd]. split; [rewrite <- Hrp, mle_step by assumption; rewrite HL; lia|].
        exists sa1. split; [assumption|]. split; [intros; apply Hhi; lia|].
        intros e He Hr. apply Hlo; [assumption|]. assert (rk e <> i); [|lia].
        rewrite <- Hrp. intros H. pose proof (LMS_rng t n e He). apply (rk_inj t n lt lt0 IO) in H; try lia. congruence. }
      destruct (Z.ltb_spec 0 p) as [Hp0|Hp0]; [|apply Hskip; unfold Text.LMS; lia].
      rewrite (sav_chrl _ _ (p - 1) Hs1) by lia. cbn [bind]. rewrite (sav_chr64 _ _ p Hs1) by lia. cbn [bind].
      destruct (Z.ltb_spec (t p) (t (p - 1))) as [Hc|Hc].
      2: { apply Hskip. destruct (LMS p) eqn:HL; [|reflexivity]. apply LMS_chr in HL. lia. }
      eapply wp_bind_mono; [apply (skip_equal_ok _ _ p Hs1 Hp)|]. intros [j c1] Hr. cbn [fst snd] in Hr. rewrite Hr.
      rewrite <- (LMS_chk p) by lia. destruct (LMS p) eqn:HL; [|apply Hskip; reflexivity].
      pose proof (mle_le i ltac:(lia)). assert (0 <= mle i) by apply cnt_nonneg.
      destruct (sav_wr s1 sa1 (mle i) p Hs1) as (s2 & -> & Hs2); [lia|apply (inW_small W HW n HnW); lia|].
      cbn [bind wp fst snd]. split; [rewrite <- Hrp, mle_step by assumption; rewrite HL; lia|].
      exists (fupd sa1 (mle i) p). split; [assumption|]. split.
      + intros x Hx. rewrite fupd_other by lia. apply Hhi. lia.
      + intros e He Hre. destruct (Z.eq_dec e p) as [->|Hep].
        * rewrite <- Hrp, mle_idx by assumption. apply fupd_same.
        * assert (rk e <> i). { rewrite <- Hrp. intros H2. pose proof (LMS_rng t n e He). apply (rk_inj t n lt lt0 IO) in H2; lia. }
          rewrite fupd_other; [apply Hlo; [assumption|lia]|].
          rewrite <- mle_idx by assumption. assert (mle (rk e) < mle i); [|lia].
          unfold mle. pose proof (LMS_rng t n e He). apply (cnt_strict _ _ e); [intros f Hf; lia|lia|lia|lia].
Qed.
Lemma compact_ok s sa : sav s sa -> (forall j, 0 <= j < n -> sa (rk j) = j) ->
  wp (compact_lms E W s T n) (fun r => snd r = m /\ exists sa', sav (fst r) sa' /\ sorted lt sa').
Proof.
  intros Hs Hsa. unfold compact_lms.
  eapply wp_mono.
  { apply (wp_for_up (cinv sa)).
    - lia.
    - apply compact_init. assumption.
    - intros i x Hi Hx. apply (compact_step sa i x Hsa Hi Hx). }
  intros [s1 mm] (Hm & sa1 & Hs1 & _ & Hlo). cbn [fst snd] in *. split; [rewrite Hm; apply mle_n|].
  exists sa1. split; [assumption|]. intros e He. apply Hlo; [assumption|]. pose proof (LMS_rng t n e He).
  apply (rk_range t n lt lt0 IO); lia.
Qed.
End Compact.

Lemma zero_range_ok s sa lo : sav s sa -> 0 <= lo <= n ->
  wp (zero_range W s lo n) (fun s' => sav s' (fun x => if lo <=? x then 0 else sa x)).
Proof.
  intros Hs Hlo. unfold zero_range.
  eapply wp_mono.
  { apply (wp_for_up (fun i s' => sav s' (fun x => if (lo <=? x) && (x <? i) then 0 else sa x))).
    - lia.
    - split; [apply Hs|]. intros x Hx. replace ((lo <=? x) && (x <? lo)) with false by lia. apply Hs. assumption.
    - intros i s1 Hi Hs1. destruct (sav_wr s1 _ i 0 Hs1) as (s2 & -> & Hs2); [lia|apply (inW_small W HW n HnW); lia|].
      cbn [wp]. split; [apply Hs2|]. intros x Hx. rewrite (proj2 Hs2) by assumption. f_equal. unfold fupd.
      destruct (Z.eqb_spec x i); [|replace (x <? i + 1) with (x <? i) by lia; reflexivity].
      replace ((lo <=? x) && (x <? i + 1)) with true by lia. reflexivity. }
  intros s1 Hs1. split; [apply Hs1|]. intros x Hx. rewrite (proj2 Hs1) by assumption.
  replace ((lo <=? x) && (x <? n)) with (lo <=? x) by lia. reflexivity.
Qed.

(** * Lengths and names of the LMS substrings *)
Notation nx := (nx t n).
Definition plen (e : Z) : Z := nx (e + 1) - e.
Definition cell (e : Z) : Z := m + Z.shiftr e 1.

Lemma cell_eq e : cell e = m + e / 2.
Proof. unfold cell. rewrite Z.shiftr_div_pow2 by lia. reflexivity. Qed.
Lemma cell_range e : LMS e = true -> m <= cell e < n.
Proof.
  intros He. apply LMS_bound in He. rewrite cell_eq. pose proof (LMS_half t n Hn).
  pose proof (Z.div_mod e 2 ltac:(lia)). pose proof (Z.mod_pos_bound e 2 ltac:(lia)). lia.
Qed.
Lemma LMS_gap e f : LMS e = true -> LMS f = true -> e < f -> e + 2 <= f.
Proof.
  intros He Hf H. destruct (Z.eq_dec f (e + 1)) as [->|]; [|lia]. rewrite LMS_not_adjacent in Hf by assumption. discriminate.
Qed.
Lemma cell_lt e f : LMS e = true -> LMS f = true -> e < f -> cell e < cell f.
Proof.
  intros He Hf H. pose proof (LMS_gap e f He Hf H). rewrite !cell_eq.
  pose proof (Z.div_mod e 2 ltac:(lia)). pose proof (Z.mod_pos_bound e 2 ltac:(lia)).
  pose proof (Z.div_mod f 2 ltac:(lia)). pose proof (Z.mod_pos_bound f 2 ltac:(lia)). lia.
Qed.
Lemma cell_inj e f : LMS e = true -> LMS f = true -> cell e = cell f -> e = f.
Proof.
  intros He Hf H. destruct (Z.lt_trichotomy e f) as [Hl|[Hl|Hl]]; [|assumption|]; apply cell_lt in Hl; (assumption || lia).
Qed.
Lemma plen_range e : LMS e = true -> 1 <= plen e /\ e + plen e <= n.
Proof.
  intros He. apply LMS_bound in He as Hb. destruct (nx_spec t n (e + 1) ltac:(lia)) as (H & _). unfold plen. lia.
Qed.

(** contents of the upper part of SA: [g e] for every LMS position e, zero elsewhere *)
Definition upper (P : Z -> bool) (g : Z -> Z) (sa : Z -> Z) : Prop :=
  (forall e, LMS e = true -> P e = true -> sa (cell e) = g e) /\
  (forall x, m <= x < n -> (forall e, LMS e = true -> P e = true -> cell e <> x) -> sa x = 0).

Lemma lengths_ok s sa lt : sav s sa -> sorted lt sa -> (forall x, m <= x < n -> sa x = 0) ->
  (forall e, LMS e = true -> 0 <= idx lt e < m) ->
  wp (lms_scan (fun x i => chr64 E W (fst x) T i) n (fun i _ '(s, j) =>
         s <- wr W s SA (m + Z.shiftr (i + 1) 1) (j - i - 1) ;; Ok (s, i + 1)) (s, n))
   (fun r => exists sa', sav (fst r) sa' /\ sorted lt sa' /\ upper (fun _ => true) plen sa').
Proof.
  intros Hs Hso Hz Hidx.
  eapply wp_mono.
  { apply (wp_lms_scan W t n Hn (fun (x : st * Z) i => chr64 E W (fst x) T i) _ (fun x r => snd r = nx x /\ exists sa', sav (fst r) sa' /\ sorted lt sa' /\ upper (fun e => x <=? e) plen sa')).
    - intros x [s1 j] i (_ & sa1 & Hs1 & _) Hi. apply (sav_chr64 _ _ i Hs1 Hi).
    - intros x [s1 j] HL (Hj & sa1 & Hs1 & Hso1 & Hup1). cbn [fst snd] in *. subst j.
      replace (x - 1 + 1) with x by lia. fold (cell x). replace (nx (x + 1) - (x - 1) - 1) with (plen x) by (unfold plen; lia).
      pose proof (cell_range x HL). pose proof (plen_range x HL). pose proof (LMS_bound t n x HL). assert (0 <= m) by apply cnt_nonneg.
      destruct (sav_wr s1 sa1 (cell x) (plen x) Hs1) as (s2 & -> & Hs2); [lia|apply (inW_small W HW n HnW); lia|].
      cbn [bind wp fst snd]. split; [rewrite nx_LMS by assumption; reflexivity|].
      exists (fupd sa1 (cell x) (plen x)). split; [assumption|]. split; [|split].
      + intros e He. specialize (Hidx e He). rewrite fupd_other by lia. apply Hso1. assumption.
      + intros e He Hx. destruct (Z.eq_dec e x) as [->|Hne]; [apply fupd_same|].
        rewrite fupd_other by (intros Hc; apply cell_inj in Hc; assumption || lia). apply (proj1 Hup1); [assumption|lia].
      + intros y Hy Hno. rewrite fupd_other; [|intros ->; apply (Hno x); (assumption || lia || reflexivity)].
        apply (proj2 Hup1); [assumption|]. intros e He Hxe. apply Hno; [assumption|lia].
    - intros x [s1 j] Hx HL (Hj & sa1 & Hs1 & Hso1 & Hup1). cbn [fst snd] in *. split; [rewrite Hj; symmetry; apply nx_step; (lia || assumption)|].
      exists sa1. split; [assumption|]. split; [assumption|]. split.
      + intros e He Hxe. apply (proj1 Hup1); [assumption|]. destruct (Z.eq_dec e x); [congruence|lia].
      + intros y Hy Hno. apply (proj2 Hup1); [assumption|]. intros e He Hxe. apply Hno; [assumption|lia].
    - cbn [fst snd]. split; [rewrite nx_n by lia; reflexivity|]. exists sa. split; [assumption|]. split; [assumption|]. split.
      + intros e He Hx. apply LMS_bound in He. lia.
      + intros x Hx _. apply Hz. assumption. }
  intros [s1 j] (_ & sa1 & Hs1 & Hso1 & Hup1). cbn [fst snd] in *. exists sa1. split; [assumption|]. split; [assumption|]. split.
  - intros e He _. apply LMS_bound in He as Hb. apply (proj1 Hup1); [assumption|lia].
  - intros x Hx Hno. apply (proj2 Hup1); [assumption|]. intros e He _. apply Hno; [assumption|reflexivity].
Qed.

(** facts about sorted LMS positions *)
Section SO.
Context (lt : Z -> Z -> bool).
Context (lirr : forall i, LMS i = true -> lt i i = false).
Context (ltrans : forall i j k, LMS i = true -> LMS j = true -> LMS k = true -> lt i j = true -> lt j k = true -> lt i k = true).
Context (ltot : forall i j, LMS i = true -> LMS j = true -> i <> j -> lt i j = true \/ lt j i = true).
Lemma idx_range e : LMS e = true -> 0 <= idx lt e < m.
Proof.
  intros He. apply rank_range; [intros i [_ Hi]; apply lirr; assumption|]. split; [apply LMS_bound in He; lia|assumption].
Qed.
Lemma idx_lt e f : LMS e = true -> LMS f = true -> (lt e f = true <-> idx lt e < idx lt f).
Proof.
  intros He Hf. apply rank_lt_iff.
  - intros i [_ Hi]; apply lirr; assumption.
  - intros i j k0 [_ Hi] [_ Hj] [_ Hk0]. apply ltrans; assumption.
  - intros i j [_ Hi] [_ Hj]. apply ltot; assumption.
  - split; [apply LMS_bound in He; lia|assumption].
  - split; [apply LMS_bound in Hf; lia|assumption].
Qed.
Lemma idx_surj i : 0 <= i < m -> exists e, LMS e = true /\ idx lt e = i.
Proof.
  intros Hi. destruct (rank_surj LMS lt 0 n) with (q := i) as (e & [_ He] & Hr).
  - intros j [_ Hj]; apply lirr; assumption.
  - intros a b c [_ Ha] [_ Hb] [_ Hc]. apply ltrans; assumption.
  - intros a b [_ Ha] [_ Hb]. apply ltot; assumption.
  - assumption.
  - exists e. split; assumption.
Qed.
Context (so : Z -> Z) (Hso : sorted lt so).
Lemma so_spec i : 0 <= i < m -> LMS (so i) = true /\ idx lt (so i) = i.
Proof. intros Hi. destruct (idx_surj i Hi) as (e & He & Hr). pose proof (Hso e He) as H. rewrite Hr in H. rewrite H. split; assumption. Qed.
Lemma so_lt i j : 0 <= i < j -> j < m -> lt (so i) (so j) = true.
Proof. intros Hi Hj. destruct (so_spec i ltac:(lia)) as [H1 H2]. destruct (so_spec j ltac:(lia)) as [H3 H4]. apply idx_lt; [assumption|assumption|lia]. Qed.
Lemma so_inj i j : 0 <= i < m -> 0 <= j < m -> so i = so j -> i = j.
Proof. intros Hi Hj H. destruct (so_spec i Hi) as [_ H1]. destruct (so_spec j Hj) as [_ H2]. congruence. Qed.
End SO.

Definition peq (e f : Z) : bool :=
  (plen e =? plen f) && (cnt (fun d => negb (t (e + d) =? t (f + d))) 0 (plen e) =? 0).
Lemma peq_spec e f : peq e f = true <-> plen e = plen f /\ forall d, 0 <= d < plen e -> t (e + d) = t (f + d).
Proof.
  unfold peq. split.
  - intros H. split; [lia|]. intros d Hd. destruct (Z.eqb_spec (t (e + d)) (t (f + d))) as [|Hne]; [assumption|].
    pose proof (cnt_pos (fun d => negb (t (e + d) =? t (f + d))) d 0 (plen e) Hd ltac:(lia)). lia.
  - intros [H1 H2]. rewrite cnt_false; [lia|]. intros d Hd. specialize (H2 d Hd). lia.
Qed.
Lemma peq_refl e : peq e e = true.
Proof. apply peq_spec. auto. Qed.
Lemma peq_sym e f : peq e f = true -> peq f e = true.
Proof. rewrite !peq_spec. intros [H1 H2]. split; [lia|]. intros d Hd. rewrite H2; [reflexivity|lia]. Qed.
Lemma peq_trans e f g : peq e f = true -> peq f g = true -> peq e g = true.
Proof. rewrite !peq_spec. intros [H1 H2] [H3 H4]. split; [lia|]. intros d Hd. rewrite H2, H4 by lia. reflexivity. Qed.

Lemma same_sub_ok s sa p q : sav s sa -> LMS p = true -> LMS q = true -> plen p = plen q ->
  wp (same_sub E W s T p q (plen p)) (fun r => r = peq p q).
Proof.
  intros Hs Hp Hq Hl. unfold same_sub. pose proof (plen_range p Hp). pose proof (plen_range q Hq).
  pose proof (LMS_bound t n p Hp). pose proof (LMS_bound t n q Hq).
  apply (wp_loop (fun j => 0 <= j <= plen p /\ forall d, 0 <= d < j -> t (p + d) = t (q + d)) (fun j => plen p - j)).
  - intros j Hj. lia.
  - intros j (Hj & He). destruct (Z.ltb_spec j (plen p)).
    + rewrite (sav_chr _ _ (p + j) Hs) by lia. cbn [bind]. rewrite (sav_chr _ _ (q + j) Hs) by lia. cbn [bind].
      destruct (Z.eqb_spec (t (p + j)) (t (q + j))); cbn [wp].
      * split; [|lia]. split; [lia|]. intros d Hd. destruct (Z.eq_dec d j) as [->|]; [assumption|apply He; lia].
      * destruct (peq p q) eqn:Hpq; [|reflexivity]. apply peq_spec in Hpq. destruct Hpq as [_ Hpq]. specialize (Hpq j ltac:(lia)). contradiction.
    + cbn [wp]. symmetry. apply peq_spec. split; [assumption|]. intros; apply He; lia.
  - split; [lia|]. intros; lia.
  - lia.
Qed.

Section Names.
Notation lt1 := (lt1 t n).
Context (so : Z -> Z) (Hso : sorted lt1 so).
Definition nm (i : Z) : Z := cnt (fun x => negb ((0 <? x) && peq (so x) (so (x - 1)))) 0 (i + 1).

Let KIO := key_indord t n.
Lemma l1irr : forall i, LMS i = true -> lt1 i i = false.
Proof. intros i Hi. apply (io_irr _ _ _ _ KIO). apply LMS_bound in Hi. lia. Qed.
Lemma l1trans : forall i j k, LMS i = true -> LMS j = true -> LMS k = true -> lt1 i j = true -> lt1 j k = true -> lt1 i k = true.
Proof. intros i j l Hi Hj Hl. apply LMS_bound in Hi, Hj, Hl. apply (io_trans _ _ _ _ KIO); lia. Qed.
Lemma l1tot : forall i j, LMS i = true -> LMS j = true -> i <> j -> lt1 i j = true \/ lt1 j i = true.
Proof. intros i j Hi Hj. apply LMS_bound in Hi, Hj. apply (io_tot _ _ _ _ KIO); lia. Qed.
Notation sspec := (so_spec lt1 l1irr l1trans l1tot so Hso).

Lemma nm_step i : 0 < i -> nm i = nm (i - 1) + if peq (so i) (so (i - 1)) then 0 else 1.
Proof. intros Hi. unfold nm. rewrite cnt_snoc by lia. replace (i - 1 + 1) with i by lia. replace (0 <? i) with true by lia. cbn [andb]. destruct (peq _ _); cbn [negb]; lia. Qed.
Lemma nm_0 : nm 0 = 1.
Proof. unfold nm. rewrite cnt_snoc by lia. rewrite cnt_nil by lia. reflexivity. Qed.
Lemma nm_m1 : nm (-1) = 0.
Proof. unfold nm. apply cnt_nil. lia. Qed.
Lemma nm_mono i j : 0 <= i <= j -> nm i <= nm j.
Proof. intros H. unfold nm. apply cnt_mono_hi. lia. Qed.
Lemma nm_le i : 0 <= i -> 1 <= nm i <= i + 1.
Proof.
  intros Hi. pose proof (nm_mono 0 i ltac:(lia)) as H. rewrite nm_0 in H. split; [assumption|]. unfold nm.
  match goal with |- cnt ?P _ _ <= _ => pose proof (cnt_range P (i + 1) 0) end. lia.
Qed.
Lemma nm_eq_peq i : forall d : nat, 0 <= i -> i + Z.of_nat d < m -> nm i = nm (i + Z.of_nat d) -> peq (so i) (so (i + Z.of_nat d)) = true.
Proof.
  induction d as [|d IH]; intros Hi Hd He.
  - rewrite Z.add_0_r. apply peq_refl.
  - pose proof (nm_step (i + Z.of_nat (S d)) ltac:(lia)) as Hst. replace (i + Z.of_nat (S d) - 1) with (i + Z.of_nat d) in Hst by lia.
    pose proof (nm_mono i (i + Z.of_nat d) ltac:(lia)).
    destruct (peq (so (i + Z.of_nat (S d))) (so (i + Z.of_nat d))) eqn:Hp; [|lia].
    eapply peq_trans; [apply IH; lia|]. apply peq_sym. assumption.
Qed.
Lemma nm_IK i : forall d : nat, 0 <= i -> i + Z.of_nat d < m -> K t n (fun _ => []) (so i) = K t n (fun _ => []) (so (i + Z.of_nat d)) -> nm i = nm (i + Z.of_nat d).
Proof.
  induction d as [|d IH]; intros Hi Hd He; [rewrite Z.add_0_r; reflexivity|].
  destruct (sspec i ltac:(lia)) as [HL1 _]. destruct (sspec (i + Z.of_nat d) ltac:(lia)) as [HL2 _]. destruct (sspec (i + Z.of_nat (S d)) ltac:(lia)) as [HL3 _].
  apply LMS_bound in HL1 as B1. apply LMS_bound in HL2 as B2. apply LMS_bound in HL3 as B3.
  assert (Hmid : K t n (fun _ => []) (so (i + Z.of_nat d)) = K t n (fun _ => []) (so i)).
  { destruct d as [|d']; [rewrite Z.add_0_r; reflexivity|].
    apply (K_sandwich t n (so i) _ (so (i + Z.of_nat (S (S d'))))); try lia; try assumption;
      apply (so_lt lt1 l1irr l1trans l1tot so Hso); lia. }
  rewrite IH by (try lia; symmetry; assumption).
  rewrite (nm_step (i + Z.of_nat (S d))) by lia. replace (i + Z.of_nat (S d) - 1) with (i + Z.of_nat d) by lia.
  assert (Hp : peq (so (i + Z.of_nat (S d))) (so (i + Z.of_nat d)) = true); [|rewrite Hp; lia].
  apply peq_spec. unfold plen. apply IK_piece; [lia|lia|]. congruence.
Qed.

Definition N (e : Z) : Z := nm (idx lt1 e) - 1.
Lemma N1 : forall e f, LMS e = true -> LMS f = true -> N e = N f ->
   nx (e + 1) - e = nx (f + 1) - f /\ forall d, 0 <= d < nx (e + 1) - e -> t (e + d) = t (f + d).
Proof.
  intros e f He Hf H. unfold N in H. pose proof (idx_range lt1 l1irr e He). pose proof (idx_range lt1 l1irr f Hf).
  rewrite <- (Hso e He), <- (Hso f Hf).
  destruct (Z_le_gt_dec (idx lt1 e) (idx lt1 f)) as [Hle|Hgt].
  - apply peq_spec. pose proof (nm_eq_peq (idx lt1 e) (Z.to_nat (idx lt1 f - idx lt1 e))) as Hp.
    replace (idx lt1 e + Z.of_nat (Z.to_nat (idx lt1 f - idx lt1 e))) with (idx lt1 f) in Hp by lia. apply Hp; lia.
  - apply peq_spec, peq_sym. pose proof (nm_eq_peq (idx lt1 f) (Z.to_nat (idx lt1 e - idx lt1 f))) as Hp.
    replace (idx lt1 f + Z.of_nat (Z.to_nat (idx lt1 e - idx lt1 f))) with (idx lt1 e) in Hp by lia. apply Hp; lia.
Qed.
Lemma N2 : forall e f, LMS e = true -> LMS f = true -> N e < N f -> slt e f = true.
Proof.
  intros e f He Hf H. unfold N in H. pose proof (idx_range lt1 l1irr e He). pose proof (idx_range lt1 l1irr f Hf).
  assert (Hlt : idx lt1 e < idx lt1 f).
  { destruct (Z_lt_ge_dec (idx lt1 e) (idx lt1 f)); [assumption|]. pose proof (nm_mono (idx lt1 f) (idx lt1 e) ltac:(lia)). lia. }
  assert (Hl : lt1 e f = true) by (apply (idx_lt lt1 l1irr l1trans l1tot); assumption).
  apply LMS_bound in He as Be. apply LMS_bound in Hf as Bf.
  destruct (K_slt t n e f) as [HK|]; [lia|lia|assumption| |assumption].
  exfalso. pose proof (nm_IK (idx lt1 e) (Z.to_nat (idx lt1 f - idx lt1 e))) as Hp.
  replace (idx lt1 e + Z.of_nat (Z.to_nat (idx lt1 f - idx lt1 e))) with (idx lt1 f) in Hp by lia.
  rewrite (Hso e He), (Hso f Hf) in Hp. specialize (Hp ltac:(lia) ltac:(lia) HK). lia.
Qed.
Lemma N_range e : LMS e = true -> 0 <= N e /\ N e < nm (m - 1).
Proof.
  intros He. pose proof (idx_range lt1 l1irr e He). unfold N. pose proof (nm_le (idx lt1 e) ltac:(lia)).
  pose proof (nm_mono (idx lt1 e) (m - 1) ltac:(lia)). lia.
Qed.
(** all names distinct: the LMS positions are already sorted *)
Lemma names_distinct : m <= nm (m - 1) -> sorted slt so.
Proof.
  intros Hm e He. pose proof (idx_range lt1 l1irr e He) as Hi.
  assert (Hall : forall d : nat, forall i, 0 <= i -> i + Z.of_nat d = m - 1 -> nm i = i + 1).
  { induction d as [|d IH]; intros i Hi0 Hd.
    - pose proof (nm_le i Hi0). replace i with (m - 1) in * by lia. lia.
    - specialize (IH (i + 1) ltac:(lia) ltac:(lia)). rewrite (nm_step (i + 1)) in IH by lia. replace (i + 1 - 1) with i in IH by lia.
      pose proof (nm_le i Hi0). destruct (peq _ _); lia. }
  assert (Heq : idx slt e = idx lt1 e).
  { unfold idx, rank. apply cnt_ext. intros f Hf. destruct (LMS f) eqn:HLf; [|reflexivity]. cbn [andb].
    pose proof (idx_range lt1 l1irr f HLf) as Hif.
    assert (Hcmp : forall a b, LMS a = true -> LMS b = true -> lt1 a b = true -> slt a b = true).
    { intros a b Ha Hb Hl. apply (idx_lt lt1 l1irr l1trans l1tot) in Hl; try assumption.
      pose proof (idx_range lt1 l1irr a Ha). pose proof (idx_range lt1 l1irr b Hb).
      apply N2; try assumption. unfold N.
      rewrite (Hall (Z.to_nat (m - 1 - idx lt1 a)) (idx lt1 a)) by lia. rewrite (Hall (Z.to_nat (m - 1 - idx lt1 b)) (idx lt1 b)) by lia. lia. }
    destruct (Z.eq_dec f e) as [->|Hne]; [rewrite slt_irr, l1irr by assumption; reflexivity|].
    destruct (l1tot f e HLf He Hne) as [H|H].
    - rewrite H, (Hcmp f e) by assumption. reflexivity.
    - pose proof (Hcmp e f He HLf H) as H2. rewrite (slt_asym _ _ _ _ H2).
      destruct (lt1 f e) eqn:H3; [|reflexivity]. pose proof (l1trans e f e He HLf He H H3) as Hc. rewrite l1irr in Hc by assumption. discriminate. }
  rewrite Heq. apply Hso. assumption.
Qed.

Definition name_body (i : Z) (x : st * Z * Z * Z) : res (st * Z * Z * Z) :=
  let '(s, name, q, qlen) := x in
  p <- rd s SA i ;;
  let index := m + Z.shiftr p 1 in
  plen <- rd s SA index ;;
  same <- (if plen =? qlen then same_sub E W s T p q plen else Ok false) ;;
  let '(name, q, qlen) := if (same : bool) then (name, q, qlen) else (name + 1, p, plen) in
  s <- wr W s SA index name ;;
  Ok (s, name, q, qlen).
Definition ninv (i : Z) (r : st * Z * Z * Z) : Prop := let '(s, name, q, qlen) := r in
      name = nm (i - 1) /\ (i = 0 -> qlen = 0) /\ (0 < i -> LMS q = true /\ qlen = plen q /\ peq (so (i - 1)) q = true) /\
      exists sa', sav s sa' /\ (forall x, 0 <= x < m -> sa' x = so x) /\
        upper (fun _ => true) (fun e => if idx lt1 e <? i then N e + 1 else plen e) sa'.
Lemma name_init s sa : sav s sa -> (forall x, 0 <= x < m -> sa x = so x) -> upper (fun _ => true) plen sa -> ninv 0 (s, 0, n, 0).
Proof.
  intros Hs Hlow Hup. unfold ninv.
  split; [symmetry; apply nm_m1|]. split; [reflexivity|]. split; [lia|]. exists sa. split; [assumption|]. split; [assumption|]. split.
  + intros e He _. rewrite (proj1 Hup) by auto. pose proof (idx_range lt1 l1irr e He). replace (idx lt1 e <? 0) with false by lia. reflexivity.
  + apply Hup.
Qed.
Lemma name_step i x : 0 <= i < m -> ninv i x -> wp (name_body i x) (ninv (i + 1)).
Proof.
  intros Hi. destruct x as [[[s1 name] q] qlen]. unfold ninv, name_body. intros (Hname & Hq0 & Hq & sa1 & Hs1 & Hlow1 & Hup1).
      destruct (sspec i Hi) as [HL Hidx]. pose proof (LMS_half t n Hn).
      rewrite (sav_rd _ _ i Hs1) by lia. cbn [bind]. rewrite Hlow1 by assumption. fold (cell (so i)).
      pose proof (cell_range _ HL) as Hcr. rewrite (sav_rd _ _ (cell (so i)) Hs1) by lia. cbn [bind].
      rewrite (proj1 Hup1 (so i) HL eq_refl). replace (idx lt1 (so i) <? i) with false by lia.
      pose proof (plen_range _ HL) as Hpl.
      assert (Hsame : wp (if plen (so i) =? qlen then same_sub E W s1 T (so i) q (plen (so i)) else Ok false)
         (fun b => b = (0 <? i) && peq (so i) (so (i - 1)))).
      { destruct (Z.ltb_spec 0 i) as [Hi0|Hi0]; cbn [andb].
        - destruct (Hq Hi0) as (HLq & -> & Hpq).
          assert (Hpe : peq (so i) (so (i - 1)) = peq (so i) q).
          { destruct (peq (so i) q) eqn:H1.
            - eapply peq_trans; [exact H1|]. apply peq_sym. assumption.
            - destruct (peq (so i) (so (i - 1))) eqn:H2; [|reflexivity]. rewrite (peq_trans _ _ _ H2 Hpq) in H1. discriminate. }
          rewrite Hpe. destruct (Z.eqb_spec (plen (so i)) (plen q)) as [He|He].
          + apply (same_sub_ok _ _ (so i) q Hs1); assumption.
          + cbn [wp]. symmetry. destruct (peq (so i) q) eqn:H1; [|reflexivity]. apply peq_spec in H1. lia.
        - rewrite Hq0 by lia. replace (plen (so i) =? 0) with false by lia. reflexivity. }
      eapply wp_bind_mono; [exact Hsame|]. clear Hsame. intros same Hsame. cbn beta.
      assert (Hnmi : nm i = if same then name else name + 1).
      { destruct (Z.ltb_spec 0 i) as [Hi0|Hi0]; cbn [andb] in Hsame.
        - rewrite nm_step by assumption. rewrite Hsame, Hname. destruct (peq _ _); lia.
        - replace i with 0 in * by lia. rewrite Hsame, Hname. rewrite nm_0. replace (0 - 1) with (-1) by lia. rewrite nm_m1. reflexivity. }
      pose proof (nm_le i ltac:(lia)) as Hnl.
      destruct (sav_wr s1 sa1 (cell (so i)) (nm i) Hs1) as (s2 & Hw & Hs2); [lia|apply (inW_small W HW n HnW); lia|].
      assert (Hup2 : upper (fun _ => true) (fun e => if idx lt1 e <? i + 1 then N e + 1 else plen e) (fupd sa1 (cell (so i)) (nm i))).
      { split.
        - intros e He _. destruct (Z.eq_dec e (so i)) as [->|Hne].
          + rewrite fupd_same. unfold N. rewrite Hidx. replace (i <? i + 1) with true by lia. lia.
          + rewrite fupd_other by (intros Hc; apply cell_inj in Hc; try assumption; contradiction). rewrite (proj1 Hup1) by auto.
            assert (idx lt1 e <> i) by (intros Hc; apply Hne; rewrite <- Hc; symmetry; apply Hso; assumption).
            replace (idx lt1 e <? i + 1) with (idx lt1 e <? i) by lia. reflexivity.
        - intros x Hx Hno. rewrite fupd_other; [apply (proj2 Hup1); assumption|]. intros ->. apply (Hno (so i)); auto. }
      assert (Hlow2 : forall x, 0 <= x < m -> fupd sa1 (cell (so i)) (nm i) x = so x) by (intros x Hx; rewrite fupd_other by lia; apply Hlow1; assumption).
      destruct same.
      + rewrite <- Hnmi, Hw. cbn [bind wp]. replace (i + 1 - 1) with i by lia.
        assert (Hi0 : 0 < i) by lia. destruct (Hq Hi0) as (HLq & -> & Hpq).
        split; [reflexivity|]. split; [lia|]. split; [|exists (fupd sa1 (cell (so i)) (nm i)); auto].
        intros _. split; [assumption|]. split; [reflexivity|]. apply (peq_trans _ (so (i - 1))); [lia|assumption].
      + rewrite <- Hnmi, Hw. cbn [bind wp]. replace (i + 1 - 1) with i by lia.
        split; [reflexivity|]. split; [lia|]. split; [|exists (fupd sa1 (cell (so i)) (nm i)); auto].
        intros _. split; [assumption|]. split; [reflexivity|]. apply peq_refl.
Qed.
Lemma name_ok s sa : sav s sa -> (forall x, 0 <= x < m -> sa x = so x) -> upper (fun _ => true) plen sa ->
  wp (name_lms E W s T n m) (fun r => snd r = nm (m - 1) /\ exists sa', sav (fst r) sa' /\
      (forall x, 0 <= x < m -> sa' x = so x) /\ upper (fun _ => true) (fun e => N e + 1) sa').
Proof.
  intros Hs Hlow Hup. unfold name_lms. assert (Hm0 : 0 <= m) by apply cnt_nonneg.
  eapply wp_bind_mono.
  { apply (wp_for_up ninv).
    - lia.
    - apply (name_init s sa); assumption.
    - intros i x Hi Hx. apply (name_step i x Hi Hx). }
  intros [[[s1 name] q] qlen] (Hname & _ & _ & sa1 & Hs1 & Hlow1 & Hup1). cbn [wp fst snd]. split; [assumption|].
  exists sa1. split; [assumption|]. split; [assumption|]. split.
  - intros e He _. rewrite (proj1 Hup1) by auto. pose proof (idx_range lt1 l1irr e He). replace (idx lt1 e <? m) with true by lia. reflexivity.
  - apply Hup1.
Qed.
End Names.
End View1.
End Stages.
