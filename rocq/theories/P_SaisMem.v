(** Memory reasoning for M_Sais: regions, frames, bucket counters, the LMS scan. *)
From Verif Require Import Base M_PackedArray M_Sais Count Spec Text Induced Keys.
From Coq Require Import ZifyBool.
Open Scope Z_scope.

Definition ga (s : st) (p : space) (x : Z) : option Z :=
  match p with InMem => av (mem s) x | InTmp => av (tmp s) x end.
Definition sl (s : st) (p : space) : Z := match p with InMem => alen (mem s) | InTmp => alen (tmp s) end.

Definition region := space -> Z -> Prop.
(** s' differs from s only inside R *)
Definition unch (R : region) (s s' : st) : Prop :=
  (forall p, sl s' p = sl s p) /\ forall p x, ~ R p x -> ga s' p x = ga s p x.

Lemma unch_refl R s : unch R s s.
Proof. split; auto. Qed.
Lemma unch_trans R s1 s2 s3 : unch R s1 s2 -> unch R s2 s3 -> unch R s1 s3.
Proof. intros [A1 B1] [A2 B2]. split; [intros; rewrite A2; apply A1|]. intros p x H. rewrite B2, B1 by assumption. reflexivity. Qed.
Lemma unch_mono (R R' : region) s s' : (forall p x, R p x -> R' p x) -> unch R s s' -> unch R' s s'.
Proof. intros H [A B]. split; [assumption|]. intros p x Hn. apply B. intros Hr. apply Hn, H, Hr. Qed.

Definition reg (p : ptr) (k : Z) : region := fun q x => q = sp p /\ off p <= x < off p + k.
Definition runion (R1 R2 : region) : region := fun p x => R1 p x \/ R2 p x.

Lemma space_eqb_spec a b : reflect (a = b) (space_eqb a b).
Proof. destruct a, b; cbn; constructor; congruence. Qed.

(** effect of one write *)
Definition upd (s s' : st) (p : ptr) (i v : Z) : Prop :=
  (forall q, sl s' q = sl s q) /\
  forall q x, ga s' q x = if space_eqb q (sp p) && (x =? off p + i) then Some v else ga s q x.

Lemma upd_at s s' p i v : upd s s' p i v -> ga s' (sp p) (off p + i) = Some v.
Proof. intros [_ H]. rewrite H. destruct (space_eqb_spec (sp p) (sp p)); [|congruence]. rewrite Z.eqb_refl. reflexivity. Qed.
Lemma upd_other s s' p i v q x : upd s s' p i v -> (q <> sp p \/ x <> off p + i) -> ga s' q x = ga s q x.
Proof.
  intros [_ H] Hn. rewrite H. destruct (space_eqb_spec q (sp p)); [|reflexivity]. cbn [andb].
  destruct (Z.eqb_spec x (off p + i)); [|reflexivity]. destruct Hn; congruence.
Qed.
Lemma upd_unch s s' p i v (R : region) : upd s s' p i v -> R (sp p) (off p + i) -> unch R s s'.
Proof.
  intros H HR. split; [apply H|]. intros q x Hn. apply (upd_other _ _ _ _ _ _ _ H).
  destruct (space_eqb_spec q (sp p)); [right|left; assumption]. intros ->. subst q. contradiction.
Qed.

Section W.
Context (E : env) (W : Z).
Context (HW : 1 <= W).
Definition inW (v : Z) : Prop := - 2 ^ (W - 1) <= v < 2 ^ (W - 1).

Lemma wr_ok s p i v : 0 <= off p + i < sl s (sp p) -> inW v -> exists s', wr W s p i v = Ok s' /\ upd s s' p i v.
Proof using HW.
  intros Hb Hv. unfold wr. rewrite fits_ok by exact Hv. cbn [bind].
  destruct p as [q o]; cbn [sp off] in *. destruct q; cbn [sl] in Hb; rewrite aset_ok by assumption; cbn [bind];
    (eexists; split; [reflexivity|]); split.
  - intros []; cbn [sl mem tmp]; [apply alen_upd|reflexivity].
  - intros [] x; cbn [ga mem tmp sp off space_eqb andb]; [apply av_upd; assumption|reflexivity].
  - intros []; cbn [sl mem tmp]; [reflexivity|apply alen_upd].
  - intros [] x; cbn [ga mem tmp sp off space_eqb andb]; [reflexivity|apply av_upd; assumption].
Qed.
Lemma wp_wr s p i v (Q : st -> Prop) : 0 <= off p + i < sl s (sp p) -> inW v ->
  (forall s', upd s s' p i v -> Q s') -> wp (wr W s p i v) Q.
Proof. intros Hb Hv HQ. destruct (wr_ok s p i v Hb Hv) as (s' & -> & Hu). apply HQ, Hu. Qed.

Lemma rd_ok s p i v : ga s (sp p) (off p + i) = Some v -> rd s p i = Ok v.
Proof. unfold rd, ga. destruct (sp p); apply aget_ok. Qed.
Lemma rd_inv s p i v : rd s p i = Ok v -> ga s (sp p) (off p + i) = Some v.
Proof. unfold rd, ga. destruct (sp p); apply aget_inv. Qed.
Lemma wp_rd s p i v (Q : Z -> Prop) : ga s (sp p) (off p + i) = Some v -> Q v -> wp (rd s p i) Q.
Proof. intros H HQ. rewrite (rd_ok _ _ _ _ H). exact HQ. Qed.

Section Level.
Context (T : text) (t : Z -> Z) (n k : Z).
Notation chr := (chr E W).
Definition txt (s : st) : Prop := forall i, 0 <= i < n -> chr s T i = Ok (t i).
(** region R does not meet the text *)
Definition tsafe (R : region) : Prop :=
  match T with TPack _ _ => True | TCells b => forall x, b <= x < b + n -> ~ R InMem x end.

Lemma txt_unch R s s' : unch R s s' -> tsafe R -> txt s -> txt s'.
Proof.
  intros [_ Hu] Hs Ht i Hi. specialize (Ht i Hi). unfold tsafe in Hs. unfold M_Sais.chr in *. destruct T as [w cs|b].
  - exact Ht.
  - destruct (rd s (mkptr InMem b) i) as [v|] eqn:Hr; [|discriminate].
    apply rd_inv in Hr. cbn [sp off] in Hr.
    rewrite (rd_ok s' (mkptr InMem b) i v); [exact Ht|]. cbn [sp off].
    rewrite Hu; [exact Hr|]. apply Hs. lia.
Qed.
Lemma wp_chr s i (Q : Z -> Prop) : txt s -> 0 <= i < n -> Q (t i) -> wp (chr s T i) Q.
Proof. intros H Hi HQ. rewrite (H i Hi). exact HQ. Qed.
Lemma tsafe_union R1 R2 : tsafe R1 -> tsafe R2 -> tsafe (runion R1 R2).
Proof. unfold tsafe. destruct T; [trivial|]. intros H1 H2 x Hx [H|H]; [apply (H1 x Hx H)|apply (H2 x Hx H)]. Qed.

Definition occ (c : Z) : Z := cnt (fun i => t i =? c) 0 n.
Context (Hn : 1 <= n) (Hk : 1 <= k).
Context (HnW : n < 2 ^ (W - 1)).
Context (tr : forall i, 0 <= i < n -> 0 <= t i < k).
Context (HkL : k <= 2 ^ (lw W - 1)).

Lemma lw_cases : lw W = 32 \/ lw W = 64.
Proof. unfold lw. destruct (W =? 32); auto. Qed.
Lemma chrl_txt s i : txt s -> 0 <= i < n -> chrl E W s T i = Ok (t i).
Proof.
  intros H Hi. unfold chrl. rewrite (H i Hi). cbn [bind]. f_equal. specialize (tr i Hi).
  apply swrap_small; destruct lw_cases as [Hl|Hl]; rewrite Hl in *; lia.
Qed.
Lemma chr64_txt s i : txt s -> 0 <= i < n -> chr64 E W s T i = Ok (t i).
Proof.
  intros H Hi. unfold chr64. rewrite (H i Hi). cbn [bind]. f_equal. specialize (tr i Hi).
  apply swrap_small; destruct lw_cases as [Hl|Hl]; rewrite Hl in *; lia.
Qed.
Lemma wrap_char i : 0 <= i < n -> wrap (lw W) (t i) = t i.
Proof.
  intros Hi. specialize (tr i Hi). apply wrap_small; destruct lw_cases as [Hl|Hl]; rewrite Hl in *; lia.
Qed.

Lemma inW_small v : - n - 1 <= v <= n -> inW v.
Proof. unfold inW. lia. Qed.
Lemma occ_range c : 0 <= occ c <= n.
Proof. unfold occ. pose proof (cnt_range (fun i => t i =? c) n 0). lia. Qed.

(** the bucket array p of k cells inside its allocation *)
Definition inalloc (s : st) (p : ptr) : Prop := 0 <= off p /\ off p + k <= sl s (sp p).

Lemma get_counts_ok s C : txt s -> tsafe (reg C k) -> inalloc s C ->
  wp (get_counts E W s T C n k) (fun s' => unch (reg C k) s s' /\
     forall c, 0 <= c < k -> ga s' (sp C) (off C + c) = Some (occ c)).
Proof.
  intros Ht Hs [Ha1 Ha2]. unfold get_counts.
  eapply wp_bind_mono.
  { apply (wp_for_up (fun i s1 => unch (reg C k) s s1 /\ forall c, 0 <= c < i -> ga s1 (sp C) (off C + c) = Some 0)).
    - lia.
    - split; [apply unch_refl|]. intros; lia.
    - intros i s1 Hi [Hu Hz]. apply wp_wr.
      + rewrite (proj1 Hu). lia.
      + apply inW_small; lia.
      + intros s2 H2. split.
        * eapply unch_trans; [exact Hu|]. apply (upd_unch _ _ _ _ _ _ H2). split; [reflexivity|lia].
        * intros c Hc. destruct (Z.eq_dec c i) as [->|Hne]; [apply (upd_at _ _ _ _ _ H2)|].
          rewrite (upd_other _ _ _ _ _ _ _ H2) by (right; lia). apply Hz. lia. }
  intros s1 [Hu1 Hz1]. cbn beta.
  eapply wp_mono.
  { apply (wp_for_up (fun i s2 => unch (reg C k) s s2 /\ forall c, 0 <= c < k -> ga s2 (sp C) (off C + c) = Some (cnt (fun j => t j =? c) 0 i))).
    - lia.
    - split; [exact Hu1|]. intros c Hc. rewrite Hz1 by lia. rewrite cnt_nil by lia. reflexivity.
    - intros i s2 Hi [Hu Hc].
      wpb. apply wp_chr; [eapply txt_unch; eassumption|lia|]. pose proof (tr i Hi).
      wpb. eapply wp_rd; [apply Hc; lia|].
      apply wp_wr.
      + rewrite (proj1 Hu). lia.
      + apply inW_small. pose proof (cnt_range (fun j => t j =? t i) i 0). lia.
      + intros s3 H3. split.
        * eapply unch_trans; [exact Hu|]. apply (upd_unch _ _ _ _ _ _ H3). split; [reflexivity|lia].
        * intros c Hc2. rewrite cnt_snoc by lia. destruct (Z.eqb_spec (t i) c) as [He|He].
          -- rewrite <- He. apply (upd_at _ _ _ _ _ H3).
          -- rewrite (upd_other _ _ _ _ _ _ _ H3) by (right; lia). rewrite Hc by lia. f_equal; lia. }
  intros s2 H2. exact H2.
Qed.

Lemma startc_succ c : startc t n (c + 1) = startc t n c + occ c.
Proof. unfold startc, occ. apply cnt_disj; intros; lia. Qed.
Lemma endc_startc_succ c : endc t n c = startc t n (c + 1).
Proof. unfold endc, startc. apply cnt_ext; intros; lia. Qed.
Lemma startc_zero : startc t n 0 = 0.
Proof. unfold startc. apply cnt_false. intros i Hi. pose proof (tr i Hi). lia. Qed.
Lemma startc_le_n c : startc t n c <= n.
Proof. unfold startc. pose proof (cnt_range (fun i => t i <? c) n 0). lia. Qed.

Definition pdisj (p q : ptr) : Prop := sp p <> sp q \/ off p + k <= off q \/ off q + k <= off p.

Lemma get_buckets_ok s C B (e : bool) : inalloc s C -> inalloc s B -> (C = B \/ pdisj C B) ->
  (forall c, 0 <= c < k -> ga s (sp C) (off C + c) = Some (occ c)) ->
  wp (get_buckets W s C B k e) (fun s' => unch (reg B k) s s' /\
     forall c, 0 <= c < k -> ga s' (sp B) (off B + c) = Some (if e then endc t n c else startc t n c)).
Proof.
  intros [Ha1 Ha2] [Hb1 Hb2] Hd Hc. unfold get_buckets.
  eapply wp_bind_mono.
  { apply (wp_for_up (fun i x => unch (reg B k) s (fst x) /\ snd x = startc t n i /\
       (forall c, i <= c < k -> ga (fst x) (sp C) (off C + c) = Some (occ c)) /\
       forall c, 0 <= c < i -> ga (fst x) (sp B) (off B + c) = Some (if e then endc t n c else startc t n c))).
    - lia.
    - cbn [fst snd]. split; [apply unch_refl|]. split; [rewrite startc_zero; reflexivity|]. split; [intros; apply Hc; lia|intros; lia].
    - intros i [s1 sum] Hi (Hu & Hsum & HC & HB). cbn [fst snd] in *. subst sum.
      wpb. eapply wp_rd; [apply HC; lia|].
      wpb. apply wp_wr.
      + rewrite (proj1 Hu). lia.
      + apply inW_small. pose proof (startc_nonneg t n i). pose proof (startc_le_n (i + 1)). rewrite startc_succ in H0.
        pose proof (occ_range i). destruct e; lia.
      + intros s2 H2. cbn [wp fst snd]. split; [|split; [|split]].
        * eapply unch_trans; [exact Hu|]. apply (upd_unch _ _ _ _ _ _ H2). split; [reflexivity|lia].
        * rewrite startc_succ. reflexivity.
        * intros c Hc2. rewrite (upd_other _ _ _ _ _ _ _ H2); [apply HC; lia|].
          destruct Hd as [->|[Hd|Hd]]; [right; lia|left; assumption|right; lia].
        * intros c Hc2. destruct (Z.eq_dec c i) as [->|Hne].
          -- rewrite (upd_at _ _ _ _ _ H2). f_equal. rewrite endc_startc_succ, startc_succ. destruct e; lia.
          -- rewrite (upd_other _ _ _ _ _ _ _ H2) by (right; lia). apply HB. lia. }
  intros [s1 sum] (Hu & _ & _ & HB). cbn [fst] in *. cbn [wp]. auto.
Qed.

(** rule for the right-to-left LMS scan *)
Lemma wp_lms_scan {A} (chrf : A -> Z -> res Z) (f : Z -> Z -> A -> res A) (I : Z -> A -> Prop) a :
  (forall x a i, I x a -> 0 <= i < n -> chrf a i = Ok (t i)) ->
  (forall x a, LMS t n x = true -> I (x + 1) a -> wp (f (x - 1) (t x) a) (I x)) ->
  (forall x a, 0 <= x < n -> LMS t n x = false -> I (x + 1) a -> I x a) ->
  I n a -> wp (lms_scan chrf n f a) (I 0).
Proof.
  intros Hchr Hf Hskip Ha. unfold lms_scan.
  rewrite (Hchr n a (n - 1) Ha) by lia. cbn [bind].
  eapply wp_bind_mono.
  { apply (wp_for_down (fun i x => let '(a, c, c1) := x in
      I (i + 2) a /\ c = (if isS t n (i + 1) then 1 else 0) /\ c1 = t (i + 1))).
    - lia.
    - replace (n - 2 + 2) with n by lia. replace (n - 2 + 1) with (n - 1) by lia. rewrite isS_last. auto.
    - intros i [[a1 c] c1] Hi (Ha1 & Hc & Hc1). subst c c1.
      rewrite (Hchr _ a1 i Ha1) by lia. cbn [bind].
      replace (i - 1 + 2) with (i + 1) by lia. replace (i - 1 + 1) with i by lia.
      replace (i + 2) with (i + 1 + 1) in Ha1 by lia.
      assert (HLMS : LMS t n (i + 1) = isS t n (i + 1) && negb (isS t n i)).
      { unfold LMS. replace (i + 1 - 1) with i by lia. lia. }
      assert (HS : isS t n i = (t i <? t (i + 1) + (if isS t n (i + 1) then 1 else 0))).
      { rewrite isS_step by lia. destruct (isS t n (i + 1)); lia. }
      rewrite <- HS. destruct (isS t n i) eqn:HSi.
      + cbn [wp]. split; [|auto]. apply Hskip; [lia| |assumption]. rewrite HLMS. lia.
      + destruct (isS t n (i + 1)) eqn:HS1; cbn [Z.eqb negb].
        * wpb. eapply wp_mono.
          { replace i with (i + 1 - 1) at 1 by lia. apply Hf; [rewrite HLMS; reflexivity|assumption]. }
          intros a2 Ha2. cbn [wp]. auto.
        * cbn [wp]. split; [|auto]. apply Hskip; [lia| |assumption]. rewrite HLMS. reflexivity. }
  intros [[a1 c] c1] (Ha1 & _). cbn [wp]. apply Hskip; [lia|unfold LMS; lia|exact Ha1].
Qed.
End Level.
End W.
