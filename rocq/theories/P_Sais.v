(** sais (M_Sais) computes the suffix array, for every cell width W. *)
From Verif Require Import Base M_PackedArray M_Sais Count Spec Text Induced Keys P_SaisMem P_SaisInduce P_SaisStages.
From Coq Require Import ZifyBool.
Open Scope Z_scope.

Section Sais.
Context (E : env) (W : Z) (HW : 1 <= W) (HW64 : W <= 64).

Section Level.
Context (T : text) (t : Z -> Z) (n k fs : Z).
Context (Hn : 1 <= n) (Hk : 1 <= k) (HnW : n < 2 ^ (W - 1)) (Hfs : 0 <= fs).
Context (tr : forall i, 0 <= i < n -> 0 <= t i < k).
Context (HkL : k <= 2 ^ (lw W - 1)).
Context (Htok : match T with TPack _ _ => True | TCells b => n + fs <= b end).
Notation chr := (chr E W).
Notation txt := (txt E W T t n).
Notation isS := (isS t n).
Notation LMS := (LMS t n).
Notation slt := (slt t n).
Notation m := (cnt LMS 0 n).

(** the window of SA and its spare cells; the other block is free *)
Definition win : region := fun p x => p = InTmp \/ (0 <= x < n + fs).
(** like [unch win] but the separate block may be replaced *)
Definition inwin (s s' : st) : Prop :=
  alen (mem s') = alen (mem s) /\ forall x, ~ 0 <= x < n + fs -> av (mem s') x = av (mem s) x.
Lemma inwin_refl s : inwin s s.
Proof. split; auto. Qed.
Lemma inwin_trans s1 s2 s3 : inwin s1 s2 -> inwin s2 s3 -> inwin s1 s3.
Proof. intros [A1 B1] [A2 B2]. split; [lia|]. intros x Hx. rewrite B2, B1 by assumption. reflexivity. Qed.
Lemma unch_inwin (R : region) s s' : (forall x, R InMem x -> 0 <= x < n + fs) -> unch R s s' -> inwin s s'.
Proof.
  intros HR [Hl Hu]. split; [apply (Hl InMem)|]. intros x Hx. apply (Hu InMem x). intros Hr. apply Hx, HR, Hr.
Qed.
Lemma txt_inwin s s' : inwin s s' -> txt s -> txt s'.
Proof.
  intros [Hl Hu] Ht i Hi. specialize (Ht i Hi). unfold M_Sais.chr in *. destruct T as [w cs|b]; [exact Ht|].
  destruct (rd s (mkptr InMem b) i) as [v|] eqn:Hr; [|discriminate].
  apply rd_inv in Hr. cbn [sp off ga] in Hr.
  rewrite (rd_ok s' (mkptr InMem b) i v); [exact Ht|]. cbn [sp off ga]. rewrite Hu; [exact Hr|]. lia.
Qed.
Lemma tsafe_win (R : region) : (forall x, R InMem x -> 0 <= x < n + fs) -> tsafe T n R.
Proof. intros H. unfold tsafe. destruct T; [trivial|]. intros x Hx Hr. specialize (H x Hr). lia. Qed.
Lemma regSA_win x : reg SA n InMem x -> 0 <= x < n + fs.
Proof. intros [_ H]. cbn [off SA] in H. lia. Qed.

Definition cells (s : st) (lo hi : Z) (g : Z -> Z) : Prop := forall x, lo <= x < hi -> ga s InMem x = Some (g x).

Lemma choose_ok s : n + fs <= alen (mem s) -> txt s ->
  let '(s1, C, B) := choose_buckets s n k fs in
  mem s1 = mem s /\ bok n k s1 C B /\ (forall x, RR n k C B InMem x -> 0 <= x < n + fs).
Proof.
  intros Ha Ht. unfold choose_buckets. destruct (Z.leb_spec k fs) as [H1|H1]; [destruct (Z.leb_spec k (fs - k)) as [H2|H2]|].
  - split; [reflexivity|]. split.
    + split; [split; cbn [sp off sl]; lia|]. split; [split; cbn [sp off sl]; lia|].
      split; [right; right; cbn [off]; lia|]. cbn [off]. split; intros; lia.
    + intros x [[_ H]|[[_ H]|[_ H]]]; cbn [off SA] in H; lia.
  - split; [reflexivity|]. split.
    + split; [split; cbn [sp off sl]; lia|]. split; [split; cbn [sp off sl]; lia|].
      split; [left; reflexivity|]. cbn [off]. split; intros; lia.
    + intros x [[_ H]|[[_ H]|[_ H]]]; cbn [off SA] in H; lia.
  - split; [reflexivity|]. split.
    + split; [split; cbn [sp off sl tmp]; rewrite ?alen_new; lia|]. split; [split; cbn [sp off sl tmp]; rewrite ?alen_new; lia|].
      split; [left; reflexivity|]. cbn [sp]. split; discriminate.
    + intros x [[_ H]|[[H _]|[H _]]]; [cbn [off SA] in H; lia|discriminate|discriminate].
Qed.

Lemma delete_mem s : mem (delete_buckets s k fs) = mem s.
Proof. unfold delete_buckets. destruct (fs <? k); reflexivity. Qed.
Lemma delete_ga s x : ga (delete_buckets s k fs) InMem x = ga s InMem x.
Proof. cbn [ga]. rewrite delete_mem. reflexivity. Qed.
Lemma delete_inwin s : inwin s (delete_buckets s k fs).
Proof. split; [rewrite delete_mem|intros; rewrite delete_mem]; reflexivity. Qed.

(** zero SA[lo..n), whatever it contained *)
Lemma zero_init_ok s lo : 0 <= lo <= n -> n <= alen (mem s) ->
  wp (zero_range W s lo n) (fun s' => unch (reg (mkptr InMem lo) (n - lo)) s s' /\ cells s' lo n (fun _ => 0)).
Proof.
  intros Hlo Ha. unfold zero_range.
  apply (wp_for_up (fun i s' => unch (reg (mkptr InMem lo) (n - lo)) s s' /\ cells s' lo i (fun _ => 0))).
  - lia.
  - split; [apply unch_refl|]. intros x Hx; lia.
  - intros i s1 Hi [Hu Hc]. apply wp_wr; [assumption| | |].
    + cbn [sp off SA]. rewrite (proj1 Hu). cbn [sl]. lia.
    + apply (inW_small W HW n HnW). lia.
    + intros s2 H2. split.
      * eapply unch_trans; [exact Hu|]. apply (upd_unch _ _ _ _ _ _ H2). split; [reflexivity|cbn [off SA]; lia].
      * intros x Hx. destruct (Z.eq_dec x i) as [->|]; [apply (upd_at _ _ _ _ _ H2)|].
        rewrite (upd_other _ _ _ _ _ _ _ H2) by (right; cbn [off SA]; lia). apply Hc. lia.
Qed.

(** * Stage 1: insertion *)
Lemma pos0_key e : LMS e = true -> pos0 t n (lt10 t) e = endc t n (t e) - 1 - cnt (fun f => LMS f && (t f =? t e)) (e + 1) n.
Proof.
  intros He. pose proof (LMS_bound t n e He). unfold pos0. f_equal. rewrite (cnt_split _ (e + 1)) by lia.
  rewrite cnt_false.
  - apply cnt_ext. intros f Hf. unfold lt10. lia.
  - intros f Hf. unfold lt10. lia.
Qed.

Lemma insert_ok B s0 s : inalloc k s0 B -> (sp B = InMem -> n <= off B) -> n <= alen (mem s0) ->
  tsafe T n (runion (reg SA n) (reg B k)) -> txt s0 ->
  stt n k B s0 s (fun _ => 0) (endc t n) ->
  wp (lms_scan (fun s i => chr64 E W s T i) n (fun i c1 s =>
         b <- rd s B c1 ;; s <- wr W s B c1 (b - 1) ;; wr W s SA (b - 1) (i + 1)) s)
   (fun s' => exists sa bb, stt n k B s0 s' sa bb /\
     (forall e, LMS e = true -> sa (pos0 t n (lt10 t) e) = e) /\
     (forall p, 0 <= p < n -> (forall e, LMS e = true -> pos0 t n (lt10 t) e <> p) -> sa p = 0)).
Proof.
  intros HB HBn Ha Hts Ht0 Hs.
  eapply wp_mono.
  { apply (wp_lms_scan W t n Hn (fun (s : st) i => chr64 E W s T i) _ (fun x s1 => exists sa bb, stt n k B s0 s1 sa bb /\
      (forall c, 0 <= c < k -> bb c = endc t n c - cnt (fun f => LMS f && (t f =? c)) x n) /\
      (forall e, LMS e = true -> x <= e -> sa (pos0 t n (lt10 t) e) = e) /\
      (forall p, 0 <= p < n -> (forall e, LMS e = true -> x <= e -> pos0 t n (lt10 t) e <> p) -> sa p = 0))).
    - intros x s1 i (sa & bb & Hs1 & _) Hi. eapply stt_chr64; eassumption.
    - intros x s1 HL (sa & bb & Hs1 & Hbb & Hsa & Hz). pose proof (LMS_bound t n x HL). pose proof (tr x ltac:(lia)) as Htx.
      rewrite (stt_rdB n k B s0 s1 sa bb (t x)) by assumption. cbn [bind]. rewrite Hbb by assumption.
      replace (endc t n (t x) - cnt (fun f => LMS f && (t f =? t x)) (x + 1) n - 1) with (pos0 t n (lt10 t) x) by (rewrite pos0_key by assumption; lia).
      pose proof (pos0_rng W HW t n Hn _ _ (key_indord t n) x HL) as Hpr.
      destruct (stt_wrB W HW n k B s0 HB HBn s1 sa bb (t x) (pos0 t n (lt10 t) x) Hs1 Htx) as (s2 & -> & Hs2); [apply (inW_small W HW n HnW); lia|].
      cbn [bind]. replace (x - 1 + 1) with x by lia.
      destruct (stt_wrSA W HW n k B s0 HBn Ha s2 sa _ (pos0 t n (lt10 t) x) x Hs2) as (s3 & -> & Hs3); [assumption|apply (inW_small W HW n HnW); lia|].
      cbn [wp]. exists (fupd sa (pos0 t n (lt10 t) x) x), (fupd bb (t x) (pos0 t n (lt10 t) x)). split; [assumption|]. split; [|split].
      + intros c Hc. rewrite (cnt_cons _ x) by lia. rewrite HL. destruct (Z.eq_dec c (t x)) as [->|Hne].
        * rewrite fupd_same, pos0_key by assumption. rewrite Z.eqb_refl. cbn [andb]. lia.
        * rewrite fupd_other by assumption. rewrite Hbb by assumption. replace (t x =? c) with false by lia. cbn [andb]. lia.
      + intros e He Hx. destruct (Z.eq_dec e x) as [->|Hne]; [apply fupd_same|].
        rewrite fupd_other; [apply Hsa; [assumption|lia]|]. intros Hc. apply (pos0_inj t n _ _ (key_indord t n)) in Hc; try assumption. contradiction.
      + intros p Hp Hno. rewrite fupd_other; [|intros ->; apply (Hno x); [assumption|lia|reflexivity]].
        apply Hz; [assumption|]. intros e He Hx. apply Hno; [assumption|lia].
    - intros x s1 Hx HL (sa & bb & Hs1 & Hbb & Hsa & Hz). exists sa, bb. split; [assumption|]. split; [|split].
      + intros c Hc. rewrite (cnt_cons _ x) by lia. rewrite HL. rewrite Hbb by assumption. cbn [andb]. lia.
      + intros e He Hxe. apply Hsa; [assumption|]. destruct (Z.eq_dec e x); [congruence|lia].
      + intros p Hp Hno. apply Hz; [assumption|]. intros e He Hxe. apply Hno; [assumption|lia].
    - exists (fun _ => 0), (endc t n). split; [assumption|]. split; [|split].
      + intros c Hc. rewrite cnt_nil by lia. lia.
      + intros e He Hx. apply LMS_bound in He. lia.
      + auto. }
  intros s1 (sa & bb & Hs1 & _ & Hsa & Hz). exists sa, bb. split; [assumption|]. split.
  - intros e He. apply LMS_bound in He as Hb. apply Hsa; [assumption|lia].
  - intros p Hp Hno. apply Hz; [assumption|]. intros e He _. apply Hno. assumption.
Qed.

Definition stage1_post (s : st) (r : st * Z * Z) : Prop :=
  let '(s', m', name) := r in
  m' = m /\ inwin s s' /\ exists so sa, sorted t n (lt1 t n) so /\ sacells n s' sa /\
   name = nm t n so (m - 1) /\ (forall x, 0 <= x < m -> sa x = so x) /\
   upper t n (fun _ => true) (fun e => N t n so e + 1) sa.

(** buckets set up (ends) and SA[lo..n) zeroed *)
Lemma prep_ok s C B lo : n + fs <= alen (mem s) -> txt s -> bok n k s C B ->
  (forall x, RR n k C B InMem x -> 0 <= x < n + fs) -> 0 <= lo <= n ->
  wp (s <- get_counts E W s T C n k ;; s <- get_buckets W s C B k true ;; zero_range W s lo n)
   (fun s' => unch (runion (reg (mkptr InMem lo) (n - lo)) (runion (reg C k) (reg B k))) s s' /\ hasC t n k s' C B /\ cells s' lo n (fun _ => 0) /\
     forall c, 0 <= c < k -> ga s' (sp B) (off B + c) = Some (endc t n c)).
Proof.
  intros Ha Ht Hb HR Hlo.
  assert (HtsC : tsafe T n (reg C k)) by (apply tsafe_win; intros x H; apply HR; right; left; assumption).
  eapply wp_bind_mono; [apply (get_counts_ok E W HW T t n k); try assumption; apply Hb|].
  intros s1 [Hu1 HC1]. cbn beta. pose proof (bok_unch n k _ _ _ _ _ Hu1 Hb) as Hb1.
  eapply wp_bind_mono; [apply (get_buckets_ok W HW t n k Hn Hk HnW tr s1 C B true (proj1 Hb1) (proj1 (proj2 Hb1)) (proj1 (proj2 (proj2 Hb1))) HC1)|].
  intros s2 [Hu2 HB2]. cbn beta in *.
  eapply wp_mono; [apply zero_init_ok|].
  - assumption.
  - pose proof (proj1 Hu2 InMem) as L2; pose proof (proj1 Hu1 InMem) as L1; cbn [sl] in *; lia.
  - intros s3 [Hu3 Hz3]. destruct Hb as (HbC & HbB & Hd & HCn & HBn).
    assert (Hoff : forall p c, (sp p = InMem -> n <= off p) -> 0 <= c < k -> ga s3 (sp p) (off p + c) = ga s2 (sp p) (off p + c)).
    { intros p c Hp Hc. apply (proj2 Hu3). intros [He Hx]. cbn [sp off] in *. specialize (Hp He). lia. }
    split; [|split; [|split]].
    + eapply unch_trans; [eapply unch_mono; [|exact Hu1]; intros p x H; right; left; exact H|].
      eapply unch_trans; [eapply unch_mono; [|exact Hu2]; intros p x H; right; right; exact H|].
      eapply unch_mono; [|exact Hu3]; intros p x H; left; exact H.
    + intros Hne c Hc. rewrite Hoff by assumption. rewrite (proj2 Hu2); [apply HC1; assumption|].
      intros [He Hx]. destruct Hd as [Hd|[Hd|Hd]]; [contradiction|congruence|lia].
    + assumption.
    + intros c Hc. rewrite Hoff by assumption. apply HB2. assumption.
Qed.
Lemma stage1_ok s : n + fs <= alen (mem s) -> txt s -> wp (stage1 E W s T fs n k) (stage1_post s).
Proof.
  intros Ha Ht. unfold stage1. pose proof (choose_ok s Ha Ht) as Hch. destruct (choose_buckets s n k fs) as [[s1 C] B].
  destruct Hch as (Hm1 & Hb & HR).
  assert (Ht1 : txt s1) by (apply (txt_inwin s); [split; [rewrite Hm1|intros; rewrite Hm1]; reflexivity|assumption]).
  assert (Hassoc : forall (A1 B1 C1 : Type) (mm : res A1) (f : A1 -> res B1) (g : B1 -> res C1),
     bind mm (fun x => bind (f x) g) = bind (bind mm f) g) by (intros A1 B1 C1 [] f g; reflexivity).
  assert (Hin01 : inwin s s1) by (split; [rewrite Hm1|intros; rewrite Hm1]; reflexivity).
  pose proof (LMS_half t n Hn) as Hhalf. assert (Hm0 : 0 <= m) by apply cnt_nonneg.
  pose proof (prep_ok s1 C B 0 ltac:(rewrite Hm1; assumption) Ht1 Hb HR ltac:(lia)) as Hprep.
  destruct (wp_inv _ _ Hprep) as (s2 & Heq & Hu2 & HC2 & Hz2 & HB2). clear Hprep.
  rewrite Hassoc, Hassoc. rewrite <- (Hassoc _ _ _ (get_counts E W s1 T C n k)). rewrite Heq. clear Heq. cbn [bind].
  pose proof (bok_unch n k _ _ _ _ _ Hu2 Hb) as Hb2.
  assert (Hin12 : inwin s1 s2).
  { eapply unch_inwin; [|exact Hu2]. intros x [[_ H]|H]; [cbn [off] in H; lia|]. apply HR. right. exact H. }
  assert (Ht2 : txt s2) by (eapply txt_inwin; eassumption).
  assert (Ha2 : n + fs <= alen (mem s2)) by (destruct Hin12 as [-> _]; rewrite Hm1; assumption).
  assert (HRB : forall x, runion (reg SA n) (reg B k) InMem x -> 0 <= x < n + fs).
  { intros x [H|H]; apply HR; [left|right; right]; exact H. }
  eapply wp_bind_mono.
  { apply (insert_ok B s2 s2); [apply Hb2|apply Hb2|lia|apply tsafe_win; exact HRB|assumption|].
    split; [apply unch_refl|]. split; [exact Hz2|exact HB2]. }
  intros s3 (sa3 & bb3 & Hs3 & Hl3 & Hz3). cbn beta.
  assert (Hu23 : unch (runion (reg SA n) (reg B k)) s2 s3) by apply Hs3.
  assert (Hin23 : inwin s2 s3) by (eapply unch_inwin; [|eassumption]; assumption).
  assert (Ht3 : txt s3) by (eapply txt_inwin; eassumption).
  assert (Ha3 : n + fs <= alen (mem s3)) by (destruct Hin23 as [-> _]; assumption).
  eapply wp_bind_mono.
  { apply (induce_SA_ok E W HW T t n k Hn Hk HnW tr HkL _ _ (key_indord t n) s3 C B sa3).
    - eapply bok_unch; eassumption.
    - apply tsafe_win. exact HR.
    - assumption.
    - eapply (stt_hasC W HW); eassumption.
    - lia.
    - exact (proj1 (proj2 Hs3)).
    - assumption.
    - assumption. }
  intros s4' (Hu4 & sa4 & Hs4' & Hr4). cbn beta zeta.
  assert (Hin34 : inwin s3 (delete_buckets s4' k fs)).
  { eapply inwin_trans; [eapply unch_inwin; [|eassumption]; assumption|apply delete_inwin]. }
  assert (Hs4 : sacells n (delete_buckets s4' k fs) sa4) by (intros x Hx; rewrite delete_ga; apply Hs4'; exact Hx).
  clear Hs4'. set (s4 := delete_buckets s4' k fs) in *. clearbody s4.
  assert (Ht4 : txt s4) by (eapply txt_inwin; eassumption).
  assert (Ha4 : n <= alen (mem s4)) by (destruct Hin34 as [-> _]; lia).
  assert (HtsSA : tsafe T n (reg SA n)) by (apply tsafe_win, regSA_win).
  assert (Hsav4 : sav n s4 s4 sa4) by (split; [apply unch_refl|assumption]).
  eapply wp_bind_mono; [apply (compact_ok E W HW T t n k Hn HnW tr HkL s4 Ha4 HtsSA Ht4 _ _ (key_indord t n) s4 sa4 Hsav4 Hr4)|].
  intros [s5 m5] (Hm5 & so & Hs5 & Hso). cbn [fst snd] in *. subst m5.
  eapply wp_bind_mono; [apply (zero_range_ok W HW n Hn HnW s4 Ha4 s5 so m Hs5); lia|].
  intros s6 Hs6. cbn beta.
  assert (Hidx : forall e, LMS e = true -> 0 <= idx t n (lt1 t n) e < m).
  { intros e He. apply (idx_range 0 t n (lt1 t n) (l1irr 0 t n) e He). }
  eapply wp_bind_mono.
  { apply (lengths_ok E W HW T t n k Hn HnW tr HkL s4 Ha4 HtsSA Ht4 s6 _ (lt1 t n) Hs6).
    - intros e He. specialize (Hidx e He). replace (m <=? idx t n (lt1 t n) e) with false by lia. apply Hso. assumption.
    - intros x Hx. replace (m <=? x) with true by lia. reflexivity.
    - assumption. }
  intros [s7 j7] (sa7 & Hs7 & Hso7 & Hup7). cbn [fst snd] in *.
  eapply wp_bind_mono.
  { apply (name_ok E W HW T t n Hn HnW s4 Ha4 HtsSA Ht4 sa7 Hso7 s7 sa7 Hs7); [reflexivity|assumption]. }
  intros [s8 name] (Hname & sa8 & Hs8 & Hlow & Hup8). cbn [fst snd wp stage1_post] in *.
  split; [reflexivity|]. split.
  - eapply inwin_trans; [exact Hin01|]. eapply inwin_trans; [exact Hin12|]. eapply inwin_trans; [exact Hin23|].
    eapply inwin_trans; [exact Hin34|]. eapply unch_inwin; [apply regSA_win|apply Hs8].
  - exists sa7, sa8. split; [assumption|]. split; [apply Hs8|]. split; [assumption|]. split; [assumption|]. exact Hup8.
Qed.

(** * Stage 3 *)
Lemma slirr : forall i, LMS i = true -> slt i i = false.
Proof. intros; apply slt_irr. Qed.
Lemma sltrans : forall i j k, LMS i = true -> LMS j = true -> LMS k = true -> slt i j = true -> slt j k = true -> slt i k = true.
Proof. intros i j l _ _ _. apply slt_trans. Qed.
Lemma sltot : forall i j, LMS i = true -> LMS j = true -> i <> j -> slt i j = true \/ slt j i = true.
Proof. intros i j Hi Hj. apply LMS_bound in Hi, Hj. apply slt_total; lia. Qed.

Lemma pos0_mono e f : LMS e = true -> LMS f = true -> slt e f = true -> pos0 t n slt e < pos0 t n slt f.
Proof.
  intros He Hf H. apply LMS_bound in He as Be. apply LMS_bound in Hf as Bf.
  destruct (Z.lt_trichotomy (t e) (t f)) as [Hc|[Hc|Hc]].
  - pose proof (pos0_range t n _ _ (suf_indord t n) e He). pose proof (pos0_range t n _ _ (suf_indord t n) f Hf).
    pose proof (endc_startc t n _ _ Hc). pose proof (endc_split t n (t f)). pose proof (nL_nonneg t n (t f)). lia.
  - apply (pos0_lt t n _ _ (suf_indord t n)); assumption.
  - rewrite slt_step in H by lia. lia.
Qed.
Lemma pos0_ge so : sorted t n slt so -> forall d : nat, Z.of_nat d < m -> Z.of_nat d <= pos0 t n slt (so (Z.of_nat d)).
Proof.
  intros Hso. induction d as [|d IH]; intros Hd.
  - destruct (so_spec t n slt slirr sltrans sltot so Hso 0 ltac:(lia)) as [HL _].
    pose proof (pos0_rng W HW t n Hn _ _ (suf_indord t n) _ HL). cbn. lia.
  - destruct (so_spec t n slt slirr sltrans sltot so Hso (Z.of_nat d) ltac:(lia)) as [HL1 _].
    destruct (so_spec t n slt slirr sltrans sltot so Hso (Z.of_nat (S d)) ltac:(lia)) as [HL2 _].
    pose proof (pos0_mono _ _ HL1 HL2 (so_lt W HW t n slt slirr sltrans sltot so Hso (Z.of_nat d) (Z.of_nat (S d)) ltac:(lia) ltac:(lia))).
    specialize (IH ltac:(lia)). lia.
Qed.

Definition placed (so : Z -> Z) (i c : Z) : Z := cnt (fun f => LMS f && (t f =? c) && (i <? idx t n slt f)) 0 n.
Lemma placed_pos so i : sorted t n slt so -> 0 <= i < m ->
  pos0 t n slt (so i) = endc t n (t (so i)) - 1 - placed so i (t (so i)).
Proof.
  intros Hso Hi. destruct (so_spec t n slt slirr sltrans sltot so Hso i Hi) as [HL Hx]. unfold pos0, placed. f_equal.
  apply cnt_ext. intros f Hf. destruct (LMS f) eqn:HLf; [|reflexivity]. destruct (t f =? t (so i)); [|reflexivity]. cbn [andb].
  pose proof (idx_lt 0 t n slt slirr sltrans sltot (so i) f HL HLf) as H. rewrite Hx in H. lia.
Qed.
Lemma placed_step so i c : sorted t n slt so -> 0 <= i < m ->
  placed so (i - 1) c = placed so i c + if t (so i) =? c then 1 else 0.
Proof.
  intros Hso Hi. destruct (so_spec t n slt slirr sltrans sltot so Hso i Hi) as [HL Hx]. unfold placed.
  assert (Hne : forall f, LMS f = true -> f <> so i -> idx t n slt f <> i).
  { intros f HLf Hf He. apply Hf. rewrite <- He. symmetry. apply Hso. assumption. }
  destruct (Z.eqb_spec (t (so i)) c) as [Hc|Hc].
  - apply (cnt_add1 _ _ (so i)); [apply LMS_bound in HL; lia|rewrite Hx; lia|].
    intros f Hf. destruct (Z.eqb_spec f (so i)) as [->|Hfi]; [rewrite HL, Hx; lia|].
    destruct (LMS f) eqn:HLf; [|reflexivity]. specialize (Hne f HLf Hfi). lia.
  - rewrite Z.add_0_r. apply cnt_ext. intros f Hf. destruct (LMS f) eqn:HLf; [|reflexivity].
    destruct (Z.eq_dec f (so i)) as [->|Hfi]; [lia|]. specialize (Hne f HLf Hfi). lia.
Qed.
Lemma placed_m so c : placed so (m - 1) c = 0.
Proof.
  unfold placed. apply cnt_false. intros f Hf. destruct (LMS f) eqn:HL; [|reflexivity].
  pose proof (idx_range 0 t n slt slirr f HL). lia.
Qed.

Lemma place_ok B s0 s sa so : inalloc k s0 B -> (sp B = InMem -> n <= off B) -> n <= alen (mem s0) ->
  tsafe T n (runion (reg SA n) (reg B k)) -> txt s0 -> sorted t n slt so ->
  (forall x, 0 <= x < n -> sa x = if x <? m then so x else 0) ->
  stt n k B s0 s sa (endc t n) ->
  wp (for_down (m - 1) 0 (fun i s =>
         j <- rd s SA i ;;
         s <- wr W s SA i 0 ;;
         c <- chr s T j ;;
         b <- rd s B c ;;
         s <- wr W s B c (b - 1) ;;
         wr W s SA (b - 1) j) s)
   (fun s' => exists sa bb, stt n k B s0 s' sa bb /\
     (forall e, LMS e = true -> sa (pos0 t n slt e) = e) /\
     (forall p, 0 <= p < n -> (forall e, LMS e = true -> pos0 t n slt e <> p) -> sa p = 0)).
Proof.
  intros HB HBn Ha Hts Ht0 Hso Hsa Hs. assert (Hm0 : 0 <= m) by apply cnt_nonneg. pose proof (LMS_half t n Hn) as Hhalf.
  eapply wp_mono.
  { apply (wp_for_down (fun i s1 => exists sa bb, stt n k B s0 s1 sa bb /\
      (forall c, 0 <= c < k -> bb c = endc t n c - placed so i c) /\
      (forall x, 0 <= x <= i -> sa x = so x) /\
      (forall x, i < x < m -> sa (pos0 t n slt (so x)) = so x) /\
      (forall p, i < p < n -> (forall x, i < x < m -> pos0 t n slt (so x) <> p) -> sa p = 0))).
    - lia.
    - exists sa, (endc t n). split; [assumption|]. split; [intros; rewrite placed_m; lia|]. split; [|split].
      + intros x Hx. rewrite Hsa by lia. replace (x <? m) with true by lia. reflexivity.
      + intros; lia.
      + intros p Hp _. rewrite Hsa by lia. replace (p <? m) with false by lia. reflexivity.
    - intros i s1 Hi (sa1 & bb1 & Hs1 & Hbb & Hlow & Hdone & Hz).
      destruct (so_spec t n slt slirr sltrans sltot so Hso i ltac:(lia)) as [HL Hx].
      apply LMS_bound in HL as HLb. pose proof (tr (so i) ltac:(lia)) as Htx.
      rewrite (stt_rdSA n k B s0 s1 sa1 bb1 i Hs1) by lia. cbn [bind]. rewrite Hlow by lia.
      destruct (stt_wrSA W HW n k B s0 HBn Ha s1 sa1 bb1 i 0 Hs1) as (s2 & -> & Hs2); [lia|apply (inW_small W HW n HnW); lia|]. cbn [bind].
      rewrite (stt_chr E W T t n k B s0 Hts Ht0 s2 _ _ (so i) Hs2) by lia. cbn [bind].
      rewrite (stt_rdB n k B s0 s2 _ _ (t (so i)) Hs2) by assumption. cbn [bind]. rewrite Hbb by assumption.
      replace (endc t n (t (so i)) - placed so i (t (so i)) - 1) with (pos0 t n slt (so i)) by (rewrite placed_pos by (assumption || lia); lia).
      pose proof (pos0_rng W HW t n Hn _ _ (suf_indord t n) _ HL) as Hpr.
      destruct (stt_wrB W HW n k B s0 HB HBn s2 _ _ (t (so i)) (pos0 t n slt (so i)) Hs2 Htx) as (s3 & -> & Hs3); [apply (inW_small W HW n HnW); lia|]. cbn [bind].
      destruct (stt_wrSA W HW n k B s0 HBn Ha s3 _ _ (pos0 t n slt (so i)) (so i) Hs3) as (s4 & -> & Hs4); [assumption|apply (inW_small W HW n HnW); lia|].
      cbn [wp].
      pose proof (pos0_ge so Hso (Z.to_nat i)) as Hge. rewrite Z2Nat.id in Hge by lia. specialize (Hge ltac:(lia)).
      exists (fupd (fupd sa1 i 0) (pos0 t n slt (so i)) (so i)), (fupd bb1 (t (so i)) (pos0 t n slt (so i))). split; [assumption|].
      assert (Hgt : forall x, i < x < m -> pos0 t n slt (so i) < pos0 t n slt (so x)).
      { intros x Hxi. destruct (so_spec t n slt slirr sltrans sltot so Hso x ltac:(lia)) as [HLx _].
        apply pos0_mono; try assumption. apply (so_lt W HW t n slt slirr sltrans sltot so Hso); lia. }
      split; [|split; [|split]].
      + intros c Hc. rewrite placed_step by (assumption || lia). destruct (Z.eqb_spec (t (so i)) c) as [<-|Hne].
        * rewrite fupd_same, placed_pos by (assumption || lia). lia.
        * rewrite fupd_other by lia. rewrite Hbb by assumption. lia.
      + intros x Hxi. rewrite fupd_other by lia. rewrite fupd_other by lia. apply Hlow. lia.
      + intros x Hxi. destruct (Z.eq_dec x i) as [->|Hne]; [apply fupd_same|]. specialize (Hgt x ltac:(lia)).
        rewrite fupd_other by lia. rewrite fupd_other by lia. apply Hdone. lia.
      + intros p Hp Hno. rewrite fupd_other by (intros Hc; apply (Hno i); [lia|symmetry; exact Hc]).
        destruct (Z.eq_dec p i) as [->|Hpi]; [apply fupd_same|]. rewrite fupd_other by assumption.
        apply Hz; [lia|]. intros x Hxi. apply Hno. lia. }
  intros s1 (sa1 & bb1 & Hs1 & _ & _ & Hdone & Hz). exists sa1, bb1. split; [assumption|]. split.
  - intros e He. pose proof (idx_range 0 t n slt slirr e He). specialize (Hdone (idx t n slt e) ltac:(lia)).
    rewrite (Hso e He) in Hdone. assumption.
  - intros p Hp Hno. apply Hz; [lia|]. intros x Hx. apply Hno. apply (so_spec t n slt slirr sltrans sltot so Hso x). lia.
Qed.

Lemma stage3_ok s so : n + fs <= alen (mem s) -> txt s -> sorted t n slt so -> cells s 0 m so ->
  wp (stage3 E W s T fs n k m) (fun s' => inwin s s' /\ forall j, 0 <= j < n -> ga s' InMem (rk n slt j) = Some j).
Proof.
  intros Ha Ht Hso Hcells. unfold stage3. pose proof (choose_ok s Ha Ht) as Hch. destruct (choose_buckets s n k fs) as [[s1 C] B].
  destruct Hch as (Hm1 & Hb & HR).
  assert (Hin01 : inwin s s1) by (split; [rewrite Hm1|intros; rewrite Hm1]; reflexivity).
  assert (Ht1 : txt s1) by (eapply txt_inwin; eassumption).
  assert (Hassoc : forall (A1 B1 C1 : Type) (mm : res A1) (f : A1 -> res B1) (g : B1 -> res C1),
     bind mm (fun x => bind (f x) g) = bind (bind mm f) g) by (intros A1 B1 C1 [] f g; reflexivity).
  pose proof (LMS_half t n Hn) as Hhalf. assert (Hm0 : 0 <= m) by apply cnt_nonneg.
  pose proof (prep_ok s1 C B m ltac:(rewrite Hm1; assumption) Ht1 Hb HR ltac:(lia)) as Hprep.
  destruct (wp_inv _ _ Hprep) as (s2 & Heq & Hu2 & HC2 & Hz2 & HB2). clear Hprep.
  rewrite Hassoc, Hassoc. rewrite <- (Hassoc _ _ _ (get_counts E W s1 T C n k)). rewrite Heq. clear Heq. cbn [bind].
  pose proof (bok_unch n k _ _ _ _ _ Hu2 Hb) as Hb2.
  assert (Hin12 : inwin s1 s2).
  { eapply unch_inwin; [|exact Hu2]. intros x [[_ H]|H]; [cbn [off] in H; lia|]. apply HR. right. exact H. }
  assert (Ht2 : txt s2) by (eapply txt_inwin; eassumption).
  assert (Ha2 : n + fs <= alen (mem s2)) by (destruct Hin12 as [-> _]; rewrite Hm1; assumption).
  assert (HRB : forall x, runion (reg SA n) (reg B k) InMem x -> 0 <= x < n + fs).
  { intros x [H|H]; apply HR; [left|right; right]; exact H. }
  assert (Hsa2 : sacells n s2 (fun x => if x <? m then so x else 0)).
  { intros x Hx. destruct (Z.ltb_spec x m) as [Hxm|Hxm]; [|apply Hz2; lia].
    rewrite (proj2 Hu2); [cbn [ga]; rewrite Hm1; apply (Hcells x); lia|].
    destruct Hb as (_ & _ & _ & HCn & HBn).
    intros [[_ H]|[[He H]|[He H]]]; [cbn [off] in H; lia|specialize (HCn (eq_sym He)); lia|specialize (HBn (eq_sym He)); lia]. }
  eapply wp_bind_mono.
  { apply (place_ok B s2 s2 (fun x => if x <? m then so x else 0) so); [apply Hb2|apply Hb2|lia|apply tsafe_win; exact HRB|assumption|assumption| |].
    - reflexivity.
    - split; [apply unch_refl|]. split; [exact Hsa2|exact HB2]. }
  intros s3 (sa3 & bb3 & Hs3 & Hl3 & Hz3). cbn beta.
  assert (Hu23 : unch (runion (reg SA n) (reg B k)) s2 s3) by apply Hs3.
  assert (Hin23 : inwin s2 s3) by (eapply unch_inwin; [|eassumption]; assumption).
  assert (Ht3 : txt s3) by (eapply txt_inwin; eassumption).
  assert (Ha3 : n + fs <= alen (mem s3)) by (destruct Hin23 as [-> _]; assumption).
  eapply wp_bind_mono.
  { apply (induce_SA_ok E W HW T t n k Hn Hk HnW tr HkL _ _ (suf_indord t n) s3 C B sa3).
    - eapply bok_unch; eassumption.
    - apply tsafe_win. exact HR.
    - assumption.
    - eapply (stt_hasC W HW); eassumption.
    - lia.
    - exact (proj1 (proj2 Hs3)).
    - assumption.
    - assumption. }
  intros s4 (Hu4 & sa4 & Hs4 & Hr4). cbn [wp]. split.
  - eapply inwin_trans; [exact Hin01|]. eapply inwin_trans; [exact Hin12|]. eapply inwin_trans; [exact Hin23|].
    eapply inwin_trans; [eapply unch_inwin; [|eassumption]; assumption|apply delete_inwin].
  - intros j Hj. rewrite delete_ga, Hs4 by (apply (rk_range t n _ _ (suf_indord t n)); assumption). rewrite Hr4 by assumption. reflexivity.
Qed.

(** * Renaming *)
Definition lix (e : Z) : Z := cnt LMS 0 e.
Lemma lix_range e : LMS e = true -> 0 <= lix e < m.
Proof. intros He. apply LMS_bound in He as Hb. unfold lix. split; [apply cnt_nonneg|]. apply cnt_lt_hi; [lia|assumption]. Qed.
Lemma lix_inj e f : LMS e = true -> LMS f = true -> lix e = lix f -> e = f.
Proof. intros He Hf. apply LMS_bound in He as Hb. apply LMS_bound in Hf as Hb2. apply cnt_inj; (lia || assumption). Qed.

Lemma collect_ok s sa g : n + fs <= alen (mem s) -> sacells n s sa -> upper t n (fun _ => true) (fun e => g e + 1) sa ->
  (forall e, LMS e = true -> 0 <= g e < n) ->
  wp (collect_names W s fs n m) (fun s' => inwin s s' /\ forall e, LMS e = true -> ga s' InMem (n + fs - m + lix e) = Some (g e)).
Proof.
  intros Ha Hs Hup Hg. unfold collect_names. assert (Hm0 : 0 <= m) by apply cnt_nonneg. pose proof (LMS_half t n Hn) as Hhalf.
  eapply wp_bind_mono.
  { apply (wp_for_down (fun i (r : st * Z) => snd r = cnt (fun e => LMS e && (cell t n e <=? i)) 0 n - 1 /\ inwin s (fst r) /\
      (forall x, 0 <= x <= i -> ga (fst r) InMem x = Some (sa x)) /\
      forall e, LMS e = true -> i < cell t n e -> ga (fst r) InMem (n + fs - m + lix e) = Some (g e))).
    - lia.
    - cbn [fst snd]. split; [|split; [apply inwin_refl|split]].
      + f_equal. apply cnt_ext. intros e He. destruct (LMS e) eqn:HL; [|reflexivity]. pose proof (cell_range W HW t n Hn e HL). lia.
      + intros x Hx. apply Hs. lia.
      + intros e He Hc. pose proof (cell_range W HW t n Hn e He). lia.
    - intros i [s1 j] Hi (Hj & Hin & Hlow & Hdone). cbn [fst snd] in *.
      rewrite (rd_ok s1 SA i (sa i)) by (apply (Hlow i); lia). cbn [bind].
      destruct (exists_dec (fun e => LMS e && (cell t n e =? i)) 0 n) as [(e & He & Hc)|Hno].
      + assert (HL : LMS e = true) by lia. assert (Hce : cell t n e = i) by lia.
        assert (Hv : sa i = g e + 1) by (rewrite <- Hce; apply (proj1 Hup); auto).
        specialize (Hg e HL) as Hge. rewrite Hv. replace (g e + 1 =? 0) with false by lia.
        replace (g e + 1 - 1) with (g e) by lia.
        assert (Hjl : j = lix e).
        { rewrite Hj. unfold lix. rewrite (cnt_split _ (e + 1)) by lia. rewrite cnt_snoc by lia.
          rewrite (cnt_ext (fun e0 => LMS e0 && (cell t n e0 <=? i)) LMS 
            e 0). 2: { intros f Hf. destruct (LMS f) eqn:HLf; [|reflexivity]. pose proof (cell_lt W HW t n f e HLf HL ltac:(lia)). lia. }
          rewrite (cnt_false _ (e + 1) n). 2: { intros f Hf. destruct (LMS f) eqn:HLf; [|reflexivity]. pose proof (cell_lt W HW t n e f HL HLf ltac:(lia)). lia. }
          rewrite HL. replace (cell t n e <=? i) with true by lia. cbn [andb]. lia. }
        pose proof (lix_range e HL) as Hlr.
        assert (Haddr : i <= n - m + lix e).
        { assert (Hle : cnt LMS e n <= cnt (fun _ => true) i n).
          { apply (cnt_map_le _ _ (cell t n)).
            - intros f Hf HLf. split; [|reflexivity]. pose proof (cell_range W HW t n Hn f HLf).
              destruct (Z.eq_dec f e) as [->|Hfe]; [lia|]. pose proof (cell_lt W HW t n e f HL HLf ltac:(lia)). lia.
            - intros a b _ _ HLa HLb. apply (cell_inj W HW); assumption. }
          rewrite (cnt_true (fun _ => true)) in Hle by (lia || reflexivity). unfold lix. rewrite (cnt_split LMS e n) by lia. lia. }
        rewrite Hjl. wpb. apply wp_wr; [assumption| |apply (inW_small W HW n HnW); lia|].
        { cbn [sp off sl]. destruct Hin as [-> _]. lia. }
        intros s2 H2. cbn [wp fst snd]. split; [|split; [|split]].
        * rewrite <- Hjl, Hj. f_equal.
          rewrite (cnt_add1 (fun f => LMS f && (cell t n f <=? i - 1)) (fun f => LMS f && (cell t n f <=? i)) e); [lia|lia|lia|].
          intros f Hf. destruct (Z.eqb_spec f e) as [->|Hfe]; [lia|]. destruct (LMS f) eqn:HLf; [|reflexivity].
          assert (cell t n f <> i) by (rewrite <- Hce; intros Hcc; apply (cell_inj W HW) in Hcc; try assumption; contradiction). lia.
        * eapply inwin_trans; [exact Hin|]. eapply unch_inwin; [|apply (upd_unch _ _ _ _ _ (fun _ x => 0 <= x < n + fs) H2); cbn [sp off]; lia]. auto.
        * intros x Hx. rewrite (upd_other _ _ _ _ _ _ _ H2) by (right; cbn [off]; lia). apply Hlow. lia.
        * intros f HLf Hcf. destruct (Z.eq_dec f e) as [->|Hfe]; [apply (upd_at _ _ _ _ _ H2)|].
          rewrite (upd_other _ _ _ _ _ _ _ H2).
          -- apply Hdone; [assumption|]. assert (cell t n f <> i) by (rewrite <- Hce; intros Hcc; apply (cell_inj W HW) in Hcc; try assumption; contradiction). lia.
          -- right. cbn [off]. intros Hcc. apply Hfe. apply lix_inj; try assumption. lia.
      + assert (Hno' : forall e, LMS e = true -> cell t n e <> i).
        { intros e HL Hc. apply LMS_bound in HL as Hb. specialize (Hno e ltac:(lia)). lia. }
        rewrite (proj2 Hup i ltac:(lia)) by (intros e HL _; apply Hno'; assumption).
        cbn [Z.eqb wp fst snd]. split; [|split; [assumption|split]].
        * rewrite Hj. f_equal. apply cnt_ext. intros e He. destruct (LMS e) eqn:HL; [|reflexivity]. specialize (Hno' e HL). lia.
        * intros x Hx. apply Hlow. lia.
        * intros e HL Hc. apply Hdone; [assumption|]. specialize (Hno' e HL). lia. }
  intros [s1 j] (_ & Hin & _ & Hdone). cbn [fst snd wp] in *. split; [assumption|].
  intros e HL. apply Hdone; [assumption|]. pose proof (cell_range W HW t n Hn e HL). lia.
Qed.

Lemma translate_ok s sr : n + fs <= alen (mem s) -> txt s -> cells s 0 m sr -> (forall i, 0 <= i < m -> 0 <= sr i < m) ->
  wp (translate E W s T fs n m) (fun s' => inwin s s' /\ cells s' 0 m (fun i => sel LMS 0 n (sr i))).
Proof.
  intros Ha Ht Hsr Hr. unfold translate. assert (Hm0 : 0 <= m) by apply cnt_nonneg. pose proof (LMS_half t n Hn) as Hhalf.
  eapply wp_bind_mono.
  { apply (wp_lms_scan W t n Hn (fun (x : st * Z) i => chr64 E W (fst x) T i) _ (fun x (r : st * Z) => snd r = cnt LMS 0 x - 1 /\ inwin s (fst r) /\
      cells (fst r) 0 m sr /\ forall e, LMS e = true -> x <= e -> ga (fst r) InMem (n + fs - m + lix e) = Some e)).
    - intros x [s1 j] i (_ & Hin & _) Hi. apply (chr64_txt E W HW T t n k tr HkL _ i (txt_inwin _ _ Hin Ht) Hi).
    - intros x [s1 j] HL (Hj & Hin & Hc & Hd). cbn [fst snd] in *. apply LMS_bound in HL as Hb.
      rewrite cnt_snoc in Hj by lia. rewrite HL in Hj. fold (lix x) in Hj. assert (Hjx : j = lix x) by lia. pose proof (lix_range x HL).
      replace (x - 1 + 1) with x by lia. rewrite Hjx. wpb. apply wp_wr; [assumption| |apply (inW_small W HW n HnW); lia|].
      { cbn [sp off sl]. destruct Hin as [-> _]. lia. }
      intros s2 H2. cbn [wp fst snd]. split; [unfold lix; lia|]. split; [|split].
      + eapply inwin_trans; [exact Hin|]. eapply unch_inwin; [|apply (upd_unch _ _ _ _ _ (fun _ y => 0 <= y < n + fs) H2); cbn [sp off]; lia]. auto.
      + intros y Hy. rewrite (upd_other _ _ _ _ _ _ _ H2) by (right; cbn [off]; lia). apply Hc. assumption.
      + intros f HLf Hf. destruct (Z.eq_dec f x) as [->|Hfx]; [apply (upd_at _ _ _ _ _ H2)|].
        rewrite (upd_other _ _ _ _ _ _ _ H2); [apply Hd; [assumption|lia]|].
        right. cbn [off]. intros Hcc. apply Hfx. apply lix_inj; try assumption. lia.
    - intros x [s1 j] Hx HL (Hj & Hin & Hc & Hd). cbn [fst snd] in *. split; [rewrite Hj, cnt_snoc by lia; rewrite HL; lia|].
      split; [assumption|]. split; [assumption|]. intros e He Hxe. apply Hd; [assumption|]. destruct (Z.eq_dec e x); [congruence|lia].
    - cbn [fst snd]. split; [reflexivity|]. split; [apply inwin_refl|]. split; [assumption|].
      intros e He Hxe. apply LMS_bound in He. lia. }
  intros [s1 j1] (_ & Hin1 & Hc1 & Hd1). cbn [fst snd] in *.
  eapply wp_mono.
  { apply (wp_for_up (fun i s2 => inwin s s2 /\ (forall x, i <= x < m -> ga s2 InMem x = Some (sr x)) /\
      (forall x, 0 <= x < i -> ga s2 InMem x = Some (sel LMS 0 n (sr x))) /\
      forall e, LMS e = true -> ga s2 InMem (n + fs - m + lix e) = Some e)).
    - lia.
    - split; [assumption|]. split; [exact Hc1|]. split; [intros; lia|]. intros e He. apply LMS_bound in He as Hb. apply Hd1; [assumption|lia].
    - intros i s2 Hi (Hin & Hhi & Hlo & Hd). wpb. eapply wp_rd; [cbn [sp off SA]; apply Hhi; lia|].
      destruct (lms_spec t n (sr i) (Hr i Hi)) as [HL Hx]. apply LMS_bound in HL as Hb. fold (lix (sel LMS 0 n (sr i))) in Hx.
      wpb. eapply wp_rd; [cbn [sp off]; pose proof (Hd _ HL) as Hdd; rewrite Hx in Hdd; exact Hdd|].
      apply wp_wr; [assumption| |apply (inW_small W HW n HnW); lia|].
      { cbn [sp off SA sl]. destruct Hin as [-> _]. lia. }
      intros s3 H3. split; [|split; [|split]].
      + eapply inwin_trans; [exact Hin|]. eapply unch_inwin; [|apply (upd_unch _ _ _ _ _ (fun _ y => 0 <= y < n + fs) H3); cbn [sp off SA]; lia]. auto.
      + intros x Hxx. rewrite (upd_other _ _ _ _ _ _ _ H3) by (right; cbn [off SA]; lia). apply Hhi. lia.
      + intros x Hxx. destruct (Z.eq_dec x i) as [->|]; [apply (upd_at _ _ _ _ _ H3)|].
        rewrite (upd_other _ _ _ _ _ _ _ H3) by (right; cbn [off SA]; lia). apply Hlo. lia.
      + intros e He. pose proof (lix_range e He). rewrite (upd_other _ _ _ _ _ _ _ H3) by (right; cbn [off SA]; lia). apply Hd. assumption. }
  intros s2 (Hin & _ & Hlo & _). split; [assumption|]. exact Hlo.
Qed.

(** the suffix array of the names gives the order of the LMS positions *)
Lemma reduced_sorted so (r sr : Z -> Z) : sorted t n (lt1 t n) so ->
  (forall j, 0 <= j < m -> r j = N t n so (sel LMS 0 n j)) ->
  (forall j, 0 <= j < m -> sr (rk m (Text.slt r m) j) = j) ->
  sorted t n slt (fun i => sel LMS 0 n (sr i)).
Proof.
  intros Hso Hr Hsr e He. pose proof (lix_range e He) as Hl. apply LMS_bound in He as Hb.
  assert (Hse : sel LMS 0 n (lix e) = e) by (apply sel_cnt; (lia || assumption)).
  assert (Hidx : idx t n slt e = rk m (Text.slt r m) (lix e)).
  { assert (Hred : forall f, LMS f = true -> Text.slt r m (lix f) (lix e) = slt f e).
    { intros f Hf. pose proof (lix_range f Hf). apply LMS_bound in Hf as Hbf.
      rewrite (reduce_slt t n (N t n so) (N1 W HW t n so Hso) (N2 W HW t n so Hso) r Hr) by lia.
      rewrite Hse. unfold lix at 1. rewrite sel_cnt by (lia || assumption). reflexivity. }
    unfold idx, rank, rk. apply Z.le_antisymm.
    - apply (cnt_map_le _ _ lix).
      + intros f Hf HLf. assert (HLf' : LMS f = true) by lia. pose proof (lix_range f HLf'). split; [lia|]. rewrite Hred by assumption. lia.
      + intros a b Ha Hb2 HLa HLb. apply lix_inj; lia.
    - apply (cnt_map_le _ _ (sel LMS 0 n)).
      + intros i Hi Hs. destruct (lms_spec t n i Hi) as [HL Hx]. apply LMS_bound in HL as Hb2. split; [lia|]. rewrite HL. cbn [andb].
        rewrite <- Hred by assumption. unfold lix at 1. rewrite Hx. assumption.
      + intros a b Ha Hb2 _ _ Heq. destruct (lms_spec t n a Ha) as [_ H1]. destruct (lms_spec t n b Hb2) as [_ H2]. congruence. }
  rewrite Hidx. rewrite Hsr by assumption. assumption.
Qed.
End Level.

(** * The recursive function *)
Theorem sais_ok : forall fuel s T t n k fs,
  n < 2 ^ Z.of_nat fuel -> 1 <= n -> 1 <= k -> n < 2 ^ (W - 1) -> 0 <= fs ->
  (forall i, 0 <= i < n -> 0 <= t i < k) -> k <= 2 ^ (lw W - 1) ->
  match T with TPack _ _ => True | TCells b => n + fs <= b end ->
  n + fs <= alen (mem s) -> txt E W T t n s ->
  wp (sais E W fuel s T fs n k) (fun s' => inwin n fs s s' /\
    forall j, 0 <= j < n -> ga s' InMem (rk n (slt t n) j) = Some j).
Proof.
  induction fuel as [|fuel IH]; intros s T t n k fs Hf Hn Hk HnW Hfs tr HkL Htok Ha Ht; [change (2 ^ Z.of_nat 0) with 1 in Hf; lia|].
  rewrite Nat2Z.inj_succ, Z.pow_succ_r in Hf by lia. cbn [sais]. eapply wp_bind_mono; [apply (stage1_ok T t n k fs Hn Hk HnW Hfs tr HkL Htok s Ha Ht)|].
  intros [[s1 m1] name] (-> & Hin1 & so & sa1 & Hso & Hsa1 & Hname & Hlow & Hup).
  pose proof (LMS_half t n Hn) as Hhalf. assert (Hm0 : 0 <= cnt (LMS t n) 0 n) by apply cnt_nonneg.
  assert (Ha1 : n + fs <= alen (mem s1)) by (destruct Hin1 as [-> _]; assumption).
  assert (Ht1 : txt E W T t n s1) by (eapply txt_inwin; eassumption).
  set (m := cnt (LMS t n) 0 n) in *.
  assert (Hmid : wp (if name <? m then
            s2 <- collect_names W s1 fs n m ;;
            s3 <- sais E W fuel s2 (TCells (n + fs - m)) (fs + n - m * 2) m name ;;
            translate E W s3 T fs n m
          else Ok s1) (fun s' => inwin n fs s s' /\ exists so', sorted t n (slt t n) so' /\ cells s' 0 m so')).
  { destruct (Z.ltb_spec name m) as [Hlt|Hge].
    - assert (HNr : forall e, LMS t n e = true -> 0 <= N t n so e < name) by (intros e He; rewrite Hname; apply (N_range W HW); assumption).
      eapply wp_bind_mono.
      { apply (collect_ok t n fs Hn HnW Hfs s1 sa1 (N t n so) Ha1 Hsa1 Hup). intros e He. specialize (HNr e He). lia. }
      fold m. intros s2 [Hin2 Hra]. cbn beta.
      assert (Ha2 : n + fs <= alen (mem s2)) by (destruct Hin2 as [-> _]; assumption).
      pose (r := fun j => N t n so (sel (LMS t n) 0 n j)).
      assert (Hrr : forall j, 0 <= j < m -> 0 <= r j < name).
      { intros j Hj. destruct (lms_spec t n j Hj) as [HL _]. apply HNr. assumption. }
      assert (Hname0 : 0 <= name) by (rewrite Hname; apply cnt_nonneg).
      assert (Hname1 : 1 <= name) by (specialize (Hrr 0 ltac:(lia)); lia).
      assert (Ht2 : txt E W (TCells (n + fs - m)) r m s2).
      { intros j Hj. destruct (lms_spec t n j Hj) as [HL Hx]. unfold M_Sais.chr.
        specialize (Hra _ HL). unfold lix in Hra. rewrite Hx in Hra.
        rewrite (rd_ok s2 (mkptr InMem (n + fs - m)) j (r j)) by (cbn [sp off]; exact Hra). cbn [bind]. f_equal. apply wrap_small.
        specialize (Hrr j Hj). assert (r j < 2 ^ (W - 1)) by lia.
        destruct (Z.eqb_spec W 32) as [->|_]; [change (2 ^ (32 - 1)) with 2147483648 in *; change (2 ^ 32) with 4294967296; lia|].
        assert (2 ^ (W - 1) <= 2 ^ 64) by (apply Z.pow_le_mono_r; lia). lia. }
      assert (HkL' : name <= 2 ^ (lw W - 1)).
      { assert (2 ^ (W - 1) <= 2 ^ (lw W - 1)); [|lia]. apply Z.pow_le_mono_r; [lia|]. unfold lw. destruct (Z.eqb_spec W 32); lia. }
      eapply wp_bind_mono.
      { apply (IH s2 (TCells (n + fs - m)) r m name (fs + n - m * 2)); try assumption; lia. }
      intros s3 [Hin3 Hsr3]. cbn beta.
      assert (Hin3' : inwin n fs s2 s3).
      { destruct Hin3 as [Hl3 Hu3]. split; [assumption|]. intros x Hx. apply Hu3. lia. }
      assert (Ha3 : n + fs <= alen (mem s3)) by (destruct Hin3' as [-> _]; assumption).
      pose (sr := fun i => sel (fun j => rk m (slt r m) j =? i) 0 m 0).
      assert (Hsr : forall j, 0 <= j < m -> sr (rk m (slt r m) j) = j).
      { intros j Hj. unfold sr. destruct (sel_spec (fun j0 => rk m (slt r m) j0 =? rk m (slt r m) j) m 0 0) as (H1 & H2 & _).
        - split; [lia|]. apply (cnt_pos _ j); [lia|lia].
        - apply (rk_inj r m _ _ (suf_indord r m)); try assumption; try lia. }
      assert (Hsc : cells s3 0 m sr /\ forall i, 0 <= i < m -> 0 <= sr i < m).
      { assert (Hx : forall i, 0 <= i < m -> exists j, 0 <= j < m /\ rk m (slt r m) j = i) by (apply (rk_surj r m _ _ (suf_indord r m))).
        split; intros i Hi; destruct (Hx i Hi) as (j & Hj & <-); rewrite Hsr by assumption; [apply Hsr3; assumption|assumption]. }
      eapply wp_mono.
      { apply (translate_ok T t n k fs Hn HnW Hfs tr HkL Htok s3 sr); [assumption| |apply Hsc|apply Hsc].
        eapply txt_inwin; [exact Htok|exact Hin3'|]. eapply txt_inwin; [exact Htok|exact Hin2|]. assumption. }
      intros s4 [Hin4 Hc4]. split.
      + eapply inwin_trans; [exact Hin1|]. eapply inwin_trans; [exact Hin2|]. eapply inwin_trans; eassumption.
      + exists (fun i => sel (LMS t n) 0 n (sr i)). split; [|exact Hc4].
        apply (reduced_sorted t n so r sr Hso); [reflexivity|exact Hsr].
    - cbn [wp]. split; [assumption|]. exists so. split.
      + apply (names_distinct W HW); [assumption|]. fold m. lia.
      + intros x Hx. rewrite Hsa1 by lia. rewrite Hlow by assumption. reflexivity. }
  eapply wp_bind_mono; [exact Hmid|]. intros s2 (Hin2 & so' & Hso' & Hc2). cbn beta.
  eapply wp_mono.
  { apply (stage3_ok T t n k fs Hn Hk HnW Hfs tr HkL Htok s2 so'); [destruct Hin2 as [-> _]; assumption| |assumption|assumption].
    eapply txt_inwin; eassumption. }
  intros s3 [Hin3 Hr3]. split; [eapply inwin_trans; eassumption|assumption].
Qed.
End Sais.
