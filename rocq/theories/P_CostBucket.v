(** The walks along the hash chains, bounded by the number of different S* substrings in the buckets. *)
From Verif Require Import Base Spec BlockSpec LoadSpec Count Text Keys M_PackedArray M_Queue M_HashTable M_Cells M_Sais M_Split M_Induce M_Flbwt M_SaisCost M_Cost SortSpec
  P_PackedArray P_Bytes P_Cells P_HashTable P_HashTable2 Sums P_Insert P_Buffer P_Extract P_Blocks P_Spec P_Lists P_SplitBranch P_Bridge P_SaisCost P_SaisLinear P_Cost P_CostHash P_CostSort P_CostFlbwt P_CostLower P_Flbwt P_Api.
From Coq Require Import ZifyBool.
Open Scope Z_scope.

(** * One walk: at most one pointer per record *)
Lemma scan_seg_both E h T m p own role hv q l e :
  0 <= NAME_BYTES h <= 8 -> 0 <= m ->
  seg E (NAME_BYTES h) own role (ht_buf h) hv q l e -> 0 < e < 2 ^ 63 -> bget E (ht_buf h) e = Ok 0 ->
  forall fuel, cb ((3 * m + 7) * (2 * zln l + 1)) (cloop fuel (scan_steps1 E h T m p) q) /\
      ((exists s l', l = (q, s) :: l') -> cb ((3 * m + 7) * (2 * zln l)) (cloop fuel (scan_steps1 E h T m p) q)).
Proof.
  intros Hnb Hm Hseg.
  assert (Hnx : forall K q0 q1 fuel, 0 <= K -> (forall c y, scan_steps1 E h T m p q0 = Ok (y, c) -> y = inl q1 \/ exists r, y = inr r) ->
    cb K (cloop fuel (scan_steps1 E h T m p) q1) -> cb (3 * m + 7 + K) (cloop (S fuel) (scan_steps1 E h T m p) q0)).
  { intros K q0 q1 fuel HK Hy Hc. cbn [cloop]. eapply cb_le.
    - eapply (cb_bind 1); [apply cb_tick|intros _]. intros a c Hr. unfold cbind in Hr.
      destruct (scan_steps1 E h T m p q0) as [[y c0]|] eqn:Es; cbn [bind] in Hr; [|discriminate].
      pose proof (b_scan1 E h T m p q0 Hm y c0 Es) as H0. destruct (Hy c0 y eq_refl) as [->|[r ->]].
      + destruct (cloop fuel (scan_steps1 E h T m p) q1) as [[a' c']|] eqn:Er; cbn [bind] in Hr; [|discriminate].
        apply ok_snd in Hr. specialize (Hc a' c' eq_refl). assert (Hx : c <= (3 * m + 6) + K) by lia. exact Hx.
      + cbn [bind cret] in Hr. apply ok_snd in Hr. lia.
    - lia. }
  induction Hseg as [q|q q' l e H H0 H1 H2 H3 IH Hne|q s' l e H H0 H1 H2 IH]; intros He Hz fuel;
    (destruct fuel as [|fuel]; [split; [|intros _]; intros ? ? ?; discriminate|]).
  - split; [|intros (s & l' & HH); discriminate].
    cbn [cloop]. unfold scan_steps1 at 1. cbn zeta. replace (q =? 0) with false by lia. rewrite (get_length_zero _ _ _ Hz).
    intros a c Hc. cbn [cbind tick cret bind] in Hc. change (0 =? 0) with true in Hc. cbv iota in Hc. cbn [cbind tick cret bind] in Hc.
    apply ok_snd in Hc. cbn [length]. lia.
  - pose proof (seg_le _ _ _ _ _ _ _ _ _ (proj1 Hnb) H3).
    destruct (IH He Hz fuel) as [_ IH2]. specialize (IH2 Hne).
    split; [|intros (s & l' & Hl); destruct Hne as (s2 & l2 & Hl2); rewrite Hl2 in Hl; injection Hl as Hq _ _; lia].
    eapply cb_le; [apply (Hnx ((3 * m + 7) * (2 * zln l)) q q' fuel); [apply Z.mul_nonneg_nonneg; lia| |exact IH2]|].
    + intros c y Hs. left. unfold scan_steps1 in Hs. cbn zeta in Hs. replace (q =? 0) with false in Hs by lia.
      rewrite (ptrf_length _ _ _ _ H1) in Hs. cbn [cbind tick cret bind] in Hs. change (2 =? 0) with false in Hs. change (2 =? 2) with true in Hs. cbv iota in Hs.
      rewrite (get_pointer_ok E _ q q') in Hs by (assumption || lia). cbn [cbind tick cret bind] in Hs.
      injection Hs as Hs _. symmetry. exact Hs.
    + rewrite Z.mul_add_distr_l. lia.
  - pose proof (seg_le _ _ _ _ _ _ _ _ _ (proj1 Hnb) H2). pose proof (rsize_pos _ _ (proj1 Hnb) (proj1 (rc_len _ _ _ _ _ H0))).
    pose proof (rc_len _ _ _ _ _ H0) as Hrl.
    assert (Hu : u64 (q + (2 + lenlen (zln s') + zln s' + NAME_BYTES h)) = q + rsize (NAME_BYTES h) (zln s')).
    { unfold rsize in *. unfold u64. rewrite wrap_small by lia. reflexivity. }
    destruct (IH He Hz fuel) as [IH1 _].
    assert (Hc : cb ((3 * m + 7) * (2 * zln ((q, s') :: l))) (cloop (S fuel) (scan_steps1 E h T m p) q)).
    { eapply cb_le; [apply (Hnx ((3 * m + 7) * (2 * zln l + 1)) q (q + rsize (NAME_BYTES h) (zln s')) fuel); [apply Z.mul_nonneg_nonneg; lia| |exact IH1]|].
      - intros c y Hs. unfold scan_steps1 in Hs. cbn zeta in Hs. replace (q =? 0) with false in Hs by lia.
        rewrite (get_length_ok E _ q (zln s')) in Hs by (try lia; apply (rc_lenf _ _ _ _ _ H0)). cbn [cbind tick cret bind] in Hs.
        replace (zln s' =? 0) with false in Hs by lia. replace (zln s' =? 2) with false in Hs by lia.
        rewrite (string_info_ok E h _ q (zln s')) in Hs by (try lia; apply (rc_lenf _ _ _ _ _ H0)).
        destruct (negb (zln s' =? m)).
        + cbn [cbind tick cret bind] in Hs. rewrite Hu in Hs. injection Hs as Hs _. left. symmetry. exact Hs.
        + destruct (bget E (ht_buf h) q); [|discriminate]. cbn [cbind tick cret bind] in Hs.
          match type of Hs with context [same_string_steps ?a ?b ?c ?d ?e ?f ?g] => destruct (same_string_steps a b c d e f g) as [[r c2]|]; [|discriminate] end.
          cbn [cbind tick cret bind] in Hs. destruct r; cbn [cbind tick cret bind] in Hs; rewrite ?Hu in Hs; injection Hs as Hs _; [right; eexists|left]; symmetry; exact Hs.
      - cbn [length]. replace (2 * Z.of_nat (S (length l))) with (2 * zln l + 1 + 1) by lia. rewrite (Z.mul_add_distr_l (3 * m + 7) (2 * zln l + 1) 1). lia. }
    split; [|intros _; exact Hc]. eapply cb_le; [exact Hc|]. apply Z.mul_le_mono_nonneg_l; lia.
Qed.
Lemma scan_chain_le E h own role ch en T m p hv hd : hinv E h own role ch en -> 0 <= m -> 0 <= hv < HTSIZE h -> av (ht_head h) hv = Some hd ->
  cb ((3 * m + 7) * (2 * zln (ch hv) + 1)) (scan_chain_steps E h T m p hd).
Proof.
  intros HI Hm Hhv Hhd. unfold scan_chain_steps. cbn zeta.
  destruct (hi_bucket _ _ _ _ _ _ HI hv Hhv) as [(A & B & C)|(hd' & r & A1 & A2 & A3 & A4 & A5 & A6 & A7 & A8 & A9)].
  - replace hd with 0 by congruence. rewrite C. cbn [length cloop]. unfold scan_steps1 at 1. cbn zeta. change (0 =? 0) with true. cbv iota.
    intros a c Hc. cbn [cbind tick cret bind] in Hc. apply ok_snd in Hc. lia.
  - replace hd' with hd in * by congruence. pose proof (hi_buf _ _ _ _ _ _ HI) as Hbuf. pose proof (hi_nb _ _ _ _ _ _ HI) as Hnb.
    pose proof (A9 0 ltac:(lia)) as Hz. rewrite Z.add_0_r in Hz. pose proof (bget_inb _ _ _ _ Hz).
    apply (scan_seg_both E h T m p own role hv hd (ch hv) (en hv)); try assumption; lia.
Qed.

(** * Insertion and search, given the walk *)
Lemma b_insert_any pw E h T m p hv W : 0 <= pw -> 0 <= m -> hash_function h T m p = Ok hv ->
  (forall hd, av (ht_head h) hv = Some hd -> cb W (scan_chain_steps E h T m p hd)) ->
  cens (insert_steps pw E h T m p) (fun _ c => c <= 5 * m + 40 + pw * W).
Proof.
  intros Hp Hm Hh Hs. unfold insert_steps.
  eapply cens_bind; [apply cens_and; [apply cens_cb, b_hash, Hm|eapply cens_drop; [apply d_hash|]; intros a Ha; exact Ha]|].
  cbn beta. intros hv' c1 [Hc1 Hv]. replace hv' with hv by congruence.
  eapply cens_bind; [apply cens_tick; intros q0 Hq; exact Hq|]. cbn beta. intros hd c2 [Hhd ->]. apply aget_inv in Hhd.
  eapply cens_any; [apply (cb_scale pw W); [assumption|apply Hs, Hhd]|intros sc c3 Hc3].
  apply (cens_mono _ (fun _ c => c <= 3 * m + 38)); [|intros _ c Hc; lia]. apply cens_cb.
  destruct sc as [q|q]; [eapply cb_le; [apply cb_ret|lia]|].
  eapply cb_le.
  { eapply cb_bind; [apply cb_tick|intros lb]. cbn zeta. eapply cb_bind; [apply cb_tick|intros rest].
    eapply cb_bind; [repeat cb1|intros [h1 r]]. eapply cb_bind; [apply b_write; assumption|intros b].
    eapply cb_bind; [apply cb_tick|intros r1]. eapply cb_bind; [apply cb_tick|intros r2]. apply cb_ret. }
  lia.
Qed.
Lemma b_find_any pw E h T m p hv W : 0 <= pw -> 0 <= m -> hash_function h T m p = Ok hv ->
  (forall hd, av (ht_head h) hv = Some hd -> cb W (scan_chain_steps E h T m p hd)) ->
  cens (find_steps pw E h T m p) (fun _ c => c <= 2 * m + 3 + pw * W).
Proof.
  intros Hp Hm Hh Hs. unfold find_steps.
  eapply cens_bind; [apply cens_and; [apply cens_cb, b_hash, Hm|eapply cens_drop; [apply d_hash|]; intros a Ha; exact Ha]|].
  cbn beta. intros hv' c1 [Hc1 Hv]. replace hv' with hv by congruence.
  eapply cens_bind; [apply cens_tick; intros q0 Hq; exact Hq|]. cbn beta. intros hd c2 [Hhd ->]. apply aget_inv in Hhd.
  eapply cens_any; [apply (cb_scale pw W); [assumption|apply Hs, Hhd]|intros sc c3 Hc3].
  apply (cens_mono _ (fun _ c => c <= 1)); [|intros _ c Hc; lia]. apply cens_cb.
  destruct sc as [q|q]; [apply cb_tick|intros ? ? ?; discriminate].
Qed.

Section Loads.
Context (pw : Z) (E : env) (hts : Z) (T : arr Z) (t : Z -> Z) (n : Z).
Context (Hpw : 0 <= pw).
Context (Hts : 1 <= hts <= 2 ^ 48) (Hn : 3 <= n <= 2 ^ 58).
Context (HT : forall i, 0 <= i <= n -> av T i = Some (t i)).
Context (Hb : forall i, 0 <= i < n -> 0 <= t i < 256) (Hz : 0 <= t n < 256).
Notation isS := (isS t n).
Notation LMS := (LMS t n).
Notation nx := (nx t n).
Notation sub := (sub t n).
(** bound for the number of different S* substrings in a bucket *)
Context (load : Z -> Z) (Hload : forall hv l, NoDup l ->
  (forall s, In s l -> exists e, 0 <= e < n /\ LMS e = true /\ s = sub e /\ hash_of hts s = hv) -> zln l <= load hv).
(** a walk for the S* substring at e *)
Definition walk (e : Z) : Z := (3 * zln (sub e) + 7) * (2 * load (hash_of hts (sub e)) + 1).
Definition walks (j : Z) : Z := sum walk (filter LMS (zseq 0 j)).
Lemma load_nonneg hv : 0 <= load hv.
Proof. pose proof (Hload hv [] (NoDup_nil _) (fun s Hs => match Hs with end)) as H. cbn in H. exact H. Qed.
Lemma walk_nonneg e : 0 <= walk e.
Proof. unfold walk. pose proof (load_nonneg (hash_of hts (sub e))). apply Z.mul_nonneg_nonneg; lia. Qed.
Lemma sum_app f l1 l2 : sum f (l1 ++ l2) = sum f l1 + sum f l2.
Proof. induction l1 as [|a l1 IH]; [reflexivity|]. cbn [app sum fold_right]. fold (sum f (l1 ++ l2)) (sum f l1). rewrite IH. lia. Qed.
Lemma walks_succ j : 0 <= j -> walks (j + 1) = walks j + (if LMS j then walk j else 0).
Proof.
  intros Hj. unfold walks. rewrite zseq_snoc, filter_app, sum_app by lia. cbn [filter]. destruct (LMS j); cbn [sum fold_right]; lia.
Qed.
Lemma walks_nonneg j : 0 <= walks j.
Proof.
  unfold walks. induction (filter LMS (zseq 0 j)) as [|a l IH]; [cbn; lia|]. cbn [sum fold_right]. fold (sum walk l). pose proof (walk_nonneg a). lia.
Qed.

Lemma chain_le h own role ch en lo hv : 0 <= lo -> hinv E h own role ch en -> has_strings t n h ch lo -> HTSIZE h = hts -> 0 <= hv < hts ->
  zln (ch hv) <= load hv.
Proof.
  intros Hlo HI Hstr Hh Hv. rewrite <- (map_length snd (ch hv)). apply Hload; [apply (hi_dist _ _ _ _ _ _ HI); lia|].
  intros s Hs. destruct (proj1 (Hstr s)) as (e & He & HL & Hse); [exists hv; split; [lia|exact Hs]|].
  exists e. split; [lia|]. split; [exact HL|]. split; [exact Hse|].
  apply in_map_iff in Hs as ([q x] & Hx & Hin). cbn [snd] in Hx. subst x. rewrite <- Hh. apply (hi_hash _ _ _ _ _ _ HI hv q s); [lia|exact Hin].
Qed.
Lemma walk_le h own role ch en lo e hd : 0 <= lo -> hinv E h own role ch en -> has_strings t n h ch lo -> HTSIZE h = hts -> LMS e = true ->
  av (ht_head h) (hash_of hts (sub e)) = Some hd ->
  cb (walk e) (scan_chain_steps E h T (zln (sub e)) e hd).
Proof.
  intros Hlo HI Hstr Hh HL Hhd. pose proof (hash_range hts (sub e) ltac:(lia)) as Hv.
  eapply cb_le; [apply (scan_chain_le E h own role ch en T (zln (sub e)) e (hash_of hts (sub e)) hd HI); [lia|lia|exact Hhd]|].
  unfold walk. pose proof (chain_le h own role ch en lo _ Hlo HI Hstr Hh Hv). apply Z.mul_le_mono_nonneg_l; lia.
Qed.

Lemma c_step i s : 0 <= i <= n - 2 -> xinv E hts t n i s -> 
  cens (extract_step_steps pw E T i s) (fun s' c => x_q s' = nx (i + 1) -> c + 5 * x_q s' + pw * walks (i + 1) <= 5 * x_q s + 51 + pw * walks (i + 2)).
Proof.
  intros Hi [HM HNL HC Hub Hnum Hprev Hp Hq Hhts Hhb Hnb Hlen0 (own & role & ch & en & HI & Hstr & Huniq)].
  replace (i + 2) with (i + 1 + 1) by lia. rewrite (walks_succ (i + 1)) by lia.
  assert (Hw : 0 <= (if LMS (i + 1) then walk (i + 1) else 0)) by (destruct (LMS (i + 1)); [apply walk_nonneg|lia]).
  assert (Hpw0 : 0 <= pw * (if LMS (i + 1) then walk (i + 1) else 0)) by (apply Z.mul_nonneg_nonneg; assumption).
  rewrite Z.mul_add_distr_l. clear Hw. remember (pw * walks (i + 1)) as A0 eqn:HA0. clear HA0.
  remember (pw * (if LMS (i + 1) then walk (i + 1) else 0)) as W0 eqn:HW0.
  pose proof (isS_step t n i ltac:(lia)) as Hst.
  unfold extract_step_steps. rewrite (aget_ok _ _ _ (HT i ltac:(lia))), (aget_ok _ _ _ (HT (i + 1) ltac:(lia))).
  eapply (cens_bind _ _ (fun a c => a = t i /\ c = 1)); [apply cens_tick; intros a Ha; congruence|]. intros ti c1 [-> ->].
  eapply (cens_bind _ _ (fun a c => a = t (i + 1) /\ c = 1)); [apply cens_tick; intros a Ha; congruence|]. intros ti1 c2 [-> ->].
  eapply (cens_any 1); [apply cb_tick|intros M c3 Hc3].
  destruct (Z.ltb_spec (t i) (t (i + 1))) as [Hlt|Hge]; [apply cens_ret; cbn [x_q]; lia|].
  destruct (Z.ltb_spec (t (i + 1)) (t i)) as [Hlt|Hge2].
  2:{ eapply (cens_any 1); [eapply cb_le; [apply cb_if; [apply cb_ret|apply cb_tick]|lia]|intros NL c4 Hc4]. apply cens_ret. cbn [x_q]. lia. }
  eapply (cens_bind _ _ (fun '(ht, C, num, uniq, p, q) c => c + 5 * q <= 5 * x_q s + 47 + W0)).
  2:{ intros [[[[[ht C] num] uniq] p] q] c4 Hc4. eapply (cens_any 1); [apply cb_tick|intros NL c5 Hc5]. apply cens_ret. cbn [x_q]. lia. }
  destruct (x_prevS s) eqn:Hps; [|apply cens_ret; lia].
  assert (HL : LMS (i + 1) = true).
  { unfold Text.LMS. replace (i + 1 - 1) with i by lia. lia. }
  rewrite HL in HW0. cbn zeta. destruct (sub_len_LMS t n (i + 1) HL) as [Hsl1 Hsl].
  replace (i + 1 + 1) with (i + 2) in Hsl1 by lia.
  assert (Hlen64 : u64 (x_q s - (i + 1) + 1) = zln (sub (i + 1))).
  { rewrite Hq, Hsl1. unfold u64. rewrite wrap_small; lia. }
  rewrite Hlen64.
  eapply (cens_any 1); [apply cb_tick|intros tp c4 Hc4]. eapply (cens_any 1); [apply cb_tick|intros C c5 Hc5].
  eapply cens_bind.
  { apply (b_insert_any pw E (x_ht s) T (zln (sub (i + 1))) (i + 1) (hash_of hts (sub (i + 1))) (walk (i + 1)) Hpw ltac:(lia)).
    - rewrite <- Hhts. apply hash_ok. apply (sub_tseg T t n HT). exact HL.
    - intros hd Hhd. apply (walk_le (x_ht s) own role ch en (i + 2)); try assumption; lia. }
  cbn beta. intros [ht r] c6 Hc6. apply cens_ret. lia.
Qed.
Lemma c_extract_walks (J : Z -> xst -> Prop) :
  (forall h M3 C1 N1, ht_new hts n = Ok h -> J (n - 2) (mkxst h M3 C1 N1 0 0 false n n)) ->
  (forall i s s', 0 <= i <= n - 2 -> xinv E hts t n i s -> xb hts n i s -> J i s -> extract_step E T i s = Ok s' -> J (i - 1) s') ->
  (forall i s, 0 <= i <= n - 2 -> xinv E hts t n i s -> xb hts n i s -> J i s -> next_safe E t n i s) ->
  cens (extract_steps pw E hts T n) (fun _ c => c <= 1600 + 4 * hts + 57 * n + pw * walks n).
Proof.
  intros HJ0 HJ1 HJ2.
  pose proof (xinv_init E hts T t n Hts Hn HT Hb) as Hex0.
  unfold extract_steps.
  eapply cens_bind; [apply cens_and; [apply cens_cb, b_cont|eapply cens_drop; [apply d_cont|]; intros a Ha; exact Ha]|]. cbn beta. intros co0 c0 [Hc0 Hco0].
  destruct (Z.leb_spec n 2); [lia|].
  eapply cens_bind; [apply cens_and; [apply cens_cb, b_ht_new; lia|eapply cens_drop; [apply d_ht_new|]; intros a Ha; exact Ha]|]. cbn beta. intros ht c1 [Hc1 Hht].
  eapply cens_bind; [apply cens_tick; intros a Ha; exact Ha|]. cbn beta. intros M c2 [HM ->].
  eapply cens_bind; [apply cens_tick; intros a Ha; exact Ha|]. cbn beta. intros tn c3 [Htn ->].
  eapply cens_bind; [apply cens_tick; intros a Ha; exact Ha|]. cbn beta. intros M3 c4 [HM3 ->].
  eapply cens_bind; [apply cens_tick; intros a Ha; exact Ha|]. cbn beta. intros N1 c5 [HN1 ->].
  eapply cens_bind; [apply cens_tick; intros a Ha; exact Ha|]. cbn beta. intros C1 c6 [HC1 ->].
  specialize (Hex0 co0 ht M M3 N1 C1 tn Hco0 Hht HM Htn HM3 HN1 HC1).
  destruct (ht_new_xb hts n ht M3 C1 N1 ltac:(lia) ltac:(lia) Hht) as [Hx0 _].
  eapply cens_bind.
  { apply (cens_down (fun i s => xinv E hts t n i s /\ xb hts n i s /\ J i s) (fun i s => 5 * x_q s + pw * walks (i + 2) + 51 * (i + 1)));
      [lia|split; [exact Hex0|split; [exact Hx0|exact (HJ0 _ _ _ _ Hht)]]|].
    intros i s Hi (HX & HB & HJ). eapply cens_mono.
    { apply cens_and; [eapply cens_drop; [apply d_extract_step|]|exact (c_step i s ltac:(lia) HX)].
      intros s' Hs'. pose proof (extract_step_any E hts T t n Hts Hn HT Hb Hz i s (HJ2 i s ltac:(lia) HX HB HJ) ltac:(lia) (xb_bound hts n i s HB ltac:(lia) ltac:(lia)) HX) as Hw.
      rewrite Hs' in Hw. exact (conj Hw (conj (extract_step_xb E hts T n i s ltac:(lia) ltac:(lia) HB s' Hs') (HJ1 i s s' ltac:(lia) HX HB HJ Hs'))). }
    cbn beta. intros s' c [HX' Hc]. split; [exact HX'|].
    pose proof (xi_q _ _ _ _ _ _ (proj1 HX')) as Hq. replace (i - 1 + 2) with (i + 1) in * by lia. specialize (Hc Hq). lia. }
  cbn beta. intros s c7 [(HX & _) Hc7]. apply cens_ret. cbn [x_q] in Hc7.
  replace (n - 2 + 2) with n in Hc7 by lia.
  assert (0 <= pw * walks (0 - 1 + 2)) by (apply Z.mul_nonneg_nonneg; [assumption|apply walks_nonneg]).
  pose proof (xi_q _ _ _ _ _ _ HX) as Hq. pose proof (nx_spec t n (0 - 1 + 2) ltac:(lia)) as (Hr & _). lia.
Qed.

(** * create_shortened_string *)
Lemma c_create_step_walks h own role ch en i x : hinv E h own role ch en -> has_strings t n h ch 0 -> HTSIZE h = hts -> 0 <= i <= n - 2 ->
  snd (fst (fst x)) = isS (i + 1) -> snd (fst x) = nx (i + 2) ->
  cens (create_step pw E h T i x) (fun x' c => snd (fst (fst x')) = isS i /\ snd (fst x') = nx (i + 1) /\
    c + 5 * snd (fst x') + pw * walks (i + 1) <= 5 * snd (fst x) + 51 + pw * walks (i + 2)).
Proof.
  intros HI Hstr Hhts Hi Hp Hq. destruct x as [[[T1 prevS] q] j]. cbn [fst snd] in *.
  pose proof (isS_step t n i ltac:(lia)) as Hst.
  assert (HLMS : LMS (i + 1) = isS (i + 1) && negb (isS i)).
  { unfold Text.LMS. replace (i + 1 - 1) with i by lia. lia. }
  assert (Hkeep : LMS (i + 1) = false -> nx (i + 2) = nx (i + 1) /\ walks (i + 2) = walks (i + 1)).
  { intros HnL. split; [rewrite (nx_step t n (i + 1)) by (assumption || lia); f_equal; lia|].
    replace (i + 2) with (i + 1 + 1) by lia. rewrite (walks_succ (i + 1)) by lia. rewrite HnL. lia. }
  unfold create_step. rewrite (aget_ok _ _ _ (HT i ltac:(lia))), (aget_ok _ _ _ (HT (i + 1) ltac:(lia))).
  eapply (cens_bind _ _ (fun a c => a = t i /\ c = 1)); [apply cens_tick; intros a Ha; congruence|]. intros ti c1 [-> ->].
  eapply (cens_bind _ _ (fun a c => a = t (i + 1) /\ c = 1)); [apply cens_tick; intros a Ha; congruence|]. intros ti1 c2 [-> ->].
  destruct (Z.ltb_spec (t i) (t (i + 1))) as [Hlt|Hge].
  { destruct (Hkeep ltac:(lia)) as [H1 ->]. apply cens_ret. cbn [fst snd]. split; [lia|]. split; lia. }
  destruct (Z.ltb_spec (t (i + 1)) (t i)) as [Hlt|Hge2].
  2:{ destruct (Hkeep ltac:(lia)) as [H1 ->]. apply cens_ret. cbn [fst snd]. split; [rewrite Hp; lia|]. split; lia. }
  destruct prevS.
  2:{ destruct (Hkeep ltac:(lia)) as [H1 ->]. apply cens_ret. cbn [fst snd]. split; [lia|]. split; lia. }
  assert (HL : LMS (i + 1) = true) by lia. cbn zeta.
  destruct (sub_len_LMS t n (i + 1) HL) as [Hsl1 Hsl]. replace (i + 1 + 1) with (i + 2) in Hsl1 by lia.
  assert (Hlen64 : u64 (q - (i + 1) + 1) = zln (sub (i + 1))).
  { rewrite Hq, Hsl1. unfold u64. rewrite wrap_small; lia. }
  rewrite Hlen64. replace (walks (i + 2)) with (walks (i + 1) + walk (i + 1)).
  2:{ replace (i + 2) with (i + 1 + 1) by lia. rewrite (walks_succ (i + 1)) by lia. rewrite HL. reflexivity. }
  rewrite Z.mul_add_distr_l.
  eapply cens_bind.
  { apply (b_find_any pw E h T (zln (sub (i + 1))) (i + 1) (hash_of hts (sub (i + 1))) (walk (i + 1)) Hpw ltac:(lia)).
    - rewrite <- Hhts. apply hash_ok. apply (sub_tseg T t n HT). exact HL.
    - intros hd Hhd. apply (walk_le h own role ch en 0); try assumption; lia. }
  cbn beta. intros name c3 Hc3. eapply (cens_any 1); [apply cb_tick|intros T1' c4 Hc4]. apply cens_ret. cbn [fst snd].
  rewrite (nx_LMS t n (i + 1) HL). split; [lia|]. split; [reflexivity|]. lia.
Qed.
Lemma c_create_walks co h own role ch en : c_ht co = Some h -> hinv E h own role ch en -> has_strings t n h ch 0 -> HTSIZE h = hts ->
  cens (create_steps pw E T n co) (fun _ c => c <= 10 + 57 * n + pw * walks n).
Proof.
  intros Hh HI Hstr Hhts. unfold create_steps. rewrite Hh. cbn zeta. eapply (cens_any 1); [apply cb_tick|intros bits c1 Hc1].
  eapply (cens_any 1); [apply cb_tick|intros T1 c2 Hc2]. eapply (cens_any 1); [apply cb_tick|intros T1' c3 Hc3].
  eapply cens_bind.
  - apply (cens_down (fun i x => snd (fst (fst x)) = isS (i + 1) /\ snd (fst x) = nx (i + 2)) (fun i x => 5 * snd (fst x) + pw * walks (i + 2) + 51 * (i + 1))).
    + lia.
    + cbn [fst snd]. replace (n - 2 + 1) with (n - 1) by lia. rewrite isS_last. replace (n - 2 + 2) with n by lia. rewrite nx_n by lia. auto.
    + intros i x Hi [H1 H2]. eapply cens_mono; [apply (c_create_step_walks h own role ch en i x HI Hstr Hhts); [lia|exact H1|exact H2]|]. cbn beta. intros x' c (A1 & A2 & A3).
      replace (i - 1 + 1) with i by lia. replace (i - 1 + 2) with (i + 1) by lia. split; [split; assumption|]. lia.
  - cbn beta. intros [[[T2 ps] q] j] c8 [[HX1 HX2] Hc8]. cbn [fst snd] in *.
    eapply cens_mono; [apply cens_cb, cb_tick|]. cbn beta. intros _ c9 Hc9. replace (n - 2 + 2) with n in Hc8 by lia.
    assert (0 <= pw * walks (0 - 1 + 2)) by (apply Z.mul_nonneg_nonneg; [assumption|apply walks_nonneg]).
    pose proof (nx_spec t n (0 - 1 + 2) ltac:(lia)) as (Hr & _). lia.
Qed.
End Loads.

(** * List level *)
Lemma bucket_load_bound hts l hv x : NoDup x ->
  (forall s, In s x -> exists e, 0 <= e < zl l /\ LMS (tl_ l) (zl l) e = true /\ s = sub (tl_ l) (zl l) e /\ hash_of hts s = hv) -> zln x <= bucket_load hts l hv.
Proof.
  intros Hnd Hx. unfold bucket_load. apply inj_le. apply NoDup_incl_length; [exact Hnd|]. intros s Hs. destruct (Hx s Hs) as (e & He & HL & Hse & Hh).
  apply filter_In. split; [apply stars_iff; exists e; auto|]. rewrite bucket_hash. lia.
Qed.
Lemma walks_list hts l : walks hts (tl_ l) (zl l) (bucket_load hts l) (zl l) = chain_walks hts l.
Proof.
  unfold walks, chain_walks, lms_positions, zseq. rewrite Z.sub_0_r, Nat2Z.id.
  assert (Hg : forall m a, (forall i, (a <= i < a + m)%nat -> is_LMS l i = true -> In i (lms_positions l)) ->
    sum (walk hts (tl_ l) (zl l) (bucket_load hts l)) (filter (LMS (tl_ l) (zl l)) (zseq_n m (Z.of_nat a))) =
    fold_right Z.add 0 (map (fun s => (3 * zln s + 7) * (2 * bucket_load hts l (bucket hts s) + 1)) (map (star_sub l) (filter (is_LMS l) (seq a m))))).
  { induction m as [|m IH]; intros a Hin; [reflexivity|]. cbn [zseq_n seq filter]. rewrite LMS_list.
    assert (IHm : forall i, (S a <= i < S a + m)%nat -> is_LMS l i = true -> In i (lms_positions l)) by (intros i Hi; apply Hin; lia).
    specialize (IH (S a) IHm). replace (Z.of_nat a + 1) with (Z.of_nat (S a)) by lia.
    destruct (is_LMS l a) eqn:HL; [|exact IH]. match goal with |- sum ?f (?y :: ?F) = _ => change (sum f (y :: F)) with (f y + sum f F) end. rewrite IH. cbn [map fold_right].
    unfold walk. rewrite sub_list by (apply Hin; [lia|exact HL]). rewrite <- bucket_hash. reflexivity. }
  apply (Hg (length l) O). intros i Hi HL. apply filter_In. split; [apply in_seq; lia|exact HL].
Qed.
Lemma chain_walks_max hts l c : 1 <= zl l -> 0 <= c -> (forall b, bucket_load hts l b <= c) -> chain_walks hts l <= 8 * zl l * (2 * c + 1).
Proof.
  intros Hn Hc Hl. rewrite <- walks_list. unfold walks. set (L := filter (LMS (tl_ l) (zl l)) (zseq 0 (zl l))).
  transitivity ((2 * c + 1) * (3 * sum (P_SaisStages.plen (tl_ l) (zl l)) L + 10 * zln L)).
  - rewrite <- sum_lin. assert (Hs : forall f k M, k * sum f M = sum (fun i => k * f i) M).
    { intros f k M. induction M as [|y M IH]; [cbn; lia|]. cbn [sum fold_right]. fold (sum f M) (sum (fun i => k * f i) M). lia. }
    rewrite Hs. apply sum_le. intros e He. apply filter_In in He as [_ HL]. destruct (sub_len_LMS _ _ e HL) as [Hs1 Hs2].
    unfold walk. specialize (Hl (hash_of hts (sub (tl_ l) (zl l) e))). unfold P_SaisStages.plen. rewrite (Z.mul_comm (2 * c + 1)).
    replace (3 * (nx (tl_ l) (zl l) (e + 1) - e) + 10) with (3 * zln (sub (tl_ l) (zl l) e) + 7) by lia. apply Z.mul_le_mono_nonneg_l; lia.
  - pose proof (plen_sum (tl_ l) (zl l) 0 ltac:(lia)) as Hp. pose proof (nx_spec (tl_ l) (zl l) 0 ltac:(lia)) as Hx. fold L in Hp.
    pose proof (LMS_half (tl_ l) (zl l) ltac:(lia)) as Hh. unfold cnt in Hh. fold L in Hh.
    rewrite (Z.mul_comm (8 * zl l)). apply Z.mul_le_mono_nonneg_l; lia.
Qed.

Theorem bwt_string_walks_list pw st K E srt hts T l b : 0 <= pw -> std_sort srt -> sort_bound st (zl l) K -> 1 <= hts <= 2 ^ 48 -> Forall is_byte l -> 3 <= zl l <= 2 ^ 58 ->
  holds T (l ++ [0]) -> fresh_good E hts l ->
  exists r steps, bwt_string_steps pw st hts E srt (Some T) (zl l) b = Ok ((if b then None else Some T, Some r), steps) /\
    bwt_string_gen hts E srt (Some T) (zl l) b = Ok (if b then None else Some T, Some r) /\
    is_BWT l (av (r_BWT r)) (r_last r) /\
    steps <= linear_part hts (zl l) + K + pw * (2 * chain_walks hts l).
Proof.
  intros Hp Hs HK Hts Hl Hn HT Hf.
  destruct (bwt_string_list E srt hts T l b Hs Hts Hl Hn HT Hf) as (r & Hr & Hrl & HB).
  pose proof (d_string pw st hts E srt (Some T) (zl l) b) as Hd. rewrite Hr in Hd.
  destruct (bwt_string_steps pw st hts E srt (Some T) (zl l) b) as [[x c]|e] eqn:Ec; cbn [drop] in Hd; [|discriminate].
  injection Hd as Hd. exists r, c. split; [rewrite Hd; reflexivity|]. split; [exact Hr|]. split; [exact HB|].
  unfold bwt_string_steps in Ec. destruct (Z.leb_spec (zl l) 0); [lia|].
  pose proof (holds_tl T l HT) as HTt. pose proof (tl_byte l Hl) as Hbt. pose proof (tl_n_byte l) as Hzt.
  pose proof (bwt_is_cost_any pw E srt hts T (tl_ l) (zl l) Hs st K HK Hts Hn HTt Hbt (tl_n l)
    (extract_fresh E hts T l Hts Hl Hn HT Hf) (fresh_good_head E hts l Hf)
    (pw * chain_walks hts l) (pw * chain_walks hts l) b) as Hcost.
  assert (H2 : pw * (2 * chain_walks hts l) = pw * chain_walks hts l + pw * chain_walks hts l) by ring. rewrite H2.
  refine (Hcost _ _ x c Ec).
  - rewrite <- walks_list.
    refine (c_extract_walks pw E hts T (tl_ l) (zl l) Hp Hts Hn HTt Hbt Hzt (bucket_load hts l) (bucket_load_bound hts l)
      (fun i s => rooms hts (tl_ l) (zl l) i (x_ht s)) _ _ _).
    + intros h M3 C1 N1 Hh. exact (rooms_init hts (tl_ l) (zl l) Hts h Hh).
    + intros i s s' Hi HX HXb HJ Hst. exact (rooms_step E hts T (tl_ l) (zl l) Hts Hn HTt Hbt Hzt (fun s0 => fresh_good_firsts E hts l s0 Hf) i s s' Hi HX HXb HJ Hst).
    + intros i s Hi HX HXb HJ. exact (next_ok E hts (tl_ l) (zl l) Hts (fun s0 => fresh_good_firsts E hts l s0 Hf) i s Hi HX HJ).
  - intros co h own role ch en Hh _ HI Hstr Hhts. rewrite <- walks_list.
    exact (c_create_walks pw E hts T (tl_ l) (zl l) Hp Hts Hn HTt (bucket_load hts l) (bucket_load_bound hts l) co h own role ch en Hh HI Hstr Hhts).
Qed.
