(** A lower bound for the walks along the hash chains: a text whose S* substrings are pairwise different and all fall into the same bucket. *)
From Verif Require Import Base Spec Count Text Keys M_PackedArray M_Queue M_HashTable M_Cells M_Sais M_Split M_Induce M_Flbwt M_SaisCost M_Cost SortSpec
  P_PackedArray P_Bytes P_Cells P_HashTable P_HashTable2 Sums P_Insert P_Buffer P_Extract P_SaisCost P_SaisLinear P_Cost P_CostHash P_CostNN.
From Coq Require Import ZifyBool.
Open Scope Z_scope.

(** * Walking a chain that does not contain the string visits all its records *)
Lemma scan_seg_ge E h T p s own role hv q l e :
  0 <= NAME_BYTES h <= 8 -> 3 <= zln s -> tseg T p s ->
  seg E (NAME_BYTES h) own role (ht_buf h) hv q l e -> 0 < e < 2 ^ 63 -> bget E (ht_buf h) e = Ok 0 ->
  lookup s l = None ->
  forall fuel, cge (zln l) (cloop fuel (scan_steps1 E h T (zln s) p) q).
Proof.
  intros Hnb Hm Ht Hseg. induction Hseg as [q|q q' l e H H0 H1 H2 H3 IH|q s' l e H H0 H1 H2 IH]; intros He Hz Hlk fuel;
    (destruct fuel as [|fuel]; [intros ? ? ?; discriminate|]).
  - cbn [length]. change (Z.of_nat 0) with 0. apply nn_loop. intros x. unfold scan_steps1, same_string_steps. nns.
  - pose proof (seg_le _ _ _ _ _ _ _ _ _ (proj1 Hnb) H3).
    cbn [cloop]. unfold scan_steps1 at 1. cbn zeta. replace (q =? 0) with false by lia.
    rewrite (ptrf_length _ _ _ _ H1). intros a c. cbn [cbind tick bind]. change (2 =? 0) with false. change (2 =? 2) with true. cbv iota.
    rewrite (get_pointer_ok E _ q q') by (assumption || lia). cbn [cbind tick cret bind].
    destruct (cloop fuel (scan_steps1 E h T (zln s) p) q') as [[a' c']|] eqn:Er; [|discriminate]. intros Hr. cbn [bind] in Hr. apply ok_snd in Hr.
    specialize (IH He Hz Hlk fuel a' c' Er). lia.
  - pose proof (seg_le _ _ _ _ _ _ _ _ _ (proj1 Hnb) H2). pose proof (rsize_pos _ _ (proj1 Hnb) (proj1 (rc_len _ _ _ _ _ H0))).
    pose proof (rc_len _ _ _ _ _ H0) as Hrl.
    assert (Hu : u64 (q + (2 + lenlen (zln s') + zln s' + NAME_BYTES h)) = q + rsize (NAME_BYTES h) (zln s')).
    { unfold rsize in *. unfold u64. rewrite wrap_small by lia. reflexivity. }
    cbn [lookup] in Hlk. destruct (str_dec s s') as [Hs|Hs]; [discriminate|]. specialize (IH He Hz Hlk fuel).
    cbn [cloop]. unfold scan_steps1 at 1. cbn zeta. replace (q =? 0) with false by lia.
    rewrite (get_length_ok E _ q (zln s')) by (try lia; apply (rc_lenf _ _ _ _ _ H0)).
    intros a c. cbn [cbind tick bind]. replace (zln s' =? 0) with false by lia. replace (zln s' =? 2) with false by lia.
    destruct (Z.eqb_spec (zln s') (zln s)) as [Hl|Hl]; cbn [negb].
    + rewrite (proj1 (rc_lenf _ _ _ _ _ H0)). cbn [cbind tick bind].
      destruct (same_string_ok E (ht_buf h) T p q s s' (NAME_BYTES h) Ht H0 ltac:(lia)) as (r & Hr & Hiff).
      pose proof (d_same E (ht_buf h) T (zln s) p q (lenlen (zln s'))) as Hd. rewrite Hr in Hd.
      destruct (same_string_steps E (ht_buf h) T (zln s) p q (lenlen (zln s'))) as [[r' c2]|] eqn:Es; [|discriminate]. cbn [drop] in Hd. injection Hd as ->.
      assert (Hc2 : 0 <= c2).
      { assert (Hn : nn (same_string_steps E (ht_buf h) T (zln s) p q (lenlen (zln s')))) by (unfold same_string_steps; nns). exact (Hn _ _ Es). }
      cbn [cbind bind]. destruct r; [exfalso; apply Hs, Hiff; reflexivity|].
      rewrite (string_info_ok E h _ q (zln s')) by (try lia; apply (rc_lenf _ _ _ _ _ H0)). cbn [cbind tick cret bind]. rewrite Hu.
      destruct (cloop fuel (scan_steps1 E h T (zln s) p) (q + rsize (NAME_BYTES h) (zln s'))) as [[a' c']|] eqn:Er; cbn [bind]; [|discriminate].
      intros Hr'. apply ok_snd in Hr'. specialize (IH a' c' eq_refl). cbn [length]. lia.
    + rewrite (string_info_ok E h _ q (zln s')) by (try lia; apply (rc_lenf _ _ _ _ _ H0)). cbn [cbind tick cret bind]. rewrite Hu.
      destruct (cloop fuel (scan_steps1 E h T (zln s) p) (q + rsize (NAME_BYTES h) (zln s'))) as [[a' c']|] eqn:Er; cbn [bind]; [|discriminate].
      intros Hr'. apply ok_snd in Hr'. specialize (IH a' c' eq_refl). cbn [length]. lia.
Qed.
Lemma lookup_none s l : ~ In s (map snd l) -> lookup s l = None.
Proof.
  induction l as [|[q x] l IH]; intros H; [reflexivity|]. cbn [lookup]. destruct (str_dec s x) as [->|]; [exfalso; apply H; left; reflexivity|].
  apply IH. intros Hin. apply H. right. exact Hin.
Qed.
Lemma scan_ge E h own role ch en T p s hv hd : hinv E h own role ch en -> 3 <= zln s -> tseg T p s ->
  0 <= hv < HTSIZE h -> av (ht_head h) hv = Some hd -> ~ In s (map snd (ch hv)) ->
  cge (zln (ch hv)) (scan_chain_steps E h T (zln s) p hd).
Proof.
  intros HI Hm Ht Hhv Hhd Hni. unfold scan_chain_steps. cbn zeta.
  destruct (hi_bucket _ _ _ _ _ _ HI hv Hhv) as [(H1 & H2 & H3)|(hd' & r & H1 & H2 & H3 & H4 & H5 & H6 & H7 & H8 & H9)].
  - rewrite H3. cbn [length]. change (Z.of_nat 0) with 0. apply nn_loop. intros x. unfold scan_steps1, same_string_steps. nns.
  - replace hd' with hd in * by congruence.
    pose proof (hi_nb _ _ _ _ _ _ HI) as Hnb. pose proof (hi_buf _ _ _ _ _ _ HI) as Hbuf.
    pose proof (H9 0 ltac:(lia)) as Hz. rewrite Z.add_0_r in Hz. pose proof (bget_inb _ _ _ _ Hz).
    apply (scan_seg_ge E h T p s own role hv hd (ch hv) (en hv)); try assumption; try lia. apply lookup_none, Hni.
Qed.

Lemma cge_tok {A B} K (a : A) (f : A -> cres B) : cge K (f a) -> cge K (cbind (tick (Ok a)) f).
Proof.
  intros H b c Hc. unfold cbind in Hc. cbn [tick bind] in Hc. destruct (f a) as [[b' c']|] eqn:Ef; cbn [bind] in Hc; [|discriminate].
  apply ok_snd in Hc. specialize (H b' c' eq_refl). lia.
Qed.

(** 0 + 1 + ... + (u - 1) *)
Definition tri (u : Z) : Z := u * (u - 1) / 2.
Lemma tri_eq u : 0 <= u -> 2 * tri u = u * (u - 1).
Proof.
  intros Hu. unfold tri. assert (He : (u * (u - 1)) mod 2 = 0).
  { rewrite Zmult_mod, Zminus_mod. pose proof (Z.mod_pos_bound u 2 ltac:(lia)). assert (Hc : u mod 2 = 0 \/ u mod 2 = 1) by lia.
    destruct Hc as [-> | ->]; reflexivity. }
  pose proof (Z.div_mod (u * (u - 1)) 2 ltac:(lia)). lia.
Qed.
Lemma tri_succ u : 0 <= u -> tri (u + 1) - tri u = u.
Proof. intros Hu. pose proof (tri_eq u Hu). pose proof (tri_eq (u + 1) ltac:(lia)). assert ((u + 1) * (u + 1 - 1) = u * (u - 1) + 2 * u) by ring. lia. Qed.
Lemma nn_cont n : nn (cont_new_steps n).
Proof. unfold cont_new_steps, azeros_steps. nns. Qed.
Lemma d_cont n : drop (cont_new_steps n) = cont_new n.
Proof. unfold cont_new_steps, cont_new. apply dr_bind; [apply dr_scale, d_azeros|]. reflexivity. Qed.
Lemma nn_ht hts n : nn (ht_new_steps hts n).
Proof. unfold ht_new_steps, azeros_steps. nns. Qed.

(** * Extraction of a text all of whose S* substrings collide *)
Section Low.
Context (pw : Z) (E : env) (hts : Z) (T : arr Z) (t : Z -> Z) (n : Z).
Context (Hpw : 0 <= pw).
Context (Hts : 1 <= hts <= 2 ^ 48) (Hn : 3 <= n <= 2 ^ 58).
Context (HT : forall i, 0 <= i <= n -> av T i = Some (t i)).
Context (Hb : forall i, 0 <= i < n -> 0 <= t i < 256) (Hz : t n = 0).
Notation LMS := (LMS t n).
Notation sub := (sub t n).
Context (Hfr : forall e, LMS e = true -> fresh_ok E (zln (sub e))).
Context (hv : Z).
Context (Hinj : forall e e', LMS e = true -> LMS e' = true -> sub e = sub e' -> e = e').
Context (Hhash : forall e, LMS e = true -> hash_of hts (sub e) = hv).

Lemma cens_down_ge {S} (Inv : Z -> S -> Prop) (phi : Z -> Z) hi lo b s : lo - 1 <= hi -> Inv hi s ->
  (forall i s, lo <= i <= hi -> Inv i s -> cens (b i s) (fun s' c => Inv (i - 1) s' /\ phi (i - 1) - phi i <= c)) ->
  cens (cfor_down hi lo b s) (fun s' c => Inv (lo - 1) s' /\ phi (lo - 1) - phi hi <= c).
Proof.
  intros Hle H0 Hbd. unfold cfor_down.
  assert (Hg : forall k i s, i <= hi -> i = lo - 1 + Z.of_nat k -> Inv i s ->
    cens (cford_n k i b s) (fun s' c => Inv (lo - 1) s' /\ phi (lo - 1) - phi i <= c)).
  { clear s H0. induction k as [|k IH]; intros i s Hi He HI; cbn [cford_n].
    - replace i with (lo - 1) in * by lia. intros a c Hc. cbn [tick bind] in Hc. injection Hc as <- <-. split; [exact HI|lia].
    - eapply cens_bind; [apply (cens_tick _ (fun _ => True)); intros ? _; exact I|]. intros _ c1 [_ ->].
      eapply cens_bind; [apply Hbd; [lia|exact HI]|]. cbn beta. intros s' c2 [HI' Hc2].
      eapply cens_mono; [apply (IH (i - 1)); [lia|lia|exact HI']|]. cbn beta. intros s2 c3 [HI2 Hc3]. split; [exact HI2|lia]. }
  apply Hg; [lia|lia|exact H0].
Qed.

Lemma chain_has h own role ch en lo : hinv E h own role ch en -> has_strings t n h ch lo -> HTSIZE h = hts ->
  cnt LMS lo n <= zln (ch hv).
Proof.
  intros HI Hstr Hh. rewrite <- (map_length snd (ch hv)). unfold cnt. rewrite <- (map_length sub (filter LMS (zseq lo n))).
  apply inj_le. apply NoDup_incl_length.
  - pose proof (NoDup_filter LMS (zseq_NoDup lo n)) as Hnd.
    assert (HL : forall e, In e (filter LMS (zseq lo n)) -> LMS e = true) by (intros e He; apply filter_In in He; apply He).
    induction Hnd as [|e l Hni Hnd IH]; cbn [map]; constructor; [|apply IH; intros; apply HL; right; assumption].
    intros Hin. apply in_map_iff in Hin as (e' & He' & Hin'). apply Hni.
    replace e with e'; [exact Hin'|]. apply Hinj; [apply HL; right; exact Hin'|apply HL; left; reflexivity|exact He'].
  - intros x Hx. apply in_map_iff in Hx as (e & <- & He). apply filter_In in He as [He1 He2]. apply in_zseq in He1.
    destruct (proj2 (Hstr (sub e))) as (hv' & Hv & Hin); [exists e; split; [lia|]; split; [exact He2|reflexivity]|].
    apply in_map_iff in Hin as ([q x] & Hx & Hin). cbn [snd] in Hx. subst x.
    pose proof (hi_hash _ _ _ _ _ _ HI hv' q (sub e) Hv Hin) as Hq. rewrite Hh, (Hhash e He2) in Hq. subst hv'.
    apply in_map_iff. exists (q, sub e). split; [reflexivity|exact Hin].
Qed.

Lemma insert_ge h own role ch en e : hinv E h own role ch en -> has_strings t n h ch (e + 1) -> HTSIZE h = hts -> LMS e = true ->
  cge (pw * cnt LMS (e + 1) n) (insert_steps pw E h T (zln (sub e)) e).
Proof.
  intros HI Hstr Hh HL. pose proof (chain_has h own role ch en (e + 1) HI Hstr Hh) as Hch.
  destruct (sub_len_LMS t n e HL) as [_ Hsl].
  pose proof (sub_tseg T t n HT e HL) as Hts'.
  assert (Hni : ~ In (sub e) (map snd (ch hv))).
  { intros Hin. destruct (proj1 (Hstr (sub e))) as (e' & He' & HL' & Heq).
    - exists hv. split; [|exact Hin]. rewrite <- (Hhash e HL), Hh. apply hash_range. lia.
    - pose proof (Hinj e e' HL HL' Heq). lia. }
  assert (Hhv : 0 <= hv < hts) by (rewrite <- (Hhash e HL); apply hash_range; lia).
  unfold insert_steps.
  assert (Hg : forall hv0 c0, hash_steps h T (zln (sub e)) e = Ok (hv0, c0) -> hv0 = hv /\ 0 <= c0).
  { intros hv0 c0 H. split; [|exact (nn_hash h T _ _ _ _ H)]. pose proof (d_hash h T (zln (sub e)) e) as Hd. rewrite H in Hd.
    rewrite (hash_ok h T e (sub e) Hts') in Hd. cbn [drop] in Hd. injection Hd as ->. rewrite Hh. apply Hhash, HL. }
  intros a c Hc. unfold cbind at 1 in Hc.
  destruct (hash_steps h T (zln (sub e)) e) as [[hv0 c0]|] eqn:Eh; cbn [bind] in Hc; [|discriminate].
  destruct (Hg hv0 c0 eq_refl) as [-> Hc0].
  match type of Hc with bind ?m _ = _ => destruct m as [[a1 c1]|] eqn:E1; cbn [bind] in Hc; [|discriminate] end.
  apply ok_snd in Hc. unfold cbind at 1 in E1. destruct (aget (ht_head h) hv) as [hd|] eqn:Ehd; cbn [tick bind] in E1; [|discriminate].
  match type of E1 with bind ?m _ = _ => destruct m as [[a2 c2]|] eqn:E2; cbn [bind] in E1; [|discriminate] end.
  apply ok_snd in E1. unfold cbind at 1 in E2.
  destruct (cscale pw (scan_chain_steps E h T (zln (sub e)) e hd)) as [[sc c3]|] eqn:E3; cbn [bind] in E2; [|discriminate].
  match type of E2 with bind ?m _ = _ => destruct m as [[a4 c4]|] eqn:E4; cbn [bind] in E2; [|discriminate] end.
  apply ok_snd in E2.
  assert (Hc3 : pw * cnt LMS (e + 1) n <= c3).
  { unfold cscale in E3. destruct (scan_chain_steps E h T (zln (sub e)) e hd) as [[sc' c5]|] eqn:E5; cbn [bind] in E3; [|discriminate].
    apply ok_snd in E3. pose proof (scan_ge E h own role ch en T e (sub e) hv hd HI ltac:(lia) Hts' ltac:(lia) (aget_inv _ _ _ Ehd) Hni sc' c5 E5) as Hge.
    subst c3. apply Z.mul_le_mono_nonneg_l; lia. }
  assert (Hc4 : 0 <= c4).
  { revert E4. generalize a4, c4. 
    match goal with |- forall a c, ?m = Ok (a, c) -> 0 <= c => change (nn m) end.
    repeat (nns; try (intros x1 x2 Hx; apply ok_snd in Hx; lia); try apply nn_write). }
  lia.
Qed.

Lemma step_ge i s : 0 <= i <= n - 2 -> xinv E hts t n i s ->
  cge (if LMS (i + 1) then pw * cnt LMS (i + 2) n else 0) (extract_step_steps pw E T i s).
Proof.
  intros Hi HX. 
  assert (Hnn : nn (extract_step_steps pw E T i s)).
  { unfold extract_step_steps, insert_steps. repeat (nns; first [apply nn_write|apply nn_hash|apply nn_chain]); nns. }
  destruct (LMS (i + 1)) eqn:HL; [|exact Hnn]. clear Hnn.
  destruct HX as [HM HNL HC Hub Hnum Hprev Hp Hq Hhts Hhb Hnb Hlen0 (own & role & ch & en & HI & Hstr & Huniq)].
  assert (HLMS : isS t n (i + 1) = true /\ isS t n i = false).
  { unfold Text.LMS in HL. replace (i + 1 - 1) with i in HL by lia. lia. }
  pose proof (isS_step t n i ltac:(lia)) as Hst.
  destruct (sub_len_LMS t n (i + 1) HL) as [Hsl1 Hsl]. replace (i + 1 + 1) with (i + 2) in Hsl1 by lia.
  assert (Hlen64 : u64 (x_q s - (i + 1) + 1) = zln (sub (i + 1))).
  { rewrite Hq, Hsl1. unfold u64. rewrite wrap_small; lia. }
  replace (i + 2) with (i + 1 + 1) in Hstr by lia.
  pose proof (insert_ge (x_ht s) own role ch en (i + 1) HI Hstr Hhts HL) as Hge. replace (i + 1 + 1) with (i + 2) in Hge by lia.
  unfold extract_step_steps. rewrite (aget_ok _ _ _ (HT i ltac:(lia))), (aget_ok _ _ _ (HT (i + 1) ltac:(lia))).
  apply cge_tok, cge_tok. apply (cge_le (0 + pw * cnt LMS (i + 2) n)); [|lia]. apply cge_bind; [apply nn_tick|]. intros M.
  destruct (Z.ltb_spec (t i) (t (i + 1))); [exfalso; lia|]. destruct (Z.ltb_spec (t (i + 1)) (t i)); [|exfalso; lia].
  rewrite Hprev, (proj1 HLMS). cbn zeta. rewrite Hlen64.
  eapply cge_le.
  { eapply cge_bind; [|intros [[[[[ht C] num] uniq] p] q]; nns].
    eapply cge_bind; [apply nn_tick|intros tp]. eapply cge_bind; [apply nn_tick|intros C]. eapply cge_bind; [exact Hge|intros [ht r]; apply nn_ret]. }
  lia.
Qed.

(** u colliding strings cost at least u (u - 1) / 2 steps along the chain *)
Theorem extract_ge : cens (extract_steps pw E hts T n) (fun _ c => pw * (cnt LMS 0 n * (cnt LMS 0 n - 1)) <= 2 * c).
Proof.
  pose proof (xinv_init E hts T t n Hts Hn HT Hb) as Hex0.
  unfold extract_steps.
  eapply cens_bind; [apply cens_and; [exact (fun a c H => nn_cont n a c H)|eapply cens_drop; [apply d_cont|]; intros a Ha; exact Ha]|]. cbn beta. intros co0 c0 [Hc0 Hco0].
  destruct (Z.leb_spec n 2); [lia|].
  eapply cens_bind; [apply cens_and; [exact (fun a c H => nn_ht hts n a c H)|eapply cens_drop; [apply d_ht_new|]; intros a Ha; exact Ha]|]. cbn beta. intros ht c1 [Hc1 Hht].
  eapply cens_bind; [apply cens_tick; intros a Ha; exact Ha|]. cbn beta. intros M c2 [HM ->].
  eapply cens_bind; [apply cens_tick; intros a Ha; exact Ha|]. cbn beta. intros tn c3 [Htn ->].
  eapply cens_bind; [apply cens_tick; intros a Ha; exact Ha|]. cbn beta. intros M3 c4 [HM3 ->].
  eapply cens_bind; [apply cens_tick; intros a Ha; exact Ha|]. cbn beta. intros N1 c5 [HN1 ->].
  eapply cens_bind; [apply cens_tick; intros a Ha; exact Ha|]. cbn beta. intros C1 c6 [HC1 ->].
  specialize (Hex0 co0 ht M M3 N1 C1 tn Hco0 Hht HM Htn HM3 HN1 HC1).
  destruct (ht_new_xb hts n ht M3 C1 N1 ltac:(lia) ltac:(lia) Hht) as [Hx0 _].
  eapply cens_bind.
  { apply (cens_down_ge (fun i s => xinv E hts t n i s /\ xb hts n i s) (fun i => pw * tri (cnt LMS (i + 2) n))); [lia|split; assumption|].
    intros i s Hi [HX HB]. eapply cens_mono.
    { apply cens_and; [eapply cens_drop; [apply d_extract_step|]|exact (fun a c H => step_ge i s ltac:(lia) HX a c H)].
      intros s' Hs'. pose proof (extract_step_ok E hts T t n Hts Hn HT Hb (zb _ Hz) Hfr i s ltac:(lia) (xb_bound hts n i s HB ltac:(lia) ltac:(lia)) HX) as Hw.
      rewrite Hs' in Hw. exact (conj Hw (extract_step_xb E hts T n i s ltac:(lia) ltac:(lia) HB s' Hs')). }
    cbn beta. intros s' c [HX' Hc]. split; [exact HX'|]. replace (i - 1 + 2) with (i + 1) by lia.
    rewrite (cnt_cons LMS (i + 1)) by lia. replace (i + 1 + 1) with (i + 2) by lia.
    pose proof (cnt_nonneg LMS (i + 2) n) as Hm0. set (m := cnt LMS (i + 2) n) in *. pose proof (tri_succ m Hm0) as Ht.
    destruct (LMS (i + 1)).
    - replace (1 + m) with (m + 1) by lia. rewrite <- Z.mul_sub_distr_l, Ht. exact Hc.
    - replace (0 + m) with m by lia. lia. }
  cbn beta. intros s c7 [_ Hc7]. apply cens_ret. 
  replace (n - 2 + 2) with n in Hc7 by lia. rewrite (cnt_nil _ n n) in Hc7 by lia. change (0 - 1 + 2) with (0 + 1) in Hc7.
  assert (Hc1' : cnt LMS (0 + 1) n = cnt LMS 0 n) by (rewrite (cnt_cons LMS 0) by lia; rewrite LMS0; lia). rewrite Hc1' in Hc7.
  change (tri 0) with 0 in Hc7. rewrite <- (tri_eq (cnt LMS 0 n)) by apply cnt_nonneg. lia.
Qed.

Theorem is_ge srt b : cens (bwt_is_steps pw untimed E srt hts T n b) (fun _ c => pw * (cnt LMS 0 n * (cnt LMS 0 n - 1)) <= 2 * c).
Proof.
  unfold bwt_is_steps. eapply cens_bind; [exact extract_ge|]. cbn beta. intros co c1 Hc1.
  match goal with |- cens ?m _ => assert (Hnn : nn m) end.
  { repeat (nns; first [apply nn_sort|apply nn_create; exact Hpw|apply nn_branch]); nns. }
  intros a c Hc. specialize (Hnn a c Hc). lia.
Qed.
End Low.
