(** Every step counter is nonnegative. *)
From Verif Require Import Base M_PackedArray M_Queue M_HashTable M_Cells M_Sais M_Split M_Induce M_Flbwt M_SaisCost M_Cost SortSpec.
From Coq Require Import ZifyBool.
Open Scope Z_scope.

(** at least K steps, if the program has a result *)
Definition cge {A} (K : Z) (m : cres A) : Prop := forall a c, m = Ok (a, c) -> K <= c.
Notation nn := (cge 0).
Lemma nn_ret {A} (a : A) : nn (cret a).
Proof. intros a' c H. unfold cret in H. assert (c = 0) by congruence. lia. Qed.
Lemma nn_err {A} e : nn (Err e : cres A).
Proof. intros a c H. discriminate. Qed.
Lemma cge_tick {A} (m : res A) : cge 1 (tick m).
Proof. intros a c H. destruct m; cbn [tick bind] in H; [|discriminate]. assert (c = 1) by congruence. lia. Qed.
Lemma cge_le {A} K K' (m : cres A) : cge K m -> K' <= K -> cge K' m.
Proof. intros H Hle a c Hm. specialize (H a c Hm). lia. Qed.
Lemma nn_tick {A} (m : res A) : nn (tick m).
Proof. eapply cge_le; [apply cge_tick|lia]. Qed.
Lemma cge_bind {A B} K1 K2 (m : cres A) (f : A -> cres B) : cge K1 m -> (forall a, cge K2 (f a)) -> cge (K1 + K2) (cbind m f).
Proof.
  intros H1 H2 b c H. unfold cbind in H. destruct m as [[a c1]|e]; cbn [bind] in H; [|discriminate].
  destruct (f a) as [[b' c2]|e] eqn:E2; cbn [bind] in H; [|discriminate].
  specialize (H1 a c1 eq_refl). specialize (H2 a b' c2 E2). assert (c = c1 + c2) by congruence. lia.
Qed.
Lemma nn_bind {A B} (m : cres A) (f : A -> cres B) : nn m -> (forall a, nn (f a)) -> nn (cbind m f).
Proof. apply (cge_bind 0 0). Qed.
Lemma nn_for_up {S} lo hi (b : Z -> S -> cres S) s : (forall i s, nn (b i s)) -> nn (cfor_up lo hi b s).
Proof.
  intros Hb. unfold cfor_up. generalize (Z.to_nat (hi - lo)) as k. intros k. revert lo s.
  induction k as [|k IH]; intros lo s; cbn [cfor_n]; [apply nn_tick|]. apply nn_bind; [apply nn_tick|intros _]. apply nn_bind; [apply Hb|intros s'; apply IH].
Qed.
Lemma nn_for_down {S} hi lo (b : Z -> S -> cres S) s : (forall i s, nn (b i s)) -> nn (cfor_down hi lo b s).
Proof.
  intros Hb. unfold cfor_down. generalize (Z.to_nat (hi - lo + 1)) as k. intros k. revert hi s.
  induction k as [|k IH]; intros hi s; cbn [cford_n]; [apply nn_tick|]. apply nn_bind; [apply nn_tick|intros _]. apply nn_bind; [apply Hb|intros s'; apply IH].
Qed.
Lemma nn_loop {S R} (step : S -> cres (S + R)) : (forall s, nn (step s)) -> forall fuel s, nn (cloop fuel step s).
Proof.
  intros Hs. induction fuel as [|f IH]; intros s; cbn [cloop]; [apply nn_err|]. apply nn_bind; [apply nn_tick|intros _].
  apply nn_bind; [apply Hs|]. intros [s'|r]; [apply IH|apply nn_ret].
Qed.
Lemma nn_scale {A} k (m : cres A) : 0 <= k -> nn m -> nn (cscale k m).
Proof.
  intros Hk Hm a c H. unfold cscale in H. destruct m as [[a' c']|e]; cbn [bind] in H; [|discriminate].
  specialize (Hm a' c' eq_refl). assert (c = k * c') by congruence. subst c. apply Z.mul_nonneg_nonneg; assumption.
Qed.

Ltac nns := repeat first
  [ match goal with
    | |- cge _ (cret _) => apply nn_ret
    | |- cge _ (tick _) => apply nn_tick
    | |- cge _ (Err _) => apply nn_err
    | |- cge _ (cbind _ _) => apply nn_bind; [|intros ?]
    | |- cge _ (cfor_up _ _ _ _) => apply nn_for_up; intros ? ?
    | |- cge _ (cfor_down _ _ _ _) => apply nn_for_down; intros ? ?
    | |- cge _ (cloop _ _ _) => apply nn_loop; intros ?
    | |- cge _ (cscale _ _) => apply nn_scale; [lia|]
    | x : (_ * _)%type |- _ => destruct x
    | |- cge _ (if ?b then _ else _) => destruct b
    | |- cge _ (match ?b with _ => _ end) => destruct b
    end
  | progress cbn zeta beta iota ].

Section Sais.
Context (E : env) (W : Z) (OP : ops).
Lemma nn_counts s T C n k : nn (cget_counts E W OP s T C n k).
Proof. unfold cget_counts, zero, cchr, get, put. nns. Qed.
Lemma nn_buckets s C B k e : nn (cget_buckets OP s C B k e).
Proof. unfold cget_buckets, get, put. nns. Qed.
Lemma nn_switch s B c0 c1 b : nn (cswitch_bucket OP s B c0 c1 b).
Proof. unfold cswitch_bucket, get, put. nns. Qed.
Lemma nn_markL s T j c1 : nn (cmarkL E W OP s T j c1).
Proof. unfold cmarkL, cchr. nns. Qed.
Lemma nn_markS s T j c1 : nn (cmarkS E W OP s T j c1).
Proof. unfold cmarkS, cchr. nns. Qed.
Lemma nn_induce s T C B n k : nn (cinduce_SA E W OP s T C B n k).
Proof.
  unfold cinduce_SA, cinduce_L, cinduce_S, cstepL, cstepS, cchrl, cchr, get, put.
  repeat (nns; first [apply nn_counts|apply nn_buckets|apply nn_markL|apply nn_markS|apply nn_switch]).
Qed.
Lemma nn_scan {A} chrf n f (a : A) : (forall a i, nn (chrf a i)) -> (forall i c a, nn (f i c a)) -> nn (clms_scan chrf n f a).
Proof. intros H1 H2. unfold clms_scan. repeat (nns; first [apply H1|apply H2]); nns. Qed.
Lemma nn_compact s T n : nn (ccompact_lms E W OP s T n).
Proof. unfold ccompact_lms, ccompact_step, cskip_equal, cchrl, cchr64, cchr, get, put. nns. Qed.
Lemma nn_name s T n m : nn (cname_lms E W OP s T n m).
Proof. unfold cname_lms, cname_step, csame_sub, cchr, get, put. nns. Qed.
Lemma nn_stage1 s T fs n k : nn (cstage1 E W OP s T fs n k).
Proof.
  unfold cstage1, cchoose_buckets, cdelete_buckets, czero_range, zero, get, put.
  repeat (nns; first [apply nn_counts|apply nn_buckets|apply nn_induce|apply nn_compact|apply nn_name|
    apply nn_scan; [intros; unfold cchr64, cchr; nns|intros; nns]]); nns.
Qed.
Lemma nn_stage3 s T fs n k m : nn (cstage3 E W OP s T fs n k m).
Proof.
  unfold cstage3, cchoose_buckets, cdelete_buckets, czero_range, zero, cchr, get, put.
  repeat (nns; first [apply nn_counts|apply nn_buckets|apply nn_induce]); nns.
Qed.
Lemma nn_sais fuel : forall s T fs n k, nn (csais E W OP fuel s T fs n k).
Proof.
  induction fuel as [|f IH]; intros s T fs n k; cbn [csais]; [apply nn_err|].
  unfold ccollect_names, ctranslate, nz, get, put.
  repeat (nns; first [apply nn_stage1|apply nn_stage3|apply IH|
    apply nn_scan; [intros; unfold cchr64, cchr; nns|intros; nns]]); nns.
Qed.
End Sais.

Lemma nn_queues w : nn (init_queues_steps w).
Proof. unfold init_queues_steps. nns. Qed.
Lemma nn_fill E buf base num rd Q : nn (fill_steps E buf base num rd Q).
Proof. unfold fill_steps. nns. Qed.
Lemma nn_induce_bwt E rd co : nn (induce_steps E rd co).
Proof.
  unfold induce_steps, bucket_starts_steps, stype_starts_steps, induce_first_steps, induce_pass1_steps, induce_step1_steps, reset_L_steps, bucket_ends_steps,
    induce_pass2_steps, induce_step2_steps.
  repeat (nns; first [apply nn_queues|apply nn_fill]); nns.
Qed.
Lemma nn_branch E W Sv T1 co : nn (branch_of_steps E W Sv T1 co).
Proof.
  unfold branch_of_steps. destruct (W =? 40); [|destruct (W =? 48); [|destruct (W =? 56)]]; unfold branch2_steps, branch3_steps, branch_steps;
  repeat (nns; first [apply nn_sais|apply nn_induce_bwt]); nns.
Qed.
Section Prog.
Context (pw : Z) (Hpw : 0 <= pw).
Lemma nn_hash h T m p : nn (hash_steps h T m p).
Proof. unfold hash_steps. nns. Qed.
Lemma nn_chain E h T m p q : nn (scan_chain_steps E h T m p q).
Proof. unfold scan_chain_steps, scan_steps1, same_string_steps. nns. Qed.
Lemma nn_create E T n co : nn (create_steps pw E T n co).
Proof.
  unfold create_steps, create_step, find_steps.
  repeat (nns; first [apply nn_hash|apply nn_chain]); nns.
Qed.
Lemma nn_call_sort E srt buf m s : nn (call_sort_steps E srt untimed buf m s).
Proof.
  unfold call_sort_steps, untimed. destruct (call_sort E srt buf m s); [|apply nn_err]. cbn [bind]. destruct (aslice s 1 (1 + m)); [|apply nn_err].
  cbn [bind]. intros ? k Hk. injection Hk as _ <-. lia.
Qed.
Lemma nn_sort E srt T co : nn (sort_steps E srt untimed T co).
Proof. unfold sort_steps, collect_chain_steps, collect_step1. repeat (nns; first [apply nn_call_sort]); nns. Qed.
Lemma nn_write E h T m p lb b r : nn (write_record_steps E h T m p lb b r).
Proof. unfold write_record_steps. nns. Qed.
End Prog.
