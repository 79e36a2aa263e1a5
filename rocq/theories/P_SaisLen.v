(** The stages of sais keep the lengths of SA's arrays. *)
From Verif Require Import Base M_PackedArray M_Cells M_Sais M_Split P_Insert.
Open Scope Z_scope.

Lemma ens_lms_scan {A} (I : A -> Prop) chrf n f a : I a -> (forall i c a, I a -> ens (f i c a) I) -> ens (lms_scan chrf n f a) I.
Proof.
  intros H0 Hf. unfold lms_scan. apply ens_skip. intros c1 _. eapply ens_bind with (P := fun x => I (fst (fst x))).
  - apply ens_for_down_s; [exact H0|]. intros i [[b c] d] Hb. cbn [fst] in Hb. apply ens_skip. intros c0 _.
    destruct (c0 <? d + c); [apply ens_ok; exact Hb|]. destruct (negb (c =? 0)); [|apply ens_ok; exact Hb].
    eapply ens_bind; [apply Hf, Hb|]. intros b' _ Hb'. apply ens_ok. exact Hb'.
  - intros [[b c] d] _ Hb. apply ens_ok. exact Hb.
Qed.

Section One.
Context (E : env) (W : Z) (P : st -> Prop) (Hwr : forall s p i v, P s -> ens (wr W s p i v) P)
  (Htmp : forall s k, P s -> P (mkst (mem s) (anew k))).
Lemma e_counts s T C n k : P s -> ens (get_counts E W s T C n k) P.
Proof using Hwr.
  intros H. unfold get_counts. eapply ens_bind.
  - apply (ens_for_up_s P); [exact H|]. intros i s1 H1. apply Hwr, H1.
  - intros s1 _ H1. apply ens_for_up_s; [exact H1|]. intros i s2 H2. apply ens_skip. intros c _. apply ens_skip. intros v _. apply Hwr, H2.
Qed.
Lemma e_buckets s C B k e : P s -> ens (get_buckets W s C B k e) P.
Proof using Hwr.
  intros H. unfold get_buckets. eapply ens_bind with (P := fun x => P (fst x)).
  - apply ens_for_up_s; [exact H|]. intros i [s1 sum] H1. cbn [fst] in H1. apply ens_skip. intros c _. eapply ens_bind; [apply Hwr, H1|].
    intros s2 _ H2. apply ens_ok. exact H2.
  - intros [s1 sum] _ H1. apply ens_ok. exact H1.
Qed.
Lemma e_switch s B c0 c1 b : P s -> ens (switch_bucket W s B c0 c1 b) (fun x => P (fst (fst x))).
Proof using Hwr.
  intros H. unfold switch_bucket. destruct (c0 =? c1); [apply ens_ok; exact H|]. eapply ens_bind; [apply Hwr, H|]. intros s1 _ H1.
  apply ens_skip. intros b' _. apply ens_ok. exact H1.
Qed.
Lemma e_stepL T B i x : P (fst (fst x)) -> ens (stepL E W T B i x) (fun x => P (fst (fst x))).
Proof using Hwr.
  destruct x as [[s c1] b]. cbn [fst]. intros H. unfold stepL. apply ens_skip. intros j _. eapply ens_bind; [apply Hwr, H|]. intros s1 _ H1.
  destruct (0 <? j); [|apply ens_ok; exact H1]. cbv zeta. apply ens_skip. intros c0 _. eapply ens_bind; [apply e_switch, H1|].
  intros [[s2 c2] b2] _ H2. cbn [fst] in H2. apply ens_skip. intros v _. eapply ens_bind; [apply Hwr, H2|]. intros s3 _ H3. apply ens_ok. exact H3.
Qed.
Lemma e_stepS T B i x : P (fst (fst x)) -> ens (stepS E W T B i x) (fun x => P (fst (fst x))).
Proof using Hwr.
  destruct x as [[s c1] b]. cbn [fst]. intros H. unfold stepS. apply ens_skip. intros j _.
  destruct (0 <? j).
  - cbv zeta. apply ens_skip. intros c0 _. eapply ens_bind; [apply e_switch, H|].
    intros [[s2 c2] b2] _ H2. cbn [fst] in H2. apply ens_skip. intros v _. eapply ens_bind; [apply Hwr, H2|]. intros s3 _ H3. apply ens_ok. exact H3.
  - eapply ens_bind; [apply Hwr, H|]. intros s1 _ H1. apply ens_ok. exact H1.
Qed.
Lemma e_induce s T C B n k : P s -> ens (induce_SA E W s T C B n k) P.
Proof using Hwr.
  intros H. unfold induce_SA. eapply ens_bind with (P := P).
  - unfold induce_L. eapply ens_bind with (P := P). { destruct (ptr_eqb C B); [apply e_counts, H|apply ens_ok, H]. }
    intros s1 _ H1. eapply ens_bind; [apply e_buckets, H1|]. intros s2 _ H2. cbv zeta. apply ens_skip. intros c1 _. apply ens_skip. intros b _.
    apply ens_skip. intros v _. eapply ens_bind; [apply Hwr, H2|]. intros s3 _ H3. eapply ens_bind with (P := fun x => P (fst (fst x))).
    + apply ens_for_up_s; [exact H3|]. intros i x Hx. apply e_stepL, Hx.
    + intros [[s4 c] d] _ H4. apply ens_ok. exact H4.
  - intros s0 _ H0. unfold induce_S. eapply ens_bind with (P := P). { destruct (ptr_eqb C B); [apply e_counts, H0|apply ens_ok, H0]. }
    intros s1 _ H1. eapply ens_bind; [apply e_buckets, H1|]. intros s2 _ H2. apply ens_skip. intros b _.
    eapply ens_bind with (P := fun x => P (fst (fst x))).
    + apply ens_for_down_s; [exact H2|]. intros i x Hx. apply e_stepS, Hx.
    + intros [[s4 c] d] _ H4. apply ens_ok. exact H4.
Qed.
Lemma e_zero s lo hi : P s -> ens (zero_range W s lo hi) P.
Proof using Hwr. intros H. unfold zero_range. apply ens_for_up_s; [exact H|]. intros i s1 H1. apply Hwr, H1. Qed.
Lemma e_choose s n k fs : P s -> P (fst (fst (choose_buckets s n k fs))).
Proof using Htmp. intros H. unfold choose_buckets. destruct (k <=? fs); [exact H|apply Htmp, H]. Qed.
Lemma e_delete s k fs : P s -> P (delete_buckets s k fs).
Proof using Htmp. intros H. unfold delete_buckets. destruct (fs <? k); [apply Htmp, H|exact H]. Qed.
Lemma e_stage1 s T fs n k : P s -> ens (stage1 E W s T fs n k) (fun x => P (fst (fst x))).
Proof using Hwr Htmp.
  intros H. unfold stage1. pose proof (e_choose s n k fs H) as H0. destruct (choose_buckets s n k fs) as [[s0 C] B]. cbn [fst] in H0.
  eapply ens_bind; [apply e_counts, H0|]. intros s1 _ H1. eapply ens_bind; [apply e_buckets, H1|]. intros s2 _ H2.
  eapply ens_bind; [apply e_zero, H2|]. intros s3 _ H3. eapply ens_bind.
  { apply (ens_lms_scan P); [exact H3|]. intros i c a Ha. apply ens_skip. intros b _. eapply ens_bind; [apply Hwr, Ha|]. intros a1 _ Ha1. apply Hwr, Ha1. }
  intros s4 _ H4. eapply ens_bind; [apply e_induce, H4|]. intros s5 _ H5. cbv zeta. pose proof (e_delete s5 k fs H5) as H6.
  eapply ens_bind with (P := fun x => P (fst x)).
  { unfold compact_lms. apply ens_for_up_s; [exact H6|]. intros i [s7 m] H7. cbn [fst] in H7. apply ens_skip. intros p _.
    destruct (0 <? p); [|apply ens_ok; exact H7]. apply ens_skip. intros pv _. apply ens_skip. intros c0 _.
    destruct (c0 <? pv); [|apply ens_ok; exact H7]. apply ens_skip. intros [j c1] _. destruct (_ && _); [|apply ens_ok; exact H7].
    eapply ens_bind; [apply Hwr, H7|]. intros s8 _ H8. apply ens_ok. exact H8. }
  intros [s7 m] _ H7. cbn [fst] in H7. eapply ens_bind; [apply e_zero, H7|]. intros s8 _ H8. eapply ens_bind with (P := fun x => P (fst x)).
  { apply (ens_lms_scan (fun x => P (fst x))); [exact H8|]. intros i c [s9 j] H9. cbn [fst] in H9. eapply ens_bind; [apply Hwr, H9|].
    intros s10 _ H10. apply ens_ok. exact H10. }
  intros [s9 j] _ H9. cbn [fst] in H9. eapply ens_bind with (P := fun x => P (fst x)).
  { unfold name_lms. eapply ens_bind with (P := fun x => P (fst (fst (fst x)))).
    - apply ens_for_up_s; [exact H9|]. intros i [[[s10 nm] q] ql] H10. cbn [fst] in H10. apply ens_skip. intros p _. cbv zeta. apply ens_skip. intros pl _.
      apply ens_skip. intros same _. destruct same; (eapply ens_bind; [apply Hwr, H10|]; intros s11 _ H11; apply ens_ok; exact H11).
    - intros [[[s10 nm] q] ql] _ H10. apply ens_ok. exact H10. }
  intros [s10 nm] _ H10. apply ens_ok. exact H10.
Qed.
Lemma e_collect s fs n m : P s -> ens (collect_names W s fs n m) P.
Proof using Hwr.
  intros H. unfold collect_names. cbv zeta. eapply ens_bind with (P := fun x => P (fst x)).
  - apply ens_for_down_s; [exact H|]. intros i [s1 j] H1. cbn [fst] in H1. apply ens_skip. intros v _. destruct (v =? 0); [apply ens_ok; exact H1|].
    eapply ens_bind; [apply Hwr, H1|]. intros s2 _ H2. apply ens_ok. exact H2.
  - intros [s1 j] _ H1. apply ens_ok. exact H1.
Qed.
Lemma e_translate s T fs n m : P s -> ens (translate E W s T fs n m) P.
Proof using Hwr.
  intros H. unfold translate. cbv zeta. eapply ens_bind with (P := fun x => P (fst x)).
  { apply (ens_lms_scan (fun x => P (fst x))); [exact H|]. intros i c [s9 j] H9. cbn [fst] in H9. eapply ens_bind; [apply Hwr, H9|].
    intros s10 _ H10. apply ens_ok. exact H10. }
  intros [s1 j] _ H1. cbn [fst] in H1. apply ens_for_up_s; [exact H1|]. intros i s2 H2. apply ens_skip. intros x _. apply ens_skip. intros v _. apply Hwr, H2.
Qed.
Lemma e_stage3 s T fs n k m : P s -> ens (stage3 E W s T fs n k m) P.
Proof using Hwr Htmp.
  intros H. unfold stage3. pose proof (e_choose s n k fs H) as H0. destruct (choose_buckets s n k fs) as [[s0 C] B]. cbn [fst] in H0.
  eapply ens_bind; [apply e_counts, H0|]. intros s1 _ H1. eapply ens_bind; [apply e_buckets, H1|]. intros s2 _ H2.
  eapply ens_bind; [apply e_zero, H2|]. intros s3 _ H3. eapply ens_bind.
  { apply (ens_for_down_s P); [exact H3|]. intros i a Ha. apply ens_skip. intros j _. eapply ens_bind; [apply Hwr, Ha|]. intros a1 _ Ha1.
    apply ens_skip. intros c _. apply ens_skip. intros b _. eapply ens_bind; [apply Hwr, Ha1|]. intros a2 _ Ha2. apply Hwr, Ha2. }
  intros s4 _ H4. eapply ens_bind; [apply e_induce, H4|]. intros s5 _ H5. apply ens_ok, e_delete, H5.
Qed.
End One.

Section Split.
Context (E : env) (W : Z) (OP : ops) (P : o_st OP -> Prop) (Hput : forall s p i v, P s -> ens (o_put OP s p i v) P)
  (Hzero : forall s p i, P s -> ens (o_zero OP s p i) P)
  (Hnew : forall s k, P s -> P (o_new OP s k)) (Hdel : forall s, P s -> P (o_del OP s)).
Lemma f_counts s T C n k : P s -> ens (sget_counts E W OP s T C n k) P.
Proof using Hput Hzero.
  intros H. unfold sget_counts. eapply ens_bind.
  - apply (ens_for_up_s P); [exact H|]. intros i s1 H1. apply Hzero, H1.
  - intros s1 _ H1. apply ens_for_up_s; [exact H1|]. intros i s2 H2. apply ens_skip. intros c _. apply ens_skip. intros v _. apply Hput, H2.
Qed.
Lemma f_buckets s C B k e : P s -> ens (sget_buckets OP s C B k e) P.
Proof using Hput.
  intros H. unfold sget_buckets. eapply ens_bind with (P := fun x => P (fst x)).
  - destruct e; (apply ens_for_up_s; [exact H|]; intros i [s1 sum] H1; cbn [fst] in H1; apply ens_skip; intros c _; eapply ens_bind; [apply Hput, H1|];
    intros s2 _ H2; apply ens_ok; exact H2).
  - intros [s1 sum] _ H1. apply ens_ok. exact H1.
Qed.
Lemma f_switch s B c0 c1 b : P s -> ens (sswitch_bucket OP s B c0 c1 b) (fun x => P (fst (fst x))).
Proof using Hput.
  intros H. unfold sswitch_bucket. destruct (c0 =? c1); [apply ens_ok; exact H|]. eapply ens_bind; [apply Hput, H|]. intros s1 _ H1.
  apply ens_skip. intros b' _. apply ens_ok. exact H1.
Qed.
Lemma f_stepL T B i x : P (fst (fst x)) -> ens (sstepL E W OP T B i x) (fun x => P (fst (fst x))).
Proof using Hput.
  destruct x as [[s c1] b]. cbn [fst]. intros H. unfold sstepL. apply ens_skip. intros j _. eapply ens_bind; [apply Hput, H|]. intros s1 _ H1.
  destruct (0 <? j); [|apply ens_ok; exact H1]. cbv zeta. apply ens_skip. intros c0 _. eapply ens_bind; [apply f_switch, H1|].
  intros [[s2 c2] b2] _ H2. cbn [fst] in H2. apply ens_skip. intros v _. eapply ens_bind; [apply Hput, H2|]. intros s3 _ H3. apply ens_ok. exact H3.
Qed.
Lemma f_stepS T B i x : P (fst (fst x)) -> ens (sstepS E W OP T B i x) (fun x => P (fst (fst x))).
Proof using Hput.
  destruct x as [[s c1] b]. cbn [fst]. intros H. unfold sstepS. apply ens_skip. intros j _.
  destruct (0 <? j).
  - cbv zeta. apply ens_skip. intros c0 _. eapply ens_bind; [apply f_switch, H|].
    intros [[s2 c2] b2] _ H2. cbn [fst] in H2. apply ens_skip. intros v _. eapply ens_bind; [apply Hput, H2|]. intros s3 _ H3. apply ens_ok. exact H3.
  - eapply ens_bind; [apply Hput, H|]. intros s1 _ H1. apply ens_ok. exact H1.
Qed.
Lemma f_induce s T C B n k : P s -> ens (sinduce_SA E W OP s T C B n k) P.
Proof using Hput Hzero.
  intros H. unfold sinduce_SA. eapply ens_bind with (P := P).
  - unfold sinduce_L. eapply ens_bind with (P := P). { destruct (ptr_eqb C B); [apply f_counts, H|apply ens_ok, H]. }
    intros s1 _ H1. eapply ens_bind; [apply f_buckets, H1|]. intros s2 _ H2. cbv zeta. apply ens_skip. intros c1 _. apply ens_skip. intros b _.
    apply ens_skip. intros v _. eapply ens_bind; [apply Hput, H2|]. intros s3 _ H3. eapply ens_bind with (P := fun x => P (fst (fst x))).
    + apply ens_for_up_s; [exact H3|]. intros i x Hx. apply f_stepL, Hx.
    + intros [[s4 c] d] _ H4. apply ens_ok. exact H4.
  - intros s0 _ H0. unfold sinduce_S. eapply ens_bind with (P := P). { destruct (ptr_eqb C B); [apply f_counts, H0|apply ens_ok, H0]. }
    intros s1 _ H1. eapply ens_bind; [apply f_buckets, H1|]. intros s2 _ H2. apply ens_skip. intros b _.
    eapply ens_bind with (P := fun x => P (fst (fst x))).
    + apply ens_for_down_s; [exact H2|]. intros i x Hx. apply f_stepS, Hx.
    + intros [[s4 c] d] _ H4. apply ens_ok. exact H4.
Qed.
Lemma f_zero s lo hi : P s -> ens (szero_range OP s lo hi) P.
Proof using Hzero. intros H. unfold szero_range. apply ens_for_up_s; [exact H|]. intros i s1 H1. apply Hzero, H1. Qed.
Lemma f_choose s n k fs : P s -> P (fst (fst (schoose_buckets OP s n k fs))).
Proof using Hnew. intros H. unfold schoose_buckets. destruct (k <=? fs); [exact H|apply Hnew, H]. Qed.
Lemma f_delete s k fs : P s -> P (sdelete_buckets OP s k fs).
Proof using Hdel. intros H. unfold sdelete_buckets. destruct (fs <? k); [apply Hdel, H|exact H]. Qed.
Lemma f_stage1 s T fs n k : P s -> ens (sstage1 E W OP s T fs n k) (fun x => P (fst (fst x))).
Proof using Hput Hzero Hnew Hdel.
  intros H. unfold sstage1. pose proof (f_choose s n k fs H) as H0. destruct (schoose_buckets OP s n k fs) as [[s0 C] B]. cbn [fst] in H0.
  eapply ens_bind; [apply f_counts, H0|]. intros s1 _ H1. eapply ens_bind; [apply f_buckets, H1|]. intros s2 _ H2.
  eapply ens_bind; [apply f_zero, H2|]. intros s3 _ H3. eapply ens_bind.
  { apply (ens_lms_scan P); [exact H3|]. intros i c a Ha. apply ens_skip. intros b _. eapply ens_bind; [apply Hput, Ha|]. intros a1 _ Ha1. apply Hput, Ha1. }
  intros s4 _ H4. eapply ens_bind; [apply f_induce, H4|]. intros s5 _ H5. cbv zeta. pose proof (f_delete s5 k fs H5) as H6.
  eapply ens_bind with (P := fun x => P (fst x)).
  { unfold scompact_lms. apply ens_for_up_s; [exact H6|]. intros i [s7 m] H7. cbn [fst] in H7. apply ens_skip. intros p _.
    destruct (0 <? p); [|apply ens_ok; exact H7]. apply ens_skip. intros pv _. apply ens_skip. intros c0 _.
    destruct (c0 <? pv); [|apply ens_ok; exact H7]. apply ens_skip. intros [j c1] _. destruct (_ && _); [|apply ens_ok; exact H7].
    eapply ens_bind; [apply Hput, H7|]. intros s8 _ H8. apply ens_ok. exact H8. }
  intros [s7 m] _ H7. cbn [fst] in H7. eapply ens_bind; [apply f_zero, H7|]. intros s8 _ H8. eapply ens_bind with (P := fun x => P (fst x)).
  { apply (ens_lms_scan (fun x => P (fst x))); [exact H8|]. intros i c [s9 j] H9. cbn [fst] in H9. eapply ens_bind; [apply Hput, H9|].
    intros s10 _ H10. apply ens_ok. exact H10. }
  intros [s9 j] _ H9. cbn [fst] in H9. eapply ens_bind with (P := fun x => P (fst x)).
  { unfold sname_lms. eapply ens_bind with (P := fun x => P (fst (fst (fst x)))).
    - apply ens_for_up_s; [exact H9|]. intros i [[[s10 nm] q] ql] H10. cbn [fst] in H10. apply ens_skip. intros p _. cbv zeta. apply ens_skip. intros pl _.
      apply ens_skip. intros same _. destruct same; (eapply ens_bind; [apply Hput, H10|]; intros s11 _ H11; apply ens_ok; exact H11).
    - intros [[[s10 nm] q] ql] _ H10. apply ens_ok. exact H10. }
  intros [s10 nm] _ H10. apply ens_ok. exact H10.
Qed.
Lemma f_collect s fs n m : P s -> ens (scollect_names OP s fs n m) P.
Proof using Hput.
  intros H. unfold scollect_names. cbv zeta. eapply ens_bind with (P := fun x => P (fst x)).
  - apply ens_for_down_s; [exact H|]. intros i [s1 j] H1. cbn [fst] in H1. apply ens_skip. intros nz _. destruct nz; [|apply ens_ok; exact H1].
    apply ens_skip. intros v _. eapply ens_bind; [apply Hput, H1|]. intros s2 _ H2. apply ens_ok. exact H2.
  - intros [s1 j] _ H1. apply ens_ok. exact H1.
Qed.
Lemma f_translate s T fs n m : P s -> ens (stranslate E W OP s T fs n m) P.
Proof using Hput.
  intros H. unfold stranslate. cbv zeta. eapply ens_bind with (P := fun x => P (fst x)).
  { apply (ens_lms_scan (fun x => P (fst x))); [exact H|]. intros i c [s9 j] H9. cbn [fst] in H9. eapply ens_bind; [apply Hput, H9|].
    intros s10 _ H10. apply ens_ok. exact H10. }
  intros [s1 j] _ H1. cbn [fst] in H1. apply ens_for_up_s; [exact H1|]. intros i s2 H2. apply ens_skip. intros x _. apply ens_skip. intros v _. apply Hput, H2.
Qed.
Lemma f_stage3 s T fs n k m : P s -> ens (sstage3 E W OP s T fs n k m) P.
Proof using Hput Hzero Hnew Hdel.
  intros H. unfold sstage3. pose proof (f_choose s n k fs H) as H0. destruct (schoose_buckets OP s n k fs) as [[s0 C] B]. cbn [fst] in H0.
  eapply ens_bind; [apply f_counts, H0|]. intros s1 _ H1. eapply ens_bind; [apply f_buckets, H1|]. intros s2 _ H2.
  eapply ens_bind; [apply f_zero, H2|]. intros s3 _ H3. eapply ens_bind.
  { apply (ens_for_down_s P); [exact H3|]. intros i a Ha. apply ens_skip. intros j _. eapply ens_bind; [apply Hzero, Ha|]. intros a1 _ Ha1.
    apply ens_skip. intros c _. apply ens_skip. intros b _. eapply ens_bind; [apply Hput, Ha1|]. intros a2 _ Ha2. apply Hput, Ha2. }
  intros s4 _ H4. eapply ens_bind; [apply f_induce, H4|]. intros s5 _ H5. apply ens_ok, f_delete, H5.
Qed.
End Split.
