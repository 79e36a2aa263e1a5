(** The split-cell branches of bwt_is give the same result as the branch over whole cells. *)
From Verif Require Import Base M_PackedArray M_HashTable M_Cells M_Sais M_Split M_Induce M_Flbwt P_Cells P_Split.
Open Scope Z_scope.

Lemma for_down_ext {S} hi lo (b1 b2 : Z -> S -> res S) s :
  (forall i s, b1 i s = b2 i s) -> for_down hi lo b1 s = for_down hi lo b2 s.
Proof.
  intros H. unfold for_down. generalize (Z.to_nat (hi - lo + 1)) as c. intros c. revert hi s.
  induction c as [|c IH]; intros i s; cbn; [reflexivity|]. rewrite H. destruct (b2 i s); cbn; [apply IH|reflexivity].
Qed.

Lemma induce_rd_ext E r1 r2 co : (forall i, r1 i = r2 i) -> induce_bwt_rd E r1 co = induce_bwt_rd E r2 co.
Proof.
  intros H. unfold induce_bwt_rd. destruct (c_ht co) as [h|]; [|reflexivity]. cbn zeta.
  assert (Hf : forall Q, fill_lms E (ht_buf h) (c_bwp_base co) (c_num co) r1 Q = fill_lms E (ht_buf h) (c_bwp_base co) (c_num co) r2 Q).
  { intros Q. unfold fill_lms. apply for_down_ext. intros i s. rewrite H. reflexivity. }
  destruct (init_queues (c_bwp_width co)) as [Q|]; [|reflexivity]. cbn [bind]. rewrite Hf. reflexivity.
Qed.

Lemma branch2_eq E uw Sv T1 co : 1 <= uw <= 32 -> bwt_branch2 E uw Sv T1 co = bwt_branch E (32 + uw) Sv T1 co.
Proof.
  intros Hu. unfold bwt_branch2, bwt_branch. destruct (c_ht co) as [h|]; [|reflexivity]. cbn zeta. apply rrel_eq.
  apply (rrel_bind (srel2 uw)).
  { apply sim_2part; [exact Hu|]. split; cbn; apply crel2_new. }
  intros s s' [Hm _].
  apply (rrel_bind (fun x a => crel2 uw (fst x) (snd x) a)).
  { apply rrel_for_up; [|exact Hm]. intros i [L U] a Ha. cbn [fst snd] in Ha.
    eapply rrel_eqb; [apply (crel2_get uw); eassumption|]. intros v. apply rrel_fits. intros Hv. apply crel2_set; assumption. }
  intros [L U] a Ha. cbn [fst snd] in Ha.
  apply (rrel_bind (fun x a => crel2 uw (fst x) (snd x) a)).
  { apply rrel_for_up; [|exact Ha]. clear L U a Ha. intros i [L U] a Ha. cbn [fst snd] in Ha.
    eapply rrel_eqb; [apply (crel2_get uw); eassumption|]. intros p.
    do 4 (eapply rrel_eqb; [reflexivity|]; intros). apply rrel_fits. intros Hv. apply crel2_set; assumption. }
  intros [L' U'] a' Ha'. cbn [fst snd] in Ha'. unfold induce_bwt.
  erewrite induce_rd_ext; [apply rrel_refl|]. intros i. apply (crel2_get uw); assumption.
Qed.

Lemma branch3_eq E Sv T1 co : bwt_branch3 E Sv T1 co = bwt_branch E 56 Sv T1 co.
Proof.
  unfold bwt_branch3, bwt_branch. destruct (c_ht co) as [h|]; [|reflexivity]. cbn zeta. apply rrel_eq.
  apply (rrel_bind srel3).
  { apply sim_3part. split; cbn; apply crel3_new. }
  intros s s' [Hm _].
  apply (rrel_bind (fun x a => crel3 (fst (fst x)) (snd (fst x)) (snd x) a)).
  { apply rrel_for_up; [|exact Hm]. intros i [[L M] U] a Ha. cbn [fst snd] in Ha.
    eapply rrel_eqb; [apply crel3_get; eassumption|]. intros v. apply rrel_fits. intros Hv. apply crel3_set; assumption. }
  intros [[L M] U] a Ha. cbn [fst snd] in Ha.
  apply (rrel_bind (fun x a => crel3 (fst (fst x)) (snd (fst x)) (snd x) a)).
  { apply rrel_for_up; [|exact Ha]. clear L M U a Ha. intros i [[L M] U] a Ha. cbn [fst snd] in Ha.
    eapply rrel_eqb; [apply crel3_get; eassumption|]. intros p.
    do 4 (eapply rrel_eqb; [reflexivity|]; intros). apply rrel_fits. intros Hv. apply crel3_set; assumption. }
  intros [[L' M'] U'] a' Ha'. cbn [fst snd] in Ha'. unfold induce_bwt.
  erewrite induce_rd_ext; [apply rrel_refl|]. intros i. apply crel3_get; assumption.
Qed.

Theorem branch_of_eq E W Sv T1 co : bwt_branch_of E W Sv T1 co = bwt_branch E W Sv T1 co.
Proof.
  unfold bwt_branch_of.
  destruct (Z.eqb_spec W 40) as [->|]; [apply (branch2_eq E 8); lia|].
  destruct (Z.eqb_spec W 48) as [->|]; [apply (branch2_eq E 16); lia|].
  destruct (Z.eqb_spec W 56) as [->|]; [apply branch3_eq|reflexivity].
Qed.
