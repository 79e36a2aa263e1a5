(** The split-cell programs of M_Split.v simulate the program of M_Sais.v step by step: same
    errors, same values. *)
From Verif Require Import Base M_PackedArray M_Cells M_Sais M_Split P_Cells.
From Coq Require Import ZifyBool.
Open Scope Z_scope.

(** * Related results *)
Definition rrel {A B} (R : A -> B -> Prop) (m : res A) (m' : res B) : Prop :=
  match m, m' with Ok a, Ok b => R a b | Err e, Err e' => e = e' | _, _ => False end.

Lemma rrel_ok {A B} (R : A -> B -> Prop) a b : R a b -> rrel R (Ok a) (Ok b).
Proof. exact (fun H => H). Qed.
Lemma rrel_bind {A A' B B'} (R1 : A -> A' -> Prop) (R2 : B -> B' -> Prop) m m' f f' :
  rrel R1 m m' -> (forall a a', R1 a a' -> rrel R2 (f a) (f' a')) -> rrel R2 (bind m f) (bind m' f').
Proof. destruct m, m'; cbn; try tauto; intros; subst; auto. Qed.
Lemma rrel_eqb {A B B'} (R2 : B -> B' -> Prop) (m m' : res A) f f' :
  m = m' -> (forall a, rrel R2 (f a) (f' a)) -> rrel R2 (bind m f) (bind m' f').
Proof. intros -> H. destruct m'; cbn; auto. Qed.
Lemma rrel_eq {A} (m m' : res A) : rrel eq m m' -> m = m'.
Proof. destruct m, m'; cbn; try tauto; congruence. Qed.
Lemma rrel_refl {A} (m : res A) : rrel eq m m.
Proof. destruct m; reflexivity. Qed.
Lemma rrel_fits {A B} (R : A -> B -> Prop) w v m m' :
  (- 2 ^ (w - 1) <= v < 2 ^ (w - 1) -> rrel R m m') -> rrel R (_ <- fits w v ;; m) (_ <- fits w v ;; m').
Proof. intros H. destruct (fits w v) as [u|] eqn:E; cbn; [|reflexivity]. apply H, (fits_inv _ _ _ E). Qed.
Lemma fits_0 w : 1 <= w -> fits w 0 = Ok tt.
Proof. intros Hw. apply fits_ok. assert (0 < 2 ^ (w - 1)) by (apply Z.pow_pos_nonneg; lia). lia. Qed.
Lemma rrel_for_up {S S'} (R : S -> S' -> Prop) lo hi b b' s s' :
  (forall i s s', R s s' -> rrel R (b i s) (b' i s')) -> R s s' -> rrel R (for_up lo hi b s) (for_up lo hi b' s').
Proof.
  intros Hb. unfold for_up. generalize (Z.to_nat (hi - lo)) as c. intros c. revert lo s s'.
  induction c as [|c IH]; intros i s s' Hs; cbn; [exact Hs|].
  eapply rrel_bind; [apply Hb, Hs|]. intros; apply IH; assumption.
Qed.
Lemma rrel_for_down {S S'} (R : S -> S' -> Prop) hi lo b b' s s' :
  (forall i s s', R s s' -> rrel R (b i s) (b' i s')) -> R s s' -> rrel R (for_down hi lo b s) (for_down hi lo b' s').
Proof.
  intros Hb. unfold for_down. generalize (Z.to_nat (hi - lo + 1)) as c. intros c. revert hi s s'.
  induction c as [|c IH]; intros i s s' Hs; cbn; [exact Hs|].
  eapply rrel_bind; [apply Hb, Hs|]. intros; apply IH; assumption.
Qed.
Lemma loop_ext {S R} (f g : S -> res (S + R)) fuel s : (forall s, f s = g s) -> loop fuel f s = loop fuel g s.
Proof.
  intros H. revert s. induction fuel as [|n IH]; intros s; cbn; [reflexivity|]. rewrite H.
  destruct (g s) as [[s'|r]|]; cbn; auto.
Qed.

(** * The program *)
Section Sim.
Context (E : env) (W : Z) (OP : ops) (R : o_st OP -> st -> Prop).
Context (HW : W <> 32).
Context (Hget : forall s s' p i, R s s' -> o_get OP s p i = rd s' p i).
Context (Hput : forall s s' p i v, R s s' -> rrel R (o_put OP s p i v) (wr W s' p i v)).
Context (Hzero : forall s s' p i, R s s' -> rrel R (o_zero OP s p i) (wr W s' p i 0)).
Context (Hnz : forall s s' p i, R s s' -> o_nz OP s p i = (v <- rd s' p i ;; Ok (negb (v =? 0)))).
Context (Hnew : forall s s' k, R s s' -> R (o_new OP s k) (mkst (mem s') (anew k))).
Context (Hdel : forall s s', R s s' -> R (o_del OP s) (mkst (mem s') (anew 0))).

Definition R1 (x : o_st OP * Z) (y : st * Z) : Prop := R (fst x) (fst y) /\ snd x = snd y.
Definition R2 (x : o_st OP * Z * Z) (y : st * Z * Z) : Prop := R1 (fst x) (fst y) /\ snd x = snd y.
Definition R3 (x : o_st OP * Z * Z * Z) (y : st * Z * Z * Z) : Prop := R2 (fst x) (fst y) /\ snd x = snd y.

Ltac rdestr := repeat match goal with
  | H : R2 ?x ?y |- _ => destruct x as [? ?], y as [? ?], H as [H ?]; cbn [fst snd] in *; subst
  | H : R1 ?x ?y |- _ => destruct x as [? ?], y as [? ?], H as [H ?]; cbn [fst snd] in *; subst
  | H : R3 ?x ?y |- _ => destruct x as [? ?], y as [? ?], H as [H ?]; cbn [fst snd] in *; subst
  end.
Ltac rsplit := unfold R3, R2, R1; cbn [fst snd]; auto 8.
Ltac rput := eapply rrel_bind; [eapply Hput; eassumption|]; intros ? ? ?.
Ltac rget := eapply rrel_eqb; [first [apply Hget; eassumption | eassumption | reflexivity] |]; intros ?.

Lemma sim_chr s s' T i : R s s' -> schr E W OP s T i = chr E W s' T i.
Proof.
  intros H. destruct T as [words cs|base]; unfold schr, chr; [reflexivity|]. rewrite (Hget _ _ _ _ H).
  destruct (rd s' (mkptr InMem base) i); cbn [bind]; [|reflexivity]. destruct (Z.eqb_spec W 32); [congruence|reflexivity].
Qed.
Lemma sim_chrl s s' T i : R s s' -> schr64 E W OP s T i = chrl E W s' T i.
Proof.
  intros H. unfold schr64, chrl, lw. rewrite (sim_chr s s' T i H). destruct (Z.eqb_spec W 32); [congruence|reflexivity].
Qed.
Lemma sim_chr64 s s' T i : R s s' -> schr64 E W OP s T i = chr64 E W s' T i.
Proof. intros H. unfold schr64, chr64. rewrite (sim_chr s s' T i H). reflexivity. Qed.
Lemma lw64 : lw W = 64.
Proof. unfold lw. destruct (Z.eqb_spec W 32); [congruence|reflexivity]. Qed.
Ltac rchr := eapply rrel_eqb; [first [apply sim_chr; eassumption | apply sim_chrl; eassumption | apply sim_chr64; eassumption] |]; intros ?.

Lemma sim_counts s s' T C n k : R s s' -> rrel R (sget_counts E W OP s T C n k) (get_counts E W s' T C n k).
Proof.
  intros H. unfold sget_counts, get_counts. eapply rrel_bind.
  - apply rrel_for_up; [|exact H]. intros. apply Hzero. assumption.
  - intros a a' Ha. apply rrel_for_up; [|exact Ha]. intros i x x' Hx. rchr. rget. apply Hput, Hx.
Qed.

Lemma sim_buckets s s' C B k e : R s s' -> rrel R (sget_buckets OP s C B k e) (get_buckets W s' C B k e).
Proof.
  intros H. unfold sget_buckets, get_buckets. eapply (rrel_bind R1).
  - destruct e; (apply rrel_for_up; [|rsplit]); intros i x x' Hx; rdestr; rget; cbn zeta.
    + rput. apply rrel_ok. rsplit.
    + replace (z0 + a - a) with z0 by lia. rput. apply rrel_ok. rsplit.
  - intros a a' Ha. rdestr. apply rrel_ok. assumption.
Qed.

Lemma sim_switch s s' B c0 c1 b : R s s' -> rrel R2 (sswitch_bucket OP s B c0 c1 b) (switch_bucket W s' B c0 c1 b).
Proof.
  intros H. unfold sswitch_bucket, switch_bucket. destruct (c0 =? c1); [apply rrel_ok; rsplit|].
  rput. rget. apply rrel_ok. rsplit.
Qed.

Lemma sim_markL s s' T j c1 : R s s' -> smarkL E W OP s T j c1 = markL E W s' T j c1.
Proof. intros H. unfold smarkL, markL. rewrite lw64, (sim_chr s s') by exact H. reflexivity. Qed.
Lemma sim_markS s s' T j c1 : R s s' -> smarkS E W OP s T j c1 = markS E W s' T j c1.
Proof. intros H. unfold smarkS, markS. rewrite lw64, (sim_chr s s') by exact H. reflexivity. Qed.

Lemma sim_stepL T B i x x' : R2 x x' -> rrel R2 (sstepL E W OP T B i x) (stepL E W T B i x').
Proof.
  intros H. rdestr. unfold sstepL, stepL. rget. rput. destruct (0 <? a); [|apply rrel_ok; rsplit].
  cbn zeta. rchr. eapply (rrel_bind R2); [apply sim_switch; assumption|]. intros y y' Hy. rdestr.
  eapply rrel_eqb; [apply sim_markL; eassumption|]. intros v. rput. apply rrel_ok. rsplit.
Qed.
Lemma sim_stepS T B i x x' : R2 x x' -> rrel R2 (sstepS E W OP T B i x) (stepS E W T B i x').
Proof.
  intros H. rdestr. unfold sstepS, stepS. rget. destruct (0 <? a); [|rput; apply rrel_ok; rsplit].
  cbn zeta. rchr. eapply (rrel_bind R2); [apply sim_switch; assumption|]. intros y y' Hy. rdestr.
  eapply rrel_eqb; [apply sim_markS; eassumption|]. intros v. rput. apply rrel_ok. rsplit.
Qed.

Lemma sim_induce s s' T C B n k : R s s' -> rrel R (sinduce_SA E W OP s T C B n k) (induce_SA E W s' T C B n k).
Proof.
  intros H. unfold sinduce_SA, induce_SA. eapply (rrel_bind R).
  - unfold sinduce_L, induce_L. eapply (rrel_bind R).
    { destruct (ptr_eqb C B); [apply sim_counts, H | apply rrel_ok, H]. }
    intros. eapply (rrel_bind R); [apply sim_buckets; assumption|]. intros. cbn zeta. rchr. rget.
    eapply rrel_eqb; [apply sim_markL; eassumption|]. intros. rput.
    eapply (rrel_bind R2); [apply rrel_for_up; [intros; apply sim_stepL; assumption | rsplit]|].
    intros y y' Hy. rdestr. apply rrel_ok. assumption.
  - intros. unfold sinduce_S, induce_S. eapply (rrel_bind R).
    { destruct (ptr_eqb C B); [apply sim_counts; assumption | apply rrel_ok; assumption]. }
    intros. eapply (rrel_bind R); [apply sim_buckets; assumption|]. intros. rget.
    eapply (rrel_bind R2); [apply rrel_for_down; [intros; apply sim_stepS; assumption | rsplit]|].
    intros y y' Hy. rdestr. apply rrel_ok. assumption.
Qed.

Lemma sim_choose s s' n k fs : R s s' ->
  exists C B t t', schoose_buckets OP s n k fs = (t, C, B) /\ choose_buckets s' n k fs = (t', C, B) /\ R t t'.
Proof.
  intros H. unfold schoose_buckets, choose_buckets. destruct (k <=? fs); do 4 eexists; (split; [reflexivity|]; split; [reflexivity|]); auto.
Qed.

Lemma sim_delete s s' k fs : R s s' -> R (sdelete_buckets OP s k fs) (delete_buckets s' k fs).
Proof. intros H. unfold sdelete_buckets, delete_buckets. destruct (fs <? k); auto. Qed.

Lemma sim_scan {A A'} (RA : A -> A' -> Prop) ch ch' n f f' a a' :
  (forall x x' i, RA x x' -> ch x i = ch' x' i) ->
  (forall i c x x', RA x x' -> rrel RA (f i c x) (f' i c x')) ->
  RA a a' -> rrel RA (lms_scan ch n f a) (lms_scan ch' n f' a').
Proof.
  intros Hc Hf H. unfold lms_scan. eapply rrel_eqb; [apply Hc, H|]. intros c1.
  apply (rrel_bind (fun x y => RA (fst (fst x)) (fst (fst y)) /\ snd (fst x) = snd (fst y) /\ snd x = snd y)).
  - apply rrel_for_down; [|cbn; auto]. intros i [[x cc] d] [[x' cc'] d'] (Hx & H1 & H2). cbn [fst snd] in *. subst.
    eapply rrel_eqb; [apply Hc, Hx|]. intros c0. destruct (c0 <? d' + cc'); [apply rrel_ok; cbn; auto|].
    destruct (negb (cc' =? 0)); [|apply rrel_ok; cbn; auto].
    eapply (rrel_bind RA); [apply Hf, Hx|]. intros. apply rrel_ok; cbn; auto.
  - intros [[x cc] d] [[x' cc'] d'] (Hx & _). apply rrel_ok. exact Hx.
Qed.

Lemma sim_skip s s' T n p c0 : R s s' -> sskip_equal E W OP s T n p c0 = skip_equal E W s' T n p c0.
Proof.
  intros H. unfold sskip_equal, skip_equal. apply loop_ext. intros [j c1]. destruct (j <? n); [|reflexivity].
  rewrite (sim_chr64 s s') by exact H. reflexivity.
Qed.

Lemma sim_compact s s' T n : R s s' -> rrel R1 (scompact_lms E W OP s T n) (compact_lms E W s' T n).
Proof.
  intros H. unfold scompact_lms, compact_lms. apply rrel_for_up; [|rsplit]. intros i x x' Hx. rdestr.
  rget. destruct (0 <? a); [|apply rrel_ok; rsplit]. rchr. rchr. destruct (a1 <? a0); [|apply rrel_ok; rsplit].
  eapply rrel_eqb; [apply sim_skip; eassumption|]. intros [j c1].
  destruct ((j <? n) && (a1 <? c1)); [|apply rrel_ok; rsplit]. rput. apply rrel_ok. rsplit.
Qed.

Lemma sim_same s s' T p q l : R s s' -> ssame_sub E W OP s T p q l = same_sub E W s' T p q l.
Proof.
  intros H. unfold ssame_sub, same_sub. apply loop_ext. intros j. destruct (j <? l); [|reflexivity].
  rewrite (sim_chr s s' T (p + j)) by exact H. destruct (chr E W s' T (p + j)); [|reflexivity]. cbn [bind].
  rewrite (sim_chr s s' T (q + j)) by exact H. reflexivity.
Qed.

Lemma sim_names s s' T n m : R s s' -> rrel R1 (sname_lms E W OP s T n m) (name_lms E W s' T n m).
Proof.
  intros H. unfold sname_lms, name_lms. eapply (rrel_bind R3).
  - apply rrel_for_up; [|rsplit]. intros i x x' Hx. rdestr. rget. cbn zeta. rget.
    eapply rrel_eqb; [rewrite (sim_same _ _ _ _ _ _ Hx); reflexivity|]. intros same.
    destruct same; rput; apply rrel_ok; rsplit.
  - intros y y' Hy. rdestr. apply rrel_ok. rsplit.
Qed.

Lemma sim_zero s s' lo hi : R s s' -> rrel R (szero_range OP s lo hi) (zero_range W s' lo hi).
Proof. intros H. apply rrel_for_up; [|exact H]. intros. apply Hzero. assumption. Qed.

Lemma sim_stage1 s s' T fs n k : R s s' -> rrel R2 (sstage1 E W OP s T fs n k) (stage1 E W s' T fs n k).
Proof.
  intros H. unfold sstage1, stage1. destruct (sim_choose s s' n k fs H) as (C & B & t & t' & -> & -> & Ht).
  eapply (rrel_bind R); [apply sim_counts; assumption|]. intros.
  eapply (rrel_bind R); [apply sim_buckets; assumption|]. intros.
  eapply (rrel_bind R); [apply sim_zero; assumption|]. intros.
  eapply (rrel_bind R).
  { apply sim_scan; [intros; apply sim_chr64; assumption| |assumption]. intros. rget. rput. apply Hput. assumption. }
  intros. eapply (rrel_bind R); [apply sim_induce; assumption|]. intros. cbn zeta.
  eapply (rrel_bind R1); [apply sim_compact, sim_delete; assumption|]. intros y y' Hy. rdestr.
  eapply (rrel_bind R); [apply sim_zero; assumption|]. intros.
  eapply (rrel_bind R1).
  { apply sim_scan; [intros; apply sim_chr64; rdestr; assumption| |rsplit]. intros. rdestr. rput. apply rrel_ok; rsplit. }
  intros y y' Hy'. rdestr. eapply (rrel_bind R1); [apply sim_names; assumption|]. intros y y' Hy''. rdestr. apply rrel_ok; rsplit.
Qed.

Lemma sim_collect s s' fs n m : R s s' -> rrel R (scollect_names OP s fs n m) (collect_names W s' fs n m).
Proof.
  intros H. unfold scollect_names, collect_names. cbn zeta. eapply (rrel_bind R1).
  - apply rrel_for_down; [|rsplit]. intros i x x' Hx. rdestr. rewrite (Hnz _ _ _ _ Hx).
    destruct (rd s0 SA i) as [v|e] eqn:Hv; [|reflexivity]. cbn [bind]. destruct (v =? 0) eqn:Hv0; cbn [negb].
    + apply rrel_ok; rsplit.
    + rewrite (Hget _ _ _ _ Hx), Hv. cbn [bind]. rput. apply rrel_ok; rsplit.
  - intros y y' Hy. rdestr. apply rrel_ok. assumption.
Qed.

Lemma sim_translate s s' T fs n m : R s s' -> rrel R (stranslate E W OP s T fs n m) (translate E W s' T fs n m).
Proof.
  intros H. unfold stranslate, translate. cbn zeta. eapply (rrel_bind R1).
  { apply sim_scan; [intros; apply sim_chr64; rdestr; assumption| |rsplit]. intros. rdestr. rput. apply rrel_ok; rsplit. }
  intros y y' Hy. rdestr. apply rrel_for_up; [|assumption]. intros. rget. rget. apply Hput. assumption.
Qed.

Lemma sim_stage3 s s' T fs n k m : R s s' -> rrel R (sstage3 E W OP s T fs n k m) (stage3 E W s' T fs n k m).
Proof.
  intros H. unfold sstage3, stage3. destruct (sim_choose s s' n k fs H) as (C & B & t & t' & -> & -> & Ht).
  eapply (rrel_bind R); [apply sim_counts; assumption|]. intros.
  eapply (rrel_bind R); [apply sim_buckets; assumption|]. intros.
  eapply (rrel_bind R); [apply sim_zero; assumption|]. intros.
  eapply (rrel_bind R); [|intros; eapply (rrel_bind R); [apply sim_induce; assumption|intros; apply rrel_ok, sim_delete; assumption]].
  apply rrel_for_down; [|assumption]. intros. rget.
  eapply (rrel_bind R); [apply Hzero; assumption|]. intros. rchr. rget. rput. apply Hput. assumption.
Qed.

Theorem sim_sais fuel : forall s s' T fs n k, R s s' -> rrel R (ssais E W OP fuel s T fs n k) (sais E W fuel s' T fs n k).
Proof.
  induction fuel as [|f IH]; intros s s' T fs n k H; cbn; [reflexivity|].
  eapply (rrel_bind R2); [apply sim_stage1, H|]. intros y y' Hy. rdestr.
  eapply (rrel_bind R); [|intros; apply sim_stage3; assumption].
  match goal with |- context [?a <? ?b] => destruct (a <? b) end; [|apply rrel_ok; assumption].
  eapply (rrel_bind R); [apply sim_collect; assumption|]. intros.
  eapply (rrel_bind R); [apply IH; assumption|]. intros. apply sim_translate. assumption.
Qed.
End Sim.

(** * Two parts *)
Definition lo32 (v : Z) : Z := wrap 32 (Z.land v 4294967295).
Definition hi2 (uw v : Z) : Z := swrap uw (Z.shiftr v 32).

Lemma lo32_mod v : lo32 v = v mod 2 ^ 32.
Proof. unfold lo32. rewrite ones32, Z.land_ones by lia. unfold wrap. apply Z.mod_mod. lia. Qed.

Lemma swrap_eq w v : 0 <= w -> exists k, swrap w v = v + k * 2 ^ w.
Proof.
  intros Hw. unfold swrap. exists (- ((v + 2 ^ (w - 1)) / 2 ^ w)).
  assert (0 < 2 ^ w) by (apply Z.pow_pos_nonneg; lia).
  pose proof (Z.div_mod (v + 2 ^ (w - 1)) (2 ^ w) ltac:(lia)). lia.
Qed.
Lemma swrap_add w v k : 0 <= w -> swrap w (v + k * 2 ^ w) = swrap w v.
Proof.
  intros Hw. unfold swrap. replace (v + k * 2 ^ w + 2 ^ (w - 1)) with (v + 2 ^ (w - 1) + k * 2 ^ w) by lia.
  rewrite Z.mod_add; [reflexivity|]. assert (0 < 2 ^ w) by (apply Z.pow_pos_nonneg; lia). lia.
Qed.

Lemma lo32_swrap W v : 32 <= W -> lo32 (swrap W v) = lo32 v.
Proof.
  intros HW. rewrite !lo32_mod. destruct (swrap_eq W v ltac:(lia)) as [k ->].
  replace (2 ^ W) with (2 ^ (W - 32) * 2 ^ 32) by (rewrite <- Z.pow_add_r by lia; f_equal; lia).
  rewrite Z.mul_assoc, Z.mod_add by lia. reflexivity.
Qed.
Lemma hi2_swrap uw v : 1 <= uw -> hi2 uw (swrap (32 + uw) v) = hi2 uw v.
Proof.
  intros Hu. unfold hi2. destruct (swrap_eq (32 + uw) v ltac:(lia)) as [k ->].
  rewrite !Z.shiftr_div_pow2 by lia. rewrite Z.pow_add_r by lia.
  replace (v + k * (2 ^ 32 * 2 ^ uw)) with (v + k * 2 ^ uw * 2 ^ 32) by lia.
  rewrite Z.div_add by lia. apply swrap_add. lia.
Qed.
Lemma join2 uw v : 1 <= uw <= 32 -> - 2 ^ (31 + uw) <= v < 2 ^ (31 + uw) ->
  Z.lor (swrap 64 (Z.shiftl (hi2 uw v) 32)) (lo32 v) = v.
Proof.
  intros Huw Hv. unfold hi2, lo32. rewrite ones32.
  rewrite (swrap_small uw); [|lia|].
  2: { apply (shiftr_range v 32 (uw - 1)); try lia. replace (32 + (uw - 1)) with (31 + uw) by lia. lia. }
  rewrite wrap_small by (apply land_ones_range; lia).
  rewrite swrap_small; [|lia|].
  2: { apply shiftl_shiftr_range; try lia. assert (2 ^ (31 + uw) <= 2 ^ (64 - 1)) by (apply Z.pow_le_mono_r; lia). lia. }
  apply lor_split; lia.
Qed.

Definition crel2 (uw : Z) (L U a : arr Z) : Prop :=
  alen L = alen a /\ alen U = alen a /\
  forall i, (av a i = None /\ av L i = None /\ av U i = None) \/
    exists v, - 2 ^ (31 + uw) <= v < 2 ^ (31 + uw) /\ av a i = Some v /\ av L i = Some (lo32 v) /\ av U i = Some (hi2 uw v).

Lemma aget_oob {A} (a : arr A) i : ~ (0 <= i < alen a) -> aget a i = Err OutOfBounds.
Proof.
  intros H. Transparent aget. unfold aget. destruct (inb a i) eqn:Hi; [|reflexivity]. apply inb_spec in Hi. lia.
Qed.
Global Opaque aget.

Lemma crel2_get uw L U a i : 1 <= uw <= 32 -> crel2 uw L U a -> get_2part L U i = aget a i.
Proof.
  intros Hu (HL & HU & H). unfold get_2part. destruct (H i) as [(Ha & Hl & Hh)|(v & Hv & Ha & Hl & Hh)].
  - destruct (Z_lt_dec i 0) as [Hi|Hi]; [|destruct (Z_lt_dec i (alen a)) as [Hj|Hj]].
    + rewrite !aget_oob by lia. reflexivity.
    + rewrite !aget_uninit by (assumption || lia). reflexivity.
    + rewrite !aget_oob by lia. reflexivity.
  - rewrite (aget_ok _ _ _ Ha), (aget_ok _ _ _ Hl), (aget_ok _ _ _ Hh). cbn [bind]. rewrite join2 by assumption. reflexivity.
Qed.

Lemma crel2_upd uw L U a i v : 1 <= uw <= 32 -> crel2 uw L U a -> 0 <= i < alen a ->
  - 2 ^ (31 + uw) <= v < 2 ^ (31 + uw) -> crel2 uw (aupd L i (lo32 v)) (aupd U i (hi2 uw v)) (aupd a i v).
Proof.
  intros Hu (HL & HU & H) Hi Hv. unfold crel2. rewrite !alen_upd. split; [exact HL|]. split; [exact HU|].
  intros j. rewrite !av_upd by lia. destruct (Z.eqb_spec j i) as [->|Hj]; [|apply H].
  right. exists v. auto.
Qed.

Lemma crel2_set uw L U a i v : 1 <= uw <= 32 -> - 2 ^ (32 + uw - 1) <= v < 2 ^ (32 + uw - 1) -> crel2 uw L U a ->
  rrel (fun x a' => crel2 uw (fst x) (snd x) a') (set_2part uw L U i v) (aset a i v).
Proof.
  intros Hu Hv H. pose proof H as (HL & HU & _). unfold set_2part.
  destruct (Z_lt_dec i 0) as [Hi|Hi]; [|destruct (Z_lt_dec i (alen a)) as [Hj|Hj]].
  - rewrite !aset_oob by lia. reflexivity.
  - rewrite !aset_ok by lia. cbn. apply crel2_upd; [exact Hu|exact H|lia|]. replace (31 + uw) with (32 + uw - 1) by lia. exact Hv.
  - rewrite !aset_oob by lia. reflexivity.
Qed.
Lemma zero_parts uw : 1 <= uw -> lo32 0 = 0 /\ hi2 uw 0 = 0 /\ swrap (32 + uw) 0 = 0.
Proof.
  intros Hu. split; [reflexivity|]. unfold hi2. rewrite Z.shiftr_0_l.
  assert (forall w, 1 <= w -> swrap w 0 = 0).
  { intros w Hw. apply swrap_small; [lia|]. assert (0 < 2 ^ (w - 1)) by (apply Z.pow_pos_nonneg; lia). lia. }
  split; apply H; lia.
Qed.
Lemma crel2_zero uw L U a i : 1 <= uw <= 32 -> crel2 uw L U a ->
  rrel (fun x a' => crel2 uw (fst x) (snd x) a')
    (U' <- aset U i 0 ;; L' <- aset L i 0 ;; Ok (L', U')) (aset a i 0).
Proof.
  intros Hu H. pose proof (crel2_set uw L U a i 0 Hu (fits_inv _ _ _ (fits_0 (32 + uw) ltac:(lia))) H) as Hs. unfold set_2part in Hs.
  fold (lo32 0) in Hs. fold (hi2 uw 0) in Hs. destruct (zero_parts uw ltac:(lia)) as (H1 & H2 & _).
  rewrite H1, H2 in Hs. exact Hs.
Qed.
Lemma crel2_nz uw L U a i : 1 <= uw <= 32 -> crel2 uw L U a ->
  (l <- aget L i ;; if negb (l =? 0) then Ok true else (u <- aget U i ;; Ok (negb (u =? 0)))) =
  (v <- aget a i ;; Ok (negb (v =? 0))).
Proof.
  intros Hu (HL & HU & H). destruct (H i) as [(Ha & Hl & Hh)|(v & Hv & Ha & Hl & Hh)].
  - destruct (Z_lt_dec i 0) as [Hi|Hi]; [|destruct (Z_lt_dec i (alen a)) as [Hj|Hj]].
    + rewrite !aget_oob by lia. reflexivity.
    + rewrite !aget_uninit by (assumption || lia). reflexivity.
    + rewrite !aget_oob by lia. reflexivity.
  - rewrite (aget_ok _ _ _ Ha), (aget_ok _ _ _ Hl), (aget_ok _ _ _ Hh). cbn [bind].
    pose proof (join2 uw v Hu Hv) as Hj. destruct (zero_parts uw ltac:(lia)) as (H1 & H2 & _).
    destruct (Z.eqb_spec (lo32 v) 0) as [El|El]; cbn [negb].
    + destruct (Z.eqb_spec (hi2 uw v) 0) as [Eh|Eh]; cbn [negb].
      * rewrite El, Eh in Hj. cbn in Hj. subst v. reflexivity.
      * destruct (Z.eqb_spec v 0) as [->|]; [congruence|reflexivity].
    + destruct (Z.eqb_spec v 0) as [->|]; [congruence|reflexivity].
Qed.
Lemma crel2_new uw k : crel2 uw (anew k) (anew k) (anew k).
Proof. unfold crel2. rewrite !alen_new. do 2 (split; [reflexivity|]). intros i. left. rewrite !av_new. auto. Qed.

Definition srel2 (uw : Z) (s : st2) (s' : st) : Prop :=
  crel2 uw (m2L s) (m2U s) (mem s') /\ crel2 uw (t2L s) (t2U s) (tmp s').

Theorem sim_2part E uw : 1 <= uw <= 32 -> forall fuel s s' T fs n k, srel2 uw s s' ->
  rrel (srel2 uw) (ssais E (32 + uw) (ops2 uw) fuel s T fs n k) (sais E (32 + uw) fuel s' T fs n k).
Proof.
  intros Hu fuel s s' T fs n k. apply (sim_sais E (32 + uw) (ops2 uw) (srel2 uw)); clear - Hu; cbn [ops2 o_st o_get o_put o_zero o_nz o_new o_del]; try lia.
  - intros s s' [[] o] i [H1 H2]; unfold get2p, rd; cbn [sp off]; eapply crel2_get; eassumption.
  - intros s s' [[] o] i v [H1 H2]; unfold put2p, wr; cbn [sp off]; apply rrel_fits; intros Hv;
      (eapply rrel_bind; [eapply crel2_set; eassumption|]); intros [L U] a Ha; cbn in *; split; assumption.
  - intros s s' [[] o] i [H1 H2]; unfold zero2p, wr; rewrite fits_0 by lia; cbn [sp off bind].
    + pose proof (crel2_zero uw _ _ _ (o + i) Hu H1) as Hz. revert Hz.
      destruct (aset (m2U s) (o + i) 0); cbn [bind]; destruct (aset (m2L s) (o + i) 0); cbn [bind];
        destruct (aset (mem s') (o + i) 0); cbn; try tauto; intros; split; assumption.
    + pose proof (crel2_zero uw _ _ _ (o + i) Hu H2) as Hz. revert Hz.
      destruct (aset (t2U s) (o + i) 0); cbn [bind]; destruct (aset (t2L s) (o + i) 0); cbn [bind];
        destruct (aset (tmp s') (o + i) 0); cbn; try tauto; intros; split; assumption.
  - intros s s' [[] o] i [H1 H2]; unfold nz2p, rd; cbn [sp off]; eapply crel2_nz; eassumption.
  - intros s s' k [H1 H2]. split; [exact H1|]. cbn. apply crel2_new.
  - intros s s' [H1 H2]. split; [exact H1|]. cbn. apply crel2_new.
Qed.

(** * Three parts *)
Definition mid3 (v : Z) : Z := wrap 16 (Z.shiftr v 32).
Definition hi3 (v : Z) : Z := swrap 8 (Z.shiftr v 48).

Lemma mid3_swrap v : mid3 (swrap 56 v) = mid3 v.
Proof.
  unfold mid3, wrap. destruct (swrap_eq 56 v ltac:(lia)) as [k ->]. rewrite !Z.shiftr_div_pow2 by lia.
  replace (v + k * 2 ^ 56) with (v + k * 2 ^ 24 * 2 ^ 32) by lia. rewrite Z.div_add by lia.
  replace (k * 2 ^ 24) with (k * 2 ^ 8 * 2 ^ 16) by lia. rewrite Z.mod_add by lia. reflexivity.
Qed.
Lemma hi3_swrap v : hi3 (swrap 56 v) = hi3 v.
Proof.
  unfold hi3. destruct (swrap_eq 56 v ltac:(lia)) as [k ->]. rewrite !Z.shiftr_div_pow2 by lia.
  replace (v + k * 2 ^ 56) with (v + k * 2 ^ 8 * 2 ^ 48) by lia. rewrite Z.div_add by lia. apply swrap_add. lia.
Qed.
Lemma join3 v : - 2 ^ 55 <= v < 2 ^ 55 ->
  Z.lor (Z.lor (swrap 64 (Z.shiftl (hi3 v) 48)) (swrap 64 (Z.shiftl (mid3 v) 32))) (lo32 v) = v.
Proof.
  intros Hv. unfold hi3, mid3, lo32. rewrite ones32.
  rewrite (swrap_small 8); [|lia|]. 2: { apply (shiftr_range v 48 7); lia. }
  rewrite (wrap_small 32) by (apply land_ones_range; lia).
  assert (Hm : wrap 16 (Z.shiftr v 32) = Z.land (Z.shiftr v 32) (Z.ones 16)).
  { rewrite Z.land_ones by lia. reflexivity. }
  rewrite Hm. pose proof (land_ones_range (Z.shiftr v 32) 16 ltac:(lia)) as Hmr.
  rewrite (swrap_small 64 (Z.shiftl (Z.land _ _) _)); [|lia|]. 2: { rewrite Z.shiftl_mul_pow2 by lia. lia. }
  rewrite (swrap_small 64); [|lia|]. 2: { apply (shiftl_shiftr_range v 48 63); lia. }
  transitivity (Z.lor (Z.shiftl (Z.shiftr v 32) 32) (Z.land v (Z.ones 32))); [|apply lor_split; lia].
  f_equal.
  transitivity (Z.shiftl (Z.lor (Z.shiftl (Z.shiftr (Z.shiftr v 32) 16) 16) (Z.land (Z.shiftr v 32) (Z.ones 16))) 32);
    [|f_equal; apply lor_split; lia].
  rewrite Z.shiftl_lor, Z.shiftl_shiftl, Z.shiftr_shiftr by lia. reflexivity.
Qed.

Definition crel3 (L M U a : arr Z) : Prop :=
  alen L = alen a /\ alen M = alen a /\ alen U = alen a /\
  forall i, (av a i = None /\ av L i = None /\ av M i = None /\ av U i = None) \/
    exists v, - 2 ^ 55 <= v < 2 ^ 55 /\ av a i = Some v /\ av L i = Some (lo32 v) /\ av M i = Some (mid3 v) /\ av U i = Some (hi3 v).

Lemma crel3_get L M U a i : crel3 L M U a -> get_3part L M U i = aget a i.
Proof.
  intros (HL & HM & HU & H). unfold get_3part. destruct (H i) as [(Ha & Hl & Hm & Hh)|(v & Hv & Ha & Hl & Hm & Hh)].
  - destruct (Z_lt_dec i 0) as [Hi|Hi]; [|destruct (Z_lt_dec i (alen a)) as [Hj|Hj]].
    + rewrite !aget_oob by lia. reflexivity.
    + rewrite !aget_uninit by (assumption || lia). reflexivity.
    + rewrite !aget_oob by lia. reflexivity.
  - rewrite (aget_ok _ _ _ Ha), (aget_ok _ _ _ Hl), (aget_ok _ _ _ Hm), (aget_ok _ _ _ Hh). cbn [bind]. rewrite join3 by assumption. reflexivity.
Qed.
Lemma crel3_set L M U a i v : - 2 ^ (56 - 1) <= v < 2 ^ (56 - 1) -> crel3 L M U a ->
  rrel (fun x a' => crel3 (fst (fst x)) (snd (fst x)) (snd x) a') (set_3part L M U i v) (aset a i v).
Proof.
  intros Hv (HL & HM & HU & H). unfold set_3part.
  destruct (Z_lt_dec i 0) as [Hi|Hi]; [|destruct (Z_lt_dec i (alen a)) as [Hj|Hj]].
  - rewrite !aset_oob by lia. reflexivity.
  - rewrite !aset_ok by lia. cbn [bind rrel fst snd]. unfold crel3. rewrite !alen_upd. do 3 (split; [assumption|]).
    intros j. rewrite !av_upd by lia. destruct (Z.eqb_spec j i) as [->|Hne]; [|apply H].
    right. exists v. split; [exact Hv|]. auto.
  - rewrite !aset_oob by lia. reflexivity.
Qed.
Lemma crel3_zero L M U a i : crel3 L M U a ->
  rrel (fun x a' => crel3 (fst (fst x)) (snd (fst x)) (snd x) a')
    (U' <- aset U i 0 ;; M' <- aset M i 0 ;; L' <- aset L i 0 ;; Ok (L', M', U')) (aset a i 0).
Proof. intros H. exact (crel3_set L M U a i 0 ltac:(lia) H). Qed.
Lemma crel3_nz L M U a i : crel3 L M U a ->
  (l <- aget L i ;; if negb (l =? 0) then Ok true else
   m <- aget M i ;; if negb (m =? 0) then Ok true else (u <- aget U i ;; Ok (negb (u =? 0)))) =
  (v <- aget a i ;; Ok (negb (v =? 0))).
Proof.
  intros (HL & HM & HU & H). destruct (H i) as [(Ha & Hl & Hm & Hh)|(v & Hv & Ha & Hl & Hm & Hh)].
  - destruct (Z_lt_dec i 0) as [Hi|Hi]; [|destruct (Z_lt_dec i (alen a)) as [Hj|Hj]].
    + rewrite !aget_oob by lia. reflexivity.
    + rewrite !aget_uninit by (assumption || lia). reflexivity.
    + rewrite !aget_oob by lia. reflexivity.
  - rewrite (aget_ok _ _ _ Ha), (aget_ok _ _ _ Hl), (aget_ok _ _ _ Hm), (aget_ok _ _ _ Hh). cbn [bind].
    pose proof (join3 v Hv) as Hj.
    destruct (Z.eqb_spec v 0) as [->|Hne]; [reflexivity|].
    destruct (Z.eqb_spec (lo32 v) 0) as [El|El]; cbn [negb]; [|reflexivity].
    destruct (Z.eqb_spec (mid3 v) 0) as [Em|Em]; cbn [negb]; [|reflexivity].
    destruct (Z.eqb_spec (hi3 v) 0) as [Eh|Eh]; cbn [negb]; [|reflexivity].
    rewrite El, Em, Eh in Hj. cbn in Hj. congruence.
Qed.
Lemma crel3_new k : crel3 (anew k) (anew k) (anew k) (anew k).
Proof. unfold crel3. rewrite !alen_new. do 3 (split; [reflexivity|]). intros i. left. rewrite !av_new. auto. Qed.

Definition srel3 (s : st3) (s' : st) : Prop :=
  crel3 (m3L s) (m3M s) (m3U s) (mem s') /\ crel3 (t3L s) (t3M s) (t3U s) (tmp s').

Theorem sim_3part E : forall fuel s s' T fs n k, srel3 s s' ->
  rrel srel3 (ssais E 56 ops3 fuel s T fs n k) (sais E 56 fuel s' T fs n k).
Proof.
  intros fuel s s' T fs n k. apply (sim_sais E 56 ops3 srel3); cbn [ops3 o_st o_get o_put o_zero o_nz o_new o_del]; try lia; clear.
  - intros s s' [[] o] i [H1 H2]; unfold get3p, rd; cbn [sp off]; eapply crel3_get; eassumption.
  - intros s s' [[] o] i v [H1 H2]; unfold put3p, wr; cbn [sp off]; apply rrel_fits; intros Hv;
      (eapply rrel_bind; [eapply crel3_set; eassumption|]); intros [[L M] U] a Ha; cbn in *; split; assumption.
  - intros s s' [[] o] i [H1 H2]; unfold zero3p, wr; rewrite fits_0 by lia; cbn [sp off bind].
    + pose proof (crel3_zero _ _ _ _ (o + i) H1) as Hz. revert Hz.
      destruct (aset (m3U s) (o + i) 0); cbn [bind]; destruct (aset (m3M s) (o + i) 0); cbn [bind]; destruct (aset (m3L s) (o + i) 0); cbn [bind];
        destruct (aset (mem s') (o + i) 0); cbn; try tauto; intros; split; assumption.
    + pose proof (crel3_zero _ _ _ _ (o + i) H2) as Hz. revert Hz.
      destruct (aset (t3U s) (o + i) 0); cbn [bind]; destruct (aset (t3M s) (o + i) 0); cbn [bind]; destruct (aset (t3L s) (o + i) 0); cbn [bind];
        destruct (aset (tmp s') (o + i) 0); cbn; try tauto; intros; split; assumption.
  - intros s s' [[] o] i [H1 H2]; unfold nz3p, rd; cbn [sp off]; eapply crel3_nz; eassumption.
  - intros s s' k [H1 H2]. split; [exact H1|]. cbn. apply crel3_new.
  - intros s s' [H1 H2]. split; [exact H1|]. cbn. apply crel3_new.
Qed.
