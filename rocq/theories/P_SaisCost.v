(** The step-counting programs of M_SaisCost.v: forgetting the counter gives the programs of
    M_Sais.v and M_Split.v; the split variants take as many steps as the plain one; the number of
    steps is linear. *)
From Verif Require Import Base Count Sums Text Keys M_PackedArray M_Cells M_Sais M_Split M_SaisCost P_Cells P_Split P_SplitBranch
  P_SaisMem P_SaisInduce P_SaisStages P_Sais.
From Coq Require Import ZifyBool.
Open Scope Z_scope.

(** * Forgetting the counter *)
Definition drop {A} (m : cres A) : res A := '(a, _) <- m ;; Ok a.
Lemma dr_bind {A B} (m : cres A) (f : A -> cres B) m' f' :
  drop m = m' -> (forall a, drop (f a) = f' a) -> drop (cbind m f) = bind m' f'.
Proof.
  intros <- H. destruct m as [[a c]|e]; cbn; [|reflexivity]. rewrite <- H. destruct (f a) as [[b d]|e]; reflexivity.
Qed.
Lemma dr_tick {A} (m : res A) : drop (tick m) = m.
Proof. destruct m; reflexivity. Qed.
Lemma dr_ret {A} (a : A) : drop (cret a) = Ok a.
Proof. reflexivity. Qed.
Lemma dr_unit {A} (m : cres A) m' : drop m = m' -> drop (cbind (tick (Ok tt)) (fun _ => m)) = m'.
Proof. intros <-. destruct m as [[a c]|e]; reflexivity. Qed.
Lemma dr_for_up {S} lo hi (b : Z -> S -> cres S) b' s : (forall i s, drop (b i s) = b' i s) -> drop (cfor_up lo hi b s) = for_up lo hi b' s.
Proof.
  intros H. unfold cfor_up, for_up. generalize (Z.to_nat (hi - lo)) as c. intros c. revert lo s.
  induction c as [|c IH]; intros i s; cbn [cfor_n for_n]; [reflexivity|].
  apply dr_unit. apply dr_bind; [apply H|]. intros a. apply IH.
Qed.
Lemma dr_for_down {S} hi lo (b : Z -> S -> cres S) b' s : (forall i s, drop (b i s) = b' i s) -> drop (cfor_down hi lo b s) = for_down hi lo b' s.
Proof.
  intros H. unfold cfor_down, for_down. generalize (Z.to_nat (hi - lo + 1)) as c. intros c. revert hi s.
  induction c as [|c IH]; intros i s; cbn [cford_n ford_n]; [reflexivity|].
  apply dr_unit. apply dr_bind; [apply H|]. intros a. apply IH.
Qed.
Lemma dr_loop {S R} fuel (b : S -> cres (S + R)) b' s : (forall s, drop (b s) = b' s) -> drop (cloop fuel b s) = loop fuel b' s.
Proof.
  intros H. revert s. induction fuel as [|c IH]; intros s; cbn [cloop loop]; [reflexivity|].
  apply dr_unit. apply dr_bind; [apply H|]. intros [a|a]; [apply IH|reflexivity].
Qed.

Ltac dr := first
  [ reflexivity
  | apply dr_tick
  | apply dr_bind; [|intros ?]
  | apply dr_for_up; intros ? ?
  | apply dr_for_down; intros ? ?
  | apply dr_loop; intros ?
  | match goal with
    | x : (_ * _)%type |- _ => destruct x
    | |- drop (if ?b then _ else _) = (if ?b then _ else _) => destruct b
    end
  | progress cbn zeta
  | match goal with |- drop (match (if ?b then _ else _) with _ => _ end) = _ => destruct b end ].

(** * Scan *)
Lemma dr_scan {A} (ch : A -> Z -> cres Z) ch' n f f' a :
  (forall x i, drop (ch x i) = ch' x i) -> (forall i c x, drop (f i c x) = f' i c x) ->
  drop (clms_scan ch n f a) = lms_scan ch' n f' a.
Proof.
  intros Hc Hf. unfold clms_scan, lms_scan. apply dr_bind; [apply Hc|]. intros c1. apply dr_bind; [|intros [[? ?] ?]; reflexivity].
  apply dr_for_down. intros i [[x cc] d]. apply dr_bind; [apply Hc|]. intros c0.
  destruct (c0 <? d + cc); [reflexivity|]. destruct (negb (cc =? 0)); [|reflexivity].
  apply dr_bind; [apply Hf|]. reflexivity.
Qed.

(** ** the split programs *)
Section DropSplit.
Context (E : env) (W : Z) (OP : ops) (HW : W <> 32).
Lemma dlw : lw W = 64.
Proof. unfold lw. destruct (Z.eqb_spec W 32); [contradiction|reflexivity]. Qed.
Lemma ds_chr s T i : drop (cchr E W OP s T i) = schr E W OP s T i.
Proof. unfold cchr. rewrite dr_tick. unfold chr0, schr. rewrite dlw. reflexivity. Qed.
Lemma ds_chrl s T i : drop (cchrl E W OP s T i) = schr64 E W OP s T i.
Proof. unfold cchrl, schr64. rewrite dlw. apply dr_bind; [apply ds_chr|]. reflexivity. Qed.
Lemma ds_chr64 s T i : drop (cchr64 E W OP s T i) = schr64 E W OP s T i.
Proof. apply dr_bind; [apply ds_chr|]. reflexivity. Qed.
Ltac ds1 := first [ apply ds_chr | apply ds_chrl | apply ds_chr64 | dr ].
Lemma ds_counts s T C n k : drop (cget_counts E W OP s T C n k) = sget_counts E W OP s T C n k.
Proof. unfold cget_counts, sget_counts. repeat ds1. Qed.
Lemma ds_buckets s C B k e : drop (cget_buckets OP s C B k e) = sget_buckets OP s C B k e.
Proof. unfold cget_buckets, sget_buckets. destruct e; repeat ds1. Qed.
Lemma ds_switch s B c0 c1 b : drop (cswitch_bucket OP s B c0 c1 b) = sswitch_bucket OP s B c0 c1 b.
Proof. unfold cswitch_bucket, sswitch_bucket. repeat ds1. Qed.
Lemma ds_markL s T j c1 : drop (cmarkL E W OP s T j c1) = smarkL E W OP s T j c1.
Proof. unfold cmarkL, smarkL. rewrite dlw. repeat ds1. Qed.
Lemma ds_markS s T j c1 : drop (cmarkS E W OP s T j c1) = smarkS E W OP s T j c1.
Proof. unfold cmarkS, smarkS. rewrite dlw. repeat ds1. Qed.
Ltac ds1 ::= first [ apply ds_chr | apply ds_chrl | apply ds_chr64 | apply ds_counts | apply ds_buckets | apply ds_switch | apply ds_markL | apply ds_markS | dr ].
Lemma ds_stepL T B i x : drop (cstepL E W OP T B i x) = sstepL E W OP T B i x.
Proof. unfold cstepL, sstepL. repeat ds1. Qed.
Lemma ds_stepS T B i x : drop (cstepS E W OP T B i x) = sstepS E W OP T B i x.
Proof. unfold cstepS, sstepS. repeat ds1. Qed.
Lemma ds_induce s T C B n k : drop (cinduce_SA E W OP s T C B n k) = sinduce_SA E W OP s T C B n k.
Proof.
  unfold cinduce_SA, sinduce_SA. apply dr_bind; [|intros ?].
  - unfold cinduce_L, sinduce_L. repeat first [apply ds_stepL | ds1].
  - unfold cinduce_S, sinduce_S. repeat first [apply ds_stepS | ds1].
Qed.
Lemma ds_skip s T n p c0 : drop (cskip_equal E W OP s T n p c0) = sskip_equal E W OP s T n p c0.
Proof. unfold cskip_equal, sskip_equal. repeat ds1. Qed.
Lemma ds_compact s T n : drop (ccompact_lms E W OP s T n) = scompact_lms E W OP s T n.
Proof. unfold ccompact_lms, scompact_lms, ccompact_step. repeat first [apply ds_skip | ds1]. Qed.
Lemma ds_same s T p q l : drop (csame_sub E W OP s T p q l) = ssame_sub E W OP s T p q l.
Proof. unfold csame_sub, ssame_sub. repeat ds1. Qed.
Lemma ds_names s T n m : drop (cname_lms E W OP s T n m) = sname_lms E W OP s T n m.
Proof. unfold cname_lms, sname_lms, cname_step. repeat first [apply ds_same | ds1]. Qed.
Lemma ds_zero s lo hi : drop (czero_range OP s lo hi) = szero_range OP s lo hi.
Proof. unfold czero_range, szero_range. repeat ds1. Qed.
Ltac ds1 ::= first [ apply ds_chr | apply ds_chrl | apply ds_chr64 | apply ds_counts | apply ds_buckets | apply ds_induce
  | apply ds_compact | apply ds_names | apply ds_zero | apply dr_scan; intros | dr ].
Lemma dr_choose {B} s n k fs (f : _ -> cres B) r : drop (f (schoose_buckets OP s n k fs)) = r ->
  drop (cbind (cchoose_buckets OP s n k fs) f) = r.
Proof. intros <-. unfold cchoose_buckets. cbn. destruct (f _) as [[b d]|e] eqn:Hf; reflexivity. Qed.
Lemma dr_delete {B} s k fs (f : _ -> cres B) r : drop (f (sdelete_buckets OP s k fs)) = r ->
  drop (cbind (cdelete_buckets OP s k fs) f) = r.
Proof. intros <-. unfold cdelete_buckets. cbn. destruct (f _) as [[b d]|e] eqn:Hf; reflexivity. Qed.
Lemma ds_stage1 s T fs n k : drop (cstage1 E W OP s T fs n k) = sstage1 E W OP s T fs n k.
Proof.
  unfold cstage1, sstage1. apply dr_choose. destruct (schoose_buckets OP s n k fs) as [[s1 C] B].
  do 5 (apply dr_bind; [solve [repeat ds1]|intros ?]). cbn zeta.
  apply dr_delete. repeat ds1.
Qed.
Lemma ds_collect s fs n m : drop (ccollect_names OP s fs n m) = scollect_names OP s fs n m.
Proof. unfold ccollect_names, scollect_names. repeat ds1. Qed.
Lemma ds_translate s T fs n m : drop (ctranslate E W OP s T fs n m) = stranslate E W OP s T fs n m.
Proof. unfold ctranslate, stranslate. repeat ds1. Qed.
Lemma ds_stage3 s T fs n k m : drop (cstage3 E W OP s T fs n k m) = sstage3 E W OP s T fs n k m.
Proof.
  unfold cstage3, sstage3. apply dr_choose. destruct (schoose_buckets OP s n k fs) as [[s1 C] B]. repeat ds1.
Qed.
Theorem ds_sais fuel : forall s T fs n k, drop (csais E W OP fuel s T fs n k) = ssais E W OP fuel s T fs n k.
Proof.
  induction fuel as [|f IH]; intros s T fs n k; cbn [csais ssais]; [reflexivity|].
  apply dr_bind; [apply ds_stage1|]. intros [[s1 m] name]. apply dr_bind; [|intros; apply ds_stage3].
  destruct (name <? m); [|reflexivity]. apply dr_bind; [apply ds_collect|]. intros s2. apply dr_bind; [apply IH|]. intros. apply ds_translate.
Qed.
End DropSplit.

(** ** the plain programs *)
Section DropPlain.
Context (E : env) (W : Z).
Notation OP := (ops1 W).
Lemma dp_chr s T i : drop (cchr E W OP s T i) = chr E W s T i.
Proof. unfold cchr. rewrite dr_tick. reflexivity. Qed.
Lemma dp_chrl s T i : drop (cchrl E W OP s T i) = chrl E W s T i.
Proof. apply dr_bind; [apply dp_chr|]. reflexivity. Qed.
Lemma dp_chr64 s T i : drop (cchr64 E W OP s T i) = chr64 E W s T i.
Proof. apply dr_bind; [apply dp_chr|]. reflexivity. Qed.
Ltac dp1 := first [ apply dp_chr | apply dp_chrl | apply dp_chr64 | dr ].
Lemma dp_counts s T C n k : drop (cget_counts E W OP s T C n k) = get_counts E W s T C n k.
Proof. unfold cget_counts, get_counts. repeat dp1. Qed.
Lemma dp_buckets s C B k e : drop (cget_buckets OP s C B k e) = get_buckets W s C B k e.
Proof.
  unfold cget_buckets, get_buckets. apply dr_bind; [|intros [? ?]; reflexivity]. apply dr_for_up. intros i [x sum].
  apply dr_bind; [apply dr_tick|]. intros v. cbn zeta. replace (sum + v - v) with sum by lia.
  apply dr_bind; [apply dr_tick|]. reflexivity.
Qed.
Lemma dp_switch s B c0 c1 b : drop (cswitch_bucket OP s B c0 c1 b) = switch_bucket W s B c0 c1 b.
Proof. unfold cswitch_bucket, switch_bucket. repeat dp1. Qed.
Lemma dp_markL s T j c1 : drop (cmarkL E W OP s T j c1) = markL E W s T j c1.
Proof. unfold cmarkL, markL. repeat dp1. Qed.
Lemma dp_markS s T j c1 : drop (cmarkS E W OP s T j c1) = markS E W s T j c1.
Proof. unfold cmarkS, markS. repeat dp1. Qed.
Ltac dp1 ::= first [ apply dp_chr | apply dp_chrl | apply dp_chr64 | apply dp_counts | apply dp_buckets | apply dp_switch | apply dp_markL | apply dp_markS | dr ].
Lemma dp_stepL T B i x : drop (cstepL E W OP T B i x) = stepL E W T B i x.
Proof. unfold cstepL, stepL. repeat dp1. Qed.
Lemma dp_stepS T B i x : drop (cstepS E W OP T B i x) = stepS E W T B i x.
Proof. unfold cstepS, stepS. repeat dp1. Qed.
Lemma dp_induce s T C B n k : drop (cinduce_SA E W OP s T C B n k) = induce_SA E W s T C B n k.
Proof.
  unfold cinduce_SA, induce_SA. apply dr_bind; [|intros ?].
  - unfold cinduce_L, induce_L. repeat first [apply dp_stepL | dp1].
  - unfold cinduce_S, induce_S. repeat first [apply dp_stepS | dp1].
Qed.
Lemma dp_skip s T n p c0 : drop (cskip_equal E W OP s T n p c0) = skip_equal E W s T n p c0.
Proof. unfold cskip_equal, skip_equal. repeat dp1. Qed.
Lemma dp_cstep T n i x : drop (ccompact_step E W OP T n i x) = compact_body E W T n i x.
Proof. unfold ccompact_step, compact_body. repeat first [apply dp_skip | dp1]. Qed.
Lemma dp_compact s T n : drop (ccompact_lms E W OP s T n) = compact_lms E W s T n.
Proof. unfold ccompact_lms, compact_lms. apply dr_for_up. intros. apply dp_cstep. Qed.
Lemma dp_same s T p q l : drop (csame_sub E W OP s T p q l) = same_sub E W s T p q l.
Proof. unfold csame_sub, same_sub. repeat dp1. Qed.
Lemma dp_names s T n m : drop (cname_lms E W OP s T n m) = name_lms E W s T n m.
Proof. unfold cname_lms, name_lms, cname_step. repeat first [apply dp_same | dp1]. Qed.
Lemma dp_zero s lo hi : drop (czero_range OP s lo hi) = zero_range W s lo hi.
Proof. unfold czero_range, zero_range. repeat dp1. Qed.
Ltac dp1 ::= first [ apply dp_chr | apply dp_chrl | apply dp_chr64 | apply dp_counts | apply dp_buckets | apply dp_induce
  | apply dp_compact | apply dp_names | apply dp_zero | apply dr_scan; intros | dr ].
Lemma dp_stage1 s T fs n k : drop (cstage1 E W OP s T fs n k) = stage1 E W s T fs n k.
Proof.
  unfold cstage1, stage1. apply dr_choose. change (schoose_buckets OP s n k fs) with (choose_buckets s n k fs). destruct (choose_buckets s n k fs) as [[s1 C] B].
  do 5 (apply dr_bind; [solve [repeat dp1]|intros ?]). cbn zeta.
  apply dr_delete. repeat dp1.
Qed.
Lemma dp_collect s fs n m : drop (ccollect_names OP s fs n m) = collect_names W s fs n m.
Proof.
  unfold ccollect_names, collect_names. cbn zeta. apply dr_bind; [|intros [? ?]; reflexivity]. apply dr_for_down. intros i [x j].
  unfold nz, get, put. cbn [o_nz o_get o_put ops1]. destruct (rd x SA i) as [v|e] eqn:Hv; cbn [bind tick cbind]; [|reflexivity].
  destruct (v =? 0); cbn [negb]; [reflexivity|]. cbn [bind tick cbind]. destruct (wr W x _ j (v - 1)); reflexivity.
Qed.
Lemma dp_translate s T fs n m : drop (ctranslate E W OP s T fs n m) = translate E W s T fs n m.
Proof. unfold ctranslate, translate. repeat dp1. Qed.
Lemma dp_stage3 s T fs n k m : drop (cstage3 E W OP s T fs n k m) = stage3 E W s T fs n k m.
Proof.
  unfold cstage3, stage3. apply dr_choose. change (schoose_buckets OP s n k fs) with (choose_buckets s n k fs). destruct (choose_buckets s n k fs) as [[s1 C] B]. repeat dp1.
Qed.
Theorem dp_sais fuel : forall s T fs n k, drop (csais E W OP fuel s T fs n k) = sais E W fuel s T fs n k.
Proof.
  induction fuel as [|f IH]; intros s T fs n k; cbn [csais sais]; [reflexivity|].
  apply dr_bind; [apply dp_stage1|]. intros [[s1 m] name]. apply dr_bind; [|intros; apply dp_stage3].
  destruct (name <? m); [|reflexivity]. apply dr_bind; [apply dp_collect|]. intros s2. apply dr_bind; [apply IH|]. intros. apply dp_translate.
Qed.
End DropPlain.

(** * Same number of steps for every cell representation *)
Definition crel {A B} (R : A -> B -> Prop) (m : cres A) (m' : cres B) : Prop :=
  rrel (fun x y => R (fst x) (fst y) /\ snd x = snd y) m m'.
Lemma crel_ret {A B} (R : A -> B -> Prop) a b : R a b -> crel R (cret a) (cret b).
Proof. intros H. split; [exact H|reflexivity]. Qed.
Lemma crel_tick {A B} (R : A -> B -> Prop) m m' : rrel R m m' -> crel R (tick m) (tick m').
Proof. destruct m, m'; cbn; tauto. Qed.
Lemma crel_bind {A A' B B'} (R1 : A -> A' -> Prop) (R2 : B -> B' -> Prop) m m' f f' :
  crel R1 m m' -> (forall a a', R1 a a' -> crel R2 (f a) (f' a')) -> crel R2 (cbind m f) (cbind m' f').
Proof.
  intros H Hf. unfold crel, cbind in *. eapply rrel_bind; [exact H|]. intros [a c] [a' c'] [Ha Hc]. cbn [fst snd] in *. subst c'.
  eapply rrel_bind; [apply Hf, Ha|]. intros [b d] [b' d'] [Hb Hd]. cbn [fst snd] in *. subst d'. split; [exact Hb|reflexivity].
Qed.
Lemma crel_eqb {A B B'} (R2 : B -> B' -> Prop) (m m' : cres A) f f' :
  crel eq m m' -> (forall a, crel R2 (f a) (f' a)) -> crel R2 (cbind m f) (cbind m' f').
Proof. intros H Hf. eapply crel_bind; [exact H|]. intros a a' <-. apply Hf. Qed.
Lemma crel_for_up {S S'} (R : S -> S' -> Prop) lo hi b b' s s' :
  (forall i s s', R s s' -> crel R (b i s) (b' i s')) -> R s s' -> crel R (cfor_up lo hi b s) (cfor_up lo hi b' s').
Proof.
  intros Hb. unfold cfor_up. generalize (Z.to_nat (hi - lo)) as c. intros c. revert lo s s'.
  induction c as [|c IH]; intros i s s' Hs; cbn [cfor_n]; [apply crel_tick; exact Hs|].
  apply crel_eqb; [apply crel_tick; reflexivity|]. intros _. eapply crel_bind; [apply Hb, Hs|]. intros; apply IH; assumption.
Qed.
Lemma crel_for_down {S S'} (R : S -> S' -> Prop) hi lo b b' s s' :
  (forall i s s', R s s' -> crel R (b i s) (b' i s')) -> R s s' -> crel R (cfor_down hi lo b s) (cfor_down hi lo b' s').
Proof.
  intros Hb. unfold cfor_down. generalize (Z.to_nat (hi - lo + 1)) as c. intros c. revert hi s s'.
  induction c as [|c IH]; intros i s s' Hs; cbn [cford_n]; [apply crel_tick; exact Hs|].
  apply crel_eqb; [apply crel_tick; reflexivity|]. intros _. eapply crel_bind; [apply Hb, Hs|]. intros; apply IH; assumption.
Qed.
Lemma crel_loop {S R} (f g : S -> cres (S + R)) fuel s : (forall s, crel eq (f s) (g s)) -> crel eq (cloop fuel f s) (cloop fuel g s).
Proof.
  intros H. revert s. induction fuel as [|n IH]; intros s; cbn [cloop]; [reflexivity|].
  apply crel_eqb; [apply crel_tick; reflexivity|]. intros _. apply crel_eqb; [apply H|]. intros [s'|r]; [apply IH|apply crel_ret; reflexivity].
Qed.

Section CSim.
Context (E : env) (W : Z) (OP : ops) (R : o_st OP -> st -> Prop).
Context (Hget : forall s s' p i, R s s' -> o_get OP s p i = rd s' p i).
Context (Hput : forall s s' p i v, R s s' -> rrel R (o_put OP s p i v) (wr W s' p i v)).
Context (Hzero : forall s s' p i, R s s' -> rrel R (o_zero OP s p i) (wr W s' p i 0)).
Context (Hnz : forall s s' p i, R s s' -> o_nz OP s p i = (v <- rd s' p i ;; Ok (negb (v =? 0)))).
Context (Hnew : forall s s' k, R s s' -> R (o_new OP s k) (mkst (mem s') (anew k))).
Context (Hdel : forall s s', R s s' -> R (o_del OP s) (mkst (mem s') (anew 0))).
Notation O1 := (ops1 W).
Notation R1 := (R1 OP R).
Notation R2 := (R2 OP R).
Notation R3 := (R3 OP R).

Ltac rdestr := repeat match goal with
  | H : P_Split.R2 _ _ ?x ?y |- _ => destruct x as [? ?], y as [? ?], H as [H ?]; cbn [fst snd] in *; subst
  | H : P_Split.R1 _ _ ?x ?y |- _ => destruct x as [? ?], y as [? ?], H as [H ?]; cbn [fst snd] in *; subst
  | H : P_Split.R3 _ _ ?x ?y |- _ => destruct x as [? ?], y as [? ?], H as [H ?]; cbn [fst snd] in *; subst
  end.
Ltac rsplit := unfold P_Split.R3, P_Split.R2, P_Split.R1; cbn [fst snd]; auto 8.
Lemma q_put s s' p i v : R s s' -> crel R (put OP s p i v) (put O1 s' p i v).
Proof. intros H. apply crel_tick, Hput, H. Qed.
Lemma q_zero s s' p i : R s s' -> crel R (zero OP s p i) (zero O1 s' p i).
Proof. intros H. apply crel_tick, Hzero, H. Qed.
Lemma q_get s s' p i : R s s' -> crel eq (get OP s p i) (get O1 s' p i).
Proof. intros H. apply crel_tick. rewrite (Hget _ _ _ _ H). apply rrel_refl. Qed.
Lemma q_nz s s' p i : R s s' -> crel eq (nz OP s p i) (nz O1 s' p i).
Proof. intros H. apply crel_tick. rewrite (Hnz _ _ _ _ H). apply rrel_refl. Qed.
Lemma q_chr s s' T i : R s s' -> crel eq (cchr E W OP s T i) (cchr E W O1 s' T i).
Proof.
  intros H. apply crel_tick. destruct T as [words cs|base]; unfold chr0; [apply rrel_refl|]. rewrite (Hget _ _ _ _ H). apply rrel_refl.
Qed.
Lemma q_chrl s s' T i : R s s' -> crel eq (cchrl E W OP s T i) (cchrl E W O1 s' T i).
Proof. intros H. apply crel_eqb; [apply q_chr, H|]. intros. apply crel_ret. reflexivity. Qed.
Lemma q_chr64 s s' T i : R s s' -> crel eq (cchr64 E W OP s T i) (cchr64 E W O1 s' T i).
Proof. intros H. apply crel_eqb; [apply q_chr, H|]. intros. apply crel_ret. reflexivity. Qed.
Ltac rput := eapply (crel_bind R); [apply q_put; eassumption|]; intros ? ? ?.
Ltac rget := apply crel_eqb; [apply q_get; eassumption|]; intros ?.
Ltac rchr := apply crel_eqb; [first [apply q_chr; eassumption | apply q_chrl; eassumption | apply q_chr64; eassumption] |]; intros ?.
Ltac rok := apply crel_ret; rsplit.

Lemma q_counts s s' T C n k : R s s' -> crel R (cget_counts E W OP s T C n k) (cget_counts E W O1 s' T C n k).
Proof.
  intros H. unfold cget_counts. eapply (crel_bind R).
  - apply crel_for_up; [|exact H]. intros. apply q_zero. assumption.
  - intros a a' Ha. apply crel_for_up; [|exact Ha]. intros i x x' Hx. rchr. rget. apply q_put, Hx.
Qed.
Lemma q_buckets s s' C B k e : R s s' -> crel R (cget_buckets OP s C B k e) (cget_buckets O1 s' C B k e).
Proof.
  intros H. unfold cget_buckets. eapply (crel_bind R1).
  - apply crel_for_up; [|rsplit]. intros i x x' Hx; rdestr; rget. rput. rok.
  - intros a a' Ha. rdestr. rok.
Qed.
Lemma q_switch s s' B c0 c1 b : R s s' -> crel R2 (cswitch_bucket OP s B c0 c1 b) (cswitch_bucket O1 s' B c0 c1 b).
Proof. intros H. unfold cswitch_bucket. destruct (c0 =? c1); [rok|]. rput. rget. rok. Qed.
Lemma q_markL s s' T j c1 : R s s' -> crel eq (cmarkL E W OP s T j c1) (cmarkL E W O1 s' T j c1).
Proof. intros H. unfold cmarkL. destruct (0 <? j); [|rok]. rchr. rok. Qed.
Lemma q_markS s s' T j c1 : R s s' -> crel eq (cmarkS E W OP s T j c1) (cmarkS E W O1 s' T j c1).
Proof. intros H. unfold cmarkS. destruct (j =? 0); [rok|]. rchr. rok. Qed.
Lemma q_stepL T B i x x' : R2 x x' -> crel R2 (cstepL E W OP T B i x) (cstepL E W O1 T B i x').
Proof.
  intros H. rdestr. unfold cstepL. rget. rput. destruct (0 <? a); [|rok].
  cbn zeta. rchr. eapply (crel_bind R2); [apply q_switch; assumption|]. intros y y' Hy. rdestr.
  apply crel_eqb; [apply q_markL; eassumption|]. intros v. rput. rok.
Qed.
Lemma q_stepS T B i x x' : R2 x x' -> crel R2 (cstepS E W OP T B i x) (cstepS E W O1 T B i x').
Proof.
  intros H. rdestr. unfold cstepS. rget. destruct (0 <? a); [|rput; rok].
  cbn zeta. rchr. eapply (crel_bind R2); [apply q_switch; assumption|]. intros y y' Hy. rdestr.
  apply crel_eqb; [apply q_markS; eassumption|]. intros v. rput. rok.
Qed.
Lemma q_induce s s' T C B n k : R s s' -> crel R (cinduce_SA E W OP s T C B n k) (cinduce_SA E W O1 s' T C B n k).
Proof.
  intros H. unfold cinduce_SA. eapply (crel_bind R).
  - unfold cinduce_L. eapply (crel_bind R).
    { destruct (ptr_eqb C B); [apply q_counts, H | rok]. }
    intros. eapply (crel_bind R); [apply q_buckets; assumption|]. intros. cbn zeta. rchr. rget.
    apply crel_eqb; [apply q_markL; eassumption|]. intros. rput.
    eapply (crel_bind R2); [apply crel_for_up; [intros; apply q_stepL; assumption | rsplit]|].
    intros y y' Hy. rdestr. rok.
  - intros. unfold cinduce_S. eapply (crel_bind R).
    { destruct (ptr_eqb C B); [apply q_counts; assumption | rok]. }
    intros. eapply (crel_bind R); [apply q_buckets; assumption|]. intros. rget.
    eapply (crel_bind R2); [apply crel_for_down; [intros; apply q_stepS; assumption | rsplit]|].
    intros y y' Hy. rdestr. rok.
Qed.
Lemma q_choose s s' n k fs : R s s' -> crel (fun x y => R (fst (fst x)) (fst (fst y)) /\ snd (fst x) = snd (fst y) /\ snd x = snd y)
  (cchoose_buckets OP s n k fs) (cchoose_buckets O1 s' n k fs).
Proof. intros H. apply crel_tick. unfold schoose_buckets. destruct (k <=? fs); cbn; auto. Qed.
Lemma q_delete s s' k fs : R s s' -> crel R (cdelete_buckets OP s k fs) (cdelete_buckets O1 s' k fs).
Proof. intros H. apply crel_tick. unfold sdelete_buckets. destruct (fs <? k); cbn; auto. Qed.
Lemma q_scan {A A'} (RA : A -> A' -> Prop) ch ch' n f f' a a' :
  (forall x x' i, RA x x' -> crel eq (ch x i) (ch' x' i)) ->
  (forall i c x x', RA x x' -> crel RA (f i c x) (f' i c x')) ->
  RA a a' -> crel RA (clms_scan ch n f a) (clms_scan ch' n f' a').
Proof.
  intros Hc Hf H. unfold clms_scan. apply crel_eqb; [apply Hc, H|]. intros c1.
  apply (crel_bind (fun x y => RA (fst (fst x)) (fst (fst y)) /\ snd (fst x) = snd (fst y) /\ snd x = snd y)).
  - apply crel_for_down; [|cbn; auto]. intros i [[x cc] d] [[x' cc'] d'] (Hx & H1 & H2). cbn [fst snd] in *. subst.
    apply crel_eqb; [apply Hc, Hx|]. intros c0. destruct (c0 <? d' + cc'); [apply crel_ret; cbn; auto|].
    destruct (negb (cc' =? 0)); [|apply crel_ret; cbn; auto].
    eapply (crel_bind RA); [apply Hf, Hx|]. intros. apply crel_ret; cbn; auto.
  - intros [[x cc] d] [[x' cc'] d'] (Hx & _). apply crel_ret. exact Hx.
Qed.
Lemma q_skip s s' T n p c0 : R s s' -> crel eq (cskip_equal E W OP s T n p c0) (cskip_equal E W O1 s' T n p c0).
Proof.
  intros H. unfold cskip_equal. apply crel_loop. intros [j c1]. destruct (j <? n); [|rok].
  rchr. destruct (c0 =? a); rok.
Qed.
Lemma q_compact s s' T n : R s s' -> crel R1 (ccompact_lms E W OP s T n) (ccompact_lms E W O1 s' T n).
Proof.
  intros H. unfold ccompact_lms, ccompact_step. apply crel_for_up; [|rsplit]. intros i x x' Hx. rdestr.
  rget. destruct (0 <? a); [|rok]. rchr. rchr. destruct (a1 <? a0); [|rok].
  apply crel_eqb; [apply q_skip; eassumption|]. intros [j c1].
  destruct ((j <? n) && (a1 <? c1)); [|rok]. rput. rok.
Qed.
Lemma q_same s s' T p q l : R s s' -> crel eq (csame_sub E W OP s T p q l) (csame_sub E W O1 s' T p q l).
Proof.
  intros H. unfold csame_sub. apply crel_loop. intros j. destruct (j <? l); [|rok].
  rchr. rchr. destruct (a =? a0); rok.
Qed.
Lemma q_names s s' T n m : R s s' -> crel R1 (cname_lms E W OP s T n m) (cname_lms E W O1 s' T n m).
Proof.
  intros H. unfold cname_lms, cname_step. eapply (crel_bind R3).
  - apply crel_for_up; [|rsplit]. intros i x x' Hx. rdestr. rget. cbn zeta. rget.
    apply crel_eqb; [destruct (_ =? _); [apply q_same, Hx|rok]|]. intros same.
    destruct same; rput; rok.
  - intros y y' Hy. rdestr. rok.
Qed.
Lemma q_zeros s s' lo hi : R s s' -> crel R (czero_range OP s lo hi) (czero_range O1 s' lo hi).
Proof. intros H. apply crel_for_up; [|exact H]. intros. apply q_zero. assumption. Qed.
Lemma q_stage1 s s' T fs n k : R s s' -> crel R2 (cstage1 E W OP s T fs n k) (cstage1 E W O1 s' T fs n k).
Proof.
  intros H. unfold cstage1. eapply crel_bind; [apply q_choose, H|]. intros [[t C] B] [[t' C'] B'] (Ht & H1 & H2). cbn [fst snd] in *. subst C' B'.
  eapply (crel_bind R); [apply q_counts; assumption|]. intros.
  eapply (crel_bind R); [apply q_buckets; assumption|]. intros.
  eapply (crel_bind R); [apply q_zeros; assumption|]. intros.
  eapply (crel_bind R).
  { apply q_scan; [intros; apply q_chr64; assumption| |assumption]. intros. rget. rput. apply q_put. assumption. }
  intros. eapply (crel_bind R); [apply q_induce; assumption|]. intros.
  eapply (crel_bind R); [apply q_delete; assumption|]. intros.
  eapply (crel_bind R1); [apply q_compact; assumption|]. intros y y' Hy. rdestr.
  eapply (crel_bind R); [apply q_zeros; assumption|]. intros.
  eapply (crel_bind R1).
  { apply q_scan; [intros; apply q_chr64; rdestr; assumption| |rsplit]. intros. rdestr. rput. rok. }
  intros y y' Hy'. rdestr. eapply (crel_bind R1); [apply q_names; assumption|]. intros y y' Hy''. rdestr. rok.
Qed.
Lemma q_collect s s' fs n m : R s s' -> crel R (ccollect_names OP s fs n m) (ccollect_names O1 s' fs n m).
Proof.
  intros H. unfold ccollect_names. cbn zeta. eapply (crel_bind R1).
  - apply crel_for_down; [|rsplit]. intros i x x' Hx. rdestr. apply crel_eqb; [apply q_nz, Hx|]. intros [|]; [|rok].
    rget. rput. rok.
  - intros y y' Hy. rdestr. rok.
Qed.
Lemma q_translate s s' T fs n m : R s s' -> crel R (ctranslate E W OP s T fs n m) (ctranslate E W O1 s' T fs n m).
Proof.
  intros H. unfold ctranslate. cbn zeta. eapply (crel_bind R1).
  { apply q_scan; [intros; apply q_chr64; rdestr; assumption| |rsplit]. intros. rdestr. rput. rok. }
  intros y y' Hy. rdestr. apply crel_for_up; [|assumption]. intros. rget. rget. apply q_put. assumption.
Qed.
Lemma q_stage3 s s' T fs n k m : R s s' -> crel R (cstage3 E W OP s T fs n k m) (cstage3 E W O1 s' T fs n k m).
Proof.
  intros H. unfold cstage3. eapply crel_bind; [apply q_choose, H|]. intros [[t C] B] [[t' C'] B'] (Ht & H1 & H2). cbn [fst snd] in *. subst C' B'.
  eapply (crel_bind R); [apply q_counts; assumption|]. intros.
  eapply (crel_bind R); [apply q_buckets; assumption|]. intros.
  eapply (crel_bind R); [apply q_zeros; assumption|]. intros.
  eapply (crel_bind R); [|intros; eapply (crel_bind R); [apply q_induce; assumption|intros; apply q_delete; assumption]].
  apply crel_for_down; [|assumption]. intros. rget.
  eapply (crel_bind R); [apply q_zero; assumption|]. intros. rchr. rget. rput. apply q_put. assumption.
Qed.
Theorem q_sais fuel : forall s s' T fs n k, R s s' -> crel R (csais E W OP fuel s T fs n k) (csais E W O1 fuel s' T fs n k).
Proof.
  induction fuel as [|f IH]; intros s s' T fs n k H; cbn [csais]; [reflexivity|].
  eapply (crel_bind R2); [apply q_stage1, H|]. intros y y' Hy. rdestr.
  eapply (crel_bind R); [|intros; apply q_stage3; assumption].
  match goal with |- context [?a <? ?b] => destruct (a <? b) end; [|rok].
  eapply (crel_bind R); [apply q_collect; assumption|]. intros.
  eapply (crel_bind R); [apply IH; assumption|]. intros. apply q_translate. assumption.
Qed.
End CSim.

(** ** the instances *)
Theorem q_2part E uw : 1 <= uw <= 32 -> forall fuel s s' T fs n k, srel2 uw s s' ->
  crel (srel2 uw) (csais E (32 + uw) (ops2 uw) fuel s T fs n k) (csais E (32 + uw) (ops1 (32 + uw)) fuel s' T fs n k).
Proof.
  intros Hu fuel s s' T fs n k. apply (q_sais E (32 + uw) (ops2 uw) (srel2 uw)); clear - Hu; cbn [ops2 o_st o_get o_put o_zero o_nz o_new o_del]; try lia.
  - intros s s' [[] o] i [H1 H2]; unfold get2p, rd; cbn [sp off]; eapply crel2_get; eassumption.
  - intros s s' [[] o] i v [H1 H2]; unfold put2p, wr; cbn [sp off]; apply rrel_fits; intros Hv;
      (eapply rrel_bind; [eapply crel2_set; eassumption|]); intros [L U] a Ha; cbn in *; split; assumption.
  - intros s s' [[] o] i [H1 H2]; unfold zero2p, wr; rewrite fits_0 by lia; cbn [sp off bind].
    + pose proof (crel2_zero uw _ _ _ (o + i) Hu H1) as Hz. revert Hz.
      destruct (aset (m2U s) (o + i) 0); cbn [bind]; destruct (aset (m2L s) (o + i) 0); cbn [bind];
        destruct (aset (mem s') (o + i) 0); cbn; try tauto; intros; split; assumption.
    + pose proof (crel2_zero uw _ _ _ (o + i) Hu H2) as Hz. revert Hz.
      destruct (aset (t2U s) (o + i) 0); cbn [bind]; destruct (aset (t2L s) (o + i) 0); cbn [bind];
        destruct (aset (tmp s') (o + i) 0); cbn; try tauto; intros; split; assumption.
  - intros s s' [[] o] i [H1 H2]; unfold nz2p, rd; cbn [sp off]; eapply crel2_nz; eassumption.
  - intros s s' k [H1 H2]. split; [exact H1|]. cbn. apply crel2_new.
  - intros s s' [H1 H2]. split; [exact H1|]. cbn. apply crel2_new.
Qed.
Theorem q_3part E : forall fuel s s' T fs n k, srel3 s s' ->
  crel srel3 (csais E 56 ops3 fuel s T fs n k) (csais E 56 (ops1 56) fuel s' T fs n k).
Proof.
  intros fuel s s' T fs n k. apply (q_sais E 56 ops3 srel3); cbn [ops3 o_st o_get o_put o_zero o_nz o_new o_del]; try lia; clear.
  - intros s s' [[] o] i [H1 H2]; unfold get3p, rd; cbn [sp off]; eapply crel3_get; eassumption.
  - intros s s' [[] o] i v [H1 H2]; unfold put3p, wr; cbn [sp off]; apply rrel_fits; intros Hv;
      (eapply rrel_bind; [eapply crel3_set; eassumption|]); intros [[L M] U] a Ha; cbn in *; split; assumption.
  - intros s s' [[] o] i [H1 H2]; unfold zero3p, wr; rewrite fits_0 by lia; cbn [sp off bind].
    + pose proof (crel3_zero _ _ _ _ (o + i) H1) as Hz. revert Hz.
      destruct (aset (m3U s) (o + i) 0); cbn [bind]; destruct (aset (m3M s) (o + i) 0); cbn [bind]; destruct (aset (m3L s) (o + i) 0); cbn [bind];
        destruct (aset (mem s') (o + i) 0); cbn; try tauto; intros; split; assumption.
    + pose proof (crel3_zero _ _ _ _ (o + i) H2) as Hz. revert Hz.
      destruct (aset (t3U s) (o + i) 0); cbn [bind]; destruct (aset (t3M s) (o + i) 0); cbn [bind]; destruct (aset (t3L s) (o + i) 0); cbn [bind];
        destruct (aset (tmp s') (o + i) 0); cbn; try tauto; intros; split; assumption.
  - intros s s' [[] o] i [H1 H2]; unfold nz3p, rd; cbn [sp off]; eapply crel3_nz; eassumption.
  - intros s s' k [H1 H2]. split; [exact H1|]. cbn. apply crel3_new.
  - intros s s' [H1 H2]. split; [exact H1|]. cbn. apply crel3_new.
Qed.
