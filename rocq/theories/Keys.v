(** The order computed by the first induced sort of SA-IS (LMS substrings, ties by position),
    LMS substrings and the reduction of the suffix order to names. *)
From Verif Require Import Count Spec Text Induced.
From Coq Require Import ZifyBool.
Open Scope Z_scope.

Section Keys.
Context (t : Z -> Z) (n : Z).
Notation isS := (isS t n).
Notation LMS := (LMS t n).
Notation slt := (slt t n).
Notation item := (item t n).

(** * Keys: characters and types up to the next LMS position *)
Section Tail.
Context (tail : Z -> list Z).
Fixpoint KLf (f : nat) (x : Z) : list Z :=
  match f with
  | O => []
  | S f => if isS x then t x :: 1 :: tail x else t x :: 0 :: KLf f (x + 1)
  end.
Fixpoint Kf (f : nat) (x : Z) : list Z :=
  match f with
  | O => []
  | S f' => if isS x then t x :: 1 :: Kf f' (x + 1) else KLf f x
  end.
Definition KL (x : Z) : list Z := KLf (Z.to_nat (n - x)) x.
Definition K (x : Z) : list Z := Kf (Z.to_nat (n - x)) x.
Lemma fuel_S x : x < n -> Z.to_nat (n - x) = S (Z.to_nat (n - (x + 1))).
Proof. lia. Qed.
Lemma KL_n x : n <= x -> KL x = [].
Proof. intros H. unfold KL. replace (Z.to_nat (n - x)) with O by lia. reflexivity. Qed.
Lemma KL_S x : x < n -> isS x = true -> KL x = t x :: 1 :: tail x.
Proof. intros H HS. unfold KL. rewrite fuel_S by lia. cbn [KLf]. rewrite HS. reflexivity. Qed.
Lemma KL_L x : x < n -> isS x = false -> KL x = t x :: 0 :: KL (x + 1).
Proof. intros H HS. unfold KL. rewrite fuel_S by lia. cbn [KLf]. rewrite HS. reflexivity. Qed.
Lemma K_S x : x < n -> isS x = true -> K x = t x :: 1 :: K (x + 1).
Proof. intros H HS. unfold K. rewrite fuel_S by lia. cbn [Kf]. rewrite HS. reflexivity. Qed.
Lemma K_L x : x < n -> isS x = false -> K x = KL x.
Proof. intros H HS. unfold K, KL. rewrite fuel_S by lia. cbn [Kf]. rewrite HS. reflexivity. Qed.
End Tail.

Notation K1 := (K (fun e => [e])).
Notation KL1 := (KL (fun e => [e])).
Notation IK := (K (fun _ => [])).
Notation IKL := (KL (fun _ => [])).

Lemma up_ind (G : Z -> Prop) : (forall i, n <= i -> G i) -> (forall i, i < n -> G (i + 1) -> G i) -> forall i, G i.
Proof. apply (cnt_ind G n). Qed.

(** character, marker and rest of a key *)
Lemma KL_head tail x : x < n -> exists r, KL tail x = t x :: (if isS x then 1 else 0) :: r.
Proof.
  intros H. destruct (isS x) eqn:HS; [rewrite KL_S by assumption|rewrite KL_L by assumption]; eauto.
Qed.

Lemma KL1_inj : forall x y, x <= n -> y <= n -> KL1 x = KL1 y -> x = y.
Proof.
  apply (up_ind (fun x => forall y, x <= n -> y <= n -> KL1 x = KL1 y -> x = y)).
  - intros x H y Hx Hy. rewrite (KL_n _ x) by lia. intros He.
    destruct (Z.eq_dec y n); [lia|]. destruct (KL_head (fun e => [e]) y ltac:(lia)) as (r & Hr). congruence.
  - intros x Hx IH y Hxn Hy He.
    destruct (Z.eq_dec y n) as [->|Hyn].
    { rewrite (KL_n _ n) in He by lia. destruct (KL_head (fun e => [e]) x ltac:(lia)) as (r & Hr). congruence. }
    destruct (isS x) eqn:HS1, (isS y) eqn:HS2.
    + rewrite !KL_S in He by (assumption || lia). congruence.
    + rewrite KL_S, KL_L in He by (assumption || lia). congruence.
    + rewrite (KL_L _ x), (KL_S _ y) in He by (assumption || lia). congruence.
    + rewrite (KL_L _ x), (KL_L _ y) in He by (assumption || lia). inversion He as [[H1 H2]].
      apply IH in H2; lia.
Qed.
Lemma K1_inj : forall x y, x < n -> y < n -> K1 x = K1 y -> x = y.
Proof.
  apply (up_ind (fun x => forall y, x < n -> y < n -> K1 x = K1 y -> x = y)); [intros; lia|].
  intros x Hx IH y _ Hy He.
  destruct (isS x) eqn:HS1, (isS y) eqn:HS2.
  - rewrite (K_S _ x), (K_S _ y) in He by assumption. inversion He as [[H1 H2]].
    pose proof (isS_bound t n x Hx HS1). pose proof (isS_bound t n y Hy HS2). apply IH in H2; lia.
  - rewrite (K_S _ x), (K_L _ y), KL_L in He by assumption. congruence.
  - rewrite (K_L _ x), KL_L, (K_S _ y) in He by assumption. congruence.
  - rewrite !K_L in He by assumption. apply KL1_inj in He; lia.
Qed.

Definition lt1 (i j : Z) : bool := lexlt (K1 i) (K1 j).
Definition lt10 (e f : Z) : bool := (t e <? t f) || ((t e =? t f) && (e <? f)).

Lemma lex01 a x y r s : lexlt (a :: x :: r) (a :: y :: s) = (x <? y) || ((x =? y) && lexlt r s).
Proof. rewrite lexlt_cons, Z.ltb_irrefl, Z.eqb_refl. reflexivity. Qed.

Lemma K_cons tail x : x < n -> exists r, K tail x = t x :: (if isS x then 1 else 0) :: r.
Proof.
  intros H. destruct (isS x) eqn:HS; [rewrite K_S by assumption; eauto|].
  rewrite K_L, KL_L by assumption; eauto.
Qed.

Lemma lt1_L i j : i < n -> j < n -> t i = t j -> isS i = false -> isS j = false ->
  lt1 i j = lexlt (KL1 (i + 1)) (KL1 (j + 1)).
Proof.
  intros Hi Hj Ht HL1 HL2. unfold lt1. rewrite !K_L by assumption.
  rewrite (KL_L _ i), (KL_L _ j) by assumption. rewrite Ht, lex01. reflexivity.
Qed.

Lemma Lsucc_key : forall i, i + 1 < n -> isS i = false -> isS (i + 1) = false -> lexlt (KL1 (i + 1)) (KL1 i) = true.
Proof.
  apply (up_ind (fun i => i + 1 < n -> isS i = false -> isS (i + 1) = false -> lexlt (KL1 (i + 1)) (KL1 i) = true));
    [intros; lia|].
  intros i Hi IH Hi1 HL HL1.
  rewrite (KL_L _ i) by assumption. rewrite (KL_L _ (i + 1)) at 1 by assumption. rewrite lexlt_cons.
  pose proof (L_ge t n i Hi1 HL) as Hge.
  destruct (Z.eq_dec (t (i + 1)) (t i)) as [He|He]; [|lia].
  replace (t (i + 1) =? t i) with true by lia. replace (t (i + 1) <? t i) with false by lia. cbn [orb andb].
  rewrite lexlt_cons. cbn [Z.ltb Z.eqb Z.compare orb andb].
  destruct (Z.eq_dec (i + 1 + 1) n) as [Hn|Hn].
  { rewrite KL_n by lia. rewrite KL_L by assumption. reflexivity. }
  destruct (isS (i + 1 + 1)) eqn:HS2.
  - rewrite KL_S by (assumption || lia). rewrite (KL_L _ (i + 1)) by assumption. rewrite lexlt_cons.
    rewrite (isS_step t n (i + 1)) in HL1 by lia. rewrite HS2 in HL1. lia.
  - apply IH; (assumption || lia).
Qed.

Lemma Ssucc_key : forall i, i < n -> isS i = true -> lt1 i (i + 1) = true.
Proof.
  apply (up_ind (fun i => i < n -> isS i = true -> lt1 i (i + 1) = true)); [intros; lia|].
  intros i Hi IH _ HS. pose proof (isS_bound t n i Hi HS) as Hi1. pose proof (S_le t n i Hi HS) as Hle.
  unfold lt1. destruct (K_cons (fun e => [e]) i Hi) as (r & Hr). destruct (K_cons (fun e => [e]) (i + 1) Hi1) as (r1 & Hr1).
  destruct (Z.eq_dec (t i) (t (i + 1))) as [He|He].
  - rewrite (same_type t n i Hi1 He) in HS.
    rewrite (K_S _ i) by (rewrite ?(same_type t n i Hi1 He); assumption).
    rewrite (K_S _ (i + 1)) at 2 by assumption. rewrite <- He, lex01.
    unfold lt1 in IH. rewrite IH by (assumption || lia). reflexivity.
  - rewrite Hr, Hr1, lexlt_cons. lia.
Qed.

Lemma key_indord : indord t n lt1 lt10.
Proof.
  constructor.
  - intros; apply lexlt_irr.
  - intros i j k _ _ _. apply lexlt_trans.
  - intros i j Hi Hj Hne. apply lexlt_total. intros He. apply K1_inj in He; lia.
  - intros i _. unfold lt10. lia.
  - intros i j k _ _ _. unfold lt10. lia.
  - intros i j _ _ H. unfold lt10. lia.
  - intros i j Hi Hj H. unfold lt1.
    destruct (K_cons (fun e => [e]) i ltac:(lia)) as (r & ->). destruct (K_cons (fun e => [e]) j ltac:(lia)) as (s & ->).
    rewrite lexlt_cons. lia.
  - intros i j Hi Hj Ht HL HS. unfold lt1.
    destruct (K_cons (fun e => [e]) i ltac:(lia)) as (r & ->). destruct (K_cons (fun e => [e]) j ltac:(lia)) as (s & ->).
    rewrite HL, HS, Ht, lex01. reflexivity.
  - intros i j Hi Hj Ht HL1 HL2 Hne. rewrite lt1_L by (assumption || lia). unfold ilt.
    destruct (Z.eqb_spec (i + 1) n) as [Hin|Hin].
    { rewrite (KL_n _ (i + 1)) by lia. replace (j + 1 =? n) with false by lia.
      destruct (KL_head (fun e => [e]) (j + 1) ltac:(lia)) as (r & ->). reflexivity. }
    destruct (Z.eqb_spec (j + 1) n) as [Hjn|Hjn].
    { rewrite (KL_n _ (j + 1)) by lia. destruct (KL1 (i + 1)); reflexivity. }
    destruct (Z.eqb_spec (t (i + 1)) (t (j + 1))) as [He|He]; cbn [negb].
    + destruct (isS (i + 1)) eqn:H1, (isS (j + 1)) eqn:H2.
      * rewrite !KL_S by (assumption || lia). rewrite He, lex01. rewrite lexlt_cons. cbn [lexlt].
        unfold lt10. rewrite He. lia.
      * rewrite (KL_S _ (i + 1)), (KL_L _ (j + 1)) by (assumption || lia). rewrite He, lex01. reflexivity.
      * rewrite (KL_L _ (i + 1)), (KL_S _ (j + 1)) by (assumption || lia). rewrite He, lex01. reflexivity.
      * unfold lt1. rewrite !K_L by (assumption || lia). reflexivity.
    + destruct (KL_head (fun e => [e]) (i + 1) ltac:(lia)) as (r & ->).
      destruct (KL_head (fun e => [e]) (j + 1) ltac:(lia)) as (s & ->). rewrite lexlt_cons. lia.
  - intros i j Hi Hj Ht HS1 HS2 Hne. unfold lt1. rewrite (K_S _ i), (K_S _ j) by (assumption || lia).
    rewrite Ht, lex01. reflexivity.
  - intros i Hi Hi1 HL HL1. unfold lt1. rewrite !K_L by (assumption || lia). apply Lsucc_key; assumption.
  - intros i Hi HS. apply Ssucc_key; (assumption || lia).
Qed.

(** * The order of keys agrees with the suffix order except for ties *)
Lemma item_succ x : item x -> x < n -> isS x = false -> item (x + 1).
Proof.
  intros Hx Hn HL. apply succ_item; [|assumption]. destruct Hx as [Hx|[[Hx _]|Hx]]; [lia|lia|]. apply LMS_spec in Hx. lia.
Qed.

Lemma KL_slt : forall x y, x <= n -> y <= n -> lexlt (KL1 x) (KL1 y) = true -> IKL x = IKL y \/ slt x y = true.
Proof.
  apply (up_ind (fun x => forall y, x <= n -> y <= n -> lexlt (KL1 x) (KL1 y) = true -> IKL x = IKL y \/ slt x y = true)).
  - intros x H y Hx Hy He. replace x with n in * by lia. destruct (Z.eq_dec y n) as [->|Hyn]; [left; reflexivity|].
    right. apply slt_n_l. lia.
  - intros x Hx IH y Hxn Hy He.
    destruct (Z.eq_dec y n) as [->|Hyn].
    { rewrite (KL_n _ n) in He by lia. destruct (KL1 x); discriminate. }
    rewrite (slt_step t n x y) by lia.
    destruct (Z.lt_trichotomy (t x) (t y)) as [Ht|[Ht|Ht]].
    + right. lia.
    + destruct (isS x) eqn:HS1, (isS y) eqn:HS2.
      * left. rewrite !KL_S by (assumption || lia). congruence.
      * rewrite (KL_S _ x), (KL_L _ y) in He by (assumption || lia). rewrite Ht, lex01 in He. discriminate.
      * right. rewrite <- slt_step by lia. apply L_before_S; (assumption || lia).
      * rewrite (KL_L _ x), (KL_L _ y) in He by (assumption || lia). rewrite Ht, lex01 in He. cbn [Z.ltb Z.eqb Z.compare orb andb] in He.
        apply IH in He; [|lia|lia]. destruct He as [He|He]; [left|right; lia].
        rewrite (KL_L _ x), (KL_L _ y) by (assumption || lia). congruence.
    + exfalso. destruct (KL_head (fun e => [e]) x ltac:(lia)) as (r & Hr). destruct (KL_head (fun e => [e]) y ltac:(lia)) as (s & Hs).
      rewrite Hr, Hs, lexlt_cons in He. lia.
Qed.

Lemma K_slt : forall i j, i < n -> j < n -> lt1 i j = true -> IK i = IK j \/ slt i j = true.
Proof.
  apply (up_ind (fun i => forall j, i < n -> j < n -> lt1 i j = true -> IK i = IK j \/ slt i j = true)); [intros; lia|].
  intros x Hx IH y _ Hy He. unfold lt1 in *.
  destruct (Z.lt_trichotomy (t x) (t y)) as [Ht|[Ht|Ht]].
  - right. rewrite slt_step by lia. lia.
  - destruct (isS x) eqn:HS1, (isS y) eqn:HS2.
    + pose proof (isS_bound t n x Hx HS1). pose proof (isS_bound t n y Hy HS2).
      rewrite (K_S _ x), (K_S _ y) in He by assumption. rewrite Ht, lex01 in He. cbn [Z.ltb Z.eqb Z.compare orb andb] in He.
      apply IH in He; [|lia|lia]. destruct He as [He|He]; [left|right; rewrite slt_step by lia; lia].
      rewrite (K_S _ x), (K_S _ y) by assumption. congruence.
    + destruct (K_cons (fun e => [e]) x Hx) as (r & Hr). destruct (K_cons (fun e => [e]) y Hy) as (s & Hs).
      rewrite Hr, Hs, HS1, HS2, Ht, lex01 in He. discriminate.
    + right. apply L_before_S; (assumption || lia).
    + rewrite !K_L in He by assumption. apply KL_slt in He; [|lia|lia]. rewrite !K_L by assumption. exact He.
  - exfalso. destruct (K_cons (fun e => [e]) x Hx) as (r & Hr). destruct (K_cons (fun e => [e]) y Hy) as (s & Hs).
    rewrite Hr, Hs, lexlt_cons in He. lia.
Qed.

(** equal keys are contiguous *)
Lemma KL_sandwich : forall e x f, e <= n -> x <= n -> f <= n -> IKL e = IKL f ->
  lexlt (KL1 e) (KL1 x) = true -> lexlt (KL1 x) (KL1 f) = true -> IKL x = IKL e.
Proof.
  apply (up_ind (fun e => forall x f, e <= n -> x <= n -> f <= n -> IKL e = IKL f ->
    lexlt (KL1 e) (KL1 x) = true -> lexlt (KL1 x) (KL1 f) = true -> IKL x = IKL e)).
  - intros e H x f He Hx Hf HI H1 H2. rewrite (KL_n _ e) in HI by lia.
    destruct (Z.eq_dec f n) as [->|Hfn]; [|destruct (KL_head (fun _ => []) f ltac:(lia)) as (s & Hs); congruence].
    rewrite (KL_n _ n) in H2 by lia. destruct (KL1 x); discriminate.
  - intros e He IH x f _ Hx Hf HI H1 H2.
    destruct (Z.eq_dec x n) as [->|Hxn].
    { rewrite (KL_n _ n) in H1 by lia. destruct (KL1 e); discriminate. }
    destruct (Z.eq_dec f n) as [->|Hfn].
    { rewrite (KL_n _ n) in H2 by lia. destruct (KL1 x); discriminate. }
    destruct (KL_head (fun _ => []) e He) as (r1 & Hr1). destruct (KL_head (fun _ => []) f ltac:(lia)) as (r2 & Hr2).
    pose proof HI as HI'. rewrite Hr1, Hr2 in HI'. injection HI' as Hc Hm _.
    destruct (KL_head (fun e => [e]) e He) as (s1 & Hs1). destruct (KL_head (fun e => [e]) f ltac:(lia)) as (s2 & Hs2).
    destruct (KL_head (fun e => [e]) x ltac:(lia)) as (s3 & Hs3).
    assert (Htx : t x = t e /\ isS x = isS e /\ isS f = isS e).
    { rewrite Hs1, Hs3, !lexlt_cons in H1. rewrite Hs2, Hs3, !lexlt_cons in H2.
      destruct (isS e), (isS f), (isS x); lia. }
    clear Hr1 Hr2 Hs1 Hs2 Hs3 r1 r2 s1 s2 s3. destruct Htx as (Htx & HSx & HSf).
    destruct (isS e) eqn:HSe.
    + rewrite !KL_S by (assumption || lia). congruence.
    + rewrite (KL_L _ x), (KL_L _ e) by (assumption || lia). f_equal; [assumption|]. f_equal.
      apply (IH (x + 1) (f + 1)); try lia.
      * rewrite (KL_L _ e), (KL_L _ f) in HI by (assumption || lia). congruence.
      * rewrite (KL_L _ e), (KL_L _ x) in H1 by (assumption || lia). rewrite Htx, lex01 in H1. exact H1.
      * rewrite (KL_L _ x), (KL_L _ f) in H2 by (assumption || lia). rewrite Htx, Hc, lex01 in H2. exact H2.
Qed.

Lemma K_sandwich : forall e x f, e < n -> x < n -> f < n -> IK e = IK f ->
  lt1 e x = true -> lt1 x f = true -> IK x = IK e.
Proof.
  apply (up_ind (fun e => forall x f, e < n -> x < n -> f < n -> IK e = IK f ->
    lt1 e x = true -> lt1 x f = true -> IK x = IK e)); [intros; lia|].
  intros e He IH x f _ Hx Hf HI H1 H2. unfold lt1 in *.
  destruct (K_cons (fun _ => []) e He) as (r1 & Hr1). destruct (K_cons (fun _ => []) f ltac:(lia)) as (r2 & Hr2).
  pose proof HI as HI'. rewrite Hr1, Hr2 in HI'. injection HI' as Hc Hm _.
  destruct (K_cons (fun e => [e]) e He) as (s1 & Hs1). destruct (K_cons (fun e => [e]) f ltac:(lia)) as (s2 & Hs2).
  destruct (K_cons (fun e => [e]) x ltac:(lia)) as (s3 & Hs3).
  assert (Htx : t x = t e /\ isS x = isS e /\ isS f = isS e).
  { pose proof H1 as H1'. pose proof H2 as H2'. rewrite Hs1, Hs3, !lexlt_cons in H1'. rewrite Hs2, Hs3, !lexlt_cons in H2'.
    destruct (isS e), (isS f), (isS x); lia. }
  clear Hr1 Hr2 Hs1 Hs2 Hs3 r1 r2 s1 s2 s3. destruct Htx as (Htx & HSx & HSf).
  destruct (isS e) eqn:HSe.
  - pose proof (isS_bound t n e He HSe). pose proof (isS_bound t n x Hx HSx). pose proof (isS_bound t n f Hf HSf).
    rewrite (K_S _ x), (K_S _ e) by assumption. f_equal; [assumption|]. f_equal.
    apply (IH (x + 1) (f + 1)); try lia.
    + rewrite (K_S _ e), (K_S _ f) in HI by assumption. congruence.
    + rewrite (K_S _ e), (K_S _ x) in H1 by assumption. rewrite Htx, lex01 in H1. exact H1.
    + rewrite (K_S _ x), (K_S _ f) in H2 by assumption. rewrite Htx, Hc, lex01 in H2. exact H2.
  - rewrite !K_L in * by assumption. apply (KL_sandwich e x f); (assumption || lia).
Qed.

(** * Next LMS position *)
Fixpoint nxf (f : nat) (x : Z) : Z :=
  match f with O => n | S f => if LMS x then x else nxf f (x + 1) end.
(** first LMS position >= x, n if there is none *)
Definition nx (x : Z) : Z := nxf (Z.to_nat (n - x)) x.
Lemma nx_n x : n <= x -> nx x = n.
Proof. intros H. unfold nx. replace (Z.to_nat (n - x)) with O by lia. reflexivity. Qed.
Lemma nx_LMS x : LMS x = true -> nx x = x.
Proof. intros H. pose proof (LMS_bound t n x H). unfold nx. rewrite fuel_S by lia. cbn [nxf]. rewrite H. reflexivity. Qed.
Lemma nx_step x : x < n -> LMS x = false -> nx x = nx (x + 1).
Proof. intros Hx H. unfold nx. rewrite fuel_S by lia. cbn [nxf]. rewrite H. reflexivity. Qed.
Lemma nx_spec : forall x, x <= n -> x <= nx x <= n /\ (nx x = n \/ LMS (nx x) = true) /\ cnt LMS x (nx x) = 0.
Proof.
  apply (up_ind (fun x => x <= n -> x <= nx x <= n /\ (nx x = n \/ LMS (nx x) = true) /\ cnt LMS x (nx x) = 0)).
  - intros x H Hx. rewrite nx_n by lia. rewrite cnt_nil by lia. lia.
  - intros x Hx IH _. destruct (LMS x) eqn:HL.
    + rewrite nx_LMS by assumption. rewrite cnt_nil by lia. split; [lia|]. auto.
    + rewrite nx_step by assumption. destruct (IH ltac:(lia)) as (H1 & H2 & H3). split; [lia|]. split; [assumption|].
      rewrite cnt_cons by lia. rewrite HL, H3. lia.
Qed.
Lemma L_not_LMS x : isS x = false -> LMS x = false.
Proof. intros H. unfold Text.LMS. rewrite H. lia. Qed.

Lemma IKL_piece : forall x y, item x -> item y -> IKL x = IKL y ->
  nx x - x = nx y - y /\ forall d, 0 <= d < nx x - x -> t (x + d) = t (y + d).
Proof.
  apply (up_ind (fun x => forall y, item x -> item y -> IKL x = IKL y ->
    nx x - x = nx y - y /\ forall d, 0 <= d < nx x - x -> t (x + d) = t (y + d))).
  - intros x Hx y Ix Iy He. assert (x = n) by (destruct Ix as [|[[]|H]]; [assumption|lia|pose proof (LMS_bound t n x H); lia]).
    subst x. rewrite KL_n in He by lia. destruct (Z.eq_dec y n) as [->|Hy].
    + split; [reflexivity|]. rewrite nx_n by lia. intros; lia.
    + assert (y < n) by (destruct Iy as [|[[]|H]]; [lia|lia|pose proof (LMS_bound t n y H); lia]).
      destruct (KL_head (fun _ => []) y H) as (r & Hr). congruence.
  - intros x Hx IH y Ix Iy He.
    destruct (Z_lt_ge_dec y n) as [Hy|Hy].
    2: { rewrite (KL_n _ y) in He by lia. destruct (KL_head (fun _ => []) x Hx) as (r & Hr). congruence. }
    destruct (KL_head (fun _ => []) x Hx) as (r1 & Hr1). destruct (KL_head (fun _ => []) y Hy) as (r2 & Hr2).
    pose proof He as He'. rewrite Hr1, Hr2 in He'. injection He' as Hc Hm _.
    destruct (isS x) eqn:HS1, (isS y) eqn:HS2; try lia.
    + assert (LMS x = true) by (destruct Ix as [|[[]|H]]; [lia|congruence|assumption]).
      assert (LMS y = true) by (destruct Iy as [|[[]|H1]]; [lia|congruence|assumption]).
      rewrite !nx_LMS by assumption. split; [lia|]. intros; lia.
    + rewrite (KL_L _ x), (KL_L _ y) in He by (assumption || lia). injection He as _ He.
      apply IH in He; [|apply item_succ; assumption|apply item_succ; assumption].
      rewrite (nx_step x), (nx_step y) by (try apply L_not_LMS; assumption). destruct He as [He1 He2].
      split; [lia|]. intros d Hd. destruct (Z.eq_dec d 0) as [->|Hd0]; [rewrite !Z.add_0_r; assumption|].
      specialize (He2 (d - 1) ltac:(lia)). replace (x + 1 + (d - 1)) with (x + d) in He2 by lia.
      replace (y + 1 + (d - 1)) with (y + d) in He2 by lia. exact He2.
Qed.

Lemma IK_piece : forall i j, 0 <= i < n -> 0 <= j < n -> IK i = IK j ->
  nx (i + 1) - i = nx (j + 1) - j /\ forall d, 0 <= d < nx (i + 1) - i -> t (i + d) = t (j + d).
Proof.
  apply (up_ind (fun i => forall j, 0 <= i < n -> 0 <= j < n -> IK i = IK j ->
    nx (i + 1) - i = nx (j + 1) - j /\ forall d, 0 <= d < nx (i + 1) - i -> t (i + d) = t (j + d))); [intros; lia|].
  intros x Hx IH y Rx Ry He.
  destruct (K_cons (fun _ => []) x Hx) as (r1 & Hr1). destruct (K_cons (fun _ => []) y ltac:(lia)) as (r2 & Hr2).
  pose proof He as He'. rewrite Hr1, Hr2 in He'. injection He' as Hc Hm _.
  destruct (isS x) eqn:HS1, (isS y) eqn:HS2; try lia.
  - pose proof (isS_bound t n x Hx HS1). pose proof (isS_bound t n y ltac:(lia) HS2).
    rewrite (K_S _ x), (K_S _ y) in He by (assumption || lia). injection He as _ He.
    assert (Hn : forall z, isS z = true -> LMS (z + 1) = false).
    { intros z Hz. unfold Text.LMS. replace (z + 1 - 1) with z by lia. rewrite Hz. lia. }
    rewrite (nx_step (x + 1)), (nx_step (y + 1)) by (try apply Hn; assumption).
    apply IH in He; [|lia|lia]. destruct He as [He1 He2].
    split; [lia|]. intros d Hd. destruct (Z.eq_dec d 0) as [->|Hd0]; [rewrite !Z.add_0_r; assumption|].
    specialize (He2 (d - 1) ltac:(lia)). replace (x + 1 + (d - 1)) with (x + d) in He2 by lia.
    replace (y + 1 + (d - 1)) with (y + d) in He2 by lia. exact He2.
  - rewrite !K_L in He by (assumption || lia). apply IKL_piece in He.
    + rewrite (nx_step x), (nx_step y) in He by (try apply L_not_LMS; (assumption || lia)). exact He.
    + right; left. split; [lia|assumption].
    + right; left. split; [lia|assumption].
Qed.

(** * Reduction of the suffix order to names of LMS substrings *)
Notation m := (cnt LMS 0 n).
Notation lms := (sel LMS 0 n).

Lemma lms_spec j : 0 <= j < m -> LMS (lms j) = true /\ cnt LMS 0 (lms j) = j.
Proof. intros H. destruct (sel_spec LMS n 0 j H) as (_ & H1 & H2). split; assumption. Qed.
Lemma lms_out j : m <= j -> lms j = n.
Proof.
  intros H. unfold sel. apply nth_overflow. unfold cnt in H. lia.
Qed.
Lemma lms_next j : 0 <= j < m -> nx (lms j + 1) = lms (j + 1).
Proof.
  intros Hj. destruct (lms_spec j Hj) as [HL Hc]. pose proof (LMS_bound t n _ HL) as Hb.
  destruct (nx_spec (lms j + 1) ltac:(lia)) as (H1 & H2 & H3).
  assert (Hc2 : cnt LMS 0 (nx (lms j + 1)) = j + 1).
  { rewrite (cnt_split LMS (lms j + 1)) by lia. rewrite cnt_snoc by lia. rewrite Hc, HL, H3. lia. }
  destruct (Z_lt_ge_dec (j + 1) m) as [Hm|Hm].
  - destruct (lms_spec (j + 1) ltac:(lia)) as [HL1 Hc1]. pose proof (LMS_bound t n _ HL1).
    destruct H2 as [H2|H2]; [rewrite H2 in Hc2; lia|]. apply (cnt_inj LMS 0); (assumption || lia).
  - rewrite (lms_out (j + 1)) by lia. destruct H2 as [H2|H2]; [assumption|].
    pose proof (LMS_bound t n _ H2). pose proof (cnt_lt_hi LMS 0 (nx (lms j + 1)) n ltac:(lia) H2). lia.
Qed.

Lemma slt_strip D : forall i j, (forall d, 0 <= d < Z.of_nat D -> t (i + d) = t (j + d)) ->
  i + Z.of_nat D <= n -> j + Z.of_nat D <= n -> slt i j = slt (i + Z.of_nat D) (j + Z.of_nat D).
Proof.
  induction D as [|D IH]; intros i j H Hi Hj; [rewrite !Z.add_0_r; reflexivity|].
  rewrite slt_step by lia. pose proof (H 0 ltac:(lia)) as H0. rewrite !Z.add_0_r in H0.
  rewrite H0, Z.ltb_irrefl, Z.eqb_refl. cbn [orb andb]. rewrite IH; [f_equal; lia| |lia|lia].
  intros d Hd. specialize (H (d + 1) ltac:(lia)). rewrite !Z.add_assoc in H.
  replace (i + 1 + d) with (i + d + 1) by lia. replace (j + 1 + d) with (j + d + 1) by lia. exact H.
Qed.

Section Reduce.
Context (N : Z -> Z).
Context (N1 : forall e f, LMS e = true -> LMS f = true -> N e = N f ->
   nx (e + 1) - e = nx (f + 1) - f /\ forall d, 0 <= d < nx (e + 1) - e -> t (e + d) = t (f + d)).
Context (N2 : forall e f, LMS e = true -> LMS f = true -> N e < N f -> slt e f = true).
Context (r : Z -> Z).
Context (r_spec : forall j, 0 <= j < m -> r j = N (lms j)).

Lemma reduce_slt : forall i j, 0 <= i <= m -> 0 <= j <= m -> Text.slt r m i j = slt (lms i) (lms j).
Proof.
  assert (Hg : forall k i j, m - i <= Z.of_nat k -> 0 <= i <= m -> 0 <= j <= m -> Text.slt r m i j = slt (lms i) (lms j)).
  2: { intros i j Hi Hj. apply (Hg (Z.to_nat (m - i))); lia. }
  induction k as [|k IH]; intros i j Hk Hi Hj.
  - replace i with m by lia. rewrite (lms_out m) by lia.
    destruct (Z.eq_dec j m) as [->|Hjm].
    + rewrite (lms_out m) by lia. rewrite !slt_irr. reflexivity.
    + rewrite !slt_n_l; [reflexivity| |lia]. destruct (lms_spec j ltac:(lia)) as [HL _]. pose proof (LMS_bound t n _ HL). lia.
  - destruct (Z.eq_dec j m) as [->|Hjm]; [rewrite (lms_out m) by lia; rewrite !slt_n_r; reflexivity|].
    destruct (Z.eq_dec i m) as [->|Him].
    { rewrite (lms_out m) by lia. rewrite !slt_n_l; [reflexivity| |lia]. destruct (lms_spec j ltac:(lia)) as [HL _]. pose proof (LMS_bound t n _ HL). lia. }
    destruct (lms_spec i ltac:(lia)) as [HLi _]. destruct (lms_spec j ltac:(lia)) as [HLj _].
    rewrite (slt_step r m) by lia. rewrite !r_spec by lia.
    destruct (Z.lt_trichotomy (N (lms i)) (N (lms j))) as [H|[H|H]].
    + rewrite (N2 (lms i) (lms j)) by assumption. lia.
    + destruct (N1 _ _ HLi HLj H) as [Hlen Heq].
      rewrite H, Z.ltb_irrefl, Z.eqb_refl. cbn [orb andb]. rewrite IH by lia.
      rewrite <- (lms_next i), <- (lms_next j) by lia.
      destruct (nx_spec (lms i + 1)) as (Hb1 & _); [pose proof (LMS_bound t n _ HLi); lia|].
      destruct (nx_spec (lms j + 1)) as (Hb2 & _); [pose proof (LMS_bound t n _ HLj); lia|].
      rewrite (slt_strip (Z.to_nat (nx (lms i + 1) - lms i)) (lms i) (lms j)).
      * f_equal; lia.
      * intros d Hd. apply Heq. lia.
      * lia.
      * lia.
    + pose proof (N2 _ _ HLj HLi H) as Hs. rewrite (slt_asym t n _ _ Hs). lia.
Qed.
End Reduce.
End Keys.
