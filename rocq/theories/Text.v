(** Suffix order, L/S types and LMS positions of a text t[0..n). *)
From Verif Require Import Count Spec.
From Coq Require Import ZifyBool.
Open Scope Z_scope.

(** * lexlt is a strict total order *)
Lemma lexlt_irr a : lexlt a a = false.
Proof. induction a as [|x a IH]; cbn [lexlt]; [reflexivity|]. rewrite IH. lia. Qed.
Lemma lexlt_trans a : forall b c, lexlt a b = true -> lexlt b c = true -> lexlt a c = true.
Proof.
  induction a as [|x a IH]; intros [|y b] [|z c]; cbn [lexlt]; try congruence.
  intros H1 H2. apply orb_true_iff in H1, H2. apply orb_true_iff.
  destruct H1 as [H1|H1], H2 as [H2|H2]; try (left; lia).
  apply andb_true_iff in H1, H2. right. apply andb_true_iff. split; [lia|]. apply (IH b); tauto.
Qed.
Lemma lexlt_total a : forall b, a <> b -> lexlt a b = true \/ lexlt b a = true.
Proof.
  induction a as [|x a IH]; intros [|y b] H; cbn [lexlt]; try (right; reflexivity); try (left; reflexivity); [congruence|].
  destruct (Z.lt_trichotomy x y) as [Hl|[He|Hl]]; [left; lia| |right; lia].
  subst y. destruct (IH b) as [H1|H1]; [congruence| |]; rewrite H1; [left|right]; lia.
Qed.
Lemma lexlt_asym a b : lexlt a b = true -> lexlt b a = false.
Proof.
  intros H. destruct (lexlt b a) eqn:H2; [|reflexivity]. pose proof (lexlt_trans _ _ _ H H2) as H3.
  rewrite lexlt_irr in H3. discriminate.
Qed.
Lemma lexlt_cons x y a b : lexlt (x :: a) (y :: b) = (x <? y) || ((x =? y) && lexlt a b).
Proof. reflexivity. Qed.

Section Text.
Context (t : Z -> Z) (n : Z).

Definition suf (i : Z) : list Z := map t (zseq i n).
Definition slt (i j : Z) : bool := lexlt (suf i) (suf j).
(** S type: the suffix is smaller than its successor *)
Definition isS (i : Z) : bool := slt i (i + 1).
Definition LMS (i : Z) : bool := (0 <? i) && (i <? n) && isS i && negb (isS (i - 1)).

Lemma suf_nil i : n <= i -> suf i = [].
Proof. intros H. unfold suf. rewrite zseq_nil by lia. reflexivity. Qed.
Lemma suf_cons i : i < n -> suf i = t i :: suf (i + 1).
Proof. intros H. unfold suf. rewrite zseq_cons by lia. reflexivity. Qed.
Lemma suf_length i : length (suf i) = Z.to_nat (n - i).
Proof. unfold suf. rewrite map_length, zseq_length. reflexivity. Qed.
Lemma suf_inj i j : i <= n -> j <= n -> suf i = suf j -> i = j.
Proof. intros Hi Hj H. apply (f_equal (@length Z)) in H. rewrite !suf_length in H. lia. Qed.

Lemma slt_irr i : slt i i = false.
Proof. apply lexlt_irr. Qed.
Lemma slt_trans i j k : slt i j = true -> slt j k = true -> slt i k = true.
Proof. apply lexlt_trans. Qed.
Lemma slt_total i j : i <= n -> j <= n -> i <> j -> slt i j = true \/ slt j i = true.
Proof. intros Hi Hj H. apply lexlt_total. intros He. apply H, suf_inj; assumption. Qed.
Lemma slt_asym i j : slt i j = true -> slt j i = false.
Proof. apply lexlt_asym. Qed.
Lemma slt_neg i j : i <= n -> j <= n -> i <> j -> slt i j = negb (slt j i).
Proof.
  intros Hi Hj H. destruct (slt i j) eqn:H1; [rewrite slt_asym by assumption; reflexivity|].
  destruct (slt_total i j Hi Hj H); [congruence|]. rewrite H0. reflexivity.
Qed.
Lemma slt_step i j : i < n -> j < n -> slt i j = (t i <? t j) || ((t i =? t j) && slt (i + 1) (j + 1)).
Proof. intros Hi Hj. unfold slt. rewrite (suf_cons i), (suf_cons j) by lia. reflexivity. Qed.
Lemma slt_n_l j : j < n -> slt n j = true.
Proof. intros H. unfold slt. rewrite (suf_nil n), (suf_cons j) by lia. reflexivity. Qed.
Lemma slt_n_r i : slt i n = false.
Proof. unfold slt. rewrite (suf_nil n) by lia. destruct (suf i); reflexivity. Qed.

Lemma isS_last : isS (n - 1) = false.
Proof. unfold isS. replace (n - 1 + 1) with n by lia. apply slt_n_r. Qed.
Lemma isS_step i : i + 1 < n -> isS i = (t i <? t (i + 1)) || ((t i =? t (i + 1)) && isS (i + 1)).
Proof. intros H. unfold isS. rewrite slt_step by lia. reflexivity. Qed.
Lemma isS_bound i : i < n -> isS i = true -> i + 1 < n.
Proof. intros H HS. destruct (Z.eq_dec i (n - 1)) as [->|]; [rewrite isS_last in HS; discriminate|lia]. Qed.

Lemma S_le i : i < n -> isS i = true -> t i <= t (i + 1).
Proof. intros Hi H. pose proof (isS_bound i Hi H). rewrite isS_step in H by lia. lia. Qed.
Lemma L_ge i : i + 1 < n -> isS i = false -> t (i + 1) <= t i.
Proof. intros Hi H. rewrite isS_step in H by lia. lia. Qed.
Lemma L_slt i : i < n -> isS i = false -> slt (i + 1) i = true.
Proof. intros Hi H. unfold isS in H. rewrite slt_neg by lia. rewrite H. reflexivity. Qed.
Lemma same_type i : i + 1 < n -> t i = t (i + 1) -> isS i = isS (i + 1).
Proof. intros Hi H. rewrite isS_step by lia. lia. Qed.

(** type of the predecessor from its character *)
Lemma S_pred i : 0 < i < n -> isS i = true -> isS (i - 1) = negb (t i <? t (i - 1)).
Proof.
  intros Hi H. rewrite isS_step by lia. replace (i - 1 + 1) with i by lia. rewrite H. lia.
Qed.
Lemma L_pred i : 0 < i < n -> isS i = false -> isS (i - 1) = (t (i - 1) <? t i).
Proof.
  intros Hi H. rewrite isS_step by lia. replace (i - 1 + 1) with i by lia. rewrite H. lia.
Qed.

Lemma LMS_spec i : LMS i = true <-> 0 < i < n /\ isS i = true /\ isS (i - 1) = false.
Proof. unfold LMS. lia. Qed.
Lemma LMS_chr i : LMS i = true -> t i < t (i - 1).
Proof. intros H. apply LMS_spec in H as (H1 & H2 & H3). rewrite S_pred in H3 by assumption. lia. Qed.
Lemma LMS_bound i : LMS i = true -> 0 < i < n - 1.
Proof. intros H. apply LMS_spec in H as (H1 & H2 & H3). pose proof (isS_bound i ltac:(lia) H2). lia. Qed.

(** in a bucket, L-type suffixes precede S-type suffixes *)
Lemma L_before_S i j : i < n -> j < n -> t i = t j -> isS i = false -> isS j = true -> slt i j = true.
Proof.
  intros Hi. remember (Z.to_nat (n - i)) as k eqn:Hk. revert i j Hi Hk.
  induction k as [|k IH]; intros i j Hi Hk Hj Ht HL HS; [lia|].
  pose proof (isS_bound j Hj HS) as Hj1. rewrite slt_step by lia.
  destruct (Z.eq_dec (i + 1) n) as [He|Hne].
  { rewrite He, slt_n_l by lia. lia. }
  pose proof (L_ge i ltac:(lia) HL). pose proof (S_le j Hj HS).
  rewrite isS_step in HL, HS by lia.
  destruct (Z.eq_dec (t (i + 1)) (t (j + 1))) as [He|He].
  - rewrite (IH (i + 1) (j + 1)); lia.
  - rewrite (slt_step (i + 1)) by lia. lia.
Qed.

(** there are at most (n-1)/2 LMS positions *)
Lemma LMS_not_adjacent i : LMS i = true -> LMS (i + 1) = false.
Proof.
  intros H. destruct (LMS (i + 1)) eqn:H2; [|reflexivity].
  apply LMS_spec in H, H2. replace (i + 1 - 1) with i in H2 by lia. destruct H as (_ & H & _), H2 as (_ & _ & H2). congruence.
Qed.
Lemma LMS_count x : 0 <= x -> 2 * cnt LMS 0 (x + 1) <= x + (if LMS x then 1 else 0).
Proof.
  intros Hx. pattern x. apply natlike_ind; [| |assumption].
  - rewrite cnt_snoc by lia. rewrite cnt_nil by lia.
    assert (LMS 0 = false) as -> by (unfold LMS; lia). lia.
  - intros y Hy IH. unfold Z.succ. rewrite cnt_snoc by lia.
    destruct (LMS y) eqn:H1.
    + rewrite LMS_not_adjacent by assumption. lia.
    + destruct (LMS (y + 1)); lia.
Qed.
Lemma LMS_half : 1 <= n -> 2 * cnt LMS 0 n <= n - 1.
Proof.
  intros H. pose proof (LMS_count (n - 1) ltac:(lia)) as Hc. replace (n - 1 + 1) with n in Hc by lia.
  assert (LMS (n - 1) = false) as He by (unfold LMS; rewrite isS_last; rewrite andb_false_r; reflexivity).
  rewrite He in Hc. lia.
Qed.
End Text.
