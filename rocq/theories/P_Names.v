(** Order of S* substrings decides the order of S* suffixes; the reduced text. *)
From Verif Require Import Base Spec Count Text Keys P_HashTable P_Extract P_Sort.
From Coq Require Import ZifyBool.
Open Scope Z_scope.

(** first difference of two strings in star order *)
Lemma star_split a : forall b, Forall is_byte a -> Forall is_byte b -> star_lt a b = true ->
  (exists k, (k < length a)%nat /\ (k < length b)%nat /\ (forall d, (d < k)%nat -> nth d a 0 = nth d b 0) /\ nth k a 0 < nth k b 0) \/
  ((length b < length a)%nat /\ forall d, (d < length b)%nat -> nth d a 0 = nth d b 0).
Proof.
  unfold star_lt. induction a as [|x a IH]; intros b Ha Hb H.
  - exfalso. destruct b as [|y b]; cbn [app lexlt] in H; [discriminate|]. inversion Hb; subst. unfold is_byte in *. lia.
  - destruct b as [|y b]; cbn [app lexlt] in H.
    + right. cbn [length]. split; [lia|]. intros d Hd; lia.
    + inversion Ha; inversion Hb; subst. apply orb_true_iff in H as [H|H].
      * left. exists 0%nat. cbn [length nth]. split; [lia|]. split; [lia|]. split; [intros; lia|lia].
      * apply andb_true_iff in H as [He H]. destruct (IH b H3 H7 H) as [(k & K1 & K2 & K3 & K4)|[K1 K2]].
        -- left. exists (S k). cbn [length nth]. split; [lia|]. split; [lia|]. split; [|assumption].
           intros [|d] Hd; [lia|]. apply K3. lia.
        -- right. cbn [length]. split; [lia|]. intros [|d] Hd; cbn [nth]; [lia|]. apply K2. lia.
Qed.

Section Names2.
Context (t : Z -> Z) (n : Z).
Context (Hn : 1 <= n).
Context (Hb : forall i, 0 <= i < n -> 0 <= t i < 256) (Hz : t n = 0).
Notation isS := (isS t n).
Notation LMS := (LMS t n).
Notation nx := (nx t n).
Notation sub := (sub t n).
Notation slt := (slt t n).

Lemma zero_tail : forall i, (forall j, i <= j < n -> t j = 0) -> i < n -> isS i = false.
Proof.
  apply (up_ind n (fun i => (forall j, i <= j < n -> t j = 0) -> i < n -> isS i = false)); [intros; lia|].
  intros i Hi IH H _. destruct (Z.eq_dec i (n - 1)) as [->|]; [apply isS_last|].
  rewrite same_type by (lia || (rewrite !H; lia)). apply IH; [|lia]. intros; apply H; lia.
Qed.
Lemma zero_L : forall i, 0 <= i < n -> isS i = false -> t i = 0 -> forall j, i <= j < n -> t j = 0 /\ isS j = false.
Proof.
  apply (up_ind n (fun i => 0 <= i < n -> isS i = false -> t i = 0 -> forall j, i <= j < n -> t j = 0 /\ isS j = false)); [intros; lia|].
  intros i Hi IH Hi0 HL H0 j Hj. destruct (Z.eq_dec j i) as [->|]; [split; assumption|].
  pose proof (L_ge t n i ltac:(lia) HL). pose proof (Hb (i + 1) ltac:(lia)). apply IH; try lia.
  rewrite <- same_type by lia. assumption.
Qed.
(** going back from a non-LMS S position of byte 0 inside a piece *)
Lemma zero_back e : LMS e = true -> forall k p, p = e + Z.of_nat k -> p < n ->
  (forall x, e < x <= p -> LMS x = false) -> isS p = true -> t p = 0 -> forall j, e <= j <= p -> t j = 0.
Proof.
  intros He. pose proof (LMS_bound t n e He). induction k as [|k IH]; intros p Hp Hpn HnL HS H0 j Hj.
  - replace j with p by lia. assumption.
  - destruct (Z.eq_dec j p) as [->|]; [assumption|].
    assert (HS1 : isS (p - 1) = true).
    { destruct (isS (p - 1)) eqn:HX; [reflexivity|]. specialize (HnL p ltac:(lia)).
      assert (LMS p = true); [apply LMS_spec; split; [lia|]; split; assumption|congruence]. }
    pose proof (S_le t n (p - 1) ltac:(lia) HS1) as Hle. replace (p - 1 + 1) with p in Hle by lia.
    pose proof (Hb (p - 1) ltac:(lia)). apply (IH (p - 1)); try lia; try assumption. intros; apply HnL; lia.
Qed.
Lemma no_LMS_inside e x : LMS e = true -> e < x < nx (e + 1) -> LMS x = false.
Proof.
  intros He Hx. pose proof (LMS_bound t n e He). pose proof (nx_spec t n (e + 1) ltac:(lia)) as (H1 & _ & H3).
  destruct (LMS x) eqn:HX; [|reflexivity]. pose proof (cnt_pos LMS x (e + 1) (nx (e + 1)) ltac:(lia) HX). lia.
Qed.

(** the order of the S* substrings is that of the S* suffixes *)
Definition star_order : Prop := forall e f, LMS e = true -> LMS f = true -> star_lt (sub e) (sub f) = true -> slt e f = true.
Theorem star_slt : star_order.
Proof.
  intros e f He Hf H.
  pose proof (LMS_bound t n e He) as Be. pose proof (LMS_bound t n f Hf) as Bf.
  pose proof (nx_gt t n e He) as Ge. pose proof (nx_gt t n f Hf) as Gf.
  assert (Hby : forall e, LMS e = true -> Forall is_byte (sub e)).
  { intros x Hx. apply Forall_forall. intros z Hz'. unfold P_Extract.sub in Hz'. apply in_map_iff in Hz' as (y & <- & Hy).
    apply in_zseq in Hy. pose proof (nx_gt t n x Hx). pose proof (LMS_bound t n x Hx). unfold is_byte.
    destruct (Z.eq_dec y n) as [->|]; [lia|]. apply Hb. lia. }
  assert (Le : zln (sub e) = nx (e + 1) + 1 - e) by (rewrite sub_len; lia).
  assert (Lf : zln (sub f) = nx (f + 1) + 1 - f) by (rewrite sub_len; lia).
  assert (Nth : forall e d, Z.of_nat d < zln (sub e) -> nth d (sub e) 0 = t (e + Z.of_nat d)).
  { intros x d Hd. rewrite <- (sub_nth t n x (Z.of_nat d)) by lia. rewrite Nat2Z.id. reflexivity. }
  destruct (star_split _ _ (Hby e He) (Hby f Hf) H) as [(k & K1 & K2 & K3 & K4)|[K1 K2]].
  - assert (Heq : forall d, 0 <= d < Z.of_nat k -> t (e + d) = t (f + d)).
    { intros d Hd. specialize (K3 (Z.to_nat d) ltac:(lia)). rewrite !Nth in K3 by lia. rewrite Z2Nat.id in K3 by lia. exact K3. }
    rewrite !Nth in K4 by lia. rewrite (slt_strip t n k e f Heq) by lia.
    destruct (Z.eq_dec (f + Z.of_nat k) n) as [Hfn|].
    + rewrite Hfn, Hz in K4. destruct (Z.eq_dec (e + Z.of_nat k) n) as [Hen|]; [rewrite Hen in K4; lia|].
      pose proof (Hb (e + Z.of_nat k) ltac:(lia)). lia.
    + destruct (Z.eq_dec (e + Z.of_nat k) n) as [Hen|]; [rewrite Hen; apply slt_n_l; lia|].
      rewrite slt_step by lia. lia.
  - set (L := nx (f + 1) - f) in *.
    assert (Heq : forall d, 0 <= d <= L -> t (e + d) = t (f + d)).
    { intros d Hd. specialize (K2 (Z.to_nat d) ltac:(lia)). rewrite !Nth in K2 by lia. rewrite Z2Nat.id in K2 by lia. exact K2. }
    assert (Hlt : e + L < nx (e + 1)) by lia.
    pose proof (no_LMS_inside e (e + L) He ltac:(lia)) as HnL.
    destruct (nx_spec t n (f + 1) ltac:(lia)) as (_ & [Hfn|HfL] & _).
    + exfalso. assert (H0 : t (e + L) = 0) by (rewrite Heq by lia; replace (f + L) with n by lia; assumption).
      destruct (isS (e + L)) eqn:HS.
      * assert (Hall : forall j, e <= j <= e + L -> t j = 0).
        { apply (zero_back e He (Z.to_nat L)); try lia; try assumption. intros x Hx. apply (no_LMS_inside e); [assumption|lia]. }
        assert (isS f = false).
        { apply zero_tail; [|lia]. intros j Hj. replace j with (f + (j - f)) by lia. rewrite <- Heq by lia. apply Hall. lia. }
        apply LMS_spec in Hf. destruct Hf as (_ & Hf & _). congruence.
      * pose proof (zero_L (e + L) ltac:(lia) HS H0) as HzL.
        destruct (Z_lt_ge_dec f (e + L)).
        -- assert (e < f) by lia. pose proof (no_LMS_inside e f He ltac:(lia)). congruence.
        -- destruct (HzL f ltac:(lia)) as [_ Hc]. apply LMS_spec in Hf. destruct Hf as (_ & Hf & _). congruence.
    + replace (nx (f + 1)) with (f + L) in HfL by lia.
      assert (HL : isS (e + L) = false).
      { destruct (isS (e + L)) eqn:HS; [|reflexivity]. exfalso.
        assert (HS1 : isS (e + L - 1) = true).
        { destruct (isS (e + L - 1)) eqn:HX; [reflexivity|].
          assert (LMS (e + L) = true); [apply LMS_spec; split; [lia|]; split; assumption|congruence]. }
        pose proof (S_le t n (e + L - 1) ltac:(lia) HS1) as Hle. replace (e + L - 1 + 1) with (e + L) in Hle by lia.
        pose proof (LMS_chr t n (f + L) HfL) as Hc. pose proof (Heq L ltac:(lia)). pose proof (Heq (L - 1) ltac:(lia)) as H1.
        replace (e + (L - 1)) with (e + L - 1) in H1 by lia. replace (f + (L - 1)) with (f + L - 1) in H1 by lia. lia. }
      assert (Heq' : forall d, 0 <= d < Z.of_nat (Z.to_nat L) -> t (e + d) = t (f + d)) by (intros; apply Heq; lia).
      rewrite (slt_strip t n (Z.to_nat L) e f Heq') by lia.
      pose proof (LMS_bound t n _ HfL). rewrite Z2Nat.id by lia. apply L_before_S; try lia; try assumption; [apply Heq; lia|].
      apply LMS_spec in HfL. tauto.
Qed.

Lemma sub_eq e f : LMS e = true -> LMS f = true -> sub e = sub f ->
  nx (e + 1) - e = nx (f + 1) - f /\ forall d, 0 <= d < nx (e + 1) - e -> t (e + d) = t (f + d).
Proof.
  intros He Hf H. pose proof (nx_gt t n e He). pose proof (nx_gt t n f Hf).
  assert (Hl : zln (sub e) = zln (sub f)) by (rewrite H; reflexivity). rewrite !sub_len in Hl.
  split; [lia|]. intros d Hd. rewrite <- (sub_nth t n e) by (rewrite sub_len; lia).
  rewrite <- (sub_nth t n f) by (rewrite sub_len; lia). rewrite H. reflexivity.
Qed.
End Names2.

(** a unique smallest last symbol does not change the order *)
Lemma slt_sentinel r m : 0 <= m -> (forall i, 0 <= i < m -> r m < r i) ->
  forall i j, 0 <= i <= m -> 0 <= j <= m -> slt r (m + 1) i j = slt r m i j.
Proof.
  intros Hm Hr.
  apply (up_ind m (fun i => forall j, 0 <= i <= m -> 0 <= j <= m -> slt r (m + 1) i j = slt r m i j)).
  - intros i Hi j Hi2 Hj. replace i with m in * by lia. destruct (Z.eq_dec j m) as [->|].
    + rewrite !slt_irr. reflexivity.
    + rewrite slt_step by lia. rewrite (slt_n_l r m j) by lia. specialize (Hr j ltac:(lia)). lia.
  - intros i Hi IH j Hi2 Hj. destruct (Z.eq_dec j m) as [->|].
    + rewrite slt_step by lia. rewrite (slt_n_r r m). specialize (Hr i ltac:(lia)). lia.
    + rewrite (slt_step r (m + 1)) by lia. rewrite (slt_step r m) by lia. rewrite IH by lia. reflexivity.
Qed.
