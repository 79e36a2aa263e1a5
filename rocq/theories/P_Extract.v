(** extract_LMS_strings: statistics and content of the table. *)
From Verif Require Import Base M_PackedArray M_HashTable M_Induce M_Flbwt Spec Count Text Keys P_PackedArray P_Bytes P_HashTable P_HashTable2 P_Insert.
From Coq Require Import ZifyBool.
Open Scope Z_scope.

Ltac dif := repeat match goal with
  | |- context[if ?b then _ else _] => destruct b eqn:?
  | H : context[if ?b then _ else _] |- _ => destruct b eqn:?
  end; try lia.

Lemma aincr_ok a i v : av a i = Some v -> 0 <= v < 2 ^ 63 -> aincr a i = Ok (aupd a i (v + 1)).
Proof.
  intros H Hv. unfold aincr. rewrite (aget_ok _ _ _ H). cbn [bind]. pose proof (av_bounds _ _ _ H).
  unfold u64. rewrite wrap_small by lia. apply aset_ok. assumption.
Qed.

(** a 258 entry counter array with content f *)
Definition carr (a : arr Z) (f : Z -> Z) : Prop := alen a = 258 /\ forall c, 0 <= c < 258 -> av a c = Some (f c).
Lemma carr_incr a f c : carr a f -> 0 <= c < 258 -> 0 <= f c < 2 ^ 63 ->
  exists a', aincr a c = Ok a' /\ carr a' (fun x => f x + if x =? c then 1 else 0).
Proof.
  intros [Hl Hf] Hc Hv. exists (aupd a c (f c + 1)). split; [apply aincr_ok; [apply Hf|]; assumption|].
  split; [rewrite alen_upd; assumption|]. intros x Hx. rewrite av_upd by lia.
  destruct (Z.eqb_spec x c) as [->|]; [reflexivity|]. rewrite Hf by assumption. f_equal. lia.
Qed.
Lemma carr_ext a f g : carr a f -> (forall c, 0 <= c < 258 -> f c = g c) -> carr a g.
Proof. intros [Hl Hf] H. split; [assumption|]. intros c Hc. rewrite Hf, H by assumption. reflexivity. Qed.

Section Allrec.
Context (ch : Z -> list (Z * list Z)).
Lemma allrec_upd_len hv r s k : 0 <= hv -> 0 <= k ->
  zln (allrec (upd_ch ch hv r s) k) = zln (allrec ch k) + if hv <? k then 1 else 0.
Proof.
  intros Hhv Hk. pattern k. apply natlike_ind; [| |assumption].
  - replace (hv <? 0) with false by lia. reflexivity.
  - intros x Hx IH. unfold Z.succ. rewrite !allrec_snoc by lia. rewrite !app_length, !Nat2Z.inj_add, IH.
    unfold upd_ch. destruct (Z.eqb_spec x hv) as [->|].
    + rewrite app_length. cbn [length]. replace (hv <? hv) with false by lia. replace (hv <? hv + 1) with true by lia. lia.
    + replace (hv <? x + 1) with (hv <? x) by lia. lia.
Qed.
End Allrec.

Lemma zb x : x = 0 -> 0 <= x < 256.
Proof. lia. Qed.
Section Extract.
Context (E : env) (hts : Z) (T : arr Z) (t : Z -> Z) (n : Z).
Context (Hts : 1 <= hts <= 2 ^ 48) (Hn : 3 <= n <= 2 ^ 58).
Context (HT : forall i, 0 <= i <= n -> av T i = Some (t i)).
Context (Hb : forall i, 0 <= i < n -> 0 <= t i < 256) (Hz : 0 <= t n < 256).
Notation isS := (isS t n).
Notation LMS := (LMS t n).
Notation nx := (nx t n).

(** the S* substring starting at e, up to and including the next S* position *)
Definition sub (e : Z) : list Z := map t (zseq e (nx (e + 1) + 1)).
Context (Hfr : forall e, LMS e = true -> fresh_ok E (zln (sub e))).

Lemma sub_len e : zln (sub e) = Z.max 0 (nx (e + 1) + 1 - e).
Proof. unfold sub. rewrite map_length, zseq_length. lia. Qed.
Lemma sub_nth e k : 0 <= k < zln (sub e) -> nth (Z.to_nat k) (sub e) 0 = t (e + k).
Proof.
  intros Hk. rewrite sub_len in Hk. unfold sub.
  rewrite (nth_indep _ 0 (t 0)) by (rewrite map_length, zseq_length; lia).
  rewrite map_nth. unfold zseq. rewrite zseq_n_nth by lia. f_equal. lia.
Qed.
Lemma nx_gt e : LMS e = true -> e + 2 <= nx (e + 1) <= n.
Proof.
  intros He. pose proof (LMS_bound t n e He). rewrite nx_step by (lia || apply LMS_not_adjacent; assumption).
  pose proof (nx_spec t n (e + 1 + 1) ltac:(lia)). lia.
Qed.
Lemma sub_len_LMS e : LMS e = true -> zln (sub e) = nx (e + 1) + 1 - e /\ 3 <= zln (sub e) <= n.
Proof.
  intros He. pose proof (nx_gt e He). pose proof (LMS_bound t n e He). rewrite sub_len. lia.
Qed.
Lemma sub_tseg e : LMS e = true -> tseg T e (sub e).
Proof.
  intros He i Hi. rewrite sub_nth by assumption. apply HT. pose proof (LMS_bound t n e He).
  pose proof (sub_len_LMS e He). pose proof (nx_gt e He). lia.
Qed.
Lemma sub_bytes e : LMS e = true -> Forall is_byte (sub e).
Proof.
  intros He. apply Forall_forall. intros x Hx. unfold sub in Hx. apply in_map_iff in Hx as (y & <- & Hy).
  apply in_zseq in Hy. pose proof (nx_gt e He). pose proof (LMS_bound t n e He). unfold is_byte.
  destruct (Z.eq_dec y n) as [->|]; [lia|]. apply Hb. lia.
Qed.

Definition fM (i c : Z) : Z := if c =? 0 then 1 else cnt (fun x => t x =? c - 1) (i + 1) n.
Definition fNL (i c : Z) : Z := cnt (fun x => (t x =? c - 1) && negb (isS x)) (i + 1) n.
Definition fC (i c : Z) : Z := if c =? 0 then 1 else cnt (fun x => LMS x && (t x =? c - 1)) (i + 2) n.

(** the distinct strings in the table are those of the S* positions in [lo, n) *)
Definition has_strings (h : htable) (ch : Z -> list (Z * list Z)) (lo : Z) : Prop :=
  forall s, (exists hv, 0 <= hv < HTSIZE h /\ In s (map snd (ch hv))) <-> (exists e, lo <= e < n /\ LMS e = true /\ s = sub e).

Record xinv (i : Z) (s : xst) : Prop := {
  xi_M : carr (x_M s) (fM i);
  xi_NL : carr (x_NL s) (fNL i);
  xi_C : carr (x_C s) (fC i);
  xi_ub : x_uniq s <= cnt LMS (i + 2) n;
  xi_num : x_num s = cnt LMS (i + 2) n;
  xi_prev : x_prevS s = isS (i + 1);
  xi_p : x_p s = nx (i + 2);
  xi_q : x_q s = nx (i + 2);
  xi_hts : HTSIZE (x_ht s) = hts;
  xi_hb : HBSIZE (x_ht s) = 512;
  xi_nb : NAME_BYTES (x_ht s) = name_bytes n;
  xi_len : alen (ht_buf (x_ht s)) <= 531 * cnt LMS (i + 2) n + (n - nx (i + 2));
  xi_ht : exists own role ch en, hinv E (x_ht s) own role ch en /\ has_strings (x_ht s) ch (i + 2) /\
    x_uniq s = zln (allrec ch hts) }.

Lemma LMS_cnt_bound i : 0 <= i -> 2 * cnt LMS i n <= n.
Proof.
  intros Hi. destruct (Z_le_gt_dec n i); [rewrite cnt_nil by lia; lia|].
  pose proof (LMS_half t n ltac:(lia)) as H. rewrite (cnt_split LMS i) in H by lia.
  pose proof (cnt_nonneg LMS 0 i). lia.
Qed.

(** the string at the next S* position can be inserted safely: it is in the table, or its length will be read back, or
    it fits into the current block *)
Definition next_safe (i : Z) (s : xst) : Prop := LMS (i + 1) = true -> (forall e, i + 2 <= e < n -> LMS e = true -> sub (i + 1) <> sub e) ->
  fresh_ok E (zln (sub (i + 1))) \/ fits_block (x_ht s) (sub (i + 1)).
Lemma extract_step_any i s : next_safe i s -> 0 <= i <= n - 2 -> 0 <= alen (ht_buf (x_ht s)) <= buf_bound hts n -> xinv i s -> wp (extract_step E T i s) (xinv (i - 1)).
Proof using Hts Hn HT Hb Hz.
  unfold buf_bound. intros Hsf Hi Hlen [HM HNL HC Hub Hnum Hprev Hp Hq Hhts Hhb Hnb Hlen0 (own & role & ch & en & HI & Hstr & Huniq)].
  unfold extract_step. rewrite (aget_ok _ _ _ (HT i ltac:(lia))). cbn [bind].
  rewrite (aget_ok _ _ _ (HT (i + 1) ltac:(lia))). cbn [bind].
  pose proof (Hb i ltac:(lia)) as Hbi.
  assert (HcM : 0 <= fM i (t i + 1) < 2 ^ 63).
  { unfold fM. pose proof (cnt_range (fun x => t x =? t i + 1 - 1) n (i + 1)). destruct (t i + 1 =? 0); lia. }
  assert (HcN : 0 <= fNL i (t i + 1) < 2 ^ 63).
  { unfold fNL. pose proof (cnt_range (fun x => (t x =? t i + 1 - 1) && negb (isS x)) n (i + 1)). lia. }
  destruct (carr_incr _ _ (t i + 1) HM ltac:(lia) HcM) as (M' & HM1 & HM2). rewrite HM1. cbn [bind].
  destruct (carr_incr _ _ (t i + 1) HNL ltac:(lia) HcN) as (N' & HN1 & HN2).
  assert (HM3 : carr M' (fM (i - 1))).
  { eapply carr_ext; [exact HM2|]. intros c Hc. cbn beta. unfold fM. replace (i - 1 + 1) with i by lia.
    rewrite (cnt_cons _ i) by lia. dif. }
  assert (HN3 : isS i = false -> carr N' (fNL (i - 1))).
  { intros HL. eapply carr_ext; [exact HN2|]. intros c Hc. cbn beta. unfold fNL. replace (i - 1 + 1) with i by lia.
    rewrite (cnt_cons _ i) by lia. rewrite HL. cbn [negb]. dif. }
  assert (HN4 : isS i = true -> carr (x_NL s) (fNL (i - 1))).
  { intros HL. eapply carr_ext; [exact HNL|]. intros c Hc. cbn beta. unfold fNL. replace (i - 1 + 1) with i by lia.
    rewrite (cnt_cons _ i) by lia. rewrite HL. cbn [negb]. dif. }
  assert (HLMS : LMS (i + 1) = isS (i + 1) && negb (isS i)).
  { unfold Text.LMS. replace (i + 1 - 1) with i by lia. lia. }
  pose proof (isS_step t n i ltac:(lia)) as Hst.
  replace (i - 1 + 2) with (i + 1) in * by lia.
  (* no new S* position *)
  assert (Hkeep : LMS (i + 1) = false -> forall NL' pS, carr NL' (fNL (i - 1)) -> pS = isS i ->
     xinv (i - 1) (mkxst (x_ht s) M' (x_C s) NL' (x_num s) (x_uniq s) pS (x_p s) (x_q s))).
  { intros HnL NL' pS HNL' HpS.
    assert (Hcn : forall Q, cnt (fun x => LMS x && Q x) (i + 1) n = cnt (fun x => LMS x && Q x) (i + 2) n).
    { intros Q. rewrite (cnt_cons _ (i + 1)) by lia. rewrite HnL. cbn [andb]. replace (i + 1 + 1) with (i + 2) by lia. lia. }
    assert (Hcl : cnt LMS (i + 1) n = cnt LMS (i + 2) n).
    { rewrite (cnt_cons _ (i + 1)) by lia. rewrite HnL. replace (i + 1 + 1) with (i + 2) by lia. lia. }
    assert (Hnx : nx (i + 1) = nx (i + 2)).
    { rewrite nx_step by (assumption || lia). f_equal. lia. }
    constructor; cbn [x_ht x_M x_C x_NL x_num x_uniq x_prevS x_p x_q]; replace (i - 1 + 2) with (i + 1) by lia;
      rewrite ?Hcl, ?Hnx; try assumption.
    - eapply carr_ext; [exact HC|]. intros c Hc. unfold fC. replace (i - 1 + 2) with (i + 1) by lia.
      rewrite Hcn. reflexivity.
    - rewrite HpS. f_equal. lia.
    - exists own, role, ch, en. split; [assumption|]. split; [|assumption].
      intros x. rewrite (Hstr x). split; intros (e & He & HeL & Hx).
      + exists e. split; [lia|]. split; assumption.
      + exists e. split; [|split; assumption]. destruct (Z.eq_dec e (i + 1)) as [->|]; [congruence|lia]. }
  destruct (Z.ltb_spec (t i) (t (i + 1))) as [Hlt|Hge].
  { (* S type *)
    destruct (Z.eq_dec (i + 1) n) as [|Hin]; [lia|].
    cbn [wp]. apply Hkeep.
    - rewrite HLMS. lia.
    - apply HN4. lia.
    - lia. }
  destruct (Z.ltb_spec (t (i + 1)) (t i)) as [Hlt|Hge2].
  2: { (* equal characters *)
    destruct (x_prevS s) eqn:Hps.
    - cbn [bind wp]. rewrite <- Hprev in *. apply Hkeep; [|apply HN4|]; lia.
    - rewrite HN1. cbn [bind wp]. rewrite <- Hprev in *. apply Hkeep; [|apply HN3|]; lia. }
  assert (HL : isS i = false) by lia.
  destruct (x_prevS s) eqn:Hps.
  2: { cbn [bind]. rewrite HN1. cbn [bind wp]. rewrite <- Hprev in *. apply Hkeep; [lia|apply HN3; lia|lia]. }
  (* a new S* position at i + 1 *)
  assert (HnL : LMS (i + 1) = true) by lia.
  cbn [bind].
  pose proof (Hb (i + 1) ltac:(lia)) as Hbi1.
  assert (HcC : 0 <= fC i (t (i + 1) + 1) < 2 ^ 63).
  { unfold fC. pose proof (cnt_range (fun x => LMS x && (t x =? t (i + 1) + 1 - 1)) n (i + 2)). destruct (t (i + 1) + 1 =? 0); lia. }
  destruct (carr_incr _ _ (t (i + 1) + 1) HC ltac:(lia) HcC) as (C' & HC1 & HC2). rewrite HC1. cbn [bind].
  assert (Hcl : cnt LMS (i + 1) n = cnt LMS (i + 2) n + 1).
  { rewrite (cnt_cons _ (i + 1)) by lia. rewrite HnL. replace (i + 1 + 1) with (i + 2) by lia. lia. }
  assert (Hnx : nx (i + 1) = i + 1) by (apply nx_LMS; assumption).
  pose proof (sub_len_LMS (i + 1) HnL) as [Hsl Hsl2]. replace (i + 1 + 1) with (i + 2) in Hsl by lia.
  assert (Hlen64 : u64 (x_q s - (i + 1) + 1) = zln (sub (i + 1))).
  { rewrite Hq, Hsl. unfold u64. rewrite wrap_small; lia. }
  rewrite Hlen64.
  pose proof (lenlen_le8 (zln (sub (i + 1))) ltac:(lia)) as Hll.
  pose proof (LMS_cnt_bound (i + 1) ltac:(lia)) as Hcb. pose proof (cnt_nonneg LMS (i + 2) n).
  pose proof (name_bytes_ok n ltac:(lia)) as [Hnb8 _].
  assert (Hrs : rsize (NAME_BYTES (x_ht s)) (zln (sub (i + 1))) <= 18 + zln (sub (i + 1))).
  { unfold rsize. rewrite Hnb. lia. }
  assert (Hfits : ~ In (sub (i + 1)) (map snd (ch (hash_of (HTSIZE (x_ht s)) (sub (i + 1))))) -> fresh_ok E (zln (sub (i + 1))) \/ fits_block (x_ht s) (sub (i + 1))).
  { intros Hnin. apply (Hsf HnL). intros e He HeL Heq. apply Hnin.
    destruct (proj2 (Hstr (sub (i + 1)))) as (k & Hk & Hin); [exists e; auto|].
    pose proof Hin as Hin2. apply in_map_iff in Hin as ([q' s'] & Hs' & Hin'). cbn [snd] in Hs'. subst s'.
    rewrite (hi_hash _ _ _ _ _ _ HI k q' _ Hk Hin'). exact Hin2. }
  pose proof (insert_any E (x_ht s) own role ch en T (i + 1) (sub (i + 1)) HI ltac:(lia) (sub_tseg _ HnL) (sub_bytes _ HnL)
    Hfits ltac:(lia)) as Hins.
  cbv zeta in Hins. apply wp_inv in Hins as ([h' x] & Hins & HX). rewrite Hins. cbn [bind]. rewrite HN1. cbn [bind wp].
  assert (HC3 : carr C' (fC (i - 1))).
  { eapply carr_ext; [exact HC2|]. intros c Hc. cbn beta. unfold fC. replace (i - 1 + 2) with (i + 1) by lia.
    rewrite (cnt_cons _ (i + 1)) by lia. rewrite HnL. cbn [andb]. replace (i + 1 + 1) with (i + 2) by lia.
    dif. }
  assert (Hu : u64 (x_num s + 1) = cnt LMS (i + 1) n).
  { rewrite Hnum, Hcl. unfold u64. apply wrap_small. lia. }
  destruct HX as [(HX1 & -> & ->)|(HX1 & -> & HX2 & HX3 & HX4 & HX5 & r & own' & role' & en' & Hr & HI')].
  - change (0 =? 0) with true. cbn iota.
    constructor; cbn [x_ht x_M x_C x_NL x_num x_uniq x_prevS x_p x_q]; replace (i - 1 + 2) with (i + 1) by lia;
      rewrite ?Hnx; try assumption; try reflexivity; try lia; auto.
    { replace (i - 1 + 1) with i by lia. congruence. }
    exists own, role, ch, en. split; [assumption|]. split; [|assumption].
    intros z. rewrite (Hstr z). split; intros (e & He & HeL & Hx).
    + exists e. split; [lia|]. split; assumption.
    + destruct (Z.eq_dec e (i + 1)) as [->|]; [|exists e; split; [lia|]; split; assumption].
      apply Hstr. exists (hash_of (HTSIZE (x_ht s)) (sub (i + 1))). split; [apply hash_range; lia|]. subst z. assumption.
  - change (1 =? 0) with false. cbn iota.
    assert (Hu2 : u64 (x_uniq s + 1) = x_uniq s + 1) by (rewrite Huniq; unfold u64; apply wrap_small; lia).
    constructor; cbn [x_ht x_M x_C x_NL x_num x_uniq x_prevS x_p x_q]; replace (i - 1 + 2) with (i + 1) by lia;
      rewrite ?Hnx; try assumption; try reflexivity; try lia; auto; try congruence.
    { replace (i - 1 + 1) with i by lia. congruence. }
    exists own', role', (upd_ch ch (hash_of (HTSIZE (x_ht s)) (sub (i + 1))) r (sub (i + 1))), en'.
    pose proof (hash_range (HTSIZE (x_ht s)) (sub (i + 1)) ltac:(lia)) as Hhr.
    set (hv := hash_of (HTSIZE (x_ht s)) (sub (i + 1))) in *.
    split; [assumption|]. split.
    + intros z. rewrite HX2. split.
      * intros (k & Hk & Hin). unfold upd_ch in Hin. destruct (Z.eqb_spec k hv) as [->|].
        -- rewrite map_app, in_app_iff in Hin. destruct Hin as [Hin|Hin].
           ++ destruct (proj1 (Hstr z)) as (e & He & HeL & Hx); [exists hv; split; assumption|].
              exists e. split; [lia|]. split; assumption.
           ++ cbn in Hin. destruct Hin as [<-|[]]. exists (i + 1). split; [lia|]. split; [assumption|reflexivity].
        -- destruct (proj1 (Hstr z)) as (e & He & HeL & Hx); [exists k; split; assumption|].
           exists e. split; [lia|]. split; assumption.
      * intros (e & He & HeL & Hx). destruct (Z.eq_dec e (i + 1)) as [->|].
        -- exists hv. split; [assumption|]. unfold upd_ch. rewrite Z.eqb_refl, map_app, in_app_iff. right. left. subst z. reflexivity.
        -- destruct (proj2 (Hstr z)) as (k & Hk & Hin); [exists e; split; [lia|]; split; assumption|].
           exists k. split; [assumption|]. unfold upd_ch. destruct (Z.eqb_spec k hv) as [->|]; [|assumption].
           rewrite map_app, in_app_iff. left. assumption.
    + rewrite Hu2, Huniq. rewrite allrec_upd_len by lia. rewrite Hhts in *. replace (hv <? hts) with true by lia. reflexivity.
Qed.

Lemma extract_step_ok i s : 0 <= i <= n - 2 -> 0 <= alen (ht_buf (x_ht s)) <= buf_bound hts n -> xinv i s -> wp (extract_step E T i s) (xinv (i - 1)).
Proof. apply extract_step_any. intros HL _. left. apply Hfr, HL. Qed.

(** the state before the loop *)
Lemma xinv_init co0 h M1 M3 N1 C1 tn : cont_new n = Ok co0 -> ht_new hts n = Ok h -> aincr (c_M co0) 0 = Ok M1 -> aget T (n - 1) = Ok tn ->
  aincr M1 (tn + 1) = Ok M3 -> aincr (c_NL co0) (tn + 1) = Ok N1 -> aincr (c_C co0) 0 = Ok C1 -> xinv (n - 2) (mkxst h M3 C1 N1 0 0 false n n).
Proof.
  intros Hco Hh HM1 Htn HM3 HN1 HC1.
  unfold cont_new in Hco. destruct (wp_inv _ _ (azeros_ok 258 ltac:(lia))) as (z & Hz0 & Hz1 & Hz2).
  rewrite Hz0 in Hco. cbn [bind] in Hco. injection Hco as <-. cbn [c_M c_NL c_C] in *.
  assert (H0 : carr z (fun _ => 0)) by (split; assumption).
  destruct (wp_inv _ _ (ht_new_ok E 512 hts n ltac:(lia) ltac:(lia) ltac:(lia))) as (h0 & Hh0 & A1 & A2 & A3 & A4 & A5).
  change (ht_new_hb 512 hts n) with (ht_new hts n) in Hh0. replace h0 with h in * by congruence.
  destruct (carr_incr _ _ 0 H0 ltac:(lia) ltac:(lia)) as (M1' & HM1' & HM2). replace M1' with M1 in * by congruence. replace M1 with C1 in * by congruence.
  rewrite (aget_ok _ _ _ (HT (n - 1) ltac:(lia))) in Htn. injection Htn as <-.
  pose proof (Hb (n - 1) ltac:(lia)) as Hbn.
  destruct (carr_incr _ _ (t (n - 1) + 1) HM2 ltac:(lia) ltac:(cbn beta; dif)) as (M3' & HM3' & HM4). replace M3' with M3 in * by congruence.
  destruct (carr_incr _ _ (t (n - 1) + 1) H0 ltac:(lia) ltac:(lia)) as (N1' & HN1' & HN2). replace N1' with N1 in * by congruence.
  constructor; cbn [x_ht x_M x_C x_NL x_num x_uniq x_prevS x_p x_q]; replace (n - 2 + 2) with n by lia;
    rewrite ?(nx_n t n n) by lia; rewrite ?(cnt_nil _ n n) by lia; try assumption; try reflexivity; try lia.
  - eapply carr_ext; [exact HM4|]. intros c Hc. cbn beta. unfold fM. replace (n - 2 + 1) with (n - 1) by lia.
    rewrite (cnt_cons _ (n - 1)) by lia. rewrite cnt_nil by lia. dif.
  - eapply carr_ext; [exact HN2|]. intros c Hc. cbn beta. unfold fNL. replace (n - 2 + 1) with (n - 1) by lia.
    rewrite (cnt_cons _ (n - 1)) by lia. rewrite cnt_nil by lia. rewrite isS_last. cbn [negb]. dif.
  - eapply carr_ext; [exact HM2|]. intros c Hc. cbn beta. unfold fC. replace (n - 2 + 2) with n by lia.
    rewrite cnt_nil by lia. dif.
  - replace (n - 2 + 1) with (n - 1) by lia. rewrite isS_last. reflexivity.
  - exists (fun _ => -1), (fun _ => -1), no_ch, (fun _ => 0). split; [assumption|]. split.
    + intros x. split; [intros (hv' & _ & [])|]. intros (e & He & _). lia.
    + unfold allrec, no_ch. induction (zseq 0 hts); [reflexivity|assumption].
Qed.

Record extracted (co : container) : Prop := {
  ex_M : carr (c_M co) (fM (-1));
  ex_NL : carr (c_NL co) (fNL (-1));
  ex_C : carr (c_C co) (fC (-1));
  ex_num : c_num co = cnt LMS 0 n;
  ex_ub : c_uniq co <= cnt LMS 0 n;
  ex_n : c_n co = n;
  ex_head : c_head_end co = Some (nx 0);
  ex_ht : exists h own role ch en, c_ht co = Some h /\ hinv E h own role ch en /\ has_strings h ch 0 /\
    HTSIZE h = hts /\ HBSIZE h = 512 /\ NAME_BYTES h = name_bytes n /\
    alen (ht_buf h) <= Z.min (buf_bound hts n) (531 * cnt LMS 0 n + n) /\ c_uniq co = zln (allrec ch hts) }.

Lemma LMS0 : LMS 0 = false.
Proof. reflexivity. Qed.

(** with any further invariant J that makes the next insertion safe *)
Theorem extract_any (J : Z -> xst -> Prop) :
  (forall h M3 C1 N1, ht_new hts n = Ok h -> J (n - 2) (mkxst h M3 C1 N1 0 0 false n n)) ->
  (forall i s s', 0 <= i <= n - 2 -> xinv i s -> xb hts n i s -> J i s -> extract_step E T i s = Ok s' -> J (i - 1) s') ->
  (forall i s, 0 <= i <= n - 2 -> xinv i s -> xb hts n i s -> J i s -> next_safe i s) ->
  wp (extract_LMS_strings E hts T n) extracted.
Proof using Hts Hn HT Hb Hz.
  intros HJ0 HJ1 HJ2.
  unfold extract_LMS_strings, cont_new.
  eapply wp_bind_mono. { eapply wp_bind_mono; [apply (azeros_ok 258); lia|]. cbn beta. intros z Hzz. cbn [wp].
    instantiate (1 := fun co => exists z, co = mkcont None z z z 0 0 n None 0 0 0 0 /\ alen z = 258 /\ forall i, 0 <= i < 258 -> av z i = Some 0).
    exists z. split; [reflexivity|exact Hzz]. }
  cbn beta. intros co (z & -> & Hz1 & Hz2). cbn [c_M c_NL c_C].
  replace (n <=? 2) with false by lia.
  assert (H0 : carr z (fun _ => 0)) by (split; assumption).
  destruct (wp_inv _ _ (ht_new_ok E 512 hts n ltac:(lia) ltac:(lia) ltac:(lia))) as (h & Hh & A1 & A2 & A3 & A4 & A5).
  change (ht_new_hb 512 hts n) with (ht_new hts n) in Hh. rewrite Hh. cbn [bind].
  destruct (carr_incr _ _ 0 H0 ltac:(lia) ltac:(lia)) as (M1 & HM1 & HM2). rewrite HM1. cbn [bind].
  rewrite (aget_ok _ _ _ (HT (n - 1) ltac:(lia))). cbn [bind].
  pose proof (Hb (n - 1) ltac:(lia)) as Hbn.
  destruct (carr_incr _ _ (t (n - 1) + 1) HM2 ltac:(lia) ltac:(cbn beta; dif)) as (M3 & HM3 & HM4). rewrite HM3. cbn [bind].
  destruct (carr_incr _ _ (t (n - 1) + 1) H0 ltac:(lia) ltac:(lia)) as (N1 & HN1 & HN2). rewrite HN1. cbn [bind].
  eapply wp_bind_mono.
  { apply (wp_for_down (fun i s => xinv i s /\ xb hts n i s /\ J i s)); [lia| |].
    2: { intros i s Hi (HX & HB & HJ). destruct (wp_inv _ _ (extract_step_any i s (HJ2 i s ltac:(lia) HX HB HJ) ltac:(lia) (xb_bound hts n i s HB ltac:(lia) ltac:(lia)) HX)) as (s' & Hs' & HX').
         rewrite Hs'. cbn [wp]. split; [exact HX'|]. split; [exact (extract_step_xb E hts T n i s ltac:(lia) ltac:(lia) HB s' Hs')|exact (HJ1 i s s' ltac:(lia) HX HB HJ Hs')]. }
    split; [|split; [apply (ht_new_xb hts n h _ _ _ ltac:(lia) ltac:(lia) Hh)|exact (HJ0 _ _ _ _ Hh)]].
    constructor; cbn [x_ht x_M x_C x_NL x_num x_uniq x_prevS x_p x_q]; replace (n - 2 + 2) with n by lia;
      rewrite ?(nx_n t n n) by lia; rewrite ?(cnt_nil _ n n) by lia; try assumption; try reflexivity; try lia.
    - eapply carr_ext; [exact HM4|]. intros c Hc. cbn beta. unfold fM. replace (n - 2 + 1) with (n - 1) by lia.
      rewrite (cnt_cons _ (n - 1)) by lia. rewrite cnt_nil by lia. dif.
    - eapply carr_ext; [exact HN2|]. intros c Hc. cbn beta. unfold fNL. replace (n - 2 + 1) with (n - 1) by lia.
      rewrite (cnt_cons _ (n - 1)) by lia. rewrite cnt_nil by lia. rewrite isS_last. cbn [negb]. dif.
    - eapply carr_ext; [exact HM2|]. intros c Hc. cbn beta. unfold fC. replace (n - 2 + 2) with n by lia.
      rewrite cnt_nil by lia. dif.
    - replace (n - 2 + 1) with (n - 1) by lia. rewrite isS_last. reflexivity.
    - exists (fun _ => -1), (fun _ => -1), no_ch, (fun _ => 0). split; [assumption|]. split.
      + intros x. split; [intros (hv & _ & [])|]. intros (e & He & _). lia.
      + unfold allrec, no_ch. induction (zseq 0 hts); [reflexivity|assumption]. }
  cbn beta. intros s [[HM HNL HC Hub Hnum Hprev Hp Hq Hhts Hhb Hnb Hlen0 (own & role & ch & en & HI & Hstr & Huniq)] [HB _]].
  pose proof (xb_bound hts n (0 - 1) s HB ltac:(lia) ltac:(lia)) as Hlen.
  change (0 - 1 + 2) with (0 + 1) in *. change (0 - 1) with (-1) in *.
  assert (Hc1 : cnt LMS (0 + 1) n = cnt LMS 0 n) by (rewrite (cnt_cons LMS 0) by lia; rewrite LMS0; lia).
  assert (Hx1 : nx (0 + 1) = nx 0) by (rewrite (nx_step t n 0) by (lia || apply LMS0); reflexivity).
  rewrite Hc1, ?Hx1 in *. cbn [wp].
  constructor; cbn [c_ht c_M c_C c_NL c_num c_uniq c_n c_head_end]; try assumption; try reflexivity.
  - rewrite Hp. reflexivity.
  - exists (x_ht s), own, role, ch, en. split; [reflexivity|]. split; [assumption|]. split.
    + intros x. rewrite (Hstr x). split; intros (e & He & HeL & Hx).
      * exists e. split; [lia|]. split; assumption.
      * exists e. split; [|split; assumption]. pose proof (LMS_bound t n e HeL). lia.
    + split; [assumption|]. split; [assumption|]. split; [assumption|]. split; [|assumption].
      pose proof (nx_spec t n 0 ltac:(lia)). lia.
Qed.
Theorem extract_ok : wp (extract_LMS_strings E hts T n) extracted.
Proof. apply (extract_any (fun _ _ => True)); auto. intros i s _ _ _ _ HL _. left. apply Hfr, HL. Qed.
End Extract.
