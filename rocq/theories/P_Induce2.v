(** Second half of induce_bwt: the right-to-left pass, and the whole function. *)
From Verif Require Import Base M_PackedArray M_Queue M_HashTable M_Induce Spec Count Text Induced P_Queue P_Extract P_InduceBase P_Induce1.
From Coq Require Import ZifyBool.
Open Scope Z_scope.

Lemma wp_loop_rel {S R} (Inv : Z -> S -> Prop) (step : S -> res (S + R)) (Q : R -> Prop) :
  (forall T s, Inv T s -> 0 <= T) ->
  (forall T s, Inv T s -> wp (step s) (fun x => match x with inl s' => exists T', T' < T /\ Inv T' s' | inr r => Q r end)) ->
  forall fuel T s, Inv T s -> T < Z.of_nat fuel -> wp (loop fuel step s) Q.
Proof.
  intros Hpos Hstep. induction fuel as [|f IH]; intros T s HI Hf.
  - specialize (Hpos T s HI). lia.
  - cbn [loop]. apply wp_bind. eapply wp_mono; [apply (Hstep T); exact HI|]. intros [s'|r] HS; [|exact HS].
    destruct HS as (T' & HT' & HI'). apply (IH T'); [assumption|lia].
Qed.

Lemma filter_len_le {A} (P : A -> bool) l : (length (filter P l) <= length l)%nat.
Proof. induction l as [|x l IH]; cbn [filter length]; [lia|]. destruct (P x); cbn [length]; lia. Qed.

Section Pass2.
Context (E : env) (buf : arr Z) (t : Z -> Z) (n : Z) (ptr : Z -> Z) (base lastptr w : Z).
Context (Hn : 2 <= n < 2 ^ 62).
Context (Hb : forall i, 0 <= i < n -> 0 <= t i < 256).
Context (HP : ptrs E buf t n ptr base lastptr w).
Notation isS := (isS t n).
Notation LMS := (LMS t n).
Notation slt := (slt t n).
Notation rk := (rk n slt).
Notation startc := (startc t n).
Notation endc := (endc t n).
Notation nL := (nL t n).
Notation nS := (nS t n).
Notation cntS := (cntS t n slt).
Notation sa := (sa t n).
Notation nM := (nM t n).
Notation lidx := (lidx t n).
Notation srow := (srow t n).
Notation Sq := (Sq t n ptr base).
Notation Mq := (Mq t n ptr base).
Notation U := (U ptr base).
Notation Psel := (Psel t n).
Let IO := suf_indord t n.

Lemma S_254 x : 0 <= x < n -> isS x = true -> t x <= 254.
Proof.
  intros Hx. remember (Z.to_nat (n - x)) as k eqn:Hk. revert x Hx Hk. induction k as [|k IH]; intros x Hx Hk HS; [lia|].
  pose proof (isS_bound t n x ltac:(lia) HS). pose proof HS as HS'. rewrite isS_step in HS' by lia.
  pose proof (Hb (x + 1) ltac:(lia)). destruct (Z.ltb_spec (t x) (t (x + 1))); [lia|].
  assert (t (x + 1) <= 254) by (apply IH; [lia|lia|lia]). lia.
Qed.

Lemma cntS_range T c : 0 <= cntS T c <= nS c.
Proof. split; [apply cnt_nonneg|]. apply cnt_le. intros i Hi H. lia. Qed.
Lemma cntS_mono T T' c : T <= T' -> cntS T' c <= cntS T c.
Proof. intros H. apply cnt_le. intros i Hi. unfold insS. lia. Qed.

(** LMS positions of bucket c not yet inserted *)
Definition cM (T c : Z) : Z := cnt (fun f => LMS f && (t f =? c) && (rk (f + 1) <=? T)) 0 n.
Lemma LMS_S1 x : LMS x = true -> 0 <= x < n /\ 0 <= x + 1 < n /\ isS x = true.
Proof. intros Hx. pose proof (LMS_bound t n x Hx). pose proof (LMS_S t n x Hx). split; [lia|]. split; [lia|assumption]. Qed.
Lemma cM_at x : LMS x = true -> cM (rk (x + 1)) (t x) = lidx x + 1.
Proof.
  intros Hx. destruct (LMS_S1 x Hx) as (H1 & H2 & H3). unfold cM, P_InduceBase.lidx. apply (cnt_add1 _ _ x); [lia|rewrite slt_irr; lia|].
  intros f Hf. destruct (Z.eqb_spec f x) as [->|Hne]; [rewrite Hx; lia|].
  destruct (LMS f) eqn:HLf; [|reflexivity]. destruct (LMS_S1 f HLf) as (F1 & F2 & F3).
  destruct (Z.eqb_spec (t f) (t x)) as [Ht|]; [|reflexivity]. cbn [andb]. rewrite orb_false_r.
  rewrite (slt_step t n f x) by lia. rewrite Ht, Z.ltb_irrefl, Z.eqb_refl. cbn [orb andb].
  pose proof (rk_lt t n _ _ IO (f + 1) (x + 1) F2 H2) as Hr.
  assert (rk (f + 1) <> rk (x + 1)) by (intros He; apply (rk_inj t n _ _ IO) in He; lia). lia.
Qed.
Lemma cM_step x : LMS x = true -> cM (rk (x + 1) - 1) (t x) = lidx x.
Proof.
  intros Hx. pose proof (cM_at x Hx) as Hc. destruct (LMS_S1 x Hx) as (H1 & H2 & H3).
  assert (cM (rk (x + 1)) (t x) = cM (rk (x + 1) - 1) (t x) + 1); [|lia]. apply (cnt_add1 _ _ x); [lia|lia|].
  intros f Hf. destruct (Z.eqb_spec f x) as [->|Hne]; [rewrite Hx; lia|].
  destruct (LMS f) eqn:HLf; [|reflexivity]. destruct (LMS_S1 f HLf) as (F1 & F2 & F3).
  assert (rk (f + 1) <> rk (x + 1)) by (intros He; apply (rk_inj t n _ _ IO) in He; lia). lia.
Qed.
Lemma cM_step_none T c : (forall x, LMS x = true -> rk (x + 1) = T -> t x <> c) -> cM (T - 1) c = cM T c.
Proof.
  intros H. apply cnt_ext. intros i Hi. destruct (LMS i) eqn:HS; [|reflexivity].
  specialize (H i HS). destruct (Z.eqb_spec (t i) c); [|reflexivity]. lia.
Qed.
Lemma cM_top c : cM (n - 1) c = nM c.
Proof.
  apply cnt_ext. intros f Hf. destruct (LMS f) eqn:HLf; [|reflexivity]. destruct (LMS_S1 f HLf) as (F1 & F2 & F3).
  pose proof (rk_range t n _ _ IO (f + 1) F2). lia.
Qed.
Lemma lidx_rk y : LMS y = true -> startc (t y) + nL (t y) + lidx y <= rk y.
Proof.
  intros Hy. destruct (LMS_S1 y Hy) as (H1 & H2 & H3). unfold Induced.startc, Induced.nL, P_InduceBase.lidx, Induced.rk.
  rewrite <- (cnt_disj _ _ (fun i => (t i <? t y) || ((t i =? t y) && negb (isS i)))); [|reflexivity|intros; lia].
  rewrite <- (cnt_disj _ _ (fun i => (t i <? t y) || ((t i =? t y) && negb (isS i)) || (LMS i && (t i =? t y) && slt i y))); [|reflexivity|].
  - apply cnt_le. intros i Hi H. destruct (slt i y) eqn:Hs; [reflexivity|]. exfalso.
    destruct (Z.ltb_spec (t i) (t y)) as [Hlt|Hge].
    + rewrite slt_step in Hs by lia. lia.
    + rewrite andb_false_r in H. cbn in H. rewrite (L_before_S t n i y) in Hs; lia.
  - intros i Hi. destruct (LMS i) eqn:HLi; [|cbn; lia]. destruct (LMS_S1 i HLi) as (_ & _ & HSi). rewrite HSi. lia.
Qed.

Record A2 (T : Z) (s : ist) : Prop := {
  a2_M2l : alen (i_M2 s) = 258;
  a2_M2 : forall e, 0 <= e < 256 -> av (i_M2 s) (e + 1) = Some (endc e - cntS T e);
  a2_C2l : alen (i_C2 s) = 258;
  a2_C2 : forall e, 0 <= e < 256 -> av (i_C2 s) (e + 1) = Some (1 + startc e + nL e + cM T e);
  a2_Bl : alen (i_BWT s) = n + 1;
  a2_B0 : av (i_BWT s) 0 = Some (t (n - 1));
  a2_BL : forall j, 1 <= j < n -> isS j = false -> av (i_BWT s) (1 + rk j) = Some (t (j - 1));
  a2_BS : forall j, 1 <= j < n -> isS j = true -> T < rk (j + 1) -> av (i_BWT s) (1 + rk j) = Some (t (j - 1));
  a2_BM : forall x, LMS x = true -> rk (x + 1) <= T -> av (i_BWT s) (srow x) = Some (t (x - 1));
  a2_lastL : isS 0 = false -> i_last s = Some (1 + rk 0);
  a2_lastS : isS 0 = true -> T < rk 1 -> i_last s = Some (1 + rk 0) }.

Lemma A2_Q T s Q : A2 T s -> A2 T (with_Q s Q).
Proof. intros []. constructor; assumption. Qed.

Lemma A2_skip x T s : 0 <= x < n -> rk x = T -> Psel x = false -> A2 T s -> A2 (T - 1) s.
Proof.
  intros Hx HT HPx [H1 H2 H3 H4 H5 H6 H7 H8 H9 H10 H11].
  assert (Hno : forall j, 0 <= j < n -> isS j = true -> rk (j + 1) = T -> False).
  { intros j Hj HS Hs. pose proof (isS_bound t n j ltac:(lia) HS). assert (j + 1 = x) by (apply (rk_inj t n _ _ IO); lia).
    unfold P_Induce1.Psel in HPx. replace (x - 1) with j in HPx by lia. rewrite HS in HPx. lia. }
  constructor; try assumption.
  - intros e He. rewrite (cntS_step_none t n); [apply H2; assumption|]. intros j Hj HS Hs _. exact (Hno j Hj HS Hs).
  - intros e He. rewrite cM_step_none; [apply H4; assumption|]. intros y Hy Hs _. destruct (LMS_S1 y Hy) as (F1 & F2 & F3). exact (Hno y F1 F3 Hs).
  - intros j Hj HS Hs. apply H8; [assumption|assumption|]. destruct (Z.eq_dec (rk (j + 1)) T) as [He|]; [|lia]. destruct (Hno j ltac:(lia) HS He).
  - intros y Hy Hs. apply H9; [assumption|lia].
  - intros HS Hr. apply H11; [assumption|]. destruct (Z.eq_dec (rk 1) T) as [He|]; [|lia]. destruct (Hno 0 ltac:(lia) HS He).
Qed.

Definition U2 (j : Z) : Z := ptr (j + 1) - 1 - base.
Lemma U2_range j : 0 <= j < n -> 0 <= U2 j < 2 ^ w.
Proof. intros Hj. pose proof (p_range _ _ _ _ _ _ _ _ HP (j + 1) ltac:(lia)). unfold U2. lia. Qed.
Lemma U2_U j : 0 <= j < n -> LMS j = false -> U2 j = U j.
Proof.
  intros Hj HL. unfold U2, P_Induce1.U. pose proof (p_pred _ _ _ _ _ _ _ _ HP (j + 1) ltac:(lia)) as Hp.
  replace (j + 1 - 1) with j in Hp by lia. rewrite Hp by assumption. lia.
Qed.

(** inserting the S position j = x - 1 *)
Lemma ind2 x T d s LL : 1 <= x < n -> rk x = T -> t x = d -> isS (x - 1) = true -> A2 T s -> qs E w (i_Q s) LL ->
  wp (c1 <- bget E buf (ptr x - 1) ;;
      if c1 <=? d then
        Q <- q_add E (i_Q s) TYPE_L (c1 + 1) (ptr x - 1 - base) ;;
        let s := with_Q s Q in
        m <- aget (i_M2 s) (c1 + 1) ;;
        M2 <- aset (i_M2 s) (c1 + 1) (u64 (m - 1)) ;;
        let s := mkist (i_Q s) (i_BWT s) M2 (i_C2 s) (i_last s) in
        if ptr x - 1 =? lastptr then Ok (inl (with_last s m))
        else
          c0 <- bget E buf (ptr x - 2) ;;
          '(x, C2) <- (if c0 <=? c1 then Ok (c0, i_C2 s) else
                p <- aget (i_C2 s) (c1 + 1) ;;
                C2 <- aset (i_C2 s) (c1 + 1) (u64 (p - 1)) ;;
                x <- aget (i_BWT s) (u64 (p - 1)) ;; Ok (x, C2)) ;;
          B <- aset (i_BWT s) m x ;;
          Ok (inl (mkist (i_Q s) B (i_M2 s) C2 (i_last s)))
      else Ok (inl s))
  (fun r : ist + ist => match r with inl s' => A2 (T - 1) s' /\ qs E w (i_Q s') (qup LL TYPE_L (t (x - 1) + 1) (LL TYPE_L (t (x - 1) + 1) ++ [U2 (x - 1)])) | inr _ => False end).
Proof.
  intros Hx HT Hd HSj [H1 H2 H3 H4 H5 H6 H7 H8 H9 H10 H11] HQ.
  rewrite (p_prev _ _ _ _ _ _ _ _ HP x ltac:(lia)). cbn [bind]. set (j := x - 1) in *. assert (Hj : 0 <= j < n) by lia.
  assert (Hj1 : j + 1 = x) by lia. pose proof (Hb j Hj) as Hbj.
  pose proof (S_le t n j ltac:(lia) HSj) as Hle. rewrite Hj1, Hd in Hle. replace (t j <=? d) with true by lia.
  assert (HU : ptr x - 1 - base = U2 j) by (unfold U2; rewrite Hj1; reflexivity). rewrite HU.
  destruct (q_add_ok E w _ _ TYPE_L (t j + 1) (U2 j) HQ ltac:(unfold TYPE_L; lia) ltac:(lia) (U2_range j Hj)) as (Q' & -> & HQ'). cbn [bind].
  cbv zeta. cbn [with_Q i_M2 i_Q i_BWT i_C2 i_last]. rewrite (aget_ok _ _ _ (H2 _ Hbj)). cbn [bind].
  pose proof (insS_rank t n _ _ IO j Hj HSj) as Hr. rewrite Hj1, HT in Hr. pose proof (rk_range t n _ _ IO j Hj) as Hrr.
  replace (endc (t j) - cntS T (t j)) with (1 + rk j) by lia. rewrite u64_small by lia. rewrite aset_ok by lia. cbn [bind].
  cbn [i_M2 i_Q i_BWT i_C2 i_last].
  assert (Hone : forall j', 0 <= j' < n -> isS j' = true -> rk (j' + 1) = T -> j' = j).
  { intros j' Hj' HS' Hs. pose proof (isS_bound t n j' ltac:(lia) HS'). assert (j' + 1 = x) by (apply (rk_inj t n _ _ IO); lia). lia. }
  assert (HM2' : forall e, 0 <= e < 256 -> av (aupd (i_M2 s) (t j + 1) (1 + rk j - 1)) (e + 1) = Some (endc e - cntS (T - 1) e)).
  { intros e He. rewrite av_upd by lia. destruct (Z.eqb_spec (e + 1) (t j + 1)) as [Hee|Hee].
    - replace e with (t j) by lia. pose proof (cntS_step t n _ _ IO j Hj HSj) as Hs. rewrite Hj1, HT in Hs. f_equal. lia.
    - rewrite (cntS_step_none t n); [apply H2; assumption|]. intros j' Hj' HS' Hs. rewrite (Hone j' Hj' HS' Hs). lia. }
  assert (HBM : forall y, LMS y = true -> rk (y + 1) <= T - 1 -> srow y <> 1 + rk j).
  { intros y Hy Hs He. destruct (LMS_S1 y Hy) as (F1 & F2 & F3). pose proof (srow_range t n y Hy) as Hsr. pose proof (rk_bucket t n j Hj) as (B1 & _).
    pose proof (nL_nonneg t n (t y)).
    assert (Htt : t y = t j) by (apply (bucket_disj t n) with (r := rk j); lia).
    pose proof (lidx_rk y Hy). unfold P_Induce1.srow in He.
    assert (Hlt : slt y j = true).
    { rewrite slt_step by lia. rewrite Htt, Z.eqb_refl. cbn [andb]. rewrite Hj1. apply orb_true_iff. right. apply (rk_lt t n _ _ IO); lia. }
    apply (rk_lt t n _ _ IO) in Hlt; lia. }
  destruct (Z.eqb_spec (ptr x - 1) lastptr) as [He|Hne].
  { assert (Hj0 : j = 0).
    { destruct (LMS j) eqn:HLj.
      - destruct (p_dead _ _ _ _ _ _ _ _ HP x ltac:(lia)); [fold j; assumption|assumption].
      - apply (p_last _ _ _ _ _ _ _ _ HP j ltac:(lia)). rewrite <- He. apply (p_pred _ _ _ _ _ _ _ _ HP x); [lia|fold j; assumption]. }
    cbn [wp]. split; [|cbn [with_last i_Q]; assumption].
    constructor; cbn [with_last i_M2 i_Q i_BWT i_C2 i_last]; try assumption; try (rewrite alen_upd; assumption).
    - intros e He'. rewrite cM_step_none; [apply H4; assumption|]. intros y Hy Hs _. destruct (LMS_S1 y Hy) as (F1 & F2 & F3).
      rewrite (Hone y F1 F3 Hs), Hj0 in Hy. discriminate.
    - intros j' Hj' HS Hs. apply H8; [assumption|assumption|]. destruct (Z.eq_dec (rk (j' + 1)) T) as [He'|]; [|lia].
      pose proof (Hone j' ltac:(lia) HS He'). lia.
    - intros y Hy Hs. apply H9; [assumption|lia].
    - rewrite Hj0. reflexivity.
    - rewrite Hj0. reflexivity. }
  assert (Hj0 : 1 <= j).
  { destruct (Z.eq_dec j 0) as [Hj0|]; [|lia]. destruct Hne. apply (p_last _ _ _ _ _ _ _ _ HP j ltac:(lia)) in Hj0 as Hl. rewrite <- Hl.
    symmetry. apply (p_pred _ _ _ _ _ _ _ _ HP x); [lia|]. fold j. rewrite Hj0. reflexivity. }
  assert (Hc0 : exists c0, bget E buf (ptr x - 2) = Ok c0 /\ (if LMS j then c0 = t j + 1 else c0 = t (j - 1) /\ t (j - 1) <= t j)).
  { destruct (LMS j) eqn:HLj.
    - exists (u8 (t j + 1)). split; [apply (p_sent _ _ _ _ _ _ _ _ HP x); [lia|left; assumption]|]. pose proof (S_254 j Hj HSj).
      unfold u8. apply wrap_small. lia.
    - exists (t (j - 1)). pose proof (p_pred _ _ _ _ _ _ _ _ HP x ltac:(lia)) as Hp. fold j in Hp. specialize (Hp HLj).
      split; [replace (ptr x - 2) with (ptr j - 1) by lia; apply (p_prev _ _ _ _ _ _ _ _ HP); lia|]. split; [reflexivity|].
      pose proof (S_pred t n j ltac:(lia) HSj) as Hsp. unfold Text.LMS in HLj. lia. }
  destruct Hc0 as (c0 & -> & Hc0). cbn [bind].
  assert (Hval : exists C2, (if c0 <=? t j then Ok (c0, i_C2 s) else
       (p <- aget (i_C2 s) (t j + 1) ;; C2 <- aset (i_C2 s) (t j + 1) (u64 (p - 1)) ;; x <- aget (i_BWT s) (u64 (p - 1)) ;; Ok (x, C2))) = Ok (t (j - 1), C2) /\
     alen C2 = 258 /\ forall e, 0 <= e < 256 -> av C2 (e + 1) = Some (1 + startc e + nL e + cM (T - 1) e)).
  { destruct (LMS j) eqn:HLj.
    - replace (c0 <=? t j) with false by lia. rewrite (aget_ok _ _ _ (H4 _ Hbj)). cbn [bind].
      pose proof (cM_at j HLj) as Hca. rewrite Hj1, HT in Hca. pose proof (cM_step j HLj) as Hcs. rewrite Hj1, HT in Hcs.
      pose proof (srow_range t n j HLj) as Hsr. pose proof (startc_nonneg t n (t j)). pose proof (nL_nonneg t n (t j)). pose proof (endc_le_n t n (t j) ltac:(lia)).
      assert (Hsj : 1 + startc (t j) + nL (t j) + cM T (t j) - 1 = srow j) by (unfold P_Induce1.srow; lia).
      rewrite !u64_small by lia. rewrite aset_ok by lia. cbn [bind]. rewrite Hsj.
      rewrite (aget_ok _ _ _ (H9 j HLj ltac:(rewrite Hj1; lia))). cbn [bind]. eexists. split; [reflexivity|]. split; [rewrite alen_upd; assumption|].
      intros e He. rewrite av_upd by lia. destruct (Z.eqb_spec (e + 1) (t j + 1)) as [Hee|Hee].
      + replace e with (t j) by lia. rewrite Hcs. reflexivity.
      + rewrite cM_step_none; [apply H4; assumption|]. intros y Hy Hs. destruct (LMS_S1 y Hy) as (F1 & F2 & F3). rewrite (Hone y F1 F3 Hs). lia.
    - destruct Hc0 as [-> Hle2]. replace (t (j - 1) <=? t j) with true by lia. eexists. split; [reflexivity|]. split; [assumption|].
      intros e He. rewrite cM_step_none; [apply H4; assumption|]. intros y Hy Hs. destruct (LMS_S1 y Hy) as (F1 & F2 & F3). rewrite (Hone y F1 F3 Hs) in Hy. congruence. }
  destruct Hval as (C2 & -> & HC2l & HC2). cbn [bind]. rewrite aset_ok by lia. cbn [bind wp].
  split; [|cbn [i_Q]; assumption].
  constructor; cbn [i_M2 i_Q i_BWT i_C2 i_last]; try assumption; try (rewrite alen_upd; assumption).
  - rewrite av_upd by lia. replace (0 =? 1 + rk j) with false by lia. assumption.
  - intros i Hi HL. rewrite av_upd by lia. destruct (Z.eqb_spec (1 + rk i) (1 + rk j)) as [He|_]; [|apply H7; assumption].
    assert (i = j) by (apply (rk_inj t n _ _ IO); lia). congruence.
  - intros i Hi HS Hs. rewrite av_upd by lia. destruct (Z.eqb_spec (1 + rk i) (1 + rk j)) as [He|Hnei].
    + assert (i = j) as -> by (apply (rk_inj t n _ _ IO); lia). reflexivity.
    + apply H8; [assumption|assumption|]. destruct (Z.eq_dec (rk (i + 1)) T) as [He'|]; [|lia]. rewrite (Hone i ltac:(lia) HS He') in Hnei. lia.
  - intros y Hy Hs. rewrite av_upd by lia. pose proof (HBM y Hy Hs). replace (srow y =? 1 + rk j) with false by lia. apply H9; [assumption|lia].
  - intros HS Hr0. apply H11; [assumption|]. destruct (Z.eq_dec (rk 1) T) as [He|]; [|lia]. pose proof (Hone 0 ltac:(lia) HS He). lia.
Qed.

(** * Queues of the second pass: positions with rank > T have been visited *)
Definition L2q (T e : Z) : list Z := map U2 (map sa (rev (zseq (endc e - cntS T e) (Z.min (T + 1) (endc e))))).
Definition Q2 (T ty c : Z) : list Z :=
  if ty =? TYPE_S then Sq (T + 1) (c - 1) else if ty =? TYPE_L then L2q T (c - 1) else Mq n (c - 1).
Record I2 (T : Z) (s : ist) : Prop := { i2_A : A2 T s; i2_Q : qs E w (i_Q s) (Q2 T) }.

Lemma zs2 T d e : startc d <= T < endc d -> (e <> d \/ T < startc d + nL d) ->
  zseq (endc e - cntS T e) (Z.min T (endc e)) = zseq (endc e - cntS T e) (Z.min (T + 1) (endc e)).
Proof.
  intros HT Hc. pose proof (cntS_range T e). pose proof (endc_split t n d). pose proof (nS_nonneg t n d). pose proof (endc_split t n e). pose proof (nL_nonneg t n e).
  destruct (Z.lt_trichotomy e d) as [Hd|[Hd|Hd]].
  - pose proof (endc_startc t n e d Hd). rewrite !Z.min_r by lia. reflexivity.
  - subst e. rewrite !zseq_nil by lia. reflexivity.
  - pose proof (endc_startc t n d e Hd). rewrite !zseq_nil by lia. reflexivity.
Qed.
Lemma L2q_snoc x T : 1 <= x < n -> rk x = T -> isS (x - 1) = true ->
  L2q (T - 1) (t (x - 1)) = map U2 (map sa (rev (zseq (endc (t (x - 1)) - cntS T (t (x - 1))) (Z.min T (endc (t (x - 1))))))) ++ [U2 (x - 1)].
Proof.
  intros Hx HT HSj. set (j := x - 1) in *. assert (Hj : 0 <= j < n) by lia. assert (Hj1 : j + 1 = x) by lia.
  pose proof (insS_rank t n _ _ IO j Hj HSj) as Hr. rewrite Hj1, HT in Hr. pose proof (cntS_step t n _ _ IO j Hj HSj) as Hs. rewrite Hj1, HT in Hs.
  pose proof (rk_before t n _ _ IO j Hj HSj) as Hbf. rewrite Hj1, HT in Hbf. pose proof (cntS_range T (t j)).
  unfold L2q. rewrite Hs. replace (T - 1 + 1) with T by lia.
  rewrite (zseq_cons (endc (t j) - (cntS T (t j) + 1))) by lia. cbn [rev]. rewrite !map_app. cbn [map].
  replace (endc (t j) - (cntS T (t j) + 1) + 1) with (endc (t j) - cntS T (t j)) by lia.
  replace (endc (t j) - (cntS T (t j) + 1)) with (rk j) by lia. rewrite sa_rk by lia. reflexivity.
Qed.
Lemma L2q_other x T e : 0 <= x < n -> rk x = T -> (Psel x = true -> e <> t (x - 1)) ->
  L2q (T - 1) e = map U2 (map sa (rev (zseq (endc e - cntS T e) (Z.min T (endc e))))).
Proof.
  intros Hx HT Hc. unfold L2q. replace (T - 1 + 1) with T by lia. rewrite (cntS_step_none t n); [reflexivity|].
  intros j Hj HS Hs. pose proof (isS_bound t n j ltac:(lia) HS). assert (j + 1 = x) by (apply (rk_inj t n _ _ IO); lia).
  unfold P_Induce1.Psel in Hc. replace (x - 1) with j in Hc by lia. rewrite HS in Hc. specialize (Hc ltac:(lia)). lia.
Qed.
Lemma L2q_pop x T d : 0 <= x < n -> isS x = true -> t x = d -> rk x = T ->
  L2q T d = U2 x :: map U2 (map sa (rev (zseq (endc d - cntS T d) (Z.min T (endc d))))).
Proof.
  intros Hx HS Hd HT. pose proof (insS_rank t n _ _ IO x Hx HS) as Hr. rewrite Hd in Hr. pose proof (cntS_step t n _ _ IO x Hx HS) as Hs. rewrite Hd in Hs.
  pose proof (rk_before t n _ _ IO x Hx HS) as Hbf. pose proof (cntS_mono T (rk (x + 1) - 1) d ltac:(lia)) as Hmo.
  pose proof (rk_bucket t n x Hx) as (B1 & _). rewrite Hd, HT in *.
  unfold L2q. rewrite !Z.min_l by lia. rewrite zseq_rev_cons by lia. cbn [map]. rewrite <- HT at 1. rewrite sa_rk by lia. reflexivity.
Qed.
Lemma L2q_empty T d : T + 1 <= startc d + nL d -> L2q T d = [].
Proof. intros H. unfold L2q. pose proof (cntS_range T d). pose proof (endc_split t n d). rewrite zseq_nil by lia. reflexivity. Qed.

(** queue contents after one visit *)
Lemma Q2_after x T d LL : 0 <= x < n -> rk x = T -> t x = d ->
  (forall ty c, 0 <= ty < 3 -> 0 <= c < 258 -> LL ty c =
     if ty =? TYPE_S then Sq T (c - 1) else if ty =? TYPE_L then map U2 (map sa (rev (zseq (endc (c - 1) - cntS T (c - 1)) (Z.min T (endc (c - 1)))))) else Mq n (c - 1)) ->
  forall ty c, 0 <= ty < 3 -> 0 <= c < 258 ->
  (if Psel x then qup LL TYPE_L (t (x - 1) + 1) (LL TYPE_L (t (x - 1) + 1) ++ [U2 (x - 1)]) else LL) ty c = Q2 (T - 1) ty c.
Proof.
  intros Hx HT Hd HLL ty c Hty Hc. unfold Q2. replace (T - 1 + 1) with T by lia.
  destruct (Psel x) eqn:HPx.
  - assert (HSj : 1 <= x /\ isS (x - 1) = true) by (unfold P_Induce1.Psel in HPx; lia). destruct HSj as [Hx1 HSj].
    pose proof (Hb (x - 1) ltac:(lia)) as Hbj. unfold qup. rewrite (HLL TYPE_L) by (unfold TYPE_L; lia). unfold TYPE_L at 1 2 3. unfold TYPE_S at 1.
    cbn [Z.eqb]. unfold TYPE_L. destruct (Z.eqb_spec ty 1) as [->|Hty1].
    + cbn [andb]. change (1 =? TYPE_S) with false. cbv iota. destruct (Z.eqb_spec c (t (x - 1) + 1)) as [->|Hcc].
      * cbn. replace (t (x - 1) + 1 - 1) with (t (x - 1)) by lia. rewrite (L2q_snoc x T) by (assumption || lia). reflexivity.
      * rewrite HLL by lia. cbn. rewrite (L2q_other x T); [reflexivity|assumption|assumption|lia].
    + cbn [andb]. rewrite HLL by lia. unfold TYPE_L. replace (ty =? 1) with false by lia. reflexivity.
  - rewrite HLL by lia. rewrite (L2q_other x T); [reflexivity|assumption|assumption|congruence].
Qed.

(** the S part of bucket d *)
Lemma step2_S d T s : 0 <= d < 256 -> startc d + nL d <= T < endc d -> I2 T s ->
  wp (induce_step2 E buf base lastptr TYPE_L (d + 1) s) (fun r => match r with inl s' => I2 (T - 1) s' | inr _ => False end).
Proof.
  intros Hd HT [HA HQ]. pose proof (nL_nonneg t n d).
  destruct (sa_bucket t n ltac:(lia) T d ltac:(lia)) as (Hx & Hrk & Htx & HS'). set (x := sa T) in *.
  assert (HS : isS x = true) by (destruct (isS x); [reflexivity|pose proof (proj1 HS' eq_refl); lia]). clear HS'.
  unfold induce_step2.
  assert (Hpop : Q2 T TYPE_L (d + 1) = U2 x :: map U2 (map sa (rev (zseq (endc d - cntS T d) (Z.min T (endc d)))))).
  { unfold Q2. cbn. replace (d + 1 - 1) with d by lia. apply L2q_pop; assumption. }
  destruct (q_empty_ok E w _ _ TYPE_L (d + 1) HQ ltac:(unfold TYPE_L; lia) ltac:(lia)) as (qq & Hqq & Hem).
  { rewrite Hpop. cbn [length]. rewrite !map_length, rev_length, zseq_length. pose proof (endc_le_n t n d ltac:(lia)). pose proof (cntS_range T d).
    pose proof (endc_split t n d). pose proof (startc_nonneg t n d). lia. }
  rewrite Hqq. cbn [bind]. rewrite Hem, Hpop.
  destruct (q_pop_ok E w _ _ TYPE_L (d + 1) _ _ HQ ltac:(unfold TYPE_L; lia) ltac:(lia) Hpop) as (Q' & -> & HQ'). cbn [bind]. cbv zeta.
  assert (HLL : forall ty c, 0 <= ty < 3 -> 0 <= c < 258 ->
     qup (Q2 T) TYPE_L (d + 1) (map U2 (map sa (rev (zseq (endc d - cntS T d) (Z.min T (endc d)))))) ty c =
     if ty =? TYPE_S then Sq T (c - 1) else if ty =? TYPE_L then map U2 (map sa (rev (zseq (endc (c - 1) - cntS T (c - 1)) (Z.min T (endc (c - 1)))))) else Mq n (c - 1)).
  { intros ty c Hty Hc. unfold qup, Q2. rewrite (Sq_M t n ptr base T d (c - 1) ltac:(lia)). unfold TYPE_L, TYPE_S.
    destruct (Z.eqb_spec ty 1) as [->|Hty1]; cbn [andb].
    - cbn. destruct (Z.eqb_spec c (d + 1)) as [->|Hcc]; [replace (d + 1 - 1) with d by lia; reflexivity|]. unfold L2q. rewrite (zs2 T d) by lia. reflexivity.
    - reflexivity. }
  pose proof (Q2_after x T d _ Hx Hrk Htx HLL) as Hafter.
  set (s0 := with_Q s Q'). assert (HA0 : A2 T s0) by (apply A2_Q; assumption).
  destruct (Psel x) eqn:HPx.
  - assert (HSj : 1 <= x /\ isS (x - 1) = true) by (unfold P_Induce1.Psel in HPx; lia). destruct HSj as [Hx1 HSj].
    assert (HnL : LMS x = false) by (unfold Text.LMS; rewrite HSj; lia).
    rewrite (U2_U x Hx HnL). rewrite U_base. replace (d + 1 - 1) with d by lia.
    eapply wp_mono; [apply (ind2 x T d s0); [lia|assumption|assumption|assumption|assumption|exact HQ']|].
    intros [s'|r]; [|exact (fun H => H)]. intros [HA' HQ'']. split; [assumption|]. apply (qs_ext _ _ _ _ _ HQ''). exact Hafter.
  - assert (Hdead : LMS x = true \/ x + 1 = 1).
    { unfold P_Induce1.Psel in HPx. unfold Text.LMS. lia. }
    assert (Hsent : bget E buf (base + U2 x - 1) = Ok (t x + 1)).
    { unfold U2. replace (base + (ptr (x + 1) - 1 - base) - 1) with (ptr (x + 1) - 2) by lia.
      rewrite (p_sent _ _ _ _ _ _ _ _ HP (x + 1)) by (try lia; replace (x + 1 - 1) with x by lia; assumption).
      replace (x + 1 - 1) with x by lia. pose proof (S_254 x Hx HS). pose proof (Hb x Hx). unfold u8. rewrite wrap_small by lia. reflexivity. }
    rewrite Hsent. cbn [bind]. rewrite Htx. replace (d + 1 <=? d + 1 - 1) with false by lia. cbn [wp].
    split; [apply (A2_skip x); assumption|]. cbn [s0 with_Q i_Q]. apply (qs_ext _ _ _ _ _ HQ'). exact Hafter.
Qed.

(** the L part of bucket d: positions without S predecessor are not in the queue *)
Lemma skip2_L d T s : startc d <= T < startc d + nL d -> Psel (sa T) = false -> I2 T s -> I2 (T - 1) s.
Proof.
  intros HT HPx [HA HQ]. pose proof (endc_split t n d). pose proof (nS_nonneg t n d).
  destruct (sa_bucket t n ltac:(lia) T d ltac:(lia)) as (Hx & Hrk & Htx & HL'). set (x := sa T) in *.
  assert (HL : isS x = false) by (apply HL'; lia). clear HL'.
  split; [apply (A2_skip x); assumption|]. apply (qs_ext _ _ _ _ _ HQ).
  assert (HLL : forall ty c, 0 <= ty < 3 -> 0 <= c < 258 -> Q2 T ty c =
     if ty =? TYPE_S then Sq T (c - 1) else if ty =? TYPE_L then map U2 (map sa (rev (zseq (endc (c - 1) - cntS T (c - 1)) (Z.min T (endc (c - 1)))))) else Mq n (c - 1)).
  { intros ty c Hty Hc. unfold Q2, L2q. rewrite (zs2 T d) by lia.
    destruct (Z.eq_dec (c - 1) d) as [Hcd|Hcd].
    - rewrite Hcd. rewrite (Sq_here t n ptr base x T d) by (assumption || lia). rewrite HPx. reflexivity.
    - rewrite (Sq_other t n ptr base T d) by lia. reflexivity. }
  pose proof (Q2_after x T d _ Hx Hrk Htx HLL) as Hafter. rewrite HPx in Hafter. exact Hafter.
Qed.
Lemma step2_L d T s : 0 <= d < 256 -> startc d <= T < startc d + nL d -> Psel (sa T) = true -> I2 T s ->
  wp (induce_step2 E buf base lastptr TYPE_S (d + 1) s) (fun r => match r with inl s' => I2 (T - 1) s' | inr _ => False end).
Proof.
  intros Hd HT HPx [HA HQ]. pose proof (endc_split t n d). pose proof (nS_nonneg t n d).
  destruct (sa_bucket t n ltac:(lia) T d ltac:(lia)) as (Hx & Hrk & Htx & HL'). set (x := sa T) in *.
  assert (HL : isS x = false) by (apply HL'; lia). clear HL'.
  assert (HSj : 1 <= x /\ isS (x - 1) = true) by (unfold P_Induce1.Psel in HPx; lia). destruct HSj as [Hx1 HSj].
  unfold induce_step2.
  assert (Hpop : Q2 T TYPE_S (d + 1) = U x :: Sq T d).
  { unfold Q2. cbn. replace (d + 1 - 1) with d by lia. rewrite (Sq_here t n ptr base x T d) by (assumption || lia). rewrite HPx. reflexivity. }
  destruct (q_empty_ok E w _ _ TYPE_S (d + 1) HQ ltac:(unfold TYPE_S; lia) ltac:(lia)) as (qq & Hqq & Hem).
  { rewrite Hpop. cbn [length]. unfold P_Induce1.Sq. rewrite map_length.
    match goal with |- context [filter ?P ?l] => pose proof (filter_len_le P l) as Hfl end.
    rewrite map_length, rev_length, zseq_length in Hfl. pose proof (endc_le_n t n d ltac:(lia)). pose proof (startc_nonneg t n d). lia. }
  rewrite Hqq. cbn [bind]. rewrite Hem, Hpop.
  destruct (q_pop_ok E w _ _ TYPE_S (d + 1) _ _ HQ ltac:(unfold TYPE_S; lia) ltac:(lia) Hpop) as (Q' & -> & HQ'). cbn [bind]. cbv zeta.
  assert (HLL : forall ty c, 0 <= ty < 3 -> 0 <= c < 258 ->
     qup (Q2 T) TYPE_S (d + 1) (Sq T d) ty c =
     if ty =? TYPE_S then Sq T (c - 1) else if ty =? TYPE_L then map U2 (map sa (rev (zseq (endc (c - 1) - cntS T (c - 1)) (Z.min T (endc (c - 1)))))) else Mq n (c - 1)).
  { intros ty c Hty Hc. unfold qup, Q2, L2q. rewrite (zs2 T d) by lia. unfold TYPE_S.
    destruct (Z.eqb_spec ty 0) as [->|Hty1]; cbn [andb]; [|reflexivity].
    destruct (Z.eqb_spec c (d + 1)) as [->|Hcc]; [replace (d + 1 - 1) with d by lia; reflexivity|].
    apply (Sq_other t n ptr base T d); lia. }
  pose proof (Q2_after x T d _ Hx Hrk Htx HLL) as Hafter. rewrite HPx in Hafter.
  set (s0 := with_Q s Q'). assert (HA0 : A2 T s0) by (apply A2_Q; assumption).
  rewrite U_base. replace (d + 1 - 1) with d by lia.
  eapply wp_mono; [apply (ind2 x T d s0); [lia|assumption|assumption|assumption|assumption|exact HQ']|].
  intros [s'|r]; [|exact (fun H => H)]. intros [HA' HQ'']. split; [assumption|]. apply (qs_ext _ _ _ _ _ HQ''). exact Hafter.
Qed.
Lemma stop2 ty c T s : 0 <= c < 258 -> 0 <= ty < 2 -> Q2 T ty c = [] -> I2 T s ->
  induce_step2 E buf base lastptr ty c s = Ok (inr s).
Proof.
  intros Hd Hty Hl [HA HQ]. unfold induce_step2.
  destruct (q_empty_ok E w _ _ ty c HQ ltac:(lia) ltac:(lia)) as (qq & Hqq & Hem); [rewrite Hl; cbn; lia|].
  rewrite Hqq. cbn [bind]. rewrite Hem, Hl. reflexivity.
Qed.
Lemma bucket_ne d r : startc d <= r < endc d -> 0 <= d < 256.
Proof. intros H. destruct (sa_bucket t n ltac:(lia) r d H) as (Hx & _ & <- & _). apply Hb. assumption. Qed.

Lemma loop2_S fuel d s : -1 <= d < 257 -> n < Z.of_nat fuel -> I2 (endc d - 1) s ->
  wp (loop fuel (induce_step2 E buf base lastptr TYPE_L (d + 1)) s) (I2 (startc d + nL d - 1)).
Proof.
  intros Hd Hf HI. pose proof (endc_split t n d). pose proof (nS_nonneg t n d). pose proof (nL_nonneg t n d).
  pose proof (endc_le_n t n d ltac:(lia)). pose proof (startc_nonneg t n d).
  apply (wp_loop_rel (fun k s => startc d + nL d - 1 <= startc d + nL d - 1 + k <= endc d - 1 /\ I2 (startc d + nL d - 1 + k) s)) with (T := nS d).
  - intros T s' [? _]. lia.
  - intros k s' [Hr HI']. destruct (Z.eq_dec k 0) as [Hk|Hk].
    + rewrite (stop2 _ _ (startc d + nL d - 1 + k)); [cbn [wp]; rewrite Hk, Z.add_0_r in HI'; assumption|lia|unfold TYPE_L; lia| |assumption].
      unfold Q2. cbn. replace (d + 1 - 1) with d by lia. apply L2q_empty. lia.
    + pose proof (bucket_ne d (startc d + nL d - 1 + k) ltac:(lia)) as Hdd.
      eapply wp_mono; [apply (step2_S d (startc d + nL d - 1 + k)); [lia|lia|assumption]|]. intros [s''|r]; [|contradiction].
      intros HI''. exists (k - 1). split; [lia|]. split; [lia|]. replace (startc d + nL d - 1 + (k - 1)) with (startc d + nL d - 1 + k - 1) by lia. assumption.
  - split; [lia|]. replace (startc d + nL d - 1 + nS d) with (endc d - 1) by lia. assumption.
  - lia.
Qed.
Lemma norm2 d s : forall k, 0 <= k <= nL d -> I2 (startc d - 1 + k) s ->
  exists k', 0 <= k' <= k /\ I2 (startc d - 1 + k') s /\ (k' = 0 \/ Psel (sa (startc d - 1 + k')) = true).
Proof.
  intros k. remember (Z.to_nat k) as kk eqn:Hkk. revert k Hkk. induction kk as [|kk IH]; intros k Hkk Hk HI.
  - exists k. split; [lia|]. split; [assumption|left; lia].
  - destruct (Psel (sa (startc d - 1 + k))) eqn:HPk.
    + exists k. split; [lia|]. split; [assumption|right; assumption].
    + destruct (IH (k - 1)) as (k' & H1 & H2 & H3); [lia|lia| |].
      * replace (startc d - 1 + (k - 1)) with (startc d - 1 + k - 1) by lia. apply (skip2_L d); [lia|assumption|assumption].
      * exists k'. split; [lia|]. split; assumption.
Qed.
Lemma loop2_L fuel d s : -1 <= d < 257 -> n < Z.of_nat fuel -> I2 (startc d + nL d - 1) s ->
  wp (loop fuel (induce_step2 E buf base lastptr TYPE_S (d + 1)) s) (I2 (startc d - 1)).
Proof.
  intros Hd Hf HI. pose proof (endc_split t n d). pose proof (nS_nonneg t n d). pose proof (nL_nonneg t n d).
  pose proof (endc_le_n t n d ltac:(lia)). pose proof (startc_nonneg t n d).
  apply (wp_loop_rel (fun k s => 0 <= k <= nL d /\ I2 (startc d - 1 + k) s)) with (T := nL d).
  - intros T s' [? _]. lia.
  - intros k s' [Hr HI']. destruct (norm2 d s' k Hr HI') as (k' & Hk' & HI'' & Hor). destruct (Z.eq_dec k' 0) as [Hk|Hk].
    + subst k'. rewrite (stop2 _ _ (startc d - 1 + 0)); [cbn [wp]; rewrite Z.add_0_r in HI''; assumption|lia|unfold TYPE_S; lia| |assumption].
      unfold Q2. cbn. replace (d + 1 - 1) with d by lia. apply Sq_todo. lia.
    + destruct Hor as [?|HPk]; [lia|]. pose proof (bucket_ne d (startc d - 1 + k') ltac:(lia)) as Hdd.
      eapply wp_mono; [apply (step2_L d (startc d - 1 + k')); [lia|lia|assumption|assumption]|]. intros [s''|r]; [|contradiction].
      intros HI3. exists (k' - 1). split; [lia|]. split; [lia|]. replace (startc d - 1 + (k' - 1)) with (startc d - 1 + k' - 1) by lia. assumption.
  - split; [lia|]. replace (startc d - 1 + nL d) with (startc d + nL d - 1) by lia. assumption.
  - lia.
Qed.
Lemma endc_256 : endc 256 = n.
Proof.
  pose proof (startc_256 t n ltac:(lia) Hb). pose proof (endc_split t n 256). pose proof (nL_nonneg t n 256). pose proof (nS_nonneg t n 256).
  pose proof (endc_le_n t n 256 ltac:(lia)). lia.
Qed.
Theorem pass2_ok fuel s : n < Z.of_nat fuel -> I2 (n - 1) s -> wp (induce_pass2 E fuel buf base lastptr s) (I2 (-1)).
Proof.
  intros Hf HI. unfold induce_pass2.
  assert (Hend : endc (-1 - 1) = 0). { apply cnt_false. intros i Hi. specialize (Hb i Hi). lia. }
  eapply wp_mono.
  { apply (wp_for_down (fun c s => I2 (endc (c - 1) - 1) s)); [lia| |].
    - change (257 - 1) with 256. rewrite endc_256. assumption.
    - intros c s' Hc HI'. set (d := c - 1) in *. assert (Hcd : c = d + 1) by lia. clearbody d. subst c.
      replace (d + 1 - 1 - 1) with (d - 1) by lia. rewrite <- startc_succ. replace (d - 1 + 1) with d by lia.
      unfold for_down. change (Z.to_nat (1 - 0 + 1)) with 2%nat. cbn [ford_n]. change (1 - 1) with TYPE_S. change 1 with TYPE_L at 1.
      eapply wp_bind_mono; [apply loop2_S; [lia|assumption|assumption]|]. cbn beta. intros s1 HI1.
      eapply wp_bind_mono; [apply loop2_L; [lia|assumption|assumption]|]. cbn beta. intros s2 HI2. exact HI2. }
  cbn beta. intros s' HI'. change (0 - 1) with (-1) in HI'. rewrite Hend in HI'. exact HI'.
Qed.
End Pass2.

Section Induce.
Context (E : env) (buf : arr Z) (t : Z -> Z) (n : Z) (ptr : Z -> Z) (base lastptr w : Z).
Context (Hn : 2 <= n < 2 ^ 62).
Context (Hb : forall i, 0 <= i < n -> 0 <= t i < 256).
Context (HP : ptrs E buf t n ptr base lastptr w).
Context (M NL C : arr Z).
Context (HM : carr M (fM t n (-1))) (HNL : carr NL (fNL t n (-1))) (HC : carr C (fC t n (-1))).
Context (star : Z -> Z) (Hst : stars t n star).
Notation rk := (rk n (slt t n)).

Lemma bucket_ends_ok M2 : alen M2 = 258 ->
  wp (bucket_ends M M2) (fun M2 => alen M2 = 258 /\ forall c, 1 <= c < 258 -> av M2 c = Some (endc t n (c - 1))).
Proof.
  intros Hl. unfold bucket_ends. rewrite aset_ok by lia. cbn [bind].
  eapply wp_mono.
  { apply (wp_for_up (fun i M2 => alen M2 = 258 /\ forall c, 0 <= c < i -> av M2 c = Some (endc t n (c - 1)))); [lia| |].
    - split; [rewrite alen_upd; assumption|]. intros c Hc. replace c with 0 by lia. rewrite av_upd by lia. rewrite Z.eqb_refl.
      change (0 - 1) with (-1). rewrite endc_m1 by assumption. reflexivity.
    - intros i M2' Hi (Hl' & Hv). rewrite (aget_ok _ _ _ (Hv (i - 1) ltac:(lia))). cbn [bind].
      rewrite (aget_ok _ _ _ (proj2 HM i ltac:(lia))). cbn [bind].
      assert (Hnext : endc t n (i - 1 - 1) + fM t n (-1) i = endc t n (i - 1)).
      { rewrite (fM_val t n) by lia. rewrite <- (startc_succ t n (i - 1 - 1)). replace (i - 1 - 1 + 1) with (i - 1) by lia. lia. }
      rewrite Hnext. pose proof (endc_le_n t n (i - 1) ltac:(lia)). pose proof (endc_split t n (i - 1)). pose proof (nL_nonneg t n (i - 1)). pose proof (nS_nonneg t n (i - 1)). pose proof (startc_nonneg t n (i - 1)).
      rewrite u64_small by lia. rewrite aset_ok by lia. cbn [wp]. split; [rewrite alen_upd; assumption|].
      intros c Hc. rewrite av_upd by lia. destruct (Z.eqb_spec c i) as [->|]; [reflexivity|apply Hv; lia]. }
  cbn beta. intros M2' (Hl' & Hv). split; [assumption|]. intros c Hc. apply Hv. lia.
Qed.

(** the result of induce_bwt *)
Record bwt_rows (r : bwt_result) : Prop := {
  br_len : alen (r_BWT r) = n + 1;
  br_0 : av (r_BWT r) 0 = Some (t (n - 1));
  br_row : forall j, 1 <= j < n -> av (r_BWT r) (1 + rk j) = Some (t (j - 1));
  br_last : r_last r = 1 + rk 0 }.

Theorem induce_ok SA co h : c_ht co = Some h -> ht_buf h = buf -> c_bwp_base co = base -> c_bwp_width co = w -> c_lastptr co = lastptr ->
  c_num co = cnt (LMS t n) 0 n -> c_n co = n -> c_M co = M -> c_NL co = NL -> c_C co = C ->
  (forall i, 0 <= i <= cnt (LMS t n) 0 n -> av SA i = Some (ptr (star i) - base)) ->
  wp (induce_bwt E SA co) bwt_rows.
Proof.
  intros Hht Hbuf Hbase Hw Hlp Hnum Hcn HcM HcNL HcC HSA. unfold induce_bwt, induce_bwt_rd. rewrite Hht, Hbuf, Hbase, Hw, Hlp, Hnum, Hcn, HcM, HcNL, HcC.
  cbv zeta. set (fuel := S (S (Z.to_nat n))). assert (Hf : n < Z.of_nat fuel) by lia.
  pose proof (p_w _ _ _ _ _ _ _ _ HP) as Hwr. pose proof (suf_indord t n) as IO.
  eapply wp_bind_mono; [apply (init_queues_ok E w Hwr)|]. cbn beta. intros Q HQ.
  eapply wp_bind_mono; [apply (fill_lms_ok E buf t n ptr base lastptr w Hn Hb HP star Hst SA Q HSA HQ)|]. cbn beta. intros Q' HQ'.
  eapply wp_bind_mono; [apply (bucket_starts_ok t n Hn Hb M HM)|]. cbn beta. intros M2 (HM2l & HM20 & HM2).
  eapply wp_bind_mono; [apply (stype_starts_ok t n Hn Hb NL HNL M2 HM2l HM20 HM2)|]. cbn beta. intros C2 (HC2l & HC20 & HC2).
  eapply wp_bind_mono; [apply (first_ok E buf t n ptr base lastptr w Hn Hb HP)|]; try assumption.
  { apply alen_new. }
  cbn beta. intros s1 HI1.
  eapply wp_bind_mono; [apply (pass1_ok E buf t n ptr base lastptr w Hn Hb HP M C HM HC fuel M2 s1 Hf HM2 HI1)|].
  cbn beta. intros s2 [[H1 H2 H3 H4 H5 H6 H7 H8 H9] HQ2].
  eapply wp_bind_mono; [apply (reset_L_ok E w _ _ Hwr HQ2)|]. cbn beta. intros Q3 HQ3.
  eapply wp_bind_mono; [apply (bucket_ends_ok _ H1)|]. cbn beta. intros M2' (HM2l' & HM2').
  eapply wp_bind_mono; [apply (pass2_ok E buf t n ptr base lastptr w Hn Hb HP fuel _ Hf)|].
  { split.
    - constructor; cbn [i_M2 i_C2 i_BWT i_last i_Q]; try assumption.
      + intros e He. rewrite HM2' by lia. replace (e + 1 - 1) with e by lia. rewrite (cntS_top t n _ _ IO). f_equal. lia.
      + intros e He. rewrite H4 by lia. rewrite cK_full by lia. rewrite cM_top. reflexivity.
      + intros j Hj HL. apply H7; [assumption|assumption|].
        destruct (Z.eq_dec (j + 1) n) as [He|Hne]; [unfold Induced.slot; replace (j + 1 =? n) with true by lia; lia|].
        pose proof (slot_bucket t n _ _ IO (j + 1) (succ_item t n j ltac:(lia) HL) Hne) as (B & _). pose proof (endc_le_n t n (t (j + 1)) ltac:(lia)). lia.
      + intros j Hj HS Hr. pose proof (isS_bound t n j ltac:(lia) HS). pose proof (rk_range t n _ _ IO (j + 1) ltac:(lia)). lia.
      + intros x Hx _. apply H8; [assumption|].
        pose proof (slot_LMS t n x Hx). pose proof (lidx_range t n x Hx). pose proof (endc_le_n t n (t x) ltac:(lia)). lia.
      + intros HL. apply H9; [assumption|]. apply (rk_range t n _ _ IO). lia.
      + intros HS Hr. pose proof (rk_range t n _ _ IO 1 ltac:(lia)). lia.
    - cbn [i_Q]. apply (qs_ext _ _ _ _ _ HQ3). intros ty c Hty Hc. unfold Q1, Q2, TYPE_L, TYPE_S. replace (n - 1 + 1) with n by lia.
      destruct (Z.eqb_spec ty 1) as [->|]; [|reflexivity]. cbn. unfold L2q. rewrite (cntS_top t n _ _ IO). rewrite zseq_nil by lia. reflexivity. }
  cbn beta. intros s4 [[G1 G2 G3 G4 G5 G6 G7 G8 G9 G10 G11] _].
  assert (Hlast : i_last s4 = Some (1 + rk 0)).
  { destruct (isS t n 0) eqn:HS; [|apply G10; reflexivity]. apply G11; [reflexivity|]. pose proof (rk_range t n _ _ IO 1 ltac:(lia)). lia. }
  rewrite Hlast. cbn [wp]. constructor; cbn [r_BWT r_last]; try assumption; [|reflexivity].
  intros j Hj. destruct (isS t n j) eqn:HS; [|apply G7; assumption]. apply G8; [assumption|assumption|].
  pose proof (isS_bound t n j ltac:(lia) HS). pose proof (rk_range t n _ _ IO (j + 1) ltac:(lia)). lia.
Qed.
End Induce.
