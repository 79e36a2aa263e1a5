(** The number of steps of sais_XXbit (M_SaisCost.v) is linear in n + k. *)
From Verif Require Import Base Count Sums Spec Text Keys Induced M_PackedArray M_Sais M_Split M_SaisCost P_SaisMem P_SaisInduce P_SaisStages P_Sais P_SaisCost.
From Coq Require Import ZifyBool Permutation.
Open Scope Z_scope.

(** * Unconditional bounds *)
Lemma ok_snd {A} (a b : A) (c d : Z) : Ok (a, c) = Ok (b, d) -> c = d.
Proof. congruence. Qed.
Definition cb {A} (K : Z) (m : cres A) : Prop := forall a c, m = Ok (a, c) -> c <= K.
Lemma cb_ret {A} (a : A) : cb 0 (cret a).
Proof. intros b c H. inversion H. lia. Qed.
Lemma cb_tick {A} (m : res A) : cb 1 (tick m).
Proof. intros b c H. destruct m; cbn in H; inversion H. lia. Qed.
Lemma cb_bind {A B} K1 K2 (m : cres A) (f : A -> cres B) : cb K1 m -> (forall a, cb K2 (f a)) -> cb (K1 + K2) (cbind m f).
Proof.
  intros Hm Hf b c H. destruct m as [[a c1]|] eqn:Em; cbn in H; [|discriminate].
  destruct (f a) as [[b' c2]|] eqn:Ef; cbn in H; [|discriminate]. inversion H; subst.
  specialize (Hm _ _ eq_refl). specialize (Hf a _ _ Ef). lia.
Qed.
Lemma cb_le {A} K K' (m : cres A) : cb K m -> K <= K' -> cb K' m.
Proof. intros H Hle a c Hm. specialize (H a c Hm). lia. Qed.
Lemma cb_if {A} K1 K2 (b : bool) (m1 m2 : cres A) : cb K1 m1 -> cb K2 m2 -> cb (Z.max K1 K2) (if b then m1 else m2).
Proof. intros H1 H2. destruct b; [apply (cb_le K1)|apply (cb_le K2)]; try assumption; lia. Qed.
Lemma cb_for_up {S} K lo hi (b : Z -> S -> cres S) s : 0 <= K -> (forall i s, cb K (b i s)) -> cb (Z.max 0 (hi - lo) * (K + 1) + 1) (cfor_up lo hi b s).
Proof.
  intros HK Hb. unfold cfor_up. replace (Z.max 0 (hi - lo)) with (Z.of_nat (Z.to_nat (hi - lo))) by lia.
  generalize (Z.to_nat (hi - lo)) as c. intros c. revert lo s.
  induction c as [|c IH]; intros i s; cbn [cfor_n]; [apply cb_tick|].
  eapply cb_le; [apply (cb_bind 1); [apply cb_tick|intros _]; apply (cb_bind K); [apply Hb|intros s'; apply IH]|]. lia.
Qed.
Lemma cb_for_down {S} K hi lo (b : Z -> S -> cres S) s : 0 <= K -> (forall i s, cb K (b i s)) -> cb (Z.max 0 (hi - lo + 1) * (K + 1) + 1) (cfor_down hi lo b s).
Proof.
  intros HK Hb. unfold cfor_down. replace (Z.max 0 (hi - lo + 1)) with (Z.of_nat (Z.to_nat (hi - lo + 1))) by lia.
  generalize (Z.to_nat (hi - lo + 1)) as c. intros c. revert hi s.
  induction c as [|c IH]; intros i s; cbn [cford_n]; [apply cb_tick|].
  eapply cb_le; [apply (cb_bind 1); [apply cb_tick|intros _]; apply (cb_bind K); [apply Hb|intros s'; apply IH]|]. lia.
Qed.

(** * Bounds together with a postcondition *)
Definition wpc {A} (m : cres A) (Q : A -> Z -> Prop) : Prop := match m with Ok (a, c) => Q a c | Err _ => False end.
Lemma wpc_lift {A} K (m : cres A) m' (Q : A -> Prop) : drop m = m' -> wp m' Q -> cb K m -> wpc m (fun a c => Q a /\ c <= K).
Proof. intros <- Hw Hc. destruct m as [[a c]|e]; cbn in *; [|assumption]. split; [assumption|]. apply (Hc a c). reflexivity. Qed.
Lemma wpc_mono {A} (m : cres A) (P Q : A -> Z -> Prop) : wpc m P -> (forall a c, P a c -> Q a c) -> wpc m Q.
Proof. destruct m as [[a c]|e]; cbn; auto. Qed.
Lemma wpc_bind {A B} (m : cres A) (f : A -> cres B) (P : A -> Z -> Prop) Q :
  wpc m P -> (forall a c, P a c -> wpc (f a) (fun b d => Q b (c + d))) -> wpc (cbind m f) Q.
Proof.
  destruct m as [[a c]|e]; cbn; [|tauto]. intros H Hf. specialize (Hf a c H). destruct (f a) as [[b d]|e]; cbn in *; assumption.
Qed.
Lemma wpc_drop {A} (m : cres A) m' (Q : A -> Prop) : drop m = m' -> wp m' Q -> wpc m (fun a _ => Q a).
Proof. intros <- Hw. destruct m as [[a c]|e]; cbn in *; assumption. Qed.
Lemma wpc_for_up {S} (Inv : Z -> S -> Prop) (w : Z -> Z) lo hi b s : lo <= hi -> Inv lo s ->
  (forall i s, lo <= i < hi -> Inv i s -> wpc (b i s) (fun s' c => Inv (i + 1) s' /\ c <= w i)) ->
  wpc (cfor_up lo hi b s) (fun s' c => Inv hi s' /\ c <= sum w (zseq lo hi) + (hi - lo) + 1).
Proof.
  intros Hle H0 Hb. unfold cfor_up.
  assert (Hg : forall c i s, lo <= i -> i + Z.of_nat c = hi -> Inv i s ->
    wpc (cfor_n c i b s) (fun s' k => Inv hi s' /\ k <= sum w (zseq i hi) + (hi - i) + 1)).
  { clear s H0. induction c as [|c IH]; intros i s Hi He HI; cbn [cfor_n].
    - replace i with hi in * by lia. cbn. rewrite zseq_nil by lia. cbn. split; [assumption|lia].
    - apply (wpc_bind _ _ (fun _ k => k = 1)); [reflexivity|]. intros _ k1 ->.
      eapply wpc_bind; [apply Hb; [lia|exact HI]|]. intros s' k2 [HI' Hk2].
      eapply wpc_mono; [apply IH; [lia|lia|exact HI']|]. intros s2 k3 [HI2 Hk3]. split; [assumption|].
      rewrite (zseq_cons i hi) by lia. cbn [sum fold_right]. fold (sum w (zseq (i + 1) hi)). lia. }
  apply Hg; [lia|lia|assumption].
Qed.
Lemma cb_wpc {A} (m : cres A) (Q : A -> Z -> Prop) K : wpc m Q -> (forall a c, Q a c -> c <= K) -> cb K m.
Proof. intros Hw H a c ->. apply (H a c Hw). Qed.

Lemma sum_perm f l l' : Permutation l l' -> sum f l = sum f l'.
Proof. induction 1; unfold sum in *; cbn in *; lia. Qed.
Lemma sum_map f (g : Z -> Z) l : sum f (map g l) = sum (fun i => f (g i)) l.
Proof. induction l as [|i l IH]; cbn; [reflexivity|]. unfold sum in IH. rewrite IH. reflexivity. Qed.
Lemma zln_zseq lo hi : lo <= hi -> Z.of_nat (length (zseq lo hi)) = hi - lo.
Proof. intros H. rewrite zseq_length. lia. Qed.

Ltac cb1 := first
  [ apply cb_tick | apply cb_ret
  | eapply cb_bind; [|intros ?]
  | match goal with x : (_ * _)%type |- _ => destruct x end
  | apply cb_if
  | match goal with |- cb _ (match (if ?b then _ else _) with _ => _ end) => destruct b end
  | progress cbn zeta ].
Ltac cbs := eapply cb_le; [solve [repeat cb1] | lia].

Section Level0.
Context (E : env) (W : Z) (OP : ops).
Lemma b_chr s T i : cb 1 (cchr E W OP s T i).
Proof. apply cb_tick. Qed.
Lemma b_chrl s T i : cb 1 (cchrl E W OP s T i).
Proof. unfold cchrl, cchr. cbs. Qed.
Lemma b_chr64 s T i : cb 1 (cchr64 E W OP s T i).
Proof. unfold cchr64, cchr. cbs. Qed.
Lemma b_counts s T C n k : 0 <= n -> 0 <= k -> cb (2 * k + 4 * n + 2) (cget_counts E W OP s T C n k).
Proof.
  intros Hn Hk. unfold cget_counts. eapply cb_le; [eapply cb_bind; [apply (cb_for_up 1); [lia|]|intros ?; apply (cb_for_up 3); [lia|]]|].
  - intros. apply cb_tick.
  - intros. unfold cchr, get, put. cbs.
  - lia.
Qed.
Lemma b_buckets s C B k e : 0 <= k -> cb (3 * k + 1) (cget_buckets OP s C B k e).
Proof.
  intros Hk. unfold cget_buckets. eapply cb_le; [eapply cb_bind; [apply (cb_for_up 2); [lia|]|]|].
  - intros i [x sum]. unfold get, put. cbs.
  - intros [x y]. apply cb_ret.
  - lia.
Qed.
Lemma b_switch s B c0 c1 b : cb 2 (cswitch_bucket OP s B c0 c1 b).
Proof. unfold cswitch_bucket, get, put. cbs. Qed.
Lemma b_markL s T j c1 : cb 1 (cmarkL E W OP s T j c1).
Proof. unfold cmarkL, cchr. cbs. Qed.
Lemma b_markS s T j c1 : cb 1 (cmarkS E W OP s T j c1).
Proof. unfold cmarkS, cchr. cbs. Qed.
Ltac cb1 ::= first
  [ apply b_chrl | apply b_chr64 | apply b_switch | apply b_markL | apply b_markS | apply cb_tick | apply cb_ret
  | eapply cb_bind; [|intros ?]
  | match goal with x : (_ * _)%type |- _ => destruct x end
  | apply cb_if
  | match goal with |- cb _ (match (if ?b then _ else _) with _ => _ end) => destruct b end
  | progress cbn zeta ].
Lemma b_stepL T B i x : cb 7 (cstepL E W OP T B i x).
Proof. unfold cstepL, get, put. cbs. Qed.
Lemma b_stepS T B i x : cb 6 (cstepS E W OP T B i x).
Proof. unfold cstepS, get, put. cbs. Qed.
Lemma b_induce s T C B n k : 0 <= n -> 0 <= k -> cb (10 * k + 23 * n + 13) (cinduce_SA E W OP s T C B n k).
Proof.
  intros Hn Hk. unfold cinduce_SA. eapply cb_le; [eapply cb_bind; [|intros ?]|].
  - unfold cinduce_L. eapply cb_bind; [apply cb_if; [apply b_counts; lia|apply cb_ret]|intros ?].
    eapply cb_bind; [apply b_buckets; lia|intros ?]. cbn zeta.
    eapply cb_bind; [apply b_chrl|intros ?]. eapply cb_bind; [apply cb_tick|intros ?].
    eapply cb_bind; [apply b_markL|intros ?]. eapply cb_bind; [apply cb_tick|intros ?].
    eapply cb_bind; [apply (cb_for_up 7); [lia|intros; apply b_stepL]|intros [[? ?] ?]; apply cb_ret].
  - unfold cinduce_S. eapply cb_bind; [apply cb_if; [apply b_counts; lia|apply cb_ret]|intros ?].
    eapply cb_bind; [apply b_buckets; lia|intros ?].
    eapply cb_bind; [apply cb_tick|intros ?].
    eapply cb_bind; [apply (cb_for_down 6); [lia|intros; apply b_stepS]|intros [[? ?] ?]; apply cb_ret].
  - lia.
Qed.
Lemma b_choose s n k fs : cb 1 (cchoose_buckets OP s n k fs).
Proof. apply cb_tick. Qed.
Lemma b_delete s k fs : cb 1 (cdelete_buckets OP s k fs).
Proof. apply cb_tick. Qed.
Lemma b_scan {A} K (ch : A -> Z -> cres Z) n f a : 1 <= n -> 0 <= K -> (forall x i, cb 1 (ch x i)) -> (forall i c x, cb K (f i c x)) ->
  cb (n * (K + 2)) (clms_scan ch n f a).
Proof.
  intros Hn HK Hc Hf. unfold clms_scan. eapply cb_le; [eapply cb_bind; [apply Hc|intros ?]|].
  - eapply cb_bind; [apply (cb_for_down (K + 1)); [lia|]|intros [[? ?] ?]; apply cb_ret].
    intros i [[x cc] d]. eapply cb_le; [eapply cb_bind; [apply Hc|intros c0]; apply cb_if; [apply cb_ret|apply cb_if; [|apply cb_ret]]|].
    + eapply cb_bind; [apply Hf|intros ?; apply cb_ret].
    + lia.
  - lia.
Qed.
Lemma b_zeros s lo hi : lo <= hi -> cb (2 * (hi - lo) + 1) (czero_range OP s lo hi).
Proof. intros H. eapply cb_le; [apply (cb_for_up 1); [lia|intros; apply cb_tick]|lia]. Qed.
Lemma b_collect s fs n m : 0 <= m <= n -> cb (4 * (n - m) + 1) (ccollect_names OP s fs n m).
Proof.
  intros H. unfold ccollect_names. cbn zeta. eapply cb_le; [eapply cb_bind; [apply (cb_for_down 3); [lia|]|intros [? ?]; apply cb_ret]|lia].
  intros i [x j]. unfold nz, get, put. cbs.
Qed.
Lemma b_translate s T fs n m : 1 <= n -> 0 <= m -> cb (3 * n + 4 * m + 1) (ctranslate E W OP s T fs n m).
Proof.
  intros Hn Hm. unfold ctranslate. cbn zeta. eapply cb_le; [eapply cb_bind; [apply (b_scan 1); [lia|lia| |]|intros [? ?]; apply (cb_for_up 3); [lia|]]|lia].
  - intros. apply b_chr64.
  - intros i c [x j]. unfold put. cbs.
  - intros. unfold get, put. cbs.
Qed.
Lemma b_stage3 s T fs n k m : 0 <= n -> 0 <= k -> 0 <= m <= n -> cb (15 * k + 29 * n + 5 * m + 20) (cstage3 E W OP s T fs n k m).
Proof.
  intros Hn Hk Hm. unfold cstage3. eapply cb_le; [eapply cb_bind; [apply b_choose|intros [[s1 C] B]]|].
  - eapply cb_bind; [apply b_counts; lia|intros ?]. eapply cb_bind; [apply b_buckets; lia|intros ?].
    eapply cb_bind; [apply b_zeros; lia|intros ?]. eapply cb_bind; [apply (cb_for_down 6); [lia|]|intros ?; eapply cb_bind; [apply b_induce; lia|intros ?; apply b_delete]].
    intros. unfold get, zero, cchr, put. cbs.
  - lia.
Qed.
Lemma b_same s T p q l : 0 <= l -> cb (3 * l + 1) (csame_sub E W OP s T p q l).
Proof.
  intros Hl. unfold csame_sub.
  assert (Hg : forall f j, 0 <= j <= l -> cb (3 * (l - j) + 1) (cloop f (fun j =>
    if j <? l then
      a <~ cchr E W OP s T (p + j) ;; b <~ cchr E W OP s T (q + j) ;;
      if a =? b then cret (inl (j + 1)) else cret (inr false)
    else cret (inr true)) j)).
  { induction f as [|f IH]; intros j Hj; cbn [cloop]; [intros a c H; discriminate|].
    destruct (Z.ltb_spec j l) as [Hlt|Hge].
    - intros b c. cbn [cbind bind cret tick]. unfold cchr, tick. destruct (chr0 E W OP s T (p + j)) as [x|]; cbn [cbind bind cret tick]; [|discriminate].
      destruct (chr0 E W OP s T (q + j)) as [y|]; cbn [cbind bind cret tick]; [|discriminate]. destruct (x =? y); cbn [cbind bind cret tick].
      + destruct (cloop f _ (j + 1)) as [[b' c']|] eqn:Hc; cbn [cbind bind cret tick]; [|discriminate]. intros H; apply ok_snd in H.
        pose proof (IH (j + 1) ltac:(lia) _ _ Hc). lia.
      + intros H; apply ok_snd in H. lia.
    - intros b c H. cbn [cbind bind cret tick] in H. apply ok_snd in H. lia. }
  eapply cb_le; [apply Hg; lia|lia].
Qed.
End Level0.

(** * Runs of equal characters *)
Section Runs.
Context (t : Z -> Z) (n : Z).
Fixpoint rlf (f : nat) (v x : Z) : Z :=
  match f with O => 0 | S f => if (x <? n) && (t x =? v) then 1 + rlf f v (x + 1) else 0 end.
Definition rl (v x : Z) : Z := rlf (Z.to_nat (n - x)) v x.
Lemma rl_end v x : n <= x -> rl v x = 0.
Proof. intros H. unfold rl. replace (Z.to_nat (n - x)) with O by lia. reflexivity. Qed.
Lemma rl_step v x : x < n -> rl v x = if t x =? v then 1 + rl v (x + 1) else 0.
Proof.
  intros H. unfold rl. replace (Z.to_nat (n - x)) with (S (Z.to_nat (n - (x + 1)))) by lia. cbn [rlf].
  replace (x <? n) with true by lia. reflexivity.
Qed.
Lemma rl_nonneg v x : 0 <= rl v x.
Proof. unfold rl. generalize (Z.to_nat (n - x)) as f. intros f. revert x. induction f as [|f IH]; intros x; cbn [rlf]; [lia|]. specialize (IH (x + 1)). destruct ((x <? n) && (t x =? v)); lia. Qed.
Definition rw (x : Z) : Z := if (0 <? x) && (t x <? t (x - 1)) then rl (t x) x else 0.
Lemma rw_sum x : 1 <= x -> sum rw (zseq x n) + rl (t (x - 1)) x <= Z.max 0 (n - x).
Proof.
  revert x. apply (cnt_ind (fun x => 1 <= x -> sum rw (zseq x n) + rl (t (x - 1)) x <= Z.max 0 (n - x)) n).
  - intros x Hx _. rewrite zseq_nil, rl_end by lia. cbn [sum fold_right]. lia.
  - intros x Hx IH H1. specialize (IH ltac:(lia)). replace (x + 1 - 1) with x in IH by lia.
    rewrite zseq_cons by lia. cbn [sum fold_right]. fold (sum rw (zseq (x + 1) n)).
    pose proof (rl_nonneg (t x) (x + 1)). unfold rw at 1. replace (0 <? x) with true by lia. cbn [andb].
    rewrite (rl_step (t x) x), Z.eqb_refl by lia.
    destruct (Z.ltb_spec (t x) (t (x - 1))).
    + rewrite (rl_step (t (x - 1)) x) by lia. replace (t x =? t (x - 1)) with false by lia. lia.
    + destruct (Z.eq_dec (t x) (t (x - 1))) as [He|Hne].
      * rewrite <- He. rewrite (rl_step (t x) x), Z.eqb_refl by lia. lia.
      * rewrite (rl_step (t (x - 1)) x) by lia. replace (t x =? t (x - 1)) with false by lia. lia.
Qed.
Lemma rw_total : 1 <= n -> sum rw (zseq 0 n) <= n.
Proof.
  intros Hn. rewrite zseq_cons by lia. cbn [sum fold_right]. fold (sum rw (zseq (0 + 1) n)).
  pose proof (rw_sum 1 ltac:(lia)). pose proof (rl_nonneg (t (1 - 1)) 1). change (0 + 1) with 1.
  assert (rw 0 = 0) as -> by reflexivity. lia.
Qed.

(** * Lengths of the LMS substrings *)
Lemma plen_sum x : x <= n -> sum (plen t n) (filter (LMS t n) (zseq x n)) <= n - nx t n x.
Proof.
  revert x. apply (cnt_ind (fun x => x <= n -> sum (plen t n) (filter (LMS t n) (zseq x n)) <= n - nx t n x) n).
  - intros x Hx Hle. rewrite zseq_nil, nx_n by lia. cbn [sum fold_right filter]. lia.
  - intros x Hx IH H1. specialize (IH ltac:(lia)). rewrite zseq_cons by lia. cbn [filter]. destruct (LMS t n x) eqn:HL.
    + cbn [sum fold_right]. fold (sum (plen t n) (filter (LMS t n) (zseq (x + 1) n))). rewrite (nx_LMS _ _ _ HL). unfold plen at 1. lia.
    + rewrite nx_step by assumption. lia.
Qed.
End Runs.

Section Linear.
Context (E : env) (W : Z) (HW : 1 <= W) (HW64 : W <= 64).
Notation O1 := (ops1 W).

Section Level.
Context (T : text) (t : Z -> Z) (n k fs : Z).
Context (Hn : 1 <= n) (Hk : 1 <= k) (HnW : n < 2 ^ (W - 1)) (Hfs : 0 <= fs).
Context (tr : forall i, 0 <= i < n -> 0 <= t i < k).
Context (HkL : k <= 2 ^ (lw W - 1)).
Context (Htok : match T with TPack _ _ => True | TCells b => n + fs <= b end).
Notation txt := (txt E W T t n).
Notation LMS := (LMS t n).
Notation m := (cnt LMS 0 n).
Notation inwin := (inwin n fs).

Lemma chr64_c s i : txt s -> 0 <= i < n -> cchr64 E W O1 s T i = Ok (t i, 1).
Proof.
  intros Ht Hi. pose proof (chr64_txt E W HW T t n k tr HkL s i Ht Hi) as H.
  pose proof (dp_chr64 E W s T i) as Hd. rewrite H in Hd. unfold cchr64, cchr in *.
  destruct (chr0 E W O1 s T i) as [v|e]; cbn in *; [|discriminate]. congruence.
Qed.
Lemma skip_cost s p : txt s -> 0 <= p < n -> cb (2 * rl t n (t p) (p + 1) + 2) (cskip_equal E W O1 s T n p (t p)).
Proof.
  intros Ht Hp. unfold cskip_equal. assert (Hg : forall f j c1, p < j -> cb (2 * rl t n (t p) j + 2) (cloop f (fun '(j, c1) =>
    if j <? n then
      c1 <~ cchr64 E W O1 s T j ;;
      if t p =? c1 then cret (inl (j + 1, c1)) else cret (inr (j, c1))
    else cret (inr (j, c1))) (j, c1))).
  { induction f as [|f IH]; intros j c1 Hj; cbn [cloop]; [intros a c H; discriminate|].
    intros b c. pose proof (rl_nonneg t n (t p) j). destruct (Z.ltb_spec j n) as [Hlt|Hge].
    - rewrite (chr64_c s j Ht) by lia. rewrite rl_step by assumption. cbn [cbind bind cret tick].
      rewrite (Z.eqb_sym (t j)). destruct (Z.eqb_spec (t p) (t j)) as [He|Hne]; cbn [cbind bind cret tick].
      + destruct (cloop f _ (j + 1, t j)) as [[b' c']|] eqn:Hc; cbn [cbind bind cret tick]; [|discriminate]. intros H1; apply ok_snd in H1.
        pose proof (IH (j + 1) (t j) ltac:(lia) _ _ Hc). lia.
      + intros H1; apply ok_snd in H1. lia.
    - cbn [cbind bind cret tick]. intros H1; apply ok_snd in H1. lia. }
  apply Hg. lia.
Qed.

Lemma compact_cost s0 s sa lt lt0 (IO : indord t n lt lt0) : n <= alen (mem s0) -> tsafe T n (reg SA n) -> txt s0 ->
  sav n s0 s sa -> (forall j, 0 <= j < n -> sa (rk n lt j) = j) ->
  cb (10 * n + 1) (ccompact_lms E W O1 s T n).
Proof.
  intros Hmem Hts Ht0 Hs Hsa.
  assert (Hperm : Permutation (map sa (zseq 0 n)) (zseq 0 n)).
  { apply NoDup_Permutation_bis.
    - assert (Hinj : forall i i', In i (zseq 0 n) -> In i' (zseq 0 n) -> sa i = sa i' -> i = i').
      { intros i i' Hi Hi'. apply in_zseq in Hi, Hi'.
        destruct (rk_surj t n lt lt0 IO i Hi) as (p & Hp & <-). destruct (rk_surj t n lt lt0 IO i' Hi') as (p' & Hp' & <-).
        rewrite !Hsa by assumption. intros ->. reflexivity. }
      clear - Hinj. pose proof (zseq_NoDup 0 n) as Hnd. induction Hnd as [|i l Hni Hnd IH]; cbn [map]; constructor.
      + intros Hin. apply in_map_iff in Hin as (i' & He & Hi'). apply Hni. rewrite <- (Hinj i' i); [assumption|right; assumption|left; reflexivity|assumption].
      + apply IH. intros x y Hx Hy. apply Hinj; right; assumption.
    - rewrite map_length. lia.
    - intros p Hp. apply in_map_iff in Hp as (i & <- & Hi). apply in_zseq in Hi.
      destruct (rk_surj t n lt lt0 IO i Hi) as (p & Hp & <-). rewrite Hsa by assumption. apply in_zseq. assumption. }
  eapply cb_wpc.
  - unfold ccompact_lms. apply (wpc_for_up (cinv t n s0 lt sa) (fun i => 2 * rw t n (sa i) + 6)).
    + lia.
    + apply (compact_init W t n s0 lt lt0 IO s sa). assumption.
    + intros i x Hi Hx. pose proof (compact_step E W HW T t n k Hn HnW tr HkL s0 Hmem Hts Ht0 lt lt0 IO sa i x Hsa Hi Hx) as Hst.
      pose proof (wpc_drop _ _ _ (dp_cstep E W T n i x) Hst) as Hw.
      enough (cb (2 * rw t n (sa i) + 6) (ccompact_step E W O1 T n i x)) as Hcb.
      { destruct (ccompact_step E W O1 T n i x) as [[y c]|e]; cbn in *; [|assumption]. split; [assumption|]. apply (Hcb y c). reflexivity. }
      destruct x as [s1 mm]. destruct Hx as (_ & sa1 & Hs1 & Hhi & _). cbn [fst] in Hs1. unfold ccompact_step.
      pose proof (sav_txt E W T t n s0 Hts Ht0 _ _ Hs1) as Ht1.
      assert (Hrd : rd s1 SA i = Ok (sa i)) by (rewrite (sav_rd n s0 _ _ i Hs1 Hi), Hhi by lia; reflexivity).
      destruct (rk_surj t n lt lt0 IO i Hi) as (p & Hp & Hrp).
      assert (Hsp : sa i = p) by (rewrite <- Hrp; apply Hsa; assumption).
      unfold get at 1. cbn [o_get ops1]. rewrite Hrd, Hsp. change (tick (Ok p)) with (Ok (p, 1)).
      intros y c. cbn [cbind bind].
      pose proof (rl_nonneg t n (t p) p) as Hr0.
      assert (Hrw0 : 0 <= rw t n p) by (unfold rw; destruct ((0 <? p) && (t p <? t (p - 1))); lia).
      destruct (Z.ltb_spec 0 p) as [Hp0|Hp0]; [|cbn [cret bind]; intros H; apply ok_snd in H; lia].
      assert (Hl : cchrl E W O1 s1 T (p - 1) = Ok (t (p - 1), 1)).
      { pose proof (chrl_txt E W HW T t n k tr HkL s1 (p - 1) Ht1 ltac:(lia)) as H.
        pose proof (dp_chrl E W s1 T (p - 1)) as Hd. rewrite H in Hd. unfold cchrl, cchr in *.
        destruct (chr0 E W O1 s1 T (p - 1)) as [v|e]; cbn in *; [|discriminate]. congruence. }
      rewrite Hl, (chr64_c s1 p Ht1) by lia. cbn [cbind bind].
      destruct (Z.ltb_spec (t p) (t (p - 1))) as [Hc|Hc]; [|cbn [cret bind]; intros H; apply ok_snd in H; lia].
      assert (Hrw : rw t n p = 1 + rl t n (t p) (p + 1)).
      { unfold rw. replace (0 <? p) with true by lia. replace (t p <? t (p - 1)) with true by lia. cbn [andb].
        rewrite rl_step by lia. rewrite Z.eqb_refl. reflexivity. }
      destruct (cskip_equal E W O1 s1 T n p (t p)) as [[[j c1] d]|] eqn:Hsk; cbn [cbind bind]; [|discriminate].
      pose proof (skip_cost s1 p Ht1 Hp _ _ Hsk) as Hd.
      destruct ((j <? n) && (t p <? c1)).
      * unfold put, tick. destruct (o_put O1 s1 SA mm p); cbn [cbind bind cret]; [|discriminate]. intros H; apply ok_snd in H. lia.
      * cbn [cret bind]. intros H; apply ok_snd in H. lia.
  - intros y c [_ Hc]. rewrite sum_lin in Hc. rewrite zln_zseq in Hc by lia.
    rewrite <- (sum_map (rw t n) sa), (sum_perm _ _ _ Hperm) in Hc. pose proof (rw_total t n Hn). lia.
Qed.

Lemma name_cost s0 s sa so : n <= alen (mem s0) -> tsafe T n (reg SA n) -> txt s0 ->
  sav n s0 s sa -> sorted t n (lt1 t n) so -> (forall x, 0 <= x < m -> sa x = so x) -> upper t n (fun _ => true) (plen t n) sa ->
  cb (3 * n + 5 * m + 1) (cname_lms E W O1 s T n m).
Proof.
  intros Hmem Hts Ht0 Hs Hso Hlow Hup. assert (Hm0 : 0 <= m) by apply cnt_nonneg.
  assert (Hspec : forall i, 0 <= i < m -> LMS (so i) = true /\ idx t n (lt1 t n) (so i) = i).
  { apply (so_spec t n (lt1 t n) (l1irr 0 t n) (l1trans 0 t n) (l1tot 0 t n) so Hso). }
  assert (Hperm : Permutation (map so (zseq 0 m)) (filter LMS (zseq 0 n))).
  { apply NoDup_Permutation_bis.
    - assert (Hinj : forall i i', In i (zseq 0 m) -> In i' (zseq 0 m) -> so i = so i' -> i = i').
      { intros i i' Hi Hi' He. apply in_zseq in Hi, Hi'. destruct (Hspec i Hi) as [_ <-]. destruct (Hspec i' Hi') as [_ <-]. rewrite He. reflexivity. }
      clear - Hinj. pose proof (zseq_NoDup 0 m) as Hnd. induction Hnd as [|i l Hni Hnd IH]; cbn [map]; constructor.
      + intros Hin. apply in_map_iff in Hin as (i' & He & Hi'). apply Hni. rewrite <- (Hinj i' i); [assumption|right; assumption|left; reflexivity|assumption].
      + apply IH. intros x y Hx Hy. apply Hinj; right; assumption.
    - rewrite map_length, zseq_length. unfold cnt. lia.
    - intros p Hp. apply in_map_iff in Hp as (i & <- & Hi). apply in_zseq in Hi. destruct (Hspec i Hi) as [HL _].
      apply filter_In. split; [|assumption]. pose proof (LMS_bound t n _ HL). apply in_zseq. lia. }
  unfold cname_lms. eapply (cb_le (_ + 0)); [eapply cb_bind; [|intros [[[? ?] ?] ?]; apply cb_ret]|].
  - eapply cb_wpc.
    + apply (wpc_for_up (ninv t n s0 so) (fun i => 3 * plen t n (so i) + 4)).
      * assumption.
      * apply (name_init W t n s0 so s sa); assumption.
      * intros i x Hi Hx. pose proof (name_step E W HW T t n Hn HnW s0 Hmem Hts Ht0 so Hso i x Hi Hx) as Hst.
        assert (Hdr : drop (cname_step E W O1 T m i x) = name_body E W T t n i x).
        { destruct x as [[[s1 name] q] qlen]. unfold cname_step, name_body. apply dr_bind; [apply dr_tick|]. intros p. cbn zeta.
          apply dr_bind; [apply dr_tick|]. intros pl. apply dr_bind; [destruct (pl =? qlen); [apply dp_same|reflexivity]|].
          intros [|]; (apply dr_bind; [apply dr_tick|]; intros; reflexivity). }
        pose proof (wpc_drop _ _ _ Hdr Hst) as Hw.
        enough (cb (3 * plen t n (so i) + 4) (cname_step E W O1 T m i x)) as Hcb.
        { destruct (cname_step E W O1 T m i x) as [[y c]|e]; cbn in *; [|assumption]. split; [assumption|]. apply (Hcb y c). reflexivity. }
        destruct x as [[[s1 name] q] qlen]. destruct Hx as (_ & _ & _ & sa1 & Hs1 & Hlow1 & Hup1).
        destruct (Hspec i Hi) as [HL Hidx]. pose proof (LMS_half t n Hn) as Hhalf. pose proof (plen_range W t n _ HL) as Hpl.
        pose proof (cell_range W HW t n Hn _ HL) as Hcr. unfold cname_step, get. cbn [o_get ops1].
        rewrite (sav_rd n s0 _ _ i Hs1) by lia. rewrite Hlow1 by assumption. change (tick (Ok (so i))) with (Ok (so i, 1)).
        intros y c. cbn [cbind bind]. fold (cell t n (so i)).
        rewrite (sav_rd n s0 _ _ (cell t n (so i)) Hs1) by lia.
        rewrite (proj1 Hup1 (so i) HL eq_refl). replace (idx t n (lt1 t n) (so i) <? i) with false by lia.
        cbn [tick cbind bind].
        assert (Hsame : cb (3 * plen t n (so i) + 1) (if plen t n (so i) =? qlen then csame_sub E W O1 s1 T (so i) q (plen t n (so i)) else cret false)).
        { eapply cb_le; [apply cb_if; [apply b_same; lia|apply cb_ret]|]. lia. }
        destruct (if plen t n (so i) =? qlen then csame_sub E W O1 s1 T (so i) q (plen t n (so i)) else cret false) as [[same d]|e] eqn:Hsm; [|discriminate].
        pose proof (Hsame _ _ eq_refl) as Hd. cbn [cbind bind].
        destruct same; unfold put, tick.
        -- destruct (o_put O1 s1 SA (cell t n (so i)) name); cbn [cbind bind cret]; [|discriminate]. intros H; apply ok_snd in H. lia.
        -- destruct (o_put O1 s1 SA (cell t n (so i)) (name + 1)); cbn [cbind bind cret]; [|discriminate]. intros H; apply ok_snd in H. lia.
    + intros y c [_ Hc]. instantiate (1 := 3 * n + 5 * m + 1). rewrite sum_lin, zln_zseq in Hc by assumption.
      rewrite <- (sum_map (plen t n) so), (sum_perm _ _ _ Hperm) in Hc. pose proof (plen_sum t n 0 ltac:(lia)).
      pose proof (nx_spec t n 0 ltac:(lia)). lia.
  - lia.
Qed.

Lemma cassoc {A B C} (mm : cres A) (f : A -> cres B) (g : B -> cres C) : cbind mm (fun x => cbind (f x) g) = cbind (cbind mm f) g.
Proof.
  destruct mm as [[a c]|]; cbn [cbind bind]; [|reflexivity]. destruct (f a) as [[b d]|]; cbn [cbind bind]; [|reflexivity].
  destruct (g b) as [[x e]|]; cbn [cbind bind]; [|reflexivity]. rewrite Z.add_assoc. reflexivity.
Qed.
Lemma stage1_cost s : n + fs <= alen (mem s) -> txt s ->
  cb (15 * k + 52 * n + 3 * m + 22) (cstage1 E W O1 s T fs n k).
Proof.
  intros Ha Ht. unfold cstage1. pose proof (choose_ok E W HW T t n k fs Hn Hk Hfs s Ha Ht) as Hch.
  eapply (cb_wpc _ (fun _ c => c <= 15 * k + 52 * n + 3 * m + 22)); [|auto].
  eapply wpc_bind; [instantiate (1 := fun r c => r = choose_buckets s n k fs /\ c = 1); split; reflexivity|].
  intros r c0 [-> ->]. destruct (choose_buckets s n k fs) as [[s1 C] B].
  destruct Hch as (Hm1 & Hb & HR).
  assert (Hin01 : inwin s s1) by (split; [rewrite Hm1|intros; rewrite Hm1]; reflexivity).
  assert (Ht1 : txt s1) by (eapply (txt_inwin E W HW); eassumption).
  pose proof (LMS_half t n Hn) as Hhalf. assert (Hm0 : 0 <= m) by apply cnt_nonneg.
  pose proof (prep_ok E W HW T t n k fs Hn Hk HnW Hfs tr Htok s1 C B 0 ltac:(rewrite Hm1; assumption) Ht1 Hb HR ltac:(lia)) as Hprep.
  rewrite cassoc, cassoc. rewrite <- (cassoc (cget_counts E W O1 s1 T C n k)).
  assert (Hpd : drop (s <~ cget_counts E W O1 s1 T C n k ;; s <~ cget_buckets O1 s C B k true ;; czero_range O1 s 0 n) =
    (s <- get_counts E W s1 T C n k ;; s <- get_buckets W s C B k true ;; zero_range W s 0 n)).
  { apply dr_bind; [apply dp_counts|]. intros. apply dr_bind; [apply dp_buckets|]. intros. apply dp_zero. }
  assert (Hpc : cb (5 * k + 6 * n + 4) (s <~ cget_counts E W O1 s1 T C n k ;; s <~ cget_buckets O1 s C B k true ;; czero_range O1 s 0 n)).
  { eapply cb_le; [eapply cb_bind; [apply b_counts; lia|intros ?]; eapply cb_bind; [apply b_buckets; lia|intros ?]; apply b_zeros; lia|]. lia. }
  eapply wpc_bind; [apply (wpc_lift _ _ _ _ Hpd Hprep Hpc)|]. clear Hprep Hpd Hpc.
  intros s2 c2 [(Hu2 & HC2 & Hz2 & HB2) Hk2]. cbn beta.
  pose proof (bok_unch n k _ _ _ _ _ Hu2 Hb) as Hb2.
  assert (Hin12 : inwin s1 s2).
  { eapply unch_inwin; [|exact Hu2]. intros x [[_ H]|H]; [cbn [off] in H; lia|]. apply HR. right. exact H. }
  assert (Ht2 : txt s2) by (eapply (txt_inwin E W HW); eassumption).
  assert (Ha2 : n + fs <= alen (mem s2)) by (destruct Hin12 as [-> _]; rewrite Hm1; assumption).
  assert (HRB : forall x, runion (reg SA n) (reg B k) InMem x -> 0 <= x < n + fs).
  { intros x [H|H]; apply HR; [left|right; right]; exact H. }
  eapply wpc_bind.
  { eapply wpc_lift; [|apply (insert_ok E W HW T t n k Hn HnW tr HkL B s2 s2); [apply Hb2|apply Hb2|lia|apply (tsafe_win W HW T n fs Htok); exact HRB|assumption|]|].
    - apply dr_scan; [intros; apply dp_chr64|]. intros. do 2 (apply dr_bind; [apply dr_tick|intros ?]). apply dr_tick.
    - split; [apply unch_refl|]. split; [exact Hz2|exact HB2].
    - apply (b_scan 3); [lia|lia|intros; apply b_chr64|]. intros. unfold get, put. cbs. }
  intros s3 c3 [(sa3 & bb3 & Hs3 & Hl3 & Hz3) Hk3]. cbn beta.
  assert (Hu23 : unch (runion (reg SA n) (reg B k)) s2 s3) by apply Hs3.
  assert (Hin23 : inwin s2 s3) by (eapply unch_inwin; [|eassumption]; assumption).
  assert (Ht3 : txt s3) by (eapply (txt_inwin E W HW); eassumption).
  assert (Ha3 : n + fs <= alen (mem s3)) by (destruct Hin23 as [-> _]; assumption).
  eapply wpc_bind.
  { eapply wpc_lift; [apply dp_induce|apply (induce_SA_ok E W HW T t n k Hn Hk HnW tr HkL _ _ (key_indord t n) s3 C B sa3)|apply b_induce; lia].
    - eapply bok_unch; eassumption.
    - apply (tsafe_win W HW T n fs Htok). exact HR.
    - assumption.
    - eapply (stt_hasC W HW); eassumption.
    - lia.
    - exact (proj1 (proj2 Hs3)).
    - assumption.
    - assumption. }
  intros s4' c4 [(Hu4 & sa4 & Hs4' & Hr4) Hk4]. cbn beta.
  eapply wpc_bind; [instantiate (1 := fun r c => r = delete_buckets s4' k fs /\ c = 1); split; reflexivity|].
  intros r c5 [-> ->].
  assert (Hin34 : inwin s3 (delete_buckets s4' k fs)).
  { eapply (inwin_trans W HW); [eapply unch_inwin; [|eassumption]; assumption|apply delete_inwin]. }
  assert (Hs4 : sacells n (delete_buckets s4' k fs) sa4) by (intros x Hx; rewrite delete_ga; apply Hs4'; exact Hx).
  clear Hs4'. set (s4 := delete_buckets s4' k fs) in *. clearbody s4.
  assert (Ht4 : txt s4) by (eapply (txt_inwin E W HW); eassumption).
  assert (Ha4 : n <= alen (mem s4)) by (destruct Hin34 as [-> _]; lia).
  assert (HtsSA : tsafe T n (reg SA n)) by (apply (tsafe_win W HW T n fs Htok), (regSA_win W HW n fs Hfs)).
  assert (Hsav4 : sav n s4 s4 sa4) by (split; [apply unch_refl|assumption]).
  eapply wpc_bind; [eapply wpc_lift; [apply dp_compact|apply (compact_ok E W HW T t n k Hn HnW tr HkL s4 Ha4 HtsSA Ht4 _ _ (key_indord t n) s4 sa4 Hsav4 Hr4)|
    apply (compact_cost s4 s4 sa4 _ _ (key_indord t n) Ha4 HtsSA Ht4 Hsav4 Hr4)]|].
  intros [s5 m5] c6 [(Hm5 & so & Hs5 & Hso) Hk6]. cbn [fst snd] in *. subst m5.
  eapply wpc_bind; [eapply wpc_lift; [apply dp_zero|apply (zero_range_ok W HW n Hn HnW s4 Ha4 s5 so m Hs5); lia|apply b_zeros; lia]|].
  intros s6 c7 [Hs6 Hk7]. cbn beta.
  assert (Hidx : forall e, LMS e = true -> 0 <= idx t n (lt1 t n) e < m).
  { intros e He. apply (idx_range 0 t n (lt1 t n) (l1irr 0 t n) e He). }
  eapply wpc_bind.
  { eapply wpc_lift; [|apply (lengths_ok E W HW T t n k Hn HnW tr HkL s4 Ha4 HtsSA Ht4 s6 _ (lt1 t n) Hs6)|].
    - apply dr_scan; [intros; apply dp_chr64|]. intros i c [x j]. apply dr_bind; [apply dr_tick|intros ?]. reflexivity.
    - intros e He. specialize (Hidx e He). replace (m <=? idx t n (lt1 t n) e) with false by lia. apply Hso. assumption.
    - intros x Hx. replace (m <=? x) with true by lia. reflexivity.
    - assumption.
    - apply (b_scan 1); [lia|lia|intros; apply b_chr64|]. intros i c [x j]. unfold put. cbs. }
  intros [s7 j7] c8 [(sa7 & Hs7 & Hso7 & Hup7) Hk8]. cbn [fst snd] in *.
  eapply wpc_bind; [eapply wpc_lift; [apply dp_names|apply (name_ok E W HW T t n Hn HnW s4 Ha4 HtsSA Ht4 sa7 Hso7 s7 sa7 Hs7); [reflexivity|assumption]|
    apply (name_cost s4 s7 sa7 sa7 Ha4 HtsSA Ht4 Hs7 Hso7); [reflexivity|assumption]]|].
  intros [s8 name] c9 [_ Hk9]. cbn [wpc cret]. lia.
Qed.
End Level.

(** * The recursive function *)
Theorem sais_linear : forall fuel s T t n k fs,
  n < 2 ^ Z.of_nat fuel -> 1 <= n -> 1 <= k -> n < 2 ^ (W - 1) -> 0 <= fs ->
  (forall i, 0 <= i < n -> 0 <= t i < k) -> k <= 2 ^ (lw W - 1) ->
  match T with TPack _ _ => True | TCells b => n + fs <= b end ->
  n + fs <= alen (mem s) -> txt E W T t n s ->
  cb (214 * n + 30 * k) (csais E W O1 fuel s T fs n k).
Proof.
  induction fuel as [|fuel IH]; intros s T t n k fs Hf Hn Hk HnW Hfs tr HkL Htok Ha Ht; [change (2 ^ Z.of_nat 0) with 1 in Hf; lia|].
  rewrite Nat2Z.inj_succ, Z.pow_succ_r in Hf by lia. cbn [csais].
  eapply (cb_wpc _ (fun _ c => c <= 214 * n + 30 * k)); [|auto].
  eapply wpc_bind.
  { eapply wpc_lift; [apply dp_stage1|apply (stage1_ok E W HW T t n k fs Hn Hk HnW Hfs tr HkL Htok s Ha Ht)|
      apply (stage1_cost T t n k fs Hn Hk HnW Hfs tr HkL Htok s Ha Ht)]. }
  intros [[s1 m1] name] c1 [(-> & Hin1 & so & sa1 & Hso & Hsa1 & Hname & Hlow & Hup) Hk1].
  pose proof (LMS_half t n Hn) as Hhalf. assert (Hm0 : 0 <= cnt (LMS t n) 0 n) by apply cnt_nonneg.
  assert (Ha1 : n + fs <= alen (mem s1)) by (destruct Hin1 as [-> _]; assumption).
  assert (Ht1 : txt E W T t n s1) by (eapply (txt_inwin E W HW); eassumption).
  set (m := cnt (LMS t n) 0 n) in *.
  assert (Hmid : wpc (if name <? m then
            s2 <~ ccollect_names O1 s1 fs n m ;;
            s3 <~ csais E W O1 fuel s2 (TCells (n + fs - m)) (fs + n - m * 2) m name ;;
            ctranslate E W O1 s3 T fs n m
          else cret s1) (fun s' c => (inwin n fs s s' /\ exists so', sorted t n (slt t n) so' /\ cells s' 0 m so') /\ c <= 7 * n + 2 + 244 * m)).
  { destruct (Z.ltb_spec name m) as [Hlt|Hge].
    - assert (HNr : forall e, LMS t n e = true -> 0 <= N t n so e < name) by (intros e He; rewrite Hname; apply (N_range W HW); assumption).
      eapply wpc_bind.
      { eapply wpc_lift; [apply dp_collect|apply (collect_ok W HW t n fs Hn HnW Hfs s1 sa1 (N t n so) Ha1 Hsa1 Hup)|apply b_collect; fold m; lia].
        intros e He. specialize (HNr e He). lia. }
      fold m. intros s2 c2 [[Hin2 Hra] Hk2]. cbn beta.
      assert (Ha2 : n + fs <= alen (mem s2)) by (destruct Hin2 as [-> _]; assumption).
      pose (r := fun j => N t n so (sel (LMS t n) 0 n j)).
      assert (Hrr : forall j, 0 <= j < m -> 0 <= r j < name).
      { intros j Hj. destruct (lms_spec t n j Hj) as [HL _]. apply HNr. assumption. }
      assert (Hname0 : 0 <= name) by (rewrite Hname; apply cnt_nonneg).
      assert (Hname1 : 1 <= name) by (specialize (Hrr 0 ltac:(lia)); lia).
      assert (Ht2 : txt E W (TCells (n + fs - m)) r m s2).
      { intros j Hj. destruct (lms_spec t n j Hj) as [HL Hx]. unfold M_Sais.chr.
        specialize (Hra _ HL). unfold lix in Hra. rewrite Hx in Hra.
        rewrite (rd_ok s2 (mkptr InMem (n + fs - m)) j (r j)) by (cbn [sp off]; exact Hra). cbn [bind]. f_equal. apply wrap_small.
        specialize (Hrr j Hj). assert (r j < 2 ^ (W - 1)) by lia.
        destruct (Z.eqb_spec W 32) as [->|_]; [change (2 ^ (32 - 1)) with 2147483648 in *; change (2 ^ 32) with 4294967296; lia|].
        assert (2 ^ (W - 1) <= 2 ^ 64) by (apply Z.pow_le_mono_r; lia). lia. }
      assert (HkL' : name <= 2 ^ (lw W - 1)).
      { assert (2 ^ (W - 1) <= 2 ^ (lw W - 1)); [|lia]. apply Z.pow_le_mono_r; [lia|]. unfold lw. destruct (Z.eqb_spec W 32); lia. }
      eapply wpc_bind.
      { eapply wpc_lift; [apply dp_sais|apply (sais_ok E W HW HW64 fuel s2 (TCells (n + fs - m)) r m name (fs + n - m * 2)); try assumption; lia|
          apply (IH s2 (TCells (n + fs - m)) r m name (fs + n - m * 2)); try assumption; lia]. }
      intros s3 c3 [[Hin3 Hsr3] Hk3]. cbn beta.
      assert (Hin3' : inwin n fs s2 s3).
      { destruct Hin3 as [Hl3 Hu3]. split; [assumption|]. intros x Hx. apply Hu3. lia. }
      assert (Ha3 : n + fs <= alen (mem s3)) by (destruct Hin3' as [-> _]; assumption).
      pose (sr := fun i => sel (fun j => rk m (slt r m) j =? i) 0 m 0).
      assert (Hsr : forall j, 0 <= j < m -> sr (rk m (slt r m) j) = j).
      { intros j Hj. unfold sr. destruct (sel_spec (fun j0 => rk m (slt r m) j0 =? rk m (slt r m) j) m 0 0) as (H1 & H2 & _).
        - split; [lia|]. apply (cnt_pos _ j); [lia|lia].
        - apply (rk_inj r m _ _ (suf_indord r m)); try assumption; try lia. }
      assert (Hsc : cells s3 0 m sr /\ forall i, 0 <= i < m -> 0 <= sr i < m).
      { assert (Hx : forall i, 0 <= i < m -> exists j, 0 <= j < m /\ rk m (slt r m) j = i) by (apply (rk_surj r m _ _ (suf_indord r m))).
        split; intros i Hi; destruct (Hx i Hi) as (j & Hj & <-); rewrite Hsr by assumption; [apply Hsr3; assumption|assumption]. }
      eapply wpc_mono.
      { eapply wpc_lift; [apply dp_translate|apply (translate_ok E W HW T t n k fs Hn HnW Hfs tr HkL Htok s3 sr); [assumption| |apply Hsc|apply Hsc]|apply b_translate; fold m; lia].
        eapply (txt_inwin E W HW); [exact Htok|exact Hin3'|]. eapply (txt_inwin E W HW); [exact Htok|exact Hin2|]. assumption. }
      intros s4 c4 [[Hin4 Hc4] Hk4]. fold m in Hk4. split; [split|lia].
      + eapply (inwin_trans W HW); [exact Hin1|]. eapply (inwin_trans W HW); [exact Hin2|]. eapply (inwin_trans W HW); eassumption.
      + exists (fun i => sel (LMS t n) 0 n (sr i)). split; [|exact Hc4].
        apply (reduced_sorted W HW t n so r sr Hso); [reflexivity|exact Hsr].
    - cbn [wpc cret]. split; [|lia]. split; [assumption|]. exists so. split.
      + apply (names_distinct W HW); [assumption|]. fold m. lia.
      + intros x Hx. rewrite Hsa1 by lia. rewrite Hlow by assumption. reflexivity. }
  eapply wpc_bind; [exact Hmid|]. intros s2 c2 [(Hin2 & so' & Hso' & Hc2) Hk2]. cbn beta.
  eapply wpc_mono.
  { eapply wpc_lift; [apply dp_stage3|apply (stage3_ok E W HW T t n k fs Hn Hk HnW Hfs tr HkL Htok s2 so'); [destruct Hin2 as [-> _]; assumption| |assumption|assumption]|
      apply b_stage3; fold m; lia].
    eapply (txt_inwin E W HW); eassumption. }
  intros s3 c3 [_ Hk3]. fold m in Hk3. lia.
Qed.
End Linear.
