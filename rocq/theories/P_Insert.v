(** Size of the string buffer while strings are inserted, for every run that succeeds. *)
From Verif Require Import Base M_PackedArray M_HashTable M_Induce M_Flbwt Spec Count P_PackedArray P_Bytes P_HashTable P_HashTable2 Sums.
From Coq Require Import ZifyBool.
Open Scope Z_scope.

Ltac binv H := match type of H with
  | bind ?m _ = Ok _ => let X := fresh "B" in destruct m eqn:X; [cbn [bind] in H|discriminate H]
  end.
(** what holds of the result if there is one *)
Definition ens {A} (m : res A) (P : A -> Prop) : Prop := forall a, m = Ok a -> P a.
Lemma ens_bind {A B} (m : res A) (f : A -> res B) P Q : ens m P -> (forall a, m = Ok a -> P a -> ens (f a) Q) -> ens (bind m f) Q.
Proof. intros Hm Hf b Hb. destruct m as [a|]; [|discriminate]. cbn [bind] in Hb. exact (Hf a eq_refl (Hm a eq_refl) b Hb). Qed.
Lemma ens_skip {A B} (m : res A) (f : A -> res B) Q : (forall a, m = Ok a -> ens (f a) Q) -> ens (bind m f) Q.
Proof. intros Hf. apply ens_bind with (P := fun _ => True); [intros ? _; exact I|]. intros a Ha _. apply Hf, Ha. Qed.
Lemma ens_ok {A} (a : A) (P : A -> Prop) : P a -> ens (Ok a) P.
Proof. intros H b Hb. inversion Hb; subst. exact H. Qed.
Lemma ens_err {A} e (P : A -> Prop) : ens (Err e) P.
Proof. intros b Hb. discriminate. Qed.
Lemma ens_mono {A} (m : res A) (P Q : A -> Prop) : ens m P -> (forall a, P a -> Q a) -> ens m Q.
Proof. intros H HQ a Ha. apply HQ, H, Ha. Qed.
Lemma ens_for_up {S} (I : Z -> S -> Prop) lo hi body s : lo <= hi -> I lo s ->
  (forall i s, lo <= i < hi -> I i s -> ens (body i s) (I (i + 1))) -> ens (for_up lo hi body s) (I hi).
Proof.
  intros Hle H0 Hb. unfold for_up.
  assert (Hg : forall c i s, lo <= i -> hi = i + Z.of_nat c -> I i s -> ens (for_n c i body s) (I hi)).
  { induction c as [|c IH]; intros i x Hi He Hx; cbn [for_n]; [apply ens_ok; replace hi with i by lia; exact Hx|].
    eapply ens_bind; [apply Hb; [lia|exact Hx]|]. intros x' _ Hx'. apply IH; [lia|lia|exact Hx']. }
  apply Hg; [lia|lia|exact H0].
Qed.
Lemma ens_for_up_s {S} (I : S -> Prop) lo hi body s : I s -> (forall i s, I s -> ens (body i s) I) -> ens (for_up lo hi body s) I.
Proof.
  intros H0 Hb. unfold for_up. generalize (Z.to_nat (hi - lo)) as c. intros c. revert lo s H0.
  induction c as [|c IH]; intros i x Hx; cbn [for_n]; [apply ens_ok, Hx|].
  eapply ens_bind; [apply Hb, Hx|]. intros x' _ Hx'. apply IH, Hx'.
Qed.
Lemma ens_for_down_s {S} (I : S -> Prop) hi lo body s : I s -> (forall i s, I s -> ens (body i s) I) -> ens (for_down hi lo body s) I.
Proof.
  intros H0 Hb. unfold for_down. generalize (Z.to_nat (hi - lo + 1)) as c. intros c. revert hi s H0.
  induction c as [|c IH]; intros i x Hx; cbn [ford_n]; [apply ens_ok, Hx|].
  eapply ens_bind; [apply Hb, Hx|]. intros x' _ Hx'. apply IH, Hx'.
Qed.
Lemma ens_loop {S R} (I : S -> Prop) (P : R -> Prop) step : (forall s, I s -> ens (step s) (fun x => match x with inl s => I s | inr r => P r end)) ->
  forall f s, I s -> ens (loop f step s) P.
Proof.
  intros Hs. induction f as [|f IH]; intros s HI; cbn [loop]; [apply ens_err|].
  eapply ens_bind; [apply Hs, HI|]. intros [s'|r] _ Hx; [apply IH, Hx|apply ens_ok, Hx].
Qed.

Lemma aset_inv {A} (a : arr A) i v b : aset a i v = Ok b -> 0 <= i < alen a /\ b = aupd a i v.
Proof.
  intros H. destruct (Z_le_gt_dec 0 i); [destruct (Z_lt_ge_dec i (alen a))|]; [|rewrite aset_oob in H by lia; discriminate..].
  rewrite aset_ok in H by lia. inversion H. auto with zarith.
Qed.
Lemma ens_aset {A} (a : arr A) i v : ens (aset a i v) (fun b => alen b = alen a).
Proof. intros b Hb. apply aset_inv in Hb as [_ ->]. apply alen_upd. Qed.
Lemma ens_bset b i v : ens (bset b i v) (fun c => alen c = alen b).
Proof. apply ens_aset. Qed.

Ltac est := first
  [ apply ens_err
  | eapply ens_bind; [apply ens_bset|]; cbn beta; intros ? _ ?
  | apply ens_skip; intros ? ? ].

Lemma ens_set_length E b p m : ens (set_length E b p m) (fun c => alen c = alen b).
Proof.
  unfold set_length, set_length_fuel. eapply ens_bind; [apply ens_bset|]. cbn beta. intros b1 _ H1.
  eapply ens_bind with (P := fun x => alen (fst x) = alen b).
  { apply ens_loop with (I := fun x => alen (fst x) = alen b); [|exact H1].
    intros [c len] Hc. cbn [fst] in Hc. destruct (top_byte len =? 0); [|apply ens_ok; exact Hc].
    est. eapply ens_bind; [apply ens_bset|]. cbn beta. intros b2 _ H2. apply ens_ok. cbn [fst]. congruence. }
  intros [b2 len] _ H2. cbn [fst] in H2.
  apply ens_loop with (I := fun x => alen (fst (fst x)) = alen b); [|exact H2].
  intros [[c q] l] Hc. cbn [fst] in Hc. destruct (l =? 0); [apply ens_ok; exact Hc|].
  eapply ens_bind; [apply ens_bset|]. cbn beta. intros b3 _ H3. apply ens_ok. cbn [fst]. congruence.
Qed.
Lemma ens_set_pointer b p q : ens (set_pointer b p q) (fun c => alen c = alen b).
Proof.
  unfold set_pointer. est. est. eapply ens_bind with (P := fun x => alen (fst x) = alen b).
  - apply ens_for_up_s; [cbn [fst]; congruence|]. intros i [c r] Hc. cbn [fst] in Hc. est. apply ens_ok. cbn [fst]. congruence.
  - intros [c r] _ Hc. apply ens_ok, Hc.
Qed.
Lemma ens_set_name E h b p v : ens (set_name E h b p v) (fun c => alen c = alen b).
Proof.
  unfold set_name. est. est. eapply ens_bind with (P := fun x => alen (fst x) = alen b).
  - apply ens_for_up_s; [reflexivity|]. intros i [c r] Hc. cbn [fst] in Hc. est. apply ens_ok. cbn [fst]. congruence.
  - intros [c r] _ Hc. apply ens_ok, Hc.
Qed.
Lemma ens_write_record E h T m p lb b r : ens (write_record E h T m p lb b r) (fun c => alen c = alen b).
Proof.
  unfold write_record. eapply ens_bind; [apply ens_set_length|]. cbn beta. intros b1 _ H1. est. est.
  eapply ens_bind with (P := fun c => alen c = alen b).
  - apply ens_for_up_s; [congruence|]. intros i c Hc. est. intros d Hd. rewrite (ens_bset _ _ _ d Hd). exact Hc.
  - intros c _ Hc. apply ens_for_up_s; [exact Hc|]. intros i d Hd e He. rewrite (ens_bset _ _ _ e He). exact Hd.
Qed.

(** * insert_string *)
(** sum of the counters rest[0..k) *)
Definition upto (k : Z) : list Z := map Z.of_nat (seq 0 (Z.to_nat k)).
Definition cell (a : arr Z) (i : Z) : Z := match av a i with Some v => v | None => 0 end.
Definition rsum (a : arr Z) : Z := sum (cell a) (upto (alen a)).
Lemma in_upto k i : In i (upto k) <-> 0 <= i < k.
Proof.
  unfold upto. rewrite in_map_iff. split.
  - intros (x & <- & Hx). apply in_seq in Hx. lia.
  - intros H. exists (Z.to_nat i). split; [lia|]. apply in_seq. lia.
Qed.
Lemma upto_nodup k : NoDup (upto k).
Proof. unfold upto. apply FinFun.Injective_map_NoDup; [intros x y H; lia|apply seq_NoDup]. Qed.
Lemma upto_length k : Z.of_nat (length (upto k)) = Z.max 0 k.
Proof. unfold upto. rewrite map_length, seq_length. lia. Qed.
Lemma rsum_set a i v b : aset a i v = Ok b -> alen b = alen a /\ rsum b = rsum a - cell a i + v /\ 0 <= i < alen a /\
  (forall j, cell b j = if j =? i then v else cell a j).
Proof.
  intros H. apply aset_inv in H as [Hi ->]. split; [apply alen_upd|].
  assert (Hc : forall j, cell (aupd a i v) j = if j =? i then v else cell a j).
  { intros j. unfold cell. destruct (Z.eqb_spec j i) as [->|Hj]; [rewrite av_upd_same by lia; reflexivity|].
    rewrite av_upd_other by (exact Hj || lia). reflexivity. }
  split; [|split; [lia|exact Hc]]. unfold rsum. rewrite alen_upd.
  rewrite (sum_upd (cell a) (cell (aupd a i v)) i); [|apply upto_nodup|apply in_upto; lia|].
  - rewrite Hc, Z.eqb_refl. lia.
  - intros j Hj. rewrite Hc. destruct (Z.eqb_spec j i); [contradiction|reflexivity].
Qed.

Record hb (hts : Z) (h : htable) : Prop := {
  hb_size : HBSIZE h = 512; hb_nb : 0 <= NAME_BYTES h <= 8; hb_len : alen (ht_rest h) = hts;
  hb_cell : forall i, 0 <= cell (ht_rest h) i <= 512;
  hb_buf : 0 <= alen (ht_buf h) }.
Lemma u64_le x : 0 <= x -> 0 <= u64 x <= x.
Proof. intros H. unfold u64, wrap. pose proof (Z.mod_pos_bound x (2 ^ 64) ltac:(lia)). split; [lia|]. apply Z.mod_le; lia. Qed.
Lemma insert_buffer E hts h T m p : hb hts h -> 1 <= m < 2 ^ 60 ->
  ens (insert_string E h T m p) (fun x => hb hts (fst x) /\
    alen (ht_buf (fst x)) - rsum (ht_rest (fst x)) <= alen (ht_buf h) - rsum (ht_rest h) + (2 * m + 48)).
Proof.
  intros Hh Hm. unfold insert_string. apply ens_skip. intros hv _. apply ens_skip. intros q0 _. apply ens_skip. intros sc _.
  destruct sc as [q|q]; [apply ens_ok; cbn [fst]; split; [exact Hh|lia]|].
  rewrite calculate_lenlen_ok by lia. cbn [bind]. pose proof (lenlen_le8 m ltac:(lia)) as Hl.
  destruct Hh as [H1 H2 H3 H4 H5].
  set (sp := 1 + 1 + lenlen m + m + NAME_BYTES h). assert (Hu : u64 sp = sp) by (unfold u64; apply wrap_small; subst sp; lia). rewrite Hu.
  apply ens_skip. intros rest Hr.
  assert (Hc : cell (ht_rest h) hv = rest) by (unfold cell; rewrite (aget_inv _ _ _ Hr); reflexivity).
  pose proof (H4 hv) as H4v. rewrite Hc in H4v. rewrite !swrap_small by (cbn [Z.sub]; change (2 ^ (64 - 1)) with (2 ^ 63); subst sp; lia).
  eapply ens_bind with (P := fun x => HBSIZE (fst x) = 512 /\ NAME_BYTES (fst x) = NAME_BYTES h /\ alen (ht_rest (fst x)) = hts /\
    0 <= alen (ht_buf (fst x)) /\ (forall i, 0 <= cell (ht_rest (fst x)) i <= if i =? hv then 512 + sp else 512) /\
    sp <= cell (ht_rest (fst x)) hv <= 512 + sp /\
    alen (ht_buf (fst x)) - rsum (ht_rest (fst x)) <= alen (ht_buf h) - rsum (ht_rest h) + sp + 12).
  - destruct (Z.leb_spec (rest - 12) sp) as [Hle|Hgt].
    + rewrite H1. apply ens_skip. intros rest' Hr'. destruct (rsum_set _ _ _ _ Hr') as (A1 & A2 & A3 & A4). rewrite Hc in A2.
      assert (Hu2 : u64 (512 + sp) = 512 + sp) by (unfold u64; apply wrap_small; subst sp; lia). rewrite Hu2 in *.
      pose proof (u64_le (alen (ht_buf h) + 512 + sp) ltac:(subst sp; lia)) as Hle2.
      assert (Hcells : forall i, 0 <= cell rest' i <= if i =? hv then 512 + sp else 512).
      { intros i. rewrite A4. specialize (H4 i). destruct (i =? hv); subst sp; lia. }
      assert (Hcv : sp <= cell rest' hv <= 512 + sp) by (rewrite A4, Z.eqb_refl; lia).
      destruct (q =? 0).
      * apply ens_skip. intros head' _. apply ens_ok. cbn [fst HBSIZE NAME_BYTES ht_rest ht_buf].
        change (alen (brealloc (ht_buf h) (u64 (alen (ht_buf h) + 512 + sp)))) with (u64 (alen (ht_buf h) + 512 + sp)).
        split; [reflexivity|]. split; [reflexivity|]. split; [lia|]. split; [lia|]. split; [exact Hcells|]. split; [exact Hcv|]. lia.
      * eapply ens_bind; [apply ens_set_pointer|]. cbn beta. intros b' _ Hb'. apply ens_ok. cbn [fst HBSIZE NAME_BYTES ht_rest ht_buf].
        rewrite Hb'. change (alen (brealloc (ht_buf h) (u64 (alen (ht_buf h) + 512 + sp)))) with (u64 (alen (ht_buf h) + 512 + sp)).
        split; [reflexivity|]. split; [reflexivity|]. split; [lia|]. split; [lia|]. split; [exact Hcells|]. split; [exact Hcv|]. lia.
    + apply ens_ok. cbn [fst]. split; [exact H1|]. split; [reflexivity|]. split; [exact H3|]. split; [exact H5|].
      split; [intros i; specialize (H4 i); destruct (i =? hv); subst sp; lia|]. split; [lia|]. subst sp; lia.
  - intros [h1 r] _ (B1 & B2 & B3 & B4 & B5 & B6 & B7). cbn [fst] in *.
    eapply ens_bind; [apply ens_write_record|]. cbn beta. intros b _ Hb. apply ens_skip. intros rest1 Hr1.
    assert (Hc1 : cell (ht_rest h1) hv = rest1) by (unfold cell; rewrite (aget_inv _ _ _ Hr1); reflexivity).
    rewrite Hc1 in B6. assert (Hu3 : u64 (rest1 - sp) = rest1 - sp) by (unfold u64; apply wrap_small; subst sp; lia). rewrite Hu3.
    apply ens_skip. intros rest2 Hr2. destruct (rsum_set _ _ _ _ Hr2) as (A1 & A2 & A3 & A4). rewrite Hc1 in A2.
    apply ens_ok. cbn [fst]. split.
    + constructor; cbn [HBSIZE NAME_BYTES ht_rest ht_buf]; [exact B1|lia|lia| |lia].
      intros i. rewrite A4. specialize (B5 i). destruct (i =? hv); lia.
    + cbn [ht_rest ht_buf]. subst sp. lia.
Qed.

(** * extract_LMS_strings *)
(** before index i is processed *)
Record xb (hts n i : Z) (s : xst) : Prop := {
  xb_ht : hb hts (x_ht s);
  xb_num : 0 <= x_num s /\ 2 * x_num s + (if x_prevS s then 1 else 0) <= n - 2 - i;
  xb_q : i + 1 <= x_q s <= n;
  xb_len : alen (ht_buf (x_ht s)) <= rsum (ht_rest (x_ht s)) + 50 * x_num s + 2 * (n - x_q s) }.
Definition buf_bound (hts n : Z) : Z := 512 * hts + 27 * n.
Lemma rsum_le hts h : hb hts h -> 0 <= hts -> rsum (ht_rest h) <= 512 * hts.
Proof.
  intros Hh Ht. unfold rsum. rewrite (hb_len _ _ Hh).
  etransitivity; [apply sum_le with (g := fun i => 0 * 0 + 512); intros i Hi; apply (hb_cell _ _ Hh)|].
  rewrite (sum_lin (fun _ => 0) 0 512), upto_length. lia.
Qed.
Lemma xb_bound hts n i s : xb hts n i s -> 0 <= hts -> -1 <= i -> 0 <= alen (ht_buf (x_ht s)) <= buf_bound hts n.
Proof.
  intros [H1 H2 H3 H4] Ht Hi. split; [apply (hb_buf _ _ H1)|]. pose proof (rsum_le hts _ H1 Ht). unfold buf_bound. destruct (x_prevS s); lia.
Qed.
Lemma extract_step_xb E hts T n i s : n < 2 ^ 59 -> 0 <= i -> xb hts n i s -> ens (extract_step E T i s) (xb hts n (i - 1)).
Proof.
  intros Hn Hi Hx. pose proof Hx as [H1 H2 H3 H4]. unfold extract_step. apply ens_skip. intros ti _. apply ens_skip. intros ti1 _. apply ens_skip. intros M _.
  destruct (ti <? ti1).
  { apply ens_ok. constructor; cbn [x_ht x_num x_prevS x_q]; [exact H1|destruct (x_prevS s); lia|lia|lia]. }
  destruct (ti1 <? ti).
  - eapply ens_bind with (P := fun '(ht, C, num, uniq, p, q) => hb hts ht /\ 0 <= num /\ 2 * num <= n - 1 - i /\ i + 1 <= q <= n /\
      alen (ht_buf ht) <= rsum (ht_rest ht) + 50 * num + 2 * (n - q)).
    + destruct (x_prevS s) eqn:Hp; [|apply ens_ok; split; [exact H1|]; split; [lia|]; split; [lia|]; split; [lia|exact H4]].
      cbv zeta. apply ens_skip. intros tp _. apply ens_skip. intros C _.
      assert (Hu : u64 (x_q s - (i + 1) + 1) = x_q s - (i + 1) + 1) by (unfold u64; apply wrap_small; lia). rewrite Hu.
      eapply ens_bind; [apply insert_buffer; [exact H1|lia]|]. cbn beta. intros [ht r] _ [A1 A2]. cbn [fst] in *. apply ens_ok.
      assert (Hu2 : u64 (x_num s + 1) = x_num s + 1) by (unfold u64; apply wrap_small; lia). rewrite Hu2.
      split; [exact A1|]. split; [lia|]. split; [lia|]. split; [lia|]. lia.
    + intros [[[[[ht C] num] uniq] p] q] _ (A1 & A2 & A3 & A4 & A5). apply ens_skip. intros NL _. apply ens_ok.
      constructor; cbn [x_ht x_num x_prevS x_q]; [exact A1|lia|lia|lia].
  - apply ens_skip. intros NL _. apply ens_ok. constructor; cbn [x_ht x_num x_prevS x_q]; [exact H1|destruct (x_prevS s); lia|lia|lia].
Qed.
Lemma ht_new_xb hts n ht M C NL : 0 <= hts -> 2 <= n < 2 ^ 59 -> ht_new hts n = Ok ht ->
  xb hts n (n - 2) (mkxst ht M C NL 0 0 false n n) /\ alen (ht_buf ht) = 0.
Proof.
  intros Ht Hn H. unfold ht_new, ht_new_hb in H. binv H. binv H.
  assert (Hu : u64 (n / 2 + 1) = n / 2 + 1).
  { unfold u64; apply wrap_small. pose proof (Z.div_le_upper_bound n 2 n ltac:(lia) ltac:(lia)). pose proof (Z.div_pos n 2). lia. }
  rewrite Hu in B0.
  pose proof (Z.div_pos n 2 ltac:(lia) ltac:(lia)). pose proof (Z.div_le_upper_bound n 2 (2 ^ 59) ltac:(lia) ltac:(lia)).
  rewrite position_of_msb_ok in B0 by lia. inversion B0; subst a0; clear B0. inversion H; subst ht; clear H. cbn [x_ht ht_buf].
  destruct (wp_inv _ _ (azeros_ok hts Ht)) as (a' & Ha & Hl & Hz). rewrite Ha in B. inversion B; subst a'. clear B.
  assert (Hcell : forall i, cell a i = 0).
  { intros i. unfold cell. destruct (av a i) as [v|] eqn:Hv; [|reflexivity]. pose proof (av_bounds _ _ _ Hv). rewrite Hz in Hv by lia. inversion Hv. reflexivity. }
  split; [|apply alen_new].
  pose proof (Z.log2_nonneg (n / 2 + 1)). assert (Z.log2 (n / 2 + 1) < 60) by (apply Z.log2_lt_pow2; lia).
  set (k := Z.log2 (n / 2 + 1) + 1) in *. pose proof (Z.div_mod k 8 ltac:(lia)). pose proof (Z.mod_pos_bound k 8 ltac:(lia)).
  constructor; cbn [x_ht x_num x_prevS x_q ht_buf ht_rest]; [|lia|lia|].
  - constructor; cbn [HBSIZE NAME_BYTES ht_rest ht_buf]; [reflexivity| |exact Hl|intros i; rewrite Hcell; lia|rewrite alen_new; lia].
    destruct (Z.eqb_spec (k mod 8) 0); lia.
  - rewrite alen_new. assert (0 <= rsum a); [|lia]. unfold rsum.
    rewrite (sum_ext _ (fun i => 0 * 0 + 0)); [rewrite (sum_lin (fun _ => 0) 0 0); lia|]. intros i _. apply Hcell.
Qed.
Lemma ens_for_down {S} (I : Z -> S -> Prop) hi lo body s : lo <= hi + 1 -> I hi s ->
  (forall i s, lo <= i <= hi -> I i s -> ens (body i s) (I (i - 1))) -> ens (for_down hi lo body s) (I (lo - 1)).
Proof.
  intros Hle H0 Hb. unfold for_down.
  assert (Hg : forall c i s, i <= hi -> lo = i - Z.of_nat c + 1 -> I i s -> ens (ford_n c i body s) (I (lo - 1))).
  { induction c as [|c IH]; intros i x Hi He Hx; cbn [ford_n]; [apply ens_ok; replace (lo - 1) with i by lia; exact Hx|].
    eapply ens_bind; [apply Hb; [lia|exact Hx]|]. intros x' _ Hx'. apply IH; [lia|lia|exact Hx']. }
  apply Hg; [lia|lia|exact H0].
Qed.
