(** From index functions to lists: suffixes, suffix arrays, rows. *)
From Verif Require Import Base M_PackedArray M_Sais Count Spec Text Induced Keys P_PackedArray P_SaisMem P_SaisInduce P_Sais.
From Coq Require Import ZifyBool.
Open Scope Z_scope.

(** the text of a list *)
Definition tl_ (l : list Z) (i : Z) : Z := nth (Z.to_nat i) l 0.
Notation zl l := (Z.of_nat (length l)).

Lemma map_nth_zseq l : forall c lo, 0 <= lo -> lo + Z.of_nat c = zl l ->
  map (tl_ l) (zseq_n c lo) = skipn (Z.to_nat lo) l.
Proof.
  induction c as [|c IH]; intros lo H0 H; cbn [zseq_n map].
  - symmetry. apply skipn_all2. lia.
  - rewrite IH by lia. unfold tl_ at 1. replace (Z.to_nat (lo + 1)) with (S (Z.to_nat lo)) by lia.
    assert (Hlt : (Z.to_nat lo < length l)%nat) by lia. clear - Hlt. revert Hlt. generalize (Z.to_nat lo) as k.
    induction l as [|x l IH]; intros [|k] Hk; cbn [length] in *; try lia; [reflexivity|].
    cbn [nth skipn]. rewrite IH by lia. destruct l; reflexivity.
Qed.

Lemma suf_list l i : 0 <= i <= zl l -> suf (tl_ l) (zl l) i = suffix l (Z.to_nat i).
Proof. intros H. unfold suf, suffix, zseq. apply map_nth_zseq; lia. Qed.

Lemma slt_list l i j : 0 <= i <= zl l -> 0 <= j <= zl l ->
  slt (tl_ l) (zl l) i j = lexlt (suffix l (Z.to_nat i)) (suffix l (Z.to_nat j)).
Proof. intros Hi Hj. unfold slt. rewrite !suf_list by assumption. reflexivity. Qed.

Lemma ssorted_zseq {A} (R : A -> A -> Prop) (f : Z -> A) : forall c lo,
  (forall x y, lo <= x -> x < y -> y < lo + Z.of_nat c -> R (f x) (f y)) -> StronglySorted R (map f (zseq_n c lo)).
Proof.
  induction c as [|c IH]; intros lo H; cbn [zseq_n map]; constructor.
  - apply IH. intros; apply H; lia.
  - apply Forall_forall. intros y Hy. apply in_map_iff in Hy as (z & <- & Hz). apply zseq_n_in in Hz. apply H; lia.
Qed.

Lemma NoDup_ssorted {A} (R : A -> A -> Prop) l : (forall x, ~ R x x) -> StronglySorted R l -> NoDup l.
Proof.
  intros Hirr. induction l as [|x l IH]; intros H; constructor; inversion H; subst.
  - intros Hin. rewrite Forall_forall in H3. apply (Hirr x), H3, Hin.
  - apply IH; assumption.
Qed.

Lemma suffix_array_of_ranks l (f : Z -> Z) :
  (forall j, 0 <= j < zl l -> f (rk (zl l) (slt (tl_ l) (zl l)) j) = j) ->
  is_suffix_array l (map f (zseq 0 (zl l))).
Proof.
  intros Hf. set (n := zl l) in *. set (t := tl_ l).
  pose proof (suf_indord t n) as IO.
  assert (Hsurj : forall q, 0 <= q < n -> exists j, 0 <= j < n /\ rk n (slt t n) j = q /\ f q = j).
  { intros q Hq. destruct (rk_surj t n _ _ IO q Hq) as (j & Hj & Hr). exists j. split; [assumption|].
    split; [assumption|]. rewrite <- Hr. apply Hf. assumption. }
  assert (HS : StronglySorted (fun i j => lexlt (suffix l (Z.to_nat i)) (suffix l (Z.to_nat j)) = true) (map f (zseq 0 n))).
  { apply ssorted_zseq. intros x y Hx Hxy Hy.
    destruct (Hsurj x) as (i & Hi & Hri & ->); [lia|]. destruct (Hsurj y) as (j & Hj & Hrj & ->); [lia|].
    rewrite <- slt_list by (subst n; lia). apply (rk_lt t n _ _ IO i j Hi Hj). fold t n. lia. }
  split; [|assumption].
  apply NoDup_Permutation.
  - apply NoDup_ssorted in HS; [assumption|]. intros x. rewrite lexlt_irr. discriminate.
  - apply FinFun.Injective_map_NoDup; [intros a b; lia|apply seq_NoDup].
  - intros x. rewrite !in_map_iff. split.
    + intros (q & <- & Hq). apply in_zseq in Hq. destruct (Hsurj q Hq) as (j & Hj & _ & ->).
      exists (Z.to_nat j). split; [lia|]. apply in_seq. lia.
    + intros (y & <- & Hy). apply in_seq in Hy. exists (rk n (slt t n) (Z.of_nat y)).
      split; [apply Hf; lia|]. apply in_zseq. apply (rk_range t n _ _ IO). lia.
Qed.

Theorem sais_list E W l k fs p sa0 tmp0 fuel :
  1 <= W <= 64 -> (1 <= length l)%nat -> Forall (fun c => 0 <= c < k) l -> zl l < 2 ^ (W - 1) -> k <= 2 ^ (W - 1) ->
  0 <= fs -> zl l + fs <= alen sa0 -> zl l < 2 ^ Z.of_nat fuel -> pa_bits p <> W ->
  (forall i, 0 <= i < zl l -> pa_get E p (i + 1) = Ok (nth (Z.to_nat i) l 0)) ->
  exists s sa, sais E W fuel (mkst sa0 tmp0) (TPack (pa_arr p) (pa_bits p)) fs (zl l) k = Ok s /\
    is_suffix_array l sa /\
    (forall i, 0 <= i < zl l -> av (mem s) i = Some (nth (Z.to_nat i) sa 0)) /\
    alen (mem s) = alen sa0 /\
    (forall i, i < 0 \/ zl l + fs <= i -> av (mem s) i = av sa0 i).
Proof.
  intros HW Hl Hk Hn HkW Hfs Hsa Hfuel Hcs Hp.
  assert (Hk0 : 1 <= k).
  { destruct l as [|c l]; cbn [length] in *; [lia|]. inversion Hk; subst. lia. }
  assert (Hsym : forall i, 0 <= i < zl l -> 0 <= tl_ l i < k).
  { intros i Hi. rewrite Forall_forall in Hk. apply Hk. apply nth_In. lia. }
  assert (HkL : k <= 2 ^ (lw W - 1)).
  { assert (2 ^ (W - 1) <= 2 ^ (lw W - 1)); [|lia]. apply Z.pow_le_mono_r; [lia|]. unfold lw. destruct (Z.eqb_spec W 32); lia. }
  pose proof (sais_ok E W (proj1 HW) (proj2 HW) fuel (mkst sa0 tmp0) (TPack (pa_arr p) (pa_bits p)) (tl_ l) (zl l) k fs
    ltac:(lia) ltac:(lia) Hk0 Hn Hfs Hsym HkL I Hsa) as H.
  assert (Hchr : forall i, 0 <= i < zl l -> chr E W (mkst sa0 tmp0) (TPack (pa_arr p) (pa_bits p)) i = Ok (tl_ l i)).
  { intros i Hi. cbn [chr]. destruct (Z.eqb_spec (pa_bits p) W); [contradiction|]. apply Hp. assumption. }
  specialize (H Hchr).
  apply wp_inv in H as (s & Hs & Hw & Hr). exists s.
  exists (map (fun q => match av (mem s) q with Some v => v | None => 0 end) (zseq 0 (zl l))).
  split; [assumption|]. split.
  - apply suffix_array_of_ranks. intros j Hj. specialize (Hr j Hj). cbn [ga] in Hr. rewrite Hr. reflexivity.
  - split; [|destruct Hw as [Hw1 Hw2]; split; [exact Hw1|intros i Hi; apply Hw2; lia]].
    intros i Hi. 
    destruct (rk_surj (tl_ l) (zl l) _ _ (suf_indord _ _) i Hi) as (j & Hj & Hrj). specialize (Hr j Hj). cbn [ga] in Hr.
    rewrite Hrj in Hr. rewrite Hr. f_equal.
    symmetry. apply nth_error_nth. rewrite nth_error_map.
    assert (He : nth_error (zseq 0 (zl l)) (Z.to_nat i) = Some i).
    { rewrite (nth_error_nth' _ 0) by (rewrite zseq_length; lia). f_equal. unfold zseq. rewrite zseq_n_nth by lia. lia. }
    rewrite He. cbn [option_map]. rewrite Hr. reflexivity.
Qed.

(** the text as an array of W-bit cells (cs = W), as in the recursive calls *)
Theorem sais_cells_list E W l k fs base sa0 tmp0 fuel :
  1 <= W <= 64 -> (1 <= length l)%nat -> Forall (fun c => 0 <= c < k) l -> zl l < 2 ^ (W - 1) -> k <= 2 ^ (W - 1) ->
  0 <= fs -> zl l + fs <= base -> base + zl l <= alen sa0 -> zl l < 2 ^ Z.of_nat fuel ->
  (forall i, 0 <= i < zl l -> av sa0 (base + i) = Some (nth (Z.to_nat i) l 0)) ->
  exists s sa, sais E W fuel (mkst sa0 tmp0) (TCells base) fs (zl l) k = Ok s /\
    is_suffix_array l sa /\
    (forall i, 0 <= i < zl l -> av (mem s) i = Some (nth (Z.to_nat i) sa 0)) /\
    alen (mem s) = alen sa0 /\
    (forall i, i < 0 \/ zl l + fs <= i -> av (mem s) i = av sa0 i).
Proof.
  intros HW Hl Hk Hn HkW Hfs Hbase Hsa Hfuel Hp.
  assert (Hk0 : 1 <= k).
  { destruct l as [|c l]; cbn [length] in *; [lia|]. inversion Hk; subst. lia. }
  assert (Hsym : forall i, 0 <= i < zl l -> 0 <= tl_ l i < k).
  { intros i Hi. rewrite Forall_forall in Hk. apply Hk. apply nth_In. lia. }
  assert (HkL : k <= 2 ^ (lw W - 1)).
  { assert (2 ^ (W - 1) <= 2 ^ (lw W - 1)); [|lia]. apply Z.pow_le_mono_r; [lia|]. unfold lw. destruct (Z.eqb_spec W 32); lia. }
  pose proof (sais_ok E W (proj1 HW) (proj2 HW) fuel (mkst sa0 tmp0) (TCells base) (tl_ l) (zl l) k fs
    ltac:(lia) ltac:(lia) Hk0 Hn Hfs Hsym HkL Hbase ltac:(cbn [mem]; lia)) as H.
  assert (Hchr : forall i, 0 <= i < zl l -> chr E W (mkst sa0 tmp0) (TCells base) i = Ok (tl_ l i)).
  { intros i Hi. cbn [chr]. unfold rd. cbn [sp mem off]. specialize (Hp i Hi).
    rewrite (aget_ok _ _ _ Hp). cbn [bind]. unfold tl_. f_equal. unfold wrap. apply Z.mod_small.
    specialize (Hsym i Hi). unfold tl_ in Hsym.
    assert (2 ^ (lw W - 1) < 2 ^ (if W =? 32 then 32 else 64)); [|lia].
    apply Z.pow_lt_mono_r; unfold lw; destruct (Z.eqb_spec W 32); lia. }
  specialize (H Hchr).
  apply wp_inv in H as (s & Hs & Hw & Hr). exists s.
  exists (map (fun q => match av (mem s) q with Some v => v | None => 0 end) (zseq 0 (zl l))).
  split; [assumption|]. split.
  - apply suffix_array_of_ranks. intros j Hj. specialize (Hr j Hj). cbn [ga] in Hr. rewrite Hr. reflexivity.
  - split; [|destruct Hw as [Hw1 Hw2]; split; [exact Hw1|intros i Hi; apply Hw2; lia]].
    intros i Hi. 
    destruct (rk_surj (tl_ l) (zl l) _ _ (suf_indord _ _) i Hi) as (j & Hj & Hrj). specialize (Hr j Hj). cbn [ga] in Hr.
    rewrite Hrj in Hr. rewrite Hr. f_equal.
    symmetry. apply nth_error_nth. rewrite nth_error_map.
    assert (He : nth_error (zseq 0 (zl l)) (Z.to_nat i) = Some i).
    { rewrite (nth_error_nth' _ 0) by (rewrite zseq_length; lia). f_equal. unfold zseq. rewrite zseq_n_nth by lia. lia. }
    rewrite He. cbn [option_map]. rewrite Hr. reflexivity.
Qed.
