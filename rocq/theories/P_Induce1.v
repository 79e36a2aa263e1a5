(** First half of induce_bwt: filling the LMS queues and the left-to-right pass. *)
From Verif Require Import Base M_PackedArray M_Queue M_HashTable M_Induce Spec Count Text Induced P_Queue P_Extract P_InduceBase.
From Coq Require Import ZifyBool.
Open Scope Z_scope.

(** what the pass needs to know about the pointers of text positions *)
Record ptrs (E : env) (buf : arr Z) (t : Z -> Z) (n : Z) (ptr : Z -> Z) (base lastptr w : Z) : Prop := {
  p_chr : forall x, 0 <= x < n -> bget E buf (ptr x) = Ok (t x);
  p_prev : forall x, 1 <= x <= n -> bget E buf (ptr x - 1) = Ok (t (x - 1));
  p_pred : forall x, 1 <= x <= n -> LMS t n (x - 1) = false -> ptr (x - 1) = ptr x - 1;
  p_sent : forall x, 1 <= x <= n -> LMS t n (x - 1) = true \/ x = 1 -> bget E buf (ptr x - 2) = Ok (u8 (t (x - 1) + 1));
  p_last : forall x, 0 <= x <= n -> (ptr x = lastptr <-> x = 0);
  p_dead : forall x, 1 <= x <= n -> LMS t n (x - 1) = true -> ptr x - 1 <> lastptr;
  p_range : forall x, 0 <= x <= n -> 0 <= ptr x - 1 - base /\ ptr x - base < 2 ^ w;
  p_w : 1 <= w <= 63 }.

(** [star] enumerates n and the S* positions in increasing suffix order *)
Record stars (t : Z -> Z) (n : Z) (star : Z -> Z) : Prop := {
  st_0 : star 0 = n;
  st_L : forall i, 1 <= i <= cnt (LMS t n) 0 n -> LMS t n (star i) = true;
  st_lt : forall i j, 0 <= i -> i < j -> j <= cnt (LMS t n) 0 n -> slt t n (star i) (star j) = true;
  st_all : forall e, LMS t n e = true -> exists i, 1 <= i <= cnt (LMS t n) 0 n /\ star i = e }.

Section Pass1.
Context (E : env) (buf : arr Z) (t : Z -> Z) (n : Z) (ptr : Z -> Z) (base lastptr w : Z).
Context (Hn : 2 <= n < 2 ^ 62).
Context (Hb : forall i, 0 <= i < n -> 0 <= t i < 256).
Context (HP : ptrs E buf t n ptr base lastptr w).
Notation isS := (isS t n).
Notation LMS := (LMS t n).
Notation slt := (slt t n).
Notation rk := (rk n slt).
Notation startc := (startc t n).
Notation endc := (endc t n).
Notation nL := (nL t n).
Notation nS := (nS t n).
Notation slot := (slot t n slt slt).
Notation item := (item t n).
Notation cntL := (cntL t n slt slt).
Notation sa := (sa t n).
Notation it := (it t n).
Notation nM := (nM t n).
Notation lidx := (lidx t n).
Notation m := (cnt LMS 0 n).
Let IO := suf_indord t n.

Definition U (x : Z) : Z := ptr x - base.
Lemma U_range x : 0 <= x <= n -> 0 <= U x < 2 ^ w.
Proof. intros Hx. pose proof (p_range _ _ _ _ _ _ _ _ HP x Hx). unfold U. lia. Qed.
Lemma U_base x : base + U x = ptr x.
Proof. unfold U. lia. Qed.

(** * Counters *)
Lemma cntL_range T c : 0 <= cntL T c <= nL c.
Proof. split; [apply cnt_nonneg|]. apply cnt_le. intros i Hi H. lia. Qed.
Lemma cntL_mono T T' c : T <= T' -> cntL T c <= cntL T' c.
Proof. intros H. apply cnt_le. intros i Hi. unfold insL. lia. Qed.
Lemma cntL_jump T T' c : T <= T' -> (forall x, item x -> ~ (T <= slot x < T')) -> cntL T' c = cntL T c.
Proof.
  intros HT H. apply cnt_ext. intros i Hi. destruct (isS i) eqn:HS; [rewrite !andb_false_r; reflexivity|].
  unfold insL. specialize (H _ (succ_item t n i Hi HS)). lia.
Qed.
(** LMS positions of bucket c already visited *)
Definition cK (T c : Z) : Z := cnt (fun f => LMS f && (t f =? c) && (slot f <? T)) 0 n.
Lemma LMS_item x : LMS x = true -> item x.
Proof. intros H. right; right; assumption. Qed.
Lemma L_item x : 0 <= x < n -> isS x = false -> item x.
Proof. intros H1 H2. right; left; split; assumption. Qed.
Lemma cK_jump T T' c : T <= T' -> (forall x, item x -> ~ (T <= slot x < T')) -> cK T' c = cK T c.
Proof.
  intros HT H. apply cnt_ext. intros i Hi. destruct (LMS i) eqn:HS; [|reflexivity].
  specialize (H _ (LMS_item i HS)). lia.
Qed.
Lemma cK_step x : LMS x = true -> cK (slot x + 1) (t x) = cK (slot x) (t x) + 1.
Proof.
  intros Hx. pose proof (LMS_rng t n x Hx). apply (cnt_add1 _ _ x); [lia|lia|]. intros i Hi.
  destruct (Z.eqb_spec i x) as [->|Hne]; [lia|]. destruct (LMS i) eqn:HL; [|cbn; lia].
  assert (slot i <> slot x) by (intros He; apply Hne; apply (slot_inj t n _ _ IO); [apply LMS_item; assumption|apply LMS_item; assumption|assumption]). lia.
Qed.
Lemma cK_step_none T c : (forall x, LMS x = true -> slot x = T -> t x <> c) -> cK (T + 1) c = cK T c.
Proof.
  intros H. apply cnt_ext. intros i Hi. destruct (LMS i) eqn:HS; [|reflexivity].
  specialize (H i HS). destruct (Z.eqb_spec (t i) c); [|reflexivity]. lia.
Qed.
Lemma cK_at x : LMS x = true -> cK (slot x) (t x) = lidx x.
Proof.
  intros Hx. apply cnt_ext. intros i Hi. destruct (LMS i) eqn:HL; [|reflexivity]. destruct (Z.eqb_spec (t i) (t x)) as [Ht|]; [|reflexivity].
  cbn [andb]. rewrite !slot_LMS by (assumption || lia). rewrite Ht. pose proof (lidx_lt t n i x HL Hx Ht). lia.
Qed.
Lemma cK_full T c : n <= T -> cK T c = nM c.
Proof.
  intros HT. apply cnt_ext. intros i Hi. destruct (LMS i) eqn:HL; [|reflexivity].
  pose proof (slot_LMS t n i HL). pose proof (lidx_range t n i HL). pose proof (endc_le_n t n (t i) ltac:(lia)). lia.
Qed.
Lemma cK_range T c : 0 <= cK T c <= nM c.
Proof. split; [apply cnt_nonneg|]. apply cnt_le. intros i Hi H. lia. Qed.

(** row of the saved preceding character of an LMS suffix *)
Definition srow (x : Z) : Z := 1 + startc (t x) + nL (t x) + lidx x.
Lemma srow_range x : LMS x = true -> startc (t x) + nL (t x) <= srow x - 1 < endc (t x).
Proof.
  intros Hx. unfold srow. pose proof (lidx_range t n x Hx). pose proof (nM_nS t n (t x)). pose proof (endc_split t n (t x)). lia.
Qed.
Lemma srow_rk x j : LMS x = true -> 0 <= j < n -> isS j = false -> srow x <> 1 + rk j.
Proof.
  intros Hx Hj HL He. pose proof (srow_range x Hx) as Hr. pose proof (rk_bucket t n j Hj) as (H1 & H2 & _). specialize (H2 HL).
  pose proof (nL_nonneg t n (t x)).
  assert (t x = t j) by (apply (bucket_disj t n) with (r := rk j); lia). rewrite H0 in *. lia.
Qed.
Lemma srow_inj x y : LMS x = true -> LMS y = true -> srow x = srow y -> x = y.
Proof.
  intros Hx Hy He. pose proof (srow_range x Hx). pose proof (srow_range y Hy).
  pose proof (nL_nonneg t n (t x)). pose proof (nL_nonneg t n (t y)).
  assert (Ht : t x = t y) by (apply (bucket_disj t n) with (r := srow x - 1); lia).
  apply (lidx_inj t n); try assumption. unfold srow in He. rewrite Ht in He. lia.
Qed.

(** * The arrays after visiting the items with slot < T; stack part up to slot K *)
Record A1 (T K : Z) (s : ist) : Prop := {
  a1_M2l : alen (i_M2 s) = 258;
  a1_M2 : forall e, 0 <= e < 256 -> av (i_M2 s) (e + 1) = Some (1 + startc e + cntL T e);
  a1_C2l : alen (i_C2 s) = 258;
  a1_C2 : forall e, 0 <= e < 256 -> av (i_C2 s) (e + 1) = Some (1 + startc e + nL e + cK K e);
  a1_Bl : alen (i_BWT s) = n + 1;
  a1_B0 : av (i_BWT s) 0 = Some (t (n - 1));
  a1_BL : forall j, 1 <= j < n -> isS j = false -> slot (j + 1) < T -> av (i_BWT s) (1 + rk j) = Some (t (j - 1));
  a1_BM : forall x, LMS x = true -> slot x < K -> av (i_BWT s) (srow x) = Some (t (x - 1));
  a1_last : isS 0 = false -> rk 0 < T -> i_last s = Some (1 + rk 0) }.

Lemma A1_Q T K s Q : A1 T K s -> A1 T K (with_Q s Q).
Proof. intros []. constructor; assumption. Qed.
Lemma A1_jump T T' K s : T <= T' -> (forall x, item x -> ~ (T <= slot x < T')) -> A1 T K s -> A1 T' K s.
Proof.
  intros HT Hj [H1 H2 H3 H4 H5 H6 H7 H8 H9]. constructor; try assumption.
  - intros e He. rewrite (cntL_jump T T') by assumption. apply H2. assumption.
  - intros j Hjj HL Hs. apply H7; [assumption|assumption|]. specialize (Hj _ (succ_item t n j ltac:(lia) HL)). lia.
  - intros HL Hr. apply H9; [assumption|]. specialize (Hj 0 (L_item 0 ltac:(lia) HL)). rewrite slot_L in Hj by (assumption || lia). lia.
Qed.
Lemma A1_jumpK T K K' s : K <= K' -> (forall x, item x -> ~ (K <= slot x < K')) -> A1 T K s -> A1 T K' s.
Proof.
  intros HT Hj [H1 H2 H3 H4 H5 H6 H7 H8 H9]. constructor; try assumption.
  - intros e He. rewrite (cK_jump K K') by assumption. apply H4. assumption.
  - intros x HL Hs. apply H8; [assumption|]. specialize (Hj _ (LMS_item x HL)). lia.
Qed.
(** visiting an item that induces nothing *)
Lemma A1_skip x T K s : item x -> x < n -> slot x = T -> (0 < x /\ isS (x - 1) = true) ->  A1 T K s -> A1 (T + 1) K s.
Proof.
  intros Hx Hxn HT Hne [H1 H2 H3 H4 H5 H6 H7 H8 H9].
  assert (Hno : forall j, 0 <= j < n -> isS j = false -> slot (j + 1) = T -> False).
  { intros j Hj HL Hs. assert (j + 1 = x) by (apply (slot_inj t n _ _ IO); [apply succ_item; assumption|assumption|lia]).
    replace (x - 1) with j in Hne by lia. destruct Hne; congruence. }
  constructor; try assumption.
  - intros e He. rewrite (cntL_step_none t n); [apply H2; assumption|]. intros j Hj HL Hs _. exact (Hno j Hj HL Hs).
  - intros j Hj HL Hs. apply H7; [assumption|assumption|]. destruct (Z.eq_dec (slot (j + 1)) T) as [He|]; [|lia].
    destruct (Hno j ltac:(lia) HL He).
  - intros HL Hr. apply H9; [assumption|]. destruct (Z.eq_dec (rk 0) T) as [He|]; [|lia]. exfalso.
    assert (0 = x); [|lia]. apply (slot_inj t n _ _ IO); [apply L_item; [lia|assumption]|assumption|]. rewrite slot_L by (assumption || lia). lia.
Qed.
Lemma A1_last T K s : isS 0 = false -> rk 0 = T -> A1 T K s -> A1 (T + 1) K (with_last s (1 + T)).
Proof.
  intros HL0 HT [H1 H2 H3 H4 H5 H6 H7 H8 H9].
  assert (Hs0 : slot 0 = T) by (rewrite slot_L by (assumption || lia); assumption).
  assert (Hno : forall j, 0 <= j < n -> isS j = false -> slot (j + 1) = T -> False).
  { intros j Hj HL Hs. assert (j + 1 = 0); [|lia]. apply (slot_inj t n _ _ IO); [apply succ_item; assumption|apply L_item; [lia|assumption]|lia]. }
  constructor; try assumption.
  - intros e He. rewrite (cntL_step_none t n); [apply H2; assumption|]. intros j Hj HL Hs _. exact (Hno j Hj HL Hs).
  - intros j Hj HL Hs. apply H7; [assumption|assumption|]. destruct (Z.eq_dec (slot (j + 1)) T) as [He|]; [|lia].
    destruct (Hno j ltac:(lia) HL He).
  - intros _ _. cbn [with_last i_last]. f_equal. lia.
Qed.
Lemma A1_put j T K s v : 0 <= j < n -> isS j = false -> slot (j + 1) = T -> (1 <= j -> v = t (j - 1)) -> A1 T K s ->
  exists s', put_M2_up s (t j + 1) v = Ok s' /\ A1 (T + 1) K s' /\ i_Q s' = i_Q s.
Proof.
  intros Hj HL HT Hv [H1 H2 H3 H4 H5 H6 H7 H8 H9]. pose proof (Hb j Hj) as Hbj.
  pose proof (insL_rank t n _ _ IO j Hj HL) as Hr. rewrite HT in Hr. pose proof (rk_range t n _ _ IO j Hj) as Hrr.
  unfold put_M2_up. rewrite (aget_ok _ _ _ (H2 _ Hbj)). cbn [bind].
  replace (1 + startc (t j) + cntL T (t j)) with (1 + rk j) by lia. rewrite u64_small by lia.
  rewrite aset_ok by lia. cbn [bind]. rewrite aset_ok by lia. cbn [bind].
  eexists. split; [reflexivity|]. split; [|reflexivity].
  assert (Hone : forall j', 0 <= j' < n -> isS j' = false -> slot (j' + 1) = T -> j' = j).
  { intros j' Hj' HL' Hs. assert (j' + 1 = j + 1); [|lia]. apply (slot_inj t n _ _ IO); [apply succ_item; assumption|apply succ_item; assumption|lia]. }
  constructor; cbn [i_M2 i_C2 i_BWT i_last i_Q]; try assumption; try (rewrite alen_upd; assumption).
  - intros e He. rewrite av_upd by lia. destruct (Z.eqb_spec (e + 1) (t j + 1)) as [Heq|Hne].
    + replace e with (t j) by lia. pose proof (cntL_step t n _ _ IO j Hj HL) as Hs. rewrite HT in Hs. f_equal. lia.
    + rewrite (cntL_step_none t n); [apply H2; assumption|]. intros j' Hj' HL' Hs. rewrite (Hone j' Hj' HL' Hs). lia.
  - rewrite av_upd by lia. replace (0 =? 1 + rk j) with false by lia. assumption.
  - intros j' Hj' HL' Hs. rewrite av_upd by lia. destruct (Z.eqb_spec (1 + rk j') (1 + rk j)) as [He|Hne].
    + assert (j' = j) as -> by (apply (rk_inj t n _ _ IO); lia). rewrite Hv by lia. reflexivity.
    + apply H7; [assumption|assumption|]. destruct (Z.eq_dec (slot (j' + 1)) T) as [He'|]; [|lia].
      rewrite (Hone j' ltac:(lia) HL' He') in Hne. lia.
  - intros x Hx Hs. rewrite av_upd by lia. destruct (Z.eqb_spec (srow x) (1 + rk j)) as [He|Hne]; [destruct (srow_rk x j Hx Hj HL He)|].
    apply H8; assumption.
  - intros HL0 Hr0. apply H9; [assumption|]. destruct (Z.eq_dec (rk 0) T) as [He|]; [|lia]. exfalso.
    assert (0 = j + 1); [|lia]. apply (slot_inj t n _ _ IO); [apply L_item; [lia|assumption]|apply succ_item; assumption|].
    rewrite slot_L by (assumption || lia). lia.
Qed.
Lemma A1_stack x T K s : LMS x = true -> slot x = K -> A1 T K s ->
  exists s', put_C2_up s (t x + 1) (t (x - 1)) = Ok s' /\ A1 T (K + 1) s' /\ i_Q s' = i_Q s.
Proof.
  intros Hx HK [H1 H2 H3 H4 H5 H6 H7 H8 H9]. pose proof (LMS_rng t n x Hx) as Hxr. pose proof (Hb x ltac:(lia)) as Hbx.
  pose proof (cK_at x Hx) as Hc. rewrite HK in Hc.
  unfold put_C2_up. rewrite (aget_ok _ _ _ (H4 _ Hbx)). cbn [bind].
  replace (1 + startc (t x) + nL (t x) + cK K (t x)) with (srow x) by (unfold srow; lia).
  pose proof (srow_range x Hx) as Hsr. pose proof (endc_le_n t n (t x) ltac:(lia)). pose proof (startc_nonneg t n (t x)). pose proof (nL_nonneg t n (t x)).
  rewrite u64_small by lia. rewrite aset_ok by lia. cbn [bind]. rewrite aset_ok by lia. cbn [bind].
  eexists. split; [reflexivity|]. split; [|reflexivity].
  assert (Hone : forall y, LMS y = true -> slot y = K -> y = x).
  { intros y Hy Hs. apply (slot_inj t n _ _ IO); [apply LMS_item; assumption|apply LMS_item; assumption|lia]. }
  constructor; cbn [i_M2 i_C2 i_BWT i_last i_Q]; try assumption; try (rewrite alen_upd; assumption).
  - intros e He. rewrite av_upd by lia. destruct (Z.eqb_spec (e + 1) (t x + 1)) as [Heq|Hne].
    + replace e with (t x) by lia. pose proof (cK_step x Hx) as Hs. rewrite HK in Hs. unfold srow. f_equal. lia.
    + rewrite cK_step_none; [apply H4; assumption|]. intros y Hy Hs. rewrite (Hone y Hy Hs). lia.
  - rewrite av_upd by lia. replace (0 =? srow x) with false by lia. assumption.
  - intros j Hj HL Hs. rewrite av_upd by lia. pose proof (srow_rk x j Hx ltac:(lia) HL).
    replace (1 + rk j =? srow x) with false by lia. apply H7; assumption.
  - intros y Hy Hs. rewrite av_upd by lia. destruct (Z.eqb_spec (srow y) (srow x)) as [He|Hne].
    + rewrite (srow_inj y x Hy Hx He). reflexivity.
    + apply H8; [assumption|]. destruct (Z.eq_dec (slot y) K) as [He|]; [|lia]. rewrite (Hone y Hy He) in Hne. lia.
Qed.

(** * The queues when the items with slot < T have been visited *)
Definition Psel (x : Z) : bool := (0 <? x) && isS (x - 1).
Definition Lq (T e : Z) : list Z := map U (map sa (zseq (Z.max T (startc e)) (startc e + cntL T e))).
Definition Mq (T e : Z) : list Z := map U (map it (zseq (Z.max T (endc e - nM e)) (endc e))).
Definition Sq (T e : Z) : list Z := map U (filter Psel (map sa (rev (zseq (startc e) (Z.min T (startc e + nL e)))))).
Definition Q1 (T ty c : Z) : list Z :=
  if ty =? TYPE_S then Sq T (c - 1) else if ty =? TYPE_L then Lq T (c - 1) else Mq T (c - 1).

Lemma Lq_done T e : startc e + nL e <= T -> Lq T e = [].
Proof. intros H. unfold Lq. pose proof (cntL_range T e). rewrite zseq_nil by lia. reflexivity. Qed.
Lemma Lq_todo T e : T <= startc e -> Lq T e = map U (map sa (zseq (startc e) (startc e + cntL T e))).
Proof. intros H. unfold Lq. rewrite Z.max_r by lia. reflexivity. Qed.
Lemma Mq_done T e : endc e <= T -> Mq T e = [].
Proof. intros H. unfold Mq. rewrite zseq_nil by lia. reflexivity. Qed.
Lemma Mq_todo T e : T <= startc e + nL e -> Mq T e = map U (map it (zseq (endc e - nM e) (endc e))).
Proof. intros H. unfold Mq. pose proof (nM_nS t n e). pose proof (endc_split t n e). rewrite Z.max_r by lia. reflexivity. Qed.
Lemma Sq_done T e : startc e + nL e <= T -> Sq T e = map U (filter Psel (map sa (rev (zseq (startc e) (startc e + nL e))))).
Proof. intros H. unfold Sq. rewrite Z.min_r by lia. reflexivity. Qed.
Lemma Sq_todo T e : T <= startc e -> Sq T e = [].
Proof. intros H. unfold Sq. rewrite zseq_nil by lia. reflexivity. Qed.
Lemma Lq_len T e : Z.of_nat (length (Lq T e)) <= n.
Proof.
  unfold Lq. rewrite !map_length, zseq_length. pose proof (cntL_range T e). pose proof (endc_split t n e). pose proof (nS_nonneg t n e).
  pose proof (endc_le_n t n e ltac:(lia)). pose proof (startc_nonneg t n e). lia.
Qed.
Lemma Mq_len T e : Z.of_nat (length (Mq T e)) <= n.
Proof.
  unfold Mq. rewrite !map_length, zseq_length. pose proof (nM_nS t n e). pose proof (endc_split t n e). pose proof (nL_nonneg t n e).
  pose proof (endc_le_n t n e ltac:(lia)). pose proof (startc_nonneg t n e). lia.
Qed.

(** the L item of rank T has been inserted when T is reached *)
Lemma L_ready x : 0 <= x < n -> isS x = false -> rk x < startc (t x) + cntL (rk x) (t x).
Proof.
  intros Hx HL. rewrite (insL_rank t n _ _ IO x Hx HL) at 1. pose proof (cntL_step t n _ _ IO x Hx HL).
  pose proof (slot_before t n _ _ IO x Hx HL). pose proof (cntL_mono (slot (x + 1) + 1) (rk x) (t x) ltac:(lia)). lia.
Qed.

(** an inserted position goes to the end of its queue *)
Lemma Lq_snoc j T : 0 <= j < n -> isS j = false -> slot (j + 1) = T ->
  Lq (T + 1) (t j) = map U (map sa (zseq (Z.max (T + 1) (startc (t j))) (startc (t j) + cntL T (t j)))) ++ [U j].
Proof.
  intros Hj HL HT. unfold Lq. pose proof (cntL_step t n _ _ IO j Hj HL) as Hs. rewrite HT in Hs. rewrite Hs.
  pose proof (insL_rank t n _ _ IO j Hj HL) as Hr. rewrite HT in Hr.
  pose proof (slot_before t n _ _ IO j Hj HL) as Hbf. rewrite HT in Hbf. pose proof (cntL_range T (t j)).
  replace (startc (t j) + (cntL T (t j) + 1)) with (startc (t j) + cntL T (t j) + 1) by lia.
  rewrite zseq_snoc by lia. rewrite !map_app. cbn [map]. rewrite <- Hr. rewrite sa_rk by lia. reflexivity.
Qed.
Lemma Lq_other j T e : 0 <= j < n -> isS j = false -> slot (j + 1) = T -> e <> t j ->
  Lq (T + 1) e = map U (map sa (zseq (Z.max (T + 1) (startc e)) (startc e + cntL T e))).
Proof.
  intros Hj HL HT He. unfold Lq. rewrite (cntL_step_none t n); [reflexivity|].
  intros j' Hj' HL' Hs. assert (j' + 1 = j + 1) by (apply (slot_inj t n _ _ IO); [apply succ_item; assumption|apply succ_item; assumption|lia]).
  replace j' with j by lia. lia.
Qed.

(** ** visiting the L item of rank T in bucket d *)
Lemma Mq_L T d e : startc d <= T < startc d + nL d -> Mq (T + 1) e = Mq T e.
Proof.
  intros HT. pose proof (endc_split t n d). pose proof (nS_nonneg t n d). pose proof (endc_split t n e). pose proof (nL_nonneg t n e). pose proof (nS_nonneg t n e).
  destruct (Z.lt_trichotomy e d) as [Hd|[Hd|Hd]].
  - pose proof (endc_startc t n e d Hd). rewrite !Mq_done by lia. reflexivity.
  - subst e. rewrite !Mq_todo by lia. reflexivity.
  - pose proof (endc_startc t n d e Hd). rewrite !Mq_todo by lia. reflexivity.
Qed.
Lemma Lq_pop x T d : 0 <= x < n -> isS x = false -> t x = d -> rk x = T ->
  Lq T d = U x :: map U (map sa (zseq (T + 1) (startc d + cntL T d))).
Proof.
  intros Hx HL Hd HT. unfold Lq. pose proof (L_ready x Hx HL) as Hr. rewrite Hd, HT in Hr. pose proof (rk_bucket t n x Hx) as (Hr2 & _). rewrite Hd, HT in Hr2.
  rewrite Z.max_l by lia. rewrite zseq_cons by lia. cbn [map]. rewrite <- HT at 1. rewrite sa_rk by lia. reflexivity.
Qed.
Lemma Lq_zs T d e : startc d <= T < startc d + nL d -> e <> d ->
  zseq (Z.max (T + 1) (startc e)) (startc e + cntL T e) = zseq (Z.max T (startc e)) (startc e + cntL T e).
Proof.
  intros HT Hne. pose proof (endc_split t n d). pose proof (nS_nonneg t n d). pose proof (endc_split t n e). pose proof (nL_nonneg t n e). pose proof (nS_nonneg t n e).
  pose proof (cntL_range T e).
  destruct (Z.lt_trichotomy e d) as [Hd|[Hd|Hd]]; [|lia|].
  - pose proof (endc_startc t n e d Hd). rewrite !zseq_nil by lia. reflexivity.
  - pose proof (endc_startc t n d e Hd). rewrite !Z.max_r by lia. reflexivity.
Qed.
Lemma Sq_other T d e : startc d <= T < startc d + nL d -> e <> d -> Sq (T + 1) e = Sq T e.
Proof.
  intros HT Hne. pose proof (endc_split t n d). pose proof (nS_nonneg t n d). pose proof (endc_split t n e). pose proof (nL_nonneg t n e). pose proof (nS_nonneg t n e).
  destruct (Z.lt_trichotomy e d) as [Hd|[Hd|Hd]]; [|lia|].
  - pose proof (endc_startc t n e d Hd). rewrite !Sq_done by lia. reflexivity.
  - pose proof (endc_startc t n d e Hd). rewrite !Sq_todo by lia. reflexivity.
Qed.
Lemma Sq_here x T d : 0 <= x < n -> isS x = false -> t x = d -> rk x = T -> Sq (T + 1) d = if Psel x then U x :: Sq T d else Sq T d.
Proof.
  intros Hx HL Hd HT. pose proof (rk_bucket t n x Hx) as (Hr2 & Hr3 & _). specialize (Hr3 HL). rewrite Hd, HT in *.
  unfold Sq. rewrite !Z.min_l by lia. rewrite zseq_rev_cons by lia. cbn [map]. rewrite <- HT at 1. rewrite sa_rk by lia. cbn [filter].
  destruct (Psel x); reflexivity.
Qed.

Record I1 (T : Z) (s : ist) : Prop := { i1_A : A1 T T s; i1_Q : qs E w (i_Q s) (Q1 T) }.

Lemma no_LMS_slot x : 0 <= x < n -> isS x = false -> forall y, item y -> y <> x -> ~ (slot x <= slot y < slot x + 1).
Proof.
  intros Hx HL y Hy Hne Hc. apply Hne. apply (slot_inj t n _ _ IO); [assumption|apply L_item; assumption|lia].
Qed.
Lemma A1_K_L x T K s : 0 <= x < n -> isS x = false -> rk x = K -> A1 T K s -> A1 T (K + 1) s.
Proof.
  intros Hx HL HK [H1 H2 H3 H4 H5 H6 H7 H8 H9].
  assert (Hno : forall y, LMS y = true -> slot y = K -> False).
  { intros y Hy Hs. assert (y = x) by (apply (slot_inj t n _ _ IO); [apply LMS_item; assumption|apply L_item; assumption|rewrite (slot_L t n x) by assumption; lia]).
    subst y. rewrite (LMS_S t n x Hy) in HL. discriminate. }
  constructor; try assumption.
  - intros e He. rewrite cK_step_none; [apply H4; assumption|]. intros y Hy Hs _. exact (Hno y Hy Hs).
  - intros y Hy Hs. apply H8; [assumption|]. destruct (Z.eq_dec (slot y) K) as [He|]; [|lia]. destruct (Hno y Hy He).
Qed.

(** the sentinel byte left of a record *)
Lemma pred_chr j : 0 <= j < n -> isS j = false -> exists v, bget E buf (ptr (j + 1) - 2) = Ok v /\ (1 <= j -> v = t (j - 1)).
Proof.
  intros Hj HL. assert (Hnl : LMS j = false) by (destruct (LMS j) eqn:H; [rewrite (LMS_S t n j H) in HL; discriminate|reflexivity]).
  destruct (Z.eq_dec j 0) as [->|Hne].
  - exists (u8 (t 0 + 1)). split; [|lia]. apply (p_sent _ _ _ _ _ _ _ _ HP 1); [lia|right; reflexivity].
  - exists (t (j - 1)). split; [|reflexivity]. pose proof (p_pred _ _ _ _ _ _ _ _ HP (j + 1) ltac:(lia)) as Hp.
    replace (j + 1 - 1) with j in Hp by lia. specialize (Hp Hnl). replace (ptr (j + 1) - 2) with (ptr j - 1) by lia.
    apply (p_prev _ _ _ _ _ _ _ _ HP). lia.
Qed.
Lemma pred_ptr j : 0 <= j < n -> isS j = false -> ptr (j + 1) - 1 = ptr j.
Proof.
  intros Hj HL. assert (Hnl : LMS j = false) by (destruct (LMS j) eqn:H; [rewrite (LMS_S t n j H) in HL; discriminate|reflexivity]).
  pose proof (p_pred _ _ _ _ _ _ _ _ HP (j + 1) ltac:(lia)) as Hp. replace (j + 1 - 1) with j in Hp by lia. rewrite Hp by assumption. reflexivity.
Qed.

Ltac q1 := unfold Q1, TYPE_S, TYPE_L, TYPE_LMS.

(** visiting an L item *)
Lemma step_L d T s : startc d <= T < startc d + nL d -> I1 T s ->
  wp (induce_step1 E buf base lastptr TYPE_L (d + 1) (s, 1 + T)) (fun r => match r with inl (s', m') => I1 (T + 1) s' /\ m' = 1 + (T + 1) | inr _ => False end).
Proof.
  intros HT [HA HQ]. pose proof (endc_split t n d). pose proof (nS_nonneg t n d).
  destruct (sa_bucket t n ltac:(lia) T d ltac:(lia)) as (Hx & Hrk & Htx & HL'). set (x := sa T) in *.
  assert (HL : isS x = false) by (apply HL'; lia). clear HL'. pose proof (Hb x Hx) as Hbx. rewrite Htx in Hbx.
  assert (Hsx : slot x = T) by (rewrite slot_L by assumption; assumption).
  unfold induce_step1.
  destruct (q_empty_ok E w _ _ TYPE_L (d + 1) HQ ltac:(unfold TYPE_L; lia) ltac:(lia)) as (qq & Hqq & Hem).
  { q1. cbn. replace (d + 1 - 1) with d by lia. pose proof (Lq_len T d). lia. }
  assert (Hpop : Q1 T TYPE_L (d + 1) = U x :: map U (map sa (zseq (T + 1) (startc d + cntL T d)))).
  { q1. cbn. replace (d + 1 - 1) with d by lia. apply Lq_pop; assumption. }
  rewrite Hqq. cbn [bind]. rewrite Hem, Hpop.
  destruct (q_pop_ok E w _ _ TYPE_L (d + 1) _ _ HQ ltac:(unfold TYPE_L; lia) ltac:(lia) Hpop) as (Q' & -> & HQ'). cbn [bind].
  rewrite U_base. set (s0 := with_Q s Q').
  assert (HA0 : A1 T T s0) by (apply A1_Q; assumption).
  destruct (Z.eqb_spec (ptr x) lastptr) as [He|Hne].
  { apply (p_last _ _ _ _ _ _ _ _ HP) in He; [|lia]. rewrite He in *. pose proof (endc_le_n t n d ltac:(lia)). pose proof (startc_nonneg t n d). cbn [bind]. rewrite inc64_ok by lia. cbn [bind wp]. rewrite u64_small by lia. split; [|lia].
    split; [apply (A1_K_L 0); [lia|assumption|assumption|apply A1_last; assumption]|].
    cbn [with_last i_Q s0 with_Q]. apply (qs_ext _ _ _ _ _ HQ'). intros ty c Hty Hc.
    assert (Hlq : forall e, Lq (T + 1) e = map U (map sa (zseq (Z.max (T + 1) (startc e)) (startc e + cntL T e)))).
    { intros e. unfold Lq. rewrite (cntL_step_none t n); [reflexivity|]. intros j Hj HLj Hs _.
      assert (j + 1 = 0); [|lia]. apply (slot_inj t n _ _ IO); [apply succ_item; assumption|apply L_item; [lia|assumption]|lia]. }
    unfold qup. q1. destruct (Z.eqb_spec ty 1) as [->|Hty1].
    - cbn. rewrite Hlq. destruct (Z.eqb_spec c (d + 1)) as [->|Hc1].
      + replace (d + 1 - 1) with d by lia. rewrite Z.max_l by lia. reflexivity.
      + unfold Lq. rewrite (Lq_zs T d) by lia. reflexivity.
    - cbn [andb]. destruct (Z.eqb_spec ty 0) as [->|Hty0].
      + destruct (Z.eq_dec (c - 1) d) as [Hcd|Hcd]; [|rewrite (Sq_other T d) by lia; reflexivity].
        rewrite Hcd, (Sq_here 0 T d) by assumption. reflexivity.
      + rewrite (Mq_L T d) by lia. reflexivity. }
  assert (Hx0 : 1 <= x). { destruct (Z.eq_dec x 0) as [Hx00|]; [|lia]. destruct Hne. apply (p_last _ _ _ _ _ _ _ _ HP); [lia|assumption]. }
  rewrite (p_prev _ _ _ _ _ _ _ _ HP x ltac:(lia)). cbn [bind].
  replace (d + 1 - 1) with d by lia.
  pose proof (L_pred t n x ltac:(lia) HL) as Hpr. rewrite Htx in Hpr.
  destruct (Z.leb_spec d (t (x - 1))) as [Hge|Hlt].
  - (* induces x - 1 *)
    set (j := x - 1) in *. assert (Hj : 0 <= j < n) by lia. assert (HLj : isS j = false) by lia.
    assert (Hj1 : j + 1 = x) by lia. pose proof (Hb j Hj) as Hbj.
    pose proof (pred_ptr j Hj HLj) as Hpp. rewrite Hj1 in Hpp. replace (ptr x - 1 - base) with (U j) by (unfold U; lia).
    destruct (q_add_ok E w _ _ TYPE_L (t j + 1) (U j) HQ' ltac:(unfold TYPE_L; lia) ltac:(lia) (U_range j ltac:(lia))) as (Q'' & Hqa & HQ'').
    cbn [s0 with_Q i_Q]. rewrite Hqa. cbn [bind].
    destruct (pred_chr j Hj HLj) as (v & Hv1 & Hv2). rewrite Hj1 in Hv1. rewrite Hv1. cbn [bind].
    destruct (A1_put j T T (with_Q s0 Q'') v Hj HLj ltac:(rewrite Hj1; assumption) Hv2 ltac:(apply A1_Q; assumption)) as (s1 & Hs1 & HA1 & HQ1).
    change (with_Q (with_Q s Q') Q'') with (with_Q s0 Q'') in *. rewrite Hs1. cbn [bind].
    change (TYPE_L =? TYPE_LMS) with false. pose proof (endc_le_n t n d ltac:(lia)). cbn [bind]. rewrite inc64_ok by lia. cbn [bind wp]. split; [|lia].
    split; [apply (A1_K_L x); assumption|]. rewrite HQ1. cbn [with_Q i_Q].
    apply (qs_ext _ _ _ _ _ HQ''). intros ty c Hty Hc. unfold qup, TYPE_L. destruct (Z.eqb_spec ty 1) as [->|Hty1].
    + cbn [andb]. unfold Q1. cbn. destruct (Z.eqb_spec c (t j + 1)) as [->|Hcj].
      * replace (t j + 1 - 1) with (t j) by lia. rewrite (Lq_snoc j T Hj HLj) by (rewrite Hj1; assumption). f_equal.
        destruct (Z.eqb_spec (t j + 1) (d + 1)) as [Hjd|Hjd].
        -- replace (t j) with d by lia. rewrite Z.max_l by lia. reflexivity.
        -- unfold Lq. rewrite (Lq_zs T d) by lia. reflexivity.
      * rewrite (Lq_other j T (c - 1) Hj HLj) by (rewrite ?Hj1; (assumption || lia)).
        destruct (Z.eqb_spec c (d + 1)) as [->|Hcd].
        -- replace (d + 1 - 1) with d by lia. rewrite Z.max_l by lia. reflexivity.
        -- unfold Lq. rewrite (Lq_zs T d) by lia. reflexivity.
    + cbn [andb]. q1. replace (ty =? 1) with false by lia. destruct (Z.eqb_spec ty 0) as [->|Hty0].
      * destruct (Z.eq_dec (c - 1) d) as [Hcd|Hcd]; [|rewrite (Sq_other T d) by lia; reflexivity].
        rewrite Hcd, (Sq_here x T d) by assumption. unfold Psel. fold j. rewrite HLj, andb_false_r. reflexivity.
      * rewrite (Mq_L T d) by lia. reflexivity.
  - (* the predecessor is S type: keep x for the second pass *)
    assert (HSj : isS (x - 1) = true) by lia.
    replace (ptr x - base) with (U x) by reflexivity.
    destruct (q_addl_ok E w _ _ TYPE_S (d + 1) (U x) HQ' ltac:(unfold TYPE_S; lia) ltac:(lia) (U_range x ltac:(lia))) as (Q'' & Hqa & HQ'').
    cbn [s0 with_Q i_Q]. rewrite Hqa. pose proof (endc_le_n t n d ltac:(lia)). cbn [bind]. rewrite inc64_ok by lia. cbn [bind wp]. split; [|lia].
    split. { apply A1_Q. apply (A1_K_L x); [assumption|assumption|assumption|]. apply (A1_skip x); [apply L_item; assumption|lia|assumption|split; [lia|assumption]|assumption]. }
    cbn [with_Q i_Q]. apply (qs_ext _ _ _ _ _ HQ''). intros ty c Hty Hc.
    assert (Hlq : forall e, Lq (T + 1) e = map U (map sa (zseq (Z.max (T + 1) (startc e)) (startc e + cntL T e)))).
    { intros e. unfold Lq. rewrite (cntL_step_none t n); [reflexivity|]. intros j Hj HLj Hs _.
      assert (j + 1 = x) by (apply (slot_inj t n _ _ IO); [apply succ_item; assumption|apply L_item; assumption|lia]).
      replace (x - 1) with j in HSj by lia. congruence. }
    unfold qup, TYPE_S, TYPE_L. destruct (Z.eqb_spec ty 0) as [->|Hty0].
    + cbn. unfold Q1. cbn. destruct (Z.eqb_spec c (d + 1)) as [->|Hcd].
      * replace (d + 1 - 1) with d by lia. rewrite (Sq_here x T d) by assumption. unfold Psel. rewrite HSj. replace (0 <? x) with true by lia. reflexivity.
      * rewrite (Sq_other T d) by lia. reflexivity.
    + cbn [andb]. q1. replace (ty =? 0) with false by lia. destruct (Z.eqb_spec ty 1) as [->|Hty1].
      * cbn. rewrite Hlq. destruct (Z.eqb_spec c (d + 1)) as [->|Hc1].
        -- replace (d + 1 - 1) with d by lia. rewrite Z.max_l by lia. reflexivity.
        -- unfold Lq. rewrite (Lq_zs T d) by lia. reflexivity.
      * cbn [andb]. rewrite (Mq_L T d) by lia. reflexivity.
Qed.

(** ** visiting the LMS item of slot T in bucket d *)
Lemma M_zs T d e : startc d + nL d <= T < endc d ->
  zseq (Z.max (T + 1) (startc e)) (startc e + cntL T e) = zseq (Z.max T (startc e)) (startc e + cntL T e).
Proof.
  intros HT. pose proof (endc_split t n d). pose proof (nL_nonneg t n d). pose proof (endc_split t n e). pose proof (nL_nonneg t n e). pose proof (nS_nonneg t n e).
  pose proof (cntL_range T e).
  destruct (Z.lt_trichotomy e d) as [Hd|[Hd|Hd]].
  - pose proof (endc_startc t n e d Hd). rewrite !zseq_nil by lia. reflexivity.
  - subst e. rewrite !zseq_nil by lia. reflexivity.
  - pose proof (endc_startc t n d e Hd). rewrite !Z.max_r by lia. reflexivity.
Qed.
Lemma Sq_M T d e : startc d + nL d <= T < endc d -> Sq (T + 1) e = Sq T e.
Proof.
  intros HT. pose proof (endc_split t n d). pose proof (nL_nonneg t n d). pose proof (endc_split t n e). pose proof (nL_nonneg t n e). pose proof (nS_nonneg t n e).
  destruct (Z.lt_trichotomy e d) as [Hd|[Hd|Hd]].
  - pose proof (endc_startc t n e d Hd). rewrite !Sq_done by lia. reflexivity.
  - subst e. rewrite !Sq_done by lia. reflexivity.
  - pose proof (endc_startc t n d e Hd). rewrite !Sq_todo by lia. reflexivity.
Qed.
Lemma Mq_M T d e : startc d + nL d <= T < endc d -> e <> d -> Mq (T + 1) e = Mq T e.
Proof.
  intros HT Hne. pose proof (endc_split t n d). pose proof (nL_nonneg t n d). pose proof (endc_split t n e). pose proof (nL_nonneg t n e). pose proof (nS_nonneg t n e).
  destruct (Z.lt_trichotomy e d) as [Hd|[Hd|Hd]]; [|lia|].
  - pose proof (endc_startc t n e d Hd). rewrite !Mq_done by lia. reflexivity.
  - pose proof (endc_startc t n d e Hd). rewrite !Mq_todo by lia. reflexivity.
Qed.

Lemma step_M d T s : endc d - nM d <= T < endc d -> I1 T s ->
  wp (induce_step1 E buf base lastptr TYPE_LMS (d + 1) (s, 1 + T)) (fun r => match r with inl (s', m') => I1 (T + 1) s' /\ m' = 1 + (T + 1) | inr _ => False end).
Proof.
  intros HT [HA HQ]. pose proof (endc_split t n d). pose proof (nM_nS t n d).
  destruct (it_bucket t n T d HT) as (HLx & Htx & Hsx). set (x := it T) in *.
  pose proof (LMS_rng t n x HLx) as Hx. pose proof (Hb x ltac:(lia)) as Hbx. rewrite Htx in Hbx.
  assert (HTd : startc d + nL d <= T < endc d) by lia.
  unfold induce_step1.
  destruct (q_empty_ok E w _ _ TYPE_LMS (d + 1) HQ ltac:(unfold TYPE_LMS; lia) ltac:(lia)) as (qq & Hqq & Hem).
  { q1. cbn. replace (d + 1 - 1) with d by lia. pose proof (Mq_len T d). lia. }
  assert (Hpop : Q1 T TYPE_LMS (d + 1) = U x :: map U (map it (zseq (T + 1) (endc d)))).
  { q1. cbn. replace (d + 1 - 1) with d by lia. unfold Mq. rewrite Z.max_l by lia. rewrite zseq_cons by lia. reflexivity. }
  rewrite Hqq. cbn [bind]. rewrite Hem, Hpop.
  destruct (q_pop_ok E w _ _ TYPE_LMS (d + 1) _ _ HQ ltac:(unfold TYPE_LMS; lia) ltac:(lia) Hpop) as (Q' & -> & HQ'). cbn [bind].
  rewrite U_base. set (s0 := with_Q s Q').
  assert (HA0 : A1 T T s0) by (apply A1_Q; assumption).
  destruct (Z.eqb_spec (ptr x) lastptr) as [He|Hne]; [apply (p_last _ _ _ _ _ _ _ _ HP) in He; lia|].
  rewrite (p_prev _ _ _ _ _ _ _ _ HP x ltac:(lia)). cbn [bind].
  replace (d + 1 - 1) with d by lia.
  pose proof (LMS_chr t n x HLx) as Hch. rewrite Htx in Hch.
  replace (d <=? t (x - 1)) with true by lia.
  set (j := x - 1) in *. assert (Hj : 0 <= j < n) by lia.
  assert (HLj : isS j = false) by (apply LMS_spec in HLx; tauto).
  assert (Hj1 : j + 1 = x) by lia. pose proof (Hb j Hj) as Hbj.
  pose proof (pred_ptr j Hj HLj) as Hpp. rewrite Hj1 in Hpp. replace (ptr x - 1 - base) with (U j) by (unfold U; lia).
  destruct (q_add_ok E w _ _ TYPE_L (t j + 1) (U j) HQ' ltac:(unfold TYPE_L; lia) ltac:(lia) (U_range j ltac:(lia))) as (Q'' & Hqa & HQ'').
  cbn [s0 with_Q i_Q]. rewrite Hqa. cbn [bind].
  destruct (pred_chr j Hj HLj) as (v & Hv1 & Hv2). rewrite Hj1 in Hv1. rewrite Hv1. cbn [bind].
  destruct (A1_put j T T (with_Q s0 Q'') v Hj HLj ltac:(rewrite Hj1; assumption) Hv2 ltac:(apply A1_Q; assumption)) as (s1 & Hs1 & HA1 & HQ1).
  change (with_Q (with_Q s Q') Q'') with (with_Q s0 Q'') in *. rewrite Hs1. cbn [bind].
  change (TYPE_LMS =? TYPE_LMS) with true. cbv iota.
  destruct (A1_stack x (T + 1) T s1 HLx Hsx HA1) as (s2 & Hs2 & HA2 & HQ2). rewrite Htx in Hs2. fold j in Hs2. rewrite Hs2. pose proof (endc_le_n t n d ltac:(lia)). cbn [bind]. rewrite inc64_ok by lia. cbn [bind wp].
  split; [|lia]. split; [assumption|]. rewrite HQ2, HQ1. cbn [with_Q i_Q].
  apply (qs_ext _ _ _ _ _ HQ''). intros ty c Hty Hc. unfold qup, TYPE_L, TYPE_LMS. destruct (Z.eqb_spec ty 1) as [->|Hty1].
  - cbn [andb]. unfold Q1. cbn. destruct (Z.eqb_spec c (t j + 1)) as [->|Hcj].
    + replace (t j + 1 - 1) with (t j) by lia. rewrite (Lq_snoc j T Hj HLj) by (rewrite Hj1; assumption). f_equal.
      unfold Lq. rewrite (M_zs T d) by lia. reflexivity.
    + rewrite (Lq_other j T (c - 1) Hj HLj) by (rewrite ?Hj1; (assumption || lia)).
      unfold Lq. rewrite (M_zs T d) by lia. reflexivity.
  - cbn [andb]. q1. replace (ty =? 1) with false by lia. destruct (Z.eqb_spec ty 0) as [->|Hty0].
    + cbn. rewrite (Sq_M T d) by lia. reflexivity.
    + replace (ty =? 2) with true by lia. cbn [andb]. destruct (Z.eqb_spec c (d + 1)) as [->|Hcd].
      * replace (d + 1 - 1) with d by lia. unfold Mq. rewrite Z.max_l by lia. reflexivity.
      * rewrite (Mq_M T d) by lia. reflexivity.
Qed.

(** from the L part to the LMS part of a bucket *)
Lemma I1_jump d s : I1 (startc d + nL d) s -> I1 (endc d - nM d) s.
Proof.
  pose proof (endc_split t n d) as Hsp. pose proof (nM_nS t n d) as Hms. set (T := startc d + nL d). set (T' := endc d - nM d).
  assert (HTT : T <= T') by lia. pose proof (nL_nonneg t n d) as HnL.
  assert (Hno : forall x, item x -> ~ (T <= slot x < T')).
  { intros x Hx Hc. destruct (Z.eq_dec x n) as [->|Hxn].
    { unfold Induced.slot in Hc. rewrite Z.eqb_refl in Hc. pose proof (startc_nonneg t n d). lia. }
    pose proof (slot_bucket t n _ _ IO x Hx Hxn) as (B1 & B2 & B3).
    assert (Ht : t x = d) by (apply (bucket_disj t n) with (r := slot x); lia). rewrite Ht in *.
    destruct (isS x) eqn:HS.
    - destruct Hx as [Hx|[[Hx1 Hx2]|Hx]]; [lia|congruence|]. pose proof (slot_LMS t n x Hx) as Hsl. pose proof (lidx_range t n x Hx).
      rewrite Ht in *. lia.
    - destruct (B2 eq_refl). lia. }
  intros [HA HQ]. split; [apply (A1_jumpK T' T T'); [lia|assumption|]; apply (A1_jump T T'); assumption|].
  apply (qs_ext _ _ _ _ _ HQ). intros ty c Hty Hc. set (e := c - 1). unfold Q1. fold e.
  pose proof (endc_split t n e). pose proof (nL_nonneg t n e). pose proof (nS_nonneg t n e).
  destruct (ty =? TYPE_S).
  { destruct (Z.lt_trichotomy e d) as [Hd|[Hd|Hd]].
    - pose proof (endc_startc t n e d Hd). rewrite !Sq_done by lia. reflexivity.
    - rewrite Hd. rewrite !Sq_done by lia. reflexivity.
    - pose proof (endc_startc t n d e Hd). rewrite !Sq_todo by lia. reflexivity. }
  destruct (ty =? TYPE_L).
  { destruct (Z.lt_trichotomy e d) as [Hd|[Hd|Hd]].
    - pose proof (endc_startc t n e d Hd). rewrite !Lq_done by lia. reflexivity.
    - rewrite Hd. rewrite !Lq_done by lia. reflexivity.
    - pose proof (endc_startc t n d e Hd). rewrite !Lq_todo by lia. rewrite (cntL_jump T T') by assumption. reflexivity. }
  destruct (Z.lt_trichotomy e d) as [Hd|[Hd|Hd]].
  - pose proof (endc_startc t n e d Hd). rewrite !Mq_done by lia. reflexivity.
  - rewrite Hd. unfold Mq. fold T'. rewrite !Z.max_r by lia. reflexivity.
  - pose proof (endc_startc t n d e Hd). rewrite !Mq_todo by lia. reflexivity.
Qed.

(** an exhausted queue stops the inner loop *)
Lemma stop1 ty d T s : 0 <= d < 257 -> 1 <= ty < 3 -> Q1 T ty (d + 1) = [] -> I1 T s ->
  induce_step1 E buf base lastptr ty (d + 1) (s, 1 + T) = Ok (inr s).
Proof.
  intros Hd Hty Hl [HA HQ]. unfold induce_step1.
  destruct (q_empty_ok E w _ _ ty (d + 1) HQ ltac:(lia) ltac:(lia)) as (qq & Hqq & Hem); [rewrite Hl; cbn; lia|].
  rewrite Hqq. cbn [bind]. rewrite Hem, Hl. reflexivity.
Qed.
Lemma loop_L fuel d s : 0 <= d < 257 -> n < Z.of_nat fuel -> I1 (startc d) s ->
  wp (loop fuel (induce_step1 E buf base lastptr TYPE_L (d + 1)) (s, 1 + startc d)) (I1 (startc d + nL d)).
Proof.
  intros Hd Hf HI. pose proof (endc_split t n d). pose proof (nS_nonneg t n d). pose proof (nL_nonneg t n d).
  pose proof (endc_le_n t n d ltac:(lia)). pose proof (startc_nonneg t n d).
  apply (wp_loop (fun '(s, mm) => startc d <= mm - 1 <= startc d + nL d /\ I1 (mm - 1) s) (fun '(_, mm) => startc d + nL d - (mm - 1))).
  - intros [s' mm] [? _]. lia.
  - intros [s' mm] [Hr HI']. replace mm with (1 + (mm - 1)) at 1 by lia. set (T := mm - 1) in *.
    destruct (Z.eq_dec T (startc d + nL d)) as [He|Hne].
    + rewrite stop1; [cbn [wp]; rewrite <- He; assumption|assumption|unfold TYPE_L; lia| |assumption].
      unfold Q1. cbn. replace (d + 1 - 1) with d by lia. apply Lq_done. lia.
    + eapply wp_mono; [apply step_L; [lia|assumption]|]. intros [[s'' mm']|r]; [|contradiction]. intros [H1' ->].
      replace (1 + (T + 1) - 1) with (T + 1) by lia. split; [split; [lia|assumption]|lia].
  - replace (1 + startc d - 1) with (startc d) by lia. split; [lia|assumption].
  - lia.
Qed.
Lemma loop_M fuel d s : 0 <= d < 257 -> n < Z.of_nat fuel -> I1 (endc d - nM d) s ->
  wp (loop fuel (induce_step1 E buf base lastptr TYPE_LMS (d + 1)) (s, 1 + (endc d - nM d))) (I1 (endc d)).
Proof.
  intros Hd Hf HI. pose proof (endc_split t n d). pose proof (nM_nS t n d). pose proof (nL_nonneg t n d).
  pose proof (endc_le_n t n d ltac:(lia)). pose proof (startc_nonneg t n d).
  apply (wp_loop (fun '(s, mm) => endc d - nM d <= mm - 1 <= endc d /\ I1 (mm - 1) s) (fun '(_, mm) => endc d - (mm - 1))).
  - intros [s' mm] [? _]. lia.
  - intros [s' mm] [Hr HI']. replace mm with (1 + (mm - 1)) at 1 by lia. set (T := mm - 1) in *.
    destruct (Z.eq_dec T (endc d)) as [He|Hne].
    + rewrite stop1; [cbn [wp]; rewrite <- He; assumption|assumption|unfold TYPE_LMS; lia| |assumption].
      unfold Q1. cbn. replace (d + 1 - 1) with d by lia. apply Mq_done. lia.
    + eapply wp_mono; [apply step_M; [lia|assumption]|]. intros [[s'' mm']|r]; [|contradiction]. intros [H1' ->].
      replace (1 + (T + 1) - 1) with (T + 1) by lia. split; [split; [lia|assumption]|lia].
  - replace (1 + (endc d - nM d) - 1) with (endc d - nM d) by lia. split; [lia|assumption].
  - lia.
Qed.

(** * The counters of the container *)
Context (M NL C : arr Z).
Context (HM : carr M (fM t n (-1))) (HNL : carr NL (fNL t n (-1))) (HC : carr C (fC t n (-1))).
Lemma fM_val c : 1 <= c < 258 -> fM t n (-1) c = endc (c - 1) - startc (c - 1).
Proof.
  intros Hc. unfold fM. replace (c =? 0) with false by lia. change (-1 + 1) with 0. unfold Induced.endc, Induced.startc.
  rewrite (cnt_disj (fun i => t i <? c - 1) (fun i => t i =? c - 1) (fun i => t i <=? c - 1)) by (intros; lia). lia.
Qed.
Lemma fNL_val c : fNL t n (-1) c = nL (c - 1).
Proof. reflexivity. Qed.
Lemma fC_val c : 1 <= c < 258 -> fC t n (-1) c = nM (c - 1).
Proof.
  intros Hc. unfold fC. replace (c =? 0) with false by lia. change (-1 + 2) with 1. unfold P_InduceBase.nM.
  rewrite (cnt_cons _ 0 n) by lia. change (LMS 0) with false. cbn [andb]. change (0 + 1) with 1. lia.
Qed.

Theorem pass1_ok fuel M3 s : n < Z.of_nat fuel -> (forall c, 1 <= c < 258 -> av M3 c = Some (1 + startc (c - 1))) -> I1 0 s ->
  wp (induce_pass1 E fuel buf base lastptr M M3 C s) (I1 n).
Proof.
  intros Hf HM3 HI. unfold induce_pass1.
  rewrite <- (startc_256 t n ltac:(lia) Hb). change 256 with (257 - 1).
  assert (Hend : startc (257 - 1) = startc (258 - 1)).
  { change (258 - 1) with (256 + 1). rewrite startc_succ. change (257 - 1) with 256. pose proof (endc_split t n 256). pose proof (nL_nonneg t n 256).
    pose proof (nS_nonneg t n 256). pose proof (startc_256 t n ltac:(lia) Hb). pose proof (endc_le_n t n 256 ltac:(lia)). lia. }
  rewrite Hend.
  apply (wp_for_up (fun c s => I1 (startc (c - 1)) s)); [lia| |].
  - change (1 - 1) with 0. rewrite startc_0 by assumption. assumption.
  - intros c s' Hc HI'. set (d := c - 1) in *. replace (c + 1 - 1) with (d + 1) by lia. rewrite startc_succ.
    assert (Hcd : c = d + 1) by lia. clearbody d. subst c.
    pose proof (HM3 (d + 1) ltac:(lia)) as Hm3. replace (d + 1 - 1) with d in Hm3 by lia.
    unfold for_up. change (Z.to_nat (3 - 1)) with 2%nat. cbn [for_n].
    rewrite (aget_ok _ _ _ Hm3). cbn [bind]. change (1 =? TYPE_LMS) with false. cbv iota. cbn [bind].
    pose proof (endc_split t n d). pose proof (nS_nonneg t n d). pose proof (nL_nonneg t n d). pose proof (nM_nS t n d). pose proof (endc_le_n t n d ltac:(lia)). pose proof (startc_nonneg t n d).
    rewrite !(sw64_small (1 + startc d)) by lia.
    eapply wp_bind_mono; [apply loop_L; [lia|assumption|assumption]|]. cbn beta. intros s1 HI1.
    change (1 + 1 =? TYPE_LMS) with true. cbv iota.
    rewrite (aget_ok _ _ _ (proj2 HM (d + 1) ltac:(lia))). rewrite (aget_ok _ _ _ (proj2 HC (d + 1) ltac:(lia))). cbn [bind].
    rewrite fM_val, fC_val by lia. replace (d + 1 - 1) with d by lia.
    replace (1 + startc d + (endc d - startc d - nM d)) with (1 + (endc d - nM d)) by lia. rewrite sw64_small by lia.
    eapply wp_bind_mono; [apply loop_M; [lia|assumption|apply I1_jump; assumption]|]. cbn beta. intros s2 HI2. exact HI2.
Qed.

Theorem bucket_starts_ok : wp (bucket_starts M) (fun M2 => alen M2 = 258 /\ av M2 0 = Some 0 /\ forall c, 1 <= c < 258 -> av M2 c = Some (1 + startc (c - 1))).
Proof.
  unfold bucket_starts. set (S := fun c => if c =? 0 then 0 else 1 + startc (c - 1)).
  assert (HSr : forall i, 0 <= i <= 258 -> 0 <= S i <= n + 1).
  { intros i Hi. unfold S. destruct (Z.eqb_spec i 0); [lia|]. pose proof (startc_nonneg t n (i - 1)). pose proof (endc_split t n (i - 1)). pose proof (nL_nonneg t n (i - 1)).
    pose proof (nS_nonneg t n (i - 1)). pose proof (endc_le_n t n (i - 1) ltac:(lia)). lia. }
  eapply wp_bind_mono.
  { apply (wp_for_up (fun i '(M2, cc) => alen M2 = 258 /\ cc = S i /\ forall c, 0 <= c < i -> av M2 c = Some (S c))); [lia| |].
    - split; [apply alen_new|]. split; [reflexivity|intros; lia].
    - intros i [M2 cc] Hi (Hl & -> & Hv). rewrite aset_ok by lia. cbn [bind]. rewrite (aget_ok _ _ _ (proj2 HM i Hi)). cbn [bind wp].
      assert (Hnext : S i + fM t n (-1) i = S (i + 1)).
      { unfold S. replace (i + 1 =? 0) with false by lia. replace (i + 1 - 1) with i by lia. destruct (Z.eqb_spec i 0) as [->|Hne].
        * rewrite startc_0 by assumption. reflexivity.
        * rewrite fM_val by lia. replace i with (i - 1 + 1) at 4 by lia. rewrite startc_succ. lia. }
      pose proof (HSr i ltac:(lia)). pose proof (HSr (i + 1) ltac:(lia)).
      split; [rewrite alen_upd; assumption|]. split; [rewrite sw64_small by lia; assumption|].
      intros c Hc. rewrite av_upd by lia. destruct (Z.eqb_spec c i) as [->|]; [rewrite u64_small by lia; reflexivity|]. apply Hv. lia. }
  cbn beta. intros [M2 cc] (Hl & _ & Hv). cbn [wp]. split; [assumption|]. split; [apply (Hv 0); lia|].
  intros c Hc. rewrite Hv by lia. unfold S. replace (c =? 0) with false by lia. reflexivity.
Qed.
Theorem stype_starts_ok M2 : alen M2 = 258 -> av M2 0 = Some 0 -> (forall c, 1 <= c < 258 -> av M2 c = Some (1 + startc (c - 1))) ->
  wp (stype_starts M2 NL) (fun C2 => alen C2 = 258 /\ av C2 0 = Some 0 /\ forall c, 1 <= c < 258 -> av C2 c = Some (1 + startc (c - 1) + nL (c - 1))).
Proof.
  intros Hl H0 Hv. unfold stype_starts. set (S := fun c => if c =? 0 then 0 else 1 + startc (c - 1)).
  assert (HS : forall c, 0 <= c < 258 -> av M2 c = Some (S c)).
  { intros c Hc. unfold S. destruct (Z.eqb_spec c 0) as [->|]; [assumption|apply Hv; lia]. }
  assert (HnL0 : nL (0 - 1) = 0). { apply cnt_false. intros i Hi. specialize (Hb i Hi). lia. }
  eapply wp_mono.
  { apply (wp_for_up (fun i C2 => alen C2 = 258 /\ forall c, 0 <= c < i -> av C2 c = Some (S c + nL (c - 1)))); [lia| |].
    - split; [apply alen_new|intros; lia].
    - intros i C2 Hi (Hl' & Hv'). rewrite (aget_ok _ _ _ (HS i Hi)). cbn [bind]. rewrite (aget_ok _ _ _ (proj2 HNL i Hi)). cbn [bind].
      assert (Hr : 0 <= S i + nL (i - 1) < 2 ^ 64).
      { unfold S. pose proof (nL_nonneg t n (i - 1)). pose proof (startc_nonneg t n (i - 1)). pose proof (endc_split t n (i - 1)).
        pose proof (nS_nonneg t n (i - 1)). pose proof (endc_le_n t n (i - 1) ltac:(lia)). destruct (i =? 0); lia. }
      rewrite fNL_val. rewrite u64_small by exact Hr. rewrite aset_ok by lia. cbn [wp]. split; [rewrite alen_upd; assumption|].
      intros c Hc. rewrite av_upd by lia. destruct (Z.eqb_spec c i) as [->|]; [reflexivity|]. apply Hv'. lia. }
  cbn beta. intros C2 (Hl' & Hv'). split; [assumption|]. split.
  - rewrite Hv' by lia. rewrite HnL0. reflexivity.
  - intros c Hc. rewrite Hv' by lia. unfold S. replace (c =? 0) with false by lia. reflexivity.
Qed.

(** * The LMS queues *)
Context (star : Z -> Z) (Hst : stars t n star).
Definition stq (k e : Z) : list Z := map U (map star (filter (fun j => t (star j) =? e) (zseq k (m + 1)))).
Lemma star_rng j : 1 <= j <= m -> 0 <= star j < n.
Proof. intros Hj. pose proof (LMS_rng t n _ (st_L _ _ _ Hst j Hj)). lia. Qed.
Lemma stq_Mq T e : T <= startc e + nL e -> stq 1 e = Mq T e.
Proof.
  intros HT. rewrite Mq_todo by assumption. unfold stq. f_equal.
  set (l := map star (filter (fun j => t (star j) =? e) (zseq 1 (m + 1)))).
  assert (Hin : forall x, In x l <-> LMS x = true /\ t x = e).
  { intros x. unfold l. rewrite in_map_iff. split.
    - intros (j & <- & Hj). apply filter_In in Hj as [Hj1 Hj2]. apply in_zseq in Hj1. split; [apply (st_L _ _ _ Hst); lia|lia].
    - intros [Hx Ht]. destruct (st_all _ _ _ Hst x Hx) as (i & Hi & <-). exists i. split; [reflexivity|]. apply filter_In. split; [apply in_zseq; lia|lia]. }
  assert (Hz : map slot l = zseq (endc e - nM e) (endc e)).
  { apply inc_zseq.
    - unfold l. rewrite map_map. apply (ss_map Z.lt).
      + intros i j Hi Hj Hij. apply filter_In in Hi as [Hi1 Hi2]. apply filter_In in Hj as [Hj1 Hj2]. apply in_zseq in Hi1, Hj1.
        pose proof (st_L _ _ _ Hst i ltac:(lia)) as Li. pose proof (st_L _ _ _ Hst j ltac:(lia)) as Lj.
        rewrite !slot_LMS by assumption. pose proof (st_lt _ _ _ Hst i j ltac:(lia) Hij ltac:(lia)) as Hlt.
        assert (Htt : t (star i) = t (star j)) by lia. apply (lidx_lt t n _ _ Li Lj Htt) in Hlt. rewrite Htt. lia.
      + apply ss_filter, zseq_sorted.
    - intros s. rewrite in_map_iff. split.
      + intros (x & <- & Hx). apply Hin in Hx as [HLx Htx]. rewrite slot_LMS by assumption. pose proof (lidx_range t n x HLx). rewrite Htx in *. lia.
      + intros Hs. destruct (it_bucket t n s e Hs) as (H1 & H2 & H3). exists (it s). split; [assumption|]. apply Hin. split; assumption. }
  rewrite <- Hz. rewrite map_map. rewrite <- (map_id l) at 1. apply map_ext_in. intros x Hx. apply Hin in Hx as [HLx Htx].
  pose proof (LMS_rng t n x HLx). rewrite it_slot; [reflexivity|lia|apply LMS_item; assumption].
Qed.

Definition Q0 (ty c : Z) : list Z :=
  if ty =? TYPE_LMS then (if c =? 0 then [U n] else Mq 0 (c - 1)) else [].
Lemma fill_lms_ok SA Q : (forall i, 0 <= i <= m -> av SA i = Some (ptr (star i) - base)) -> qs E w Q (fun _ _ => []) ->
  wp (fill_lms E buf base m (aget SA) Q) (fun Q => qs E w Q Q0).
Proof.
  intros HSA HQ. unfold fill_lms. pose proof (cnt_nonneg LMS 0 n) as Hm0.
  eapply wp_mono.
  { apply (wp_for_down (fun i Q => qs E w Q (fun ty c => if ty =? TYPE_LMS then
        (if c =? 0 then (if i <? 0 then [U n] else []) else stq (Z.max 1 (i + 1)) (c - 1)) else []))); [lia| |].
    - apply (qs_ext _ _ _ _ _ HQ). intros ty c Hty Hc. destruct (ty =? TYPE_LMS); [|reflexivity]. replace (m <? 0) with false by lia.
      unfold stq. rewrite zseq_nil by lia. destruct (c =? 0); reflexivity.
    - intros i Q' Hi HQ'. rewrite (aget_ok _ _ _ (HSA i ltac:(lia))). cbn [bind]. replace (ptr (star i) - base + base) with (ptr (star i)) by lia.
      replace (ptr (star i) - base) with (U (star i)) by reflexivity.
      destruct (Z.eqb_spec i 0) as [->|Hne].
      + cbn [bind]. change (-1 + 1) with 0. rewrite (st_0 _ _ _ Hst).
        destruct (q_addl_ok E w _ _ TYPE_LMS 0 (U n) HQ' ltac:(unfold TYPE_LMS; lia) ltac:(lia) (U_range n ltac:(lia))) as (Q'' & -> & HQ'').
        cbn [wp]. apply (qs_ext _ _ _ _ _ HQ''). intros ty c Hty Hc. unfold qup. destruct (ty =? TYPE_LMS); [|reflexivity]. cbn [andb].
        destruct (Z.eqb_spec c 0); reflexivity.
      + pose proof (star_rng i ltac:(lia)) as Hsr. rewrite (p_chr _ _ _ _ _ _ _ _ HP _ Hsr). cbn [bind]. pose proof (Hb _ Hsr) as Hbs.
        destruct (q_addl_ok E w _ _ TYPE_LMS (t (star i) + 1) (U (star i)) HQ' ltac:(unfold TYPE_LMS; lia) ltac:(lia) (U_range (star i) ltac:(lia))) as (Q'' & -> & HQ'').
        cbn [wp]. apply (qs_ext _ _ _ _ _ HQ''). intros ty c Hty Hc. unfold qup. destruct (ty =? TYPE_LMS); [|reflexivity]. cbn [andb].
        change (TYPE_LMS =? TYPE_LMS) with true. cbv iota. replace (i - 1 <? 0) with (i <? 0) by lia.
        replace (Z.max 1 (i + 1)) with (i + 1) by lia. replace (Z.max 1 (i - 1 + 1)) with i by lia.
        destruct (Z.eqb_spec c (t (star i) + 1)) as [->|Hcc].
        * replace (t (star i) + 1 =? 0) with false by lia. replace (t (star i) + 1 - 1) with (t (star i)) by lia.
          unfold stq. rewrite (zseq_cons i) by lia. cbn [filter]. rewrite Z.eqb_refl. reflexivity.
        * destruct (Z.eqb_spec c 0); [reflexivity|]. unfold stq. rewrite (zseq_cons i) by lia. cbn [filter].
          replace (t (star i) =? c - 1) with false by lia. reflexivity. }
  cbn beta. intros Q' HQ'. apply (qs_ext _ _ _ _ _ HQ'). intros ty c Hty Hc. unfold Q0. destruct (ty =? TYPE_LMS); [|reflexivity].
  destruct (Z.eqb_spec c 0); [reflexivity|]. apply stq_Mq. pose proof (startc_nonneg t n (c - 1)). pose proof (nL_nonneg t n (c - 1)). lia.
Qed.

(** * The sentinel suffix *)
Lemma first_ok s : qs E w (i_Q s) Q0 -> alen (i_BWT s) = n + 1 ->
  alen (i_M2 s) = 258 -> (forall c, 1 <= c < 258 -> av (i_M2 s) c = Some (1 + startc (c - 1))) ->
  alen (i_C2 s) = 258 -> av (i_C2 s) 0 = Some 0 -> (forall c, 1 <= c < 258 -> av (i_C2 s) c = Some (1 + startc (c - 1) + nL (c - 1))) ->
  wp (induce_first E buf base s) (I1 0).
Proof.
  intros HQ HB HM2l HM2 HC2l HC20 HC2. unfold induce_first.
  destruct (q_pop_ok E w _ _ TYPE_LMS 0 (U n) [] HQ ltac:(unfold TYPE_LMS; lia) ltac:(lia) eq_refl) as (Q' & -> & HQ'). cbn [bind].
  rewrite U_base. rewrite (p_prev _ _ _ _ _ _ _ _ HP n ltac:(lia)). cbn [bind]. rewrite aset_ok by lia. cbn [bind].
  set (j := n - 1). assert (Hj : 0 <= j < n) by lia. pose proof (Hb j Hj) as Hbj. assert (HLj : isS j = false) by apply isS_last.
  pose proof (pred_ptr j Hj HLj) as Hpp. replace (j + 1) with n in Hpp by lia. replace (ptr n - 1 - base) with (U j) by (unfold U; lia).
  destruct (q_add_ok E w _ _ TYPE_L (t j + 1) (U j) HQ' ltac:(unfold TYPE_L; lia) ltac:(lia) (U_range j ltac:(lia))) as (Q'' & -> & HQ'').
  cbn [bind]. destruct (pred_chr j Hj HLj) as (v & Hv1 & Hv2). replace (j + 1) with n in Hv1 by lia. rewrite Hv1. cbn [bind].
  unfold put_M2_up. cbn [i_M2 i_BWT i_Q i_C2 i_last].
  rewrite (aget_ok _ _ _ (HM2 (t j + 1) ltac:(lia))). cbn [bind]. replace (t j + 1 - 1) with (t j) by lia.
  assert (Hsn : slot n = -1) by (unfold Induced.slot; rewrite Z.eqb_refl; reflexivity).
  pose proof (rk_range t n _ _ IO j Hj) as Hrr.
  assert (Hcm1 : cntL (-1) (t j) = 0).
  { pose proof (cntL_zero_last t n _ _ IO ltac:(lia)) as H1. pose proof (cntL_step t n _ _ IO j Hj HLj) as H2. replace (j + 1) with n in H2 by lia.
    rewrite Hsn in H2. change (-1 + 1) with 0 in H2. fold j in H1. lia. }
  pose proof (insL_rank t n _ _ IO j Hj HLj) as Hr. replace (j + 1) with n in Hr by lia. rewrite Hsn, Hcm1 in Hr.
  rewrite u64_small by lia. rewrite aset_ok by lia. cbn [bind]. replace (1 + startc (t j)) with (1 + rk j) by lia. rewrite aset_ok by (rewrite alen_upd; lia). cbn [bind].
  unfold put_C2_up. cbn [i_M2 i_BWT i_Q i_C2 i_last].
  rewrite (aget_ok _ _ _ HC20). cbn [bind]. rewrite u64_small by lia. rewrite aset_ok by lia. cbn [bind]. rewrite aset_ok by (rewrite !alen_upd; lia). cbn [bind wp].
  assert (Hslot : forall x, item x -> x <> n -> 0 <= slot x).
  { intros x Hx Hxn. pose proof (slot_bucket t n _ _ IO x Hx Hxn) as (B1 & _). pose proof (startc_nonneg t n (t x)). lia. }
  split.
  - constructor; cbn [i_M2 i_BWT i_Q i_C2 i_last].
    + rewrite alen_upd. assumption.
    + intros e He. rewrite av_upd by lia. destruct (Z.eqb_spec (e + 1) (t j + 1)) as [Hee|Hee].
      * replace e with (t j) by lia. pose proof (cntL_zero_last t n _ _ IO ltac:(lia)) as H1. fold j in H1. rewrite H1. f_equal. lia.
      * rewrite HM2 by lia. replace (e + 1 - 1) with e by lia. rewrite (cntL_zero t n _ _ IO); [f_equal; lia|]. fold j. lia.
    + rewrite alen_upd. assumption.
    + intros e He. rewrite av_upd_other by lia. rewrite HC2 by lia. replace (e + 1 - 1) with e by lia.
      assert (Hk : cK 0 e = 0).
      { apply cnt_false. intros f Hf. destruct (LMS f) eqn:HLf; [|reflexivity]. pose proof (Hslot f (LMS_item f HLf) ltac:(lia)). lia. }
      rewrite Hk. f_equal. lia.
    + rewrite !alen_upd. assumption.
    + rewrite av_upd by (rewrite !alen_upd; lia). reflexivity.
    + intros i Hi HLi Hs. assert (i = j).
      { destruct (Z.eq_dec (i + 1) n) as [|Hne]; [lia|]. pose proof (Hslot (i + 1) (succ_item t n i ltac:(lia) HLi) Hne). lia. }
      subst i. rewrite av_upd by (rewrite !alen_upd; lia). replace (1 + rk j =? 0) with false by lia.
      rewrite av_upd by (rewrite alen_upd; lia). rewrite Z.eqb_refl. rewrite Hv2 by lia. reflexivity.
    + intros x HLx Hs. pose proof (LMS_rng t n x HLx). pose proof (Hslot x (LMS_item x HLx) ltac:(lia)). lia.
    + intros HL0 Hr0. pose proof (rk_range t n _ _ IO 0 ltac:(lia)). lia.
  - cbn [i_Q]. apply (qs_ext _ _ _ _ _ HQ''). intros ty c Hty Hc. unfold qup, Q0, Q1, TYPE_L, TYPE_LMS, TYPE_S.
    destruct (Z.eqb_spec ty 1) as [->|Hty1].
    + cbn [andb]. cbn. destruct (Z.eqb_spec c (t j + 1)) as [->|Hcc].
      * replace (t j + 1 - 1) with (t j) by lia. unfold Lq. pose proof (cntL_zero_last t n _ _ IO ltac:(lia)) as H1. fold j in H1. rewrite H1.
        pose proof (startc_nonneg t n (t j)). rewrite Z.max_r by lia. rewrite zseq_cons by lia. rewrite zseq_nil by lia. cbn [map].
        replace (startc (t j)) with (rk j) by lia. rewrite sa_rk by lia. reflexivity.
      * symmetry. unfold Lq. rewrite zseq_nil; [reflexivity|]. rewrite (cntL_zero t n _ _ IO) by (fold j; lia). lia.
    + cbn [andb]. replace (ty =? 1) with false by lia. destruct (Z.eqb_spec ty 0) as [->|Hty0].
      * cbn. symmetry. apply Sq_todo. apply startc_nonneg.
      * replace (ty =? 2) with true by lia. cbn [andb]. destruct (Z.eqb_spec c 0) as [->|Hc0]; [|reflexivity].
        symmetry. apply Mq_done. change (0 - 1) with (-1). rewrite endc_m1 by assumption. lia.
Qed.
End Pass1.
