(** Abstract theory of induced sorting: ranks of L- and S-type positions in an order that
    is compatible with left-to-right and right-to-left induction. *)
From Verif Require Import Count Spec Text.
From Coq Require Import ZifyBool.
Open Scope Z_scope.

Section Ind.
Context (t : Z -> Z) (n : Z).
Notation isS := (isS t n).
Notation LMS := (LMS t n).
Context (lt lt0 : Z -> Z -> bool).

(** first position with character >= c, first position with character > c *)
Definition startc (c : Z) : Z := cnt (fun i => t i <? c) 0 n.
Definition endc (c : Z) : Z := cnt (fun i => t i <=? c) 0 n.
Definition nL (c : Z) : Z := cnt (fun i => (t i =? c) && negb (isS i)) 0 n.
Definition nS (c : Z) : Z := cnt (fun i => (t i =? c) && isS i) 0 n.

(** order of the items met by the left-to-right scan: n, L positions, LMS positions *)
Definition ilt (x y : Z) : bool :=
  if x =? n then negb (y =? n) else if y =? n then false else
  if negb (t x =? t y) then t x <? t y else
  match isS x, isS y with
  | false, true => true | true, false => false
  | true, true => lt0 x y | false, false => lt x y
  end.

Record indord : Prop := {
  io_irr : forall i, 0 <= i < n -> lt i i = false;
  io_trans : forall i j k, 0 <= i < n -> 0 <= j < n -> 0 <= k < n -> lt i j = true -> lt j k = true -> lt i k = true;
  io_tot : forall i j, 0 <= i < n -> 0 <= j < n -> i <> j -> lt i j = true \/ lt j i = true;
  io_irr0 : forall i, LMS i = true -> lt0 i i = false;
  io_trans0 : forall i j k, LMS i = true -> LMS j = true -> LMS k = true -> lt0 i j = true -> lt0 j k = true -> lt0 i k = true;
  io_tot0 : forall i j, LMS i = true -> LMS j = true -> i <> j -> lt0 i j = true \/ lt0 j i = true;
  io_chr : forall i j, 0 <= i < n -> 0 <= j < n -> t i < t j -> lt i j = true;
  io_LS : forall i j, 0 <= i < n -> 0 <= j < n -> t i = t j -> isS i = false -> isS j = true -> lt i j = true;
  io_L : forall i j, 0 <= i < n -> 0 <= j < n -> t i = t j -> isS i = false -> isS j = false -> i <> j ->
     lt i j = ilt (i + 1) (j + 1);
  io_S : forall i j, 0 <= i < n -> 0 <= j < n -> t i = t j -> isS i = true -> isS j = true -> i <> j ->
     lt i j = lt (i + 1) (j + 1);
  io_Lsucc : forall i, 0 <= i -> i + 1 < n -> isS i = false -> isS (i + 1) = false -> lt (i + 1) i = true;
  io_Ssucc : forall i, 0 <= i < n -> isS i = true -> lt i (i + 1) = true }.

Context (IO : indord).

Definition rk (j : Z) : Z := cnt (fun i => lt i j) 0 n.

Lemma rk_rank j : rk j = rank (fun _ => true) lt 0 n j.
Proof. reflexivity. Qed.
Lemma memI i : 0 <= i < n -> mem_ (fun _ => true) 0 n i.
Proof. intros H. split; [exact H|reflexivity]. Qed.
Lemma Imem i : mem_ (fun _ => true) 0 n i -> 0 <= i < n.
Proof. intros [H _]; exact H. Qed.

Lemma rk_range j : 0 <= j < n -> 0 <= rk j < n.
Proof.
  intros H. rewrite rk_rank. pose proof (rank_range (fun _ => true) lt 0 n) as Hr.
  specialize (Hr (fun i Hi => io_irr IO i (Imem i Hi)) j (memI j H)).
  rewrite (cnt_true (fun _ => true)) in Hr by (lia || reflexivity). lia.
Qed.
Lemma rk_lt i j : 0 <= i < n -> 0 <= j < n -> (lt i j = true <-> rk i < rk j).
Proof.
  intros Hi Hj. rewrite !rk_rank. apply rank_lt_iff; try (apply memI; assumption).
  - intros x Hx. apply (io_irr IO), Imem, Hx.
  - intros x y z Hx Hy Hz. apply (io_trans IO); apply Imem; assumption.
  - intros x y Hx Hy. apply (io_tot IO); apply Imem; assumption.
Qed.
Lemma rk_ltb i j : 0 <= i < n -> 0 <= j < n -> lt i j = (rk i <? rk j).
Proof. intros Hi Hj. pose proof (rk_lt i j Hi Hj). lia. Qed.
Lemma rk_inj i j : 0 <= i < n -> 0 <= j < n -> rk i = rk j -> i = j.
Proof.
  intros Hi Hj H. destruct (Z.eq_dec i j) as [|Hne]; [assumption|].
  destruct (io_tot IO i j Hi Hj Hne) as [H1|H1]; apply rk_lt in H1; lia.
Qed.
Lemma rk_surj q : 0 <= q < n -> exists j, 0 <= j < n /\ rk j = q.
Proof.
  intros Hq. destruct (rank_surj (fun _ => true) lt 0 n) with (q := q) as (j & Hj & Hr).
  - intros x Hx. apply (io_irr IO), Imem, Hx.
  - intros x y z Hx Hy Hz. apply (io_trans IO); apply Imem; assumption.
  - intros x y Hx Hy. apply (io_tot IO); apply Imem; assumption.
  - rewrite (cnt_true (fun _ => true)) by (lia || reflexivity). lia.
  - exists j. split; [apply Imem, Hj|exact Hr].
Qed.

Lemma endc_split c : endc c = startc c + nL c + nS c.
Proof.
  unfold endc, startc, nL, nS.
  rewrite (cnt_disj (fun i => t i <? c) (fun i => t i =? c)) by (intros; lia).
  rewrite (cnt_by (fun i => t i =? c) isS). lia.
Qed.
Lemma nL_nonneg c : 0 <= nL c. Proof. apply cnt_nonneg. Qed.
Lemma nS_nonneg c : 0 <= nS c. Proof. apply cnt_nonneg. Qed.
Lemma startc_nonneg c : 0 <= startc c. Proof. apply cnt_nonneg. Qed.
Lemma endc_le_n c : 0 <= n -> endc c <= n.
Proof. intros H. unfold endc. pose proof (cnt_range (fun i => t i <=? c) n 0). lia. Qed.
Lemma endc_startc c d : c < d -> endc c <= startc d.
Proof. intros H. apply cnt_le. intros; lia. Qed.

(** rank of an L position inside its bucket *)
Definition rkL (j : Z) : Z := cnt (fun i => (t i =? t j) && negb (isS i) && lt i j) 0 n.
Lemma rk_L j : 0 <= j < n -> isS j = false -> rk j = startc (t j) + rkL j /\ 0 <= rkL j < nL (t j).
Proof.
  intros Hj HL. split.
  - unfold rk, startc, rkL. apply cnt_disj.
    + intros i Hi. destruct (Z.lt_trichotomy (t i) (t j)) as [H|[H|H]].
      * rewrite (io_chr IO i j) by assumption. lia.
      * destruct (isS i) eqn:HS; [|lia].
        pose proof (io_LS IO j i Hj Hi ltac:(lia) HL HS) as Hc.
        destruct (lt i j) eqn:Hl; [|lia].
        pose proof (io_trans IO i j i Hi Hj Hi Hl Hc) as Hc2. rewrite (io_irr IO) in Hc2 by lia. discriminate.
      * pose proof (io_chr IO j i Hj Hi H) as Hc.
        destruct (lt i j) eqn:Hl; [|lia].
        pose proof (io_trans IO i j i Hi Hj Hi Hl Hc) as Hc2. rewrite (io_irr IO) in Hc2 by lia. discriminate.
    + intros i Hi. lia.
  - unfold rkL, nL. split; [apply cnt_nonneg|]. apply (cnt_strict _ _ j).
    + intros i _ H. lia.
    + lia.
    + rewrite HL. lia.
    + rewrite (io_irr IO) by lia. lia.
Qed.

(** distance of an S position from the end of its bucket *)
Definition rkS (j : Z) : Z := cnt (fun i => (t i =? t j) && isS i && lt j i) 0 n.
Lemma lt_asym i j : 0 <= i < n -> 0 <= j < n -> lt i j = true -> lt j i = false.
Proof.
  intros Hi Hj H. destruct (lt j i) eqn:H2; [|reflexivity].
  pose proof (io_trans IO i j i Hi Hj Hi H H2) as Hc. rewrite (io_irr IO) in Hc by lia. discriminate.
Qed.
Lemma rk_S j : 0 <= j < n -> isS j = true -> rk j = endc (t j) - 1 - rkS j /\ 0 <= rkS j < nS (t j).
Proof.
  intros Hj HS. split.
  - assert (Hsum : endc (t j) = rk j + cnt (fun i => ((t i =? t j) && isS i && lt j i) || (i =? j)) 0 n).
    { unfold endc, rk. apply cnt_disj.
      - intros i Hi. destruct (Z.eq_dec i j) as [->|Hne]; [rewrite (io_irr IO) by lia; lia|].
        destruct (Z.lt_trichotomy (t i) (t j)) as [H|[H|H]].
        + rewrite (io_chr IO i j) by assumption. lia.
        + destruct (isS i) eqn:HSi.
          * destruct (io_tot IO i j Hi Hj Hne) as [H1|H1]; rewrite H1; lia.
          * rewrite (io_LS IO i j) by (assumption || lia). lia.
        + pose proof (io_chr IO j i Hj Hi H) as Hc. rewrite (lt_asym j i) by assumption. lia.
      - intros i Hi. destruct (Z.eq_dec i j) as [->|Hne]; [rewrite (io_irr IO) by lia; lia|].
        destruct (lt j i) eqn:H1; [rewrite (lt_asym j i) by assumption; lia|lia]. }
    rewrite (cnt_disj (fun i => (t i =? t j) && isS i && lt j i) (fun i => i =? j)) in Hsum.
    + rewrite cnt_eq1 in Hsum by lia. unfold rkS. lia.
    + intros; reflexivity.
    + intros i Hi. destruct (Z.eqb_spec i j); [subst; rewrite (io_irr IO) by lia|]; lia.
  - unfold rkS, nS. split; [apply cnt_nonneg|]. apply (cnt_strict _ _ j).
    + intros i _ H. lia.
    + lia.
    + rewrite HS. lia.
    + rewrite (io_irr IO) by lia. lia.
Qed.

(** initial slot of an LMS position *)
Definition pos0 (e : Z) : Z := endc (t e) - 1 - cnt (fun f => LMS f && (t f =? t e) && lt0 e f) 0 n.

Lemma LMS_S e : LMS e = true -> isS e = true.
Proof. intros H. apply LMS_spec in H. tauto. Qed.
Lemma LMS_rng e : LMS e = true -> 0 < e < n.
Proof. intros H. apply LMS_spec in H. tauto. Qed.

Lemma pos0_range e : LMS e = true -> endc (t e) - nS (t e) <= pos0 e < endc (t e).
Proof.
  intros He. unfold pos0.
  assert (H : cnt (fun f => LMS f && (t f =? t e) && lt0 e f) 0 n < nS (t e)).
  { unfold nS. apply (cnt_strict _ _ e).
    - intros i _ H. destruct (LMS i) eqn:HL; [|lia]. rewrite (LMS_S i) by assumption. lia.
    - pose proof (LMS_rng e He). lia.
    - rewrite (LMS_S e) by assumption. lia.
    - rewrite (io_irr0 IO) by assumption. lia. }
  pose proof (cnt_nonneg (fun f => LMS f && (t f =? t e) && lt0 e f) 0 n). lia.
Qed.

Lemma pos0_lt e f : LMS e = true -> LMS f = true -> t e = t f -> lt0 e f = true -> pos0 e < pos0 f.
Proof.
  intros He Hf Ht H. unfold pos0. rewrite Ht.
  assert (cnt (fun x => LMS x && (t x =? t f) && lt0 f x) 0 n < cnt (fun x => LMS x && (t x =? t f) && lt0 e x) 0 n); [|lia].
  apply (cnt_strict _ _ f).
  - intros i _ Hi. destruct (LMS i) eqn:HL; [|lia].
    assert (lt0 f i = true) by lia. rewrite (io_trans0 IO e f i) by assumption. lia.
  - pose proof (LMS_rng f Hf). lia.
  - rewrite Hf, H. lia.
  - rewrite (io_irr0 IO) by assumption. lia.
Qed.

Lemma pos0_inj e f : LMS e = true -> LMS f = true -> pos0 e = pos0 f -> e = f.
Proof.
  intros He Hf H. pose proof (pos0_range e He). pose proof (pos0_range f Hf).
  destruct (Z.eq_dec e f) as [|Hne]; [assumption|].
  destruct (Z.lt_trichotomy (t e) (t f)) as [Hl|[Hl|Hl]].
  - pose proof (endc_startc _ _ Hl). pose proof (endc_split (t f)). pose proof (nL_nonneg (t f)). lia.
  - destruct (io_tot0 IO e f He Hf Hne) as [H2|H2]; apply pos0_lt in H2; try assumption; lia.
  - pose proof (endc_startc _ _ Hl). pose proof (endc_split (t e)). pose proof (nL_nonneg (t e)). lia.
Qed.

(** time at which the left-to-right scan meets item x *)
Definition slot (x : Z) : Z := if x =? n then -1 else if isS x then pos0 x else rk x.

Definition item (x : Z) : Prop := x = n \/ (0 <= x < n /\ isS x = false) \/ LMS x = true.
Lemma succ_item j : 0 <= j < n -> isS j = false -> item (j + 1).
Proof.
  intros Hj HL. destruct (Z.eq_dec (j + 1) n) as [|Hne]; [left; assumption|right].
  destruct (isS (j + 1)) eqn:HS; [right|left; split; [lia|reflexivity]].
  apply LMS_spec. replace (j + 1 - 1) with j by lia. split; [lia|]. split; assumption.
Qed.

Lemma slot_bucket x : item x -> x <> n ->
  startc (t x) <= slot x < endc (t x) /\
  (isS x = false -> slot x = rk x /\ slot x < startc (t x) + nL (t x)) /\
  (isS x = true -> slot x = pos0 x /\ startc (t x) + nL (t x) <= slot x).
Proof.
  intros Hx Hn. unfold slot. replace (x =? n) with false by lia.
  pose proof (endc_split (t x)). pose proof (nL_nonneg (t x)). pose proof (nS_nonneg (t x)).
  destruct Hx as [Hx|[[Hx HL]|Hx]]; [lia| |].
  - rewrite HL. pose proof (rk_L x Hx HL). split; [lia|]. split; [intros; lia|discriminate].
  - rewrite (LMS_S x Hx). pose proof (pos0_range x Hx). split; [lia|]. split; [discriminate|intros; lia].
Qed.

Lemma slot_lt x y : item x -> item y -> x <> y -> ilt x y = (slot x <? slot y).
Proof.
  intros Hx Hy Hne. unfold ilt.
  destruct (Z.eqb_spec x n) as [Hxn|Hxn].
  { replace (y =? n) with false by lia. pose proof (slot_bucket y Hy ltac:(lia)).
    pose proof (startc_nonneg (t y)). unfold slot at 1. rewrite Hxn, Z.eqb_refl. cbn [negb]. lia. }
  destruct (Z.eqb_spec y n) as [Hyn|Hyn].
  { pose proof (slot_bucket x Hx Hxn). pose proof (startc_nonneg (t x)). unfold slot at 2. rewrite Hyn, Z.eqb_refl. lia. }
  pose proof (slot_bucket x Hx Hxn) as (Bx & Lx & Sx). pose proof (slot_bucket y Hy Hyn) as (By & Ly & Sy).
  destruct (Z.eqb_spec (t x) (t y)) as [Ht|Ht]; cbn [negb].
  - rewrite Ht in *.
    destruct (isS x) eqn:HSx, (isS y) eqn:HSy.
    + destruct Hx as [Hx|[[Hx HL]|Hx]]; [lia|congruence|]. destruct Hy as [Hy|[[Hy HL]|Hy]]; [lia|congruence|].
      destruct (Sx eq_refl) as [-> _], (Sy eq_refl) as [-> _].
      destruct (lt0 x y) eqn:Hl.
      * pose proof (pos0_lt x y Hx Hy Ht Hl). lia.
      * destruct (io_tot0 IO x y Hx Hy Hne) as [|H2]; [congruence|]. pose proof (pos0_lt y x Hy Hx ltac:(lia) H2). lia.
    + destruct (Sx eq_refl), (Ly eq_refl). lia.
    + destruct (Lx eq_refl), (Sy eq_refl). lia.
    + destruct Hx as [Hx|[[Hx HL]|Hx]]; [lia| |rewrite (LMS_S x Hx) in HSx; discriminate].
      destruct Hy as [Hy|[[Hy HL2]|Hy]]; [lia| |rewrite (LMS_S y Hy) in HSy; discriminate].
      destruct (Lx eq_refl) as [-> _], (Ly eq_refl) as [-> _]. apply rk_ltb; assumption.
  - destruct (Z.lt_trichotomy (t x) (t y)) as [Hl|[Hl|Hl]]; [|lia|].
    + pose proof (endc_startc _ _ Hl). lia.
    + pose proof (endc_startc _ _ Hl). lia.
Qed.

Lemma slot_before j : 0 <= j < n -> isS j = false -> slot (j + 1) < rk j.
Proof.
  intros Hj HL. pose proof (rk_L j Hj HL) as [Hr Hr2]. pose proof (startc_nonneg (t j)).
  destruct (Z.eq_dec (j + 1) n) as [He|Hne].
  { unfold slot. rewrite He, Z.eqb_refl. lia. }
  pose proof (slot_bucket (j + 1) (succ_item j Hj HL) Hne) as (B & LL & SS).
  destruct (isS (j + 1)) eqn:HS.
  - assert (t (j + 1) < t j).
    { rewrite isS_step in HL by lia. rewrite HS in HL. lia. }
    pose proof (endc_startc _ _ H0). lia.
  - destruct (LL eq_refl) as [-> _]. apply rk_lt; [lia|lia|]. apply (io_Lsucc IO); (lia || assumption).
Qed.

(** left-to-right scan: number of L positions of a bucket induced before time x *)
Definition insL (x j : Z) : bool := slot (j + 1) <? x.
Definition cntL (x c : Z) : Z := cnt (fun i => (t i =? c) && negb (isS i) && insL x i) 0 n.

Lemma insL_rank j : 0 <= j < n -> isS j = false -> rk j = startc (t j) + cntL (slot (j + 1)) (t j).
Proof.
  intros Hj HL. destruct (rk_L j Hj HL) as [-> _]. f_equal. unfold rkL, cntL. apply cnt_ext. intros i Hi.
  destruct (Z.eqb_spec (t i) (t j)) as [Ht|]; [|reflexivity].
  destruct (isS i) eqn:HLi; [reflexivity|]. cbn [negb andb].
  destruct (Z.eq_dec i j) as [->|Hne].
  - rewrite (io_irr IO) by lia. unfold insL. lia.
  - rewrite (io_L IO i j) by assumption. unfold insL. rewrite slot_lt; try (apply succ_item; assumption); [reflexivity|lia].
Qed.

Lemma cntL_ge_n x c : n <= x -> cntL x c = nL c.
Proof.
  intros Hx. unfold cntL, nL. apply cnt_ext. intros i Hi.
  destruct (isS i) eqn:HL; [rewrite !andb_false_r; reflexivity|]. cbn [negb]. rewrite andb_true_r.
  pose proof (slot_before i Hi HL). pose proof (rk_range i Hi). unfold insL. lia.
Qed.

(** one step of the scan *)
Lemma slot_inj x y : item x -> item y -> slot x = slot y -> x = y.
Proof.
  intros Hx Hy H. destruct (Z.eq_dec x y) as [|Hne]; [assumption|].
  pose proof (slot_lt x y Hx Hy Hne) as H1. pose proof (slot_lt y x Hy Hx ltac:(lia)) as H2.
  rewrite H in *. replace (slot y <? slot y) with false in * by lia.
  exfalso. unfold ilt in H1, H2.
  destruct (Z.eqb_spec x n), (Z.eqb_spec y n); cbn [negb] in *; try congruence.
  destruct (Z.eqb_spec (t x) (t y)), (Z.eqb_spec (t y) (t x)); cbn [negb] in *; try lia.
  destruct Hx as [Hx|[[Hx HL]|Hx]]; [lia| |].
  - rewrite HL in *. destruct Hy as [Hy|[[Hy HLy]|Hy]]; [lia| |].
    + rewrite HLy in *. destruct (io_tot IO x y Hx Hy Hne); congruence.
    + rewrite (LMS_S y Hy) in *. congruence.
  - rewrite (LMS_S x Hx) in *. destruct Hy as [Hy|[[Hy HLy]|Hy]]; [lia| |].
    + rewrite HLy in *. congruence.
    + rewrite (LMS_S y Hy) in *. destruct (io_tot0 IO x y Hx Hy Hne); congruence.
Qed.

Lemma cntL_step_none x c : (forall j, 0 <= j < n -> isS j = false -> slot (j + 1) = x -> t j <> c) -> cntL (x + 1) c = cntL x c.
Proof.
  intros H. unfold cntL. apply cnt_ext. intros i Hi. destruct (Z.eqb_spec (t i) c) as [Ht|]; [|reflexivity].
  destruct (isS i) eqn:HL; [reflexivity|]. cbn [negb andb]. unfold insL.
  specialize (H i Hi HL). lia.
Qed.
Lemma cntL_step j : 0 <= j < n -> isS j = false -> cntL (slot (j + 1) + 1) (t j) = cntL (slot (j + 1)) (t j) + 1.
Proof.
  intros Hj HL. unfold cntL. apply (cnt_add1 _ _ j); [lia| |].
  - unfold insL. lia.
  - intros i Hi. destruct (Z.eqb_spec i j) as [->|Hne].
    + rewrite HL. unfold insL. lia.
    + destruct (Z.eqb_spec (t i) (t j)) as [Ht|]; [|reflexivity].
      destruct (isS i) eqn:HLi; [reflexivity|]. cbn [negb andb]. unfold insL.
      assert (slot (i + 1) <> slot (j + 1)); [|lia].
      intros He. apply slot_inj in He; try (apply succ_item; assumption). lia.
Qed.

(** right-to-left scan *)
Definition insS (x j : Z) : bool := x <? rk (j + 1).
Definition cntS (x c : Z) : Z := cnt (fun i => (t i =? c) && isS i && insS x i) 0 n.

Lemma S_succ j : 0 <= j < n -> isS j = true -> 0 <= j + 1 < n.
Proof. intros Hj HS. pose proof (isS_bound t n j ltac:(lia) HS). lia. Qed.
Lemma rk_before j : 0 <= j < n -> isS j = true -> rk j < rk (j + 1).
Proof. intros Hj HS. apply rk_lt; [lia|apply S_succ; assumption|]. apply (io_Ssucc IO); assumption. Qed.
Lemma insS_rank j : 0 <= j < n -> isS j = true -> rk j = endc (t j) - 1 - cntS (rk (j + 1)) (t j).
Proof.
  intros Hj HS. destruct (rk_S j Hj HS) as [-> _]. f_equal. unfold rkS, cntS. apply cnt_ext. intros i Hi.
  destruct (Z.eqb_spec (t i) (t j)) as [Ht|]; [|reflexivity].
  destruct (isS i) eqn:HSi; [|reflexivity]. cbn [andb].
  destruct (Z.eq_dec i j) as [->|Hne].
  - rewrite (io_irr IO) by lia. unfold insS. lia.
  - rewrite (io_S IO j i) by (assumption || lia). unfold insS.
    apply rk_ltb; apply S_succ; assumption.
Qed.
Lemma cntS_step_none x c : (forall j, 0 <= j < n -> isS j = true -> rk (j + 1) = x -> t j <> c) -> cntS (x - 1) c = cntS x c.
Proof.
  intros H. unfold cntS. apply cnt_ext. intros i Hi. destruct (Z.eqb_spec (t i) c) as [Ht|]; [|reflexivity].
  destruct (isS i) eqn:HS; [|reflexivity]. cbn [andb]. unfold insS.
  specialize (H i Hi HS). lia.
Qed.
Lemma cntS_step j : 0 <= j < n -> isS j = true -> cntS (rk (j + 1) - 1) (t j) = cntS (rk (j + 1)) (t j) + 1.
Proof.
  intros Hj HS. unfold cntS. apply (cnt_add1 _ _ j); [lia| |].
  - unfold insS. lia.
  - intros i Hi. destruct (Z.eqb_spec i j) as [->|Hne].
    + rewrite HS. unfold insS. lia.
    + destruct (Z.eqb_spec (t i) (t j)) as [Ht|]; [|reflexivity].
      destruct (isS i) eqn:HSi; [|reflexivity]. cbn [andb]. unfold insS.
      assert (rk (i + 1) <> rk (j + 1)); [|lia].
      intros He. apply rk_inj in He; try (apply S_succ; assumption). lia.
Qed.
Lemma cntS_top c : cntS (n - 1) c = 0.
Proof.
  unfold cntS. apply cnt_false. intros i Hi. destruct (isS i) eqn:HS; [|rewrite andb_false_r; reflexivity].
  pose proof (rk_range (i + 1) (S_succ i Hi HS)). unfold insS. lia.
Qed.
Lemma cntL_zero c : c <> t (n - 1) -> cntL 0 c = 0.
Proof.
  intros Hc. unfold cntL. apply cnt_false. intros i Hi.
  destruct (Z.eqb_spec (t i) c) as [Ht|]; [|reflexivity]. destruct (isS i) eqn:HL; [reflexivity|]. cbn [negb andb].
  assert (i + 1 <> n) by (intros He; replace i with (n - 1) in Ht by lia; congruence).
  pose proof (slot_bucket (i + 1) (succ_item i Hi HL) H). pose proof (startc_nonneg (t (i + 1))). unfold insL. lia.
Qed.
Lemma cntL_zero_last : 1 <= n -> cntL 0 (t (n - 1)) = 1.
Proof.
  intros Hn. unfold cntL. rewrite (cnt_ext _ (fun i => i =? n - 1)); [apply cnt_eq1; lia|].
  intros i Hi. destruct (Z.eqb_spec i (n - 1)) as [->|Hne].
  - rewrite isS_last. unfold insL, slot. replace (n - 1 + 1) with n by lia. rewrite !Z.eqb_refl. reflexivity.
  - destruct (Z.eqb_spec (t i) (t (n - 1))) as [Ht|]; [|reflexivity]. destruct (isS i) eqn:HL; [reflexivity|]. cbn [negb andb].
    pose proof (slot_bucket (i + 1) (succ_item i Hi HL) ltac:(lia)). pose proof (startc_nonneg (t (i + 1))). unfold insL. lia.
Qed.
End Ind.

(** * The suffix order is an induction order *)
Section SufInd.
Context (t : Z -> Z) (n : Z).
Lemma suf_indord : indord t n (slt t n) (slt t n).
Proof.
  constructor.
  - intros; apply slt_irr.
  - intros i j k _ _ _. apply slt_trans.
  - intros; apply slt_total; lia.
  - intros; apply slt_irr.
  - intros i j k _ _ _. apply slt_trans.
  - intros i j Hi Hj. apply LMS_spec in Hi, Hj. apply slt_total; lia.
  - intros i j Hi Hj H. rewrite slt_step by lia. lia.
  - intros; apply L_before_S; (assumption || lia).
  - intros i j Hi Hj Ht HLi HLj Hne. rewrite slt_step by lia. unfold ilt.
    replace (t i <? t j) with false by lia. replace (t i =? t j) with true by lia. cbn [orb andb].
    destruct (Z.eqb_spec (i + 1) n) as [Hin|Hin].
    { rewrite Hin. destruct (Z.eqb_spec (j + 1) n); [lia|]. rewrite slt_n_l by lia. reflexivity. }
    destruct (Z.eqb_spec (j + 1) n) as [Hjn|Hjn].
    { rewrite Hjn. apply slt_n_r. }
    destruct (Z.eqb_spec (t (i + 1)) (t (j + 1))) as [He|He]; cbn [negb].
    + destruct (isS t n (i + 1)) eqn:H1, (isS t n (j + 1)) eqn:H2; try reflexivity.
      * apply slt_asym, L_before_S; (assumption || lia).
      * apply L_before_S; (assumption || lia).
    + rewrite slt_step by lia. lia.
  - intros i j Hi Hj Ht HS1 HS2 Hne. rewrite slt_step by lia. lia.
  - intros i Hi Hi1 HL _. apply L_slt; (assumption || lia).
  - intros i Hi HS. exact HS.
Qed.
End SufInd.
