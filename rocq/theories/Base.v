(** Result monad, arrays with explicit bounds and initialisation, bounded loops,
    machine words, and the weakest-precondition rules used by the proofs.
    This file models no particular /repo function; it fixes the meaning of the
    C++ constructs used by all of them. *)
From Coq Require Export List ZArith Lia Bool.
From Coq Require Import FMapPositive.
Export ListNotations.
Open Scope Z_scope.

(** Every way in which an execution can go wrong. *)
Inductive err : Type :=
| OutOfBounds        (* access outside an allocation *)
| Uninit             (* use of an indeterminate value *)
| NullDeref          (* dereference of a null pointer *)
| BadPointer         (* use or release of a block that is not live, or release by the wrong function *)
| BadBuiltin         (* __builtin_clzl(0) *)
| Overflow           (* signed result or stored value outside the range of its type *)
| Diverge            (* loop fuel exhausted *)
| BadAlloc           (* C++ exception std::bad_alloc *)
| InvalidArgument    (* C++ exception std::invalid_argument *)
| RuntimeError.      (* C++ exception std::runtime_error *)

Inductive res (A : Type) : Type := Ok (a : A) | Err (e : err).
Arguments Ok {A} a.
Arguments Err {A} e.

Definition bind {A B} (m : res A) (f : A -> res B) : res B :=
  match m with Ok a => f a | Err e => Err e end.
Notation "x <- m ;; k" := (bind m (fun x => k)) (at level 61, m at next level, right associativity).
Notation "' p <- m ;; k" := (bind m (fun p => k)) (at level 61, p pattern, m at next level, right associativity).

(** * Arrays (heap blocks). *)
Record arr (A : Type) : Type := mkarr { alen : Z; adata : PositiveMap.t A }.
Arguments mkarr {A} _ _.
Arguments alen {A} _.
Arguments adata {A} _.

Definition key (i : Z) : positive := Z.to_pos (i + 1).
Definition inb {A} (a : arr A) (i : Z) : bool := (0 <=? i) && (i <? alen a).
(** value of an in-bounds initialised cell *)
Definition av {A} (a : arr A) (i : Z) : option A :=
  if inb a i then PositiveMap.find (key i) (adata a) else None.
Definition aget {A} (a : arr A) (i : Z) : res A :=
  if inb a i then
    match PositiveMap.find (key i) (adata a) with Some v => Ok v | None => Err Uninit end
  else Err OutOfBounds.
Definition aupd {A} (a : arr A) (i : Z) (v : A) : arr A :=
  mkarr (alen a) (PositiveMap.add (key i) v (adata a)).
Definition aset {A} (a : arr A) (i : Z) (v : A) : res (arr A) :=
  if inb a i then Ok (aupd a i v) else Err OutOfBounds.
(** new T[len] without initialiser: no cell has a value *)
Definition anew {A} (len : Z) : arr A := mkarr len (PositiveMap.empty A).

(** * Loops *)
(** for (i = lo; i < hi; ++i) *)
Fixpoint for_n {S} (cnt : nat) (i : Z) (body : Z -> S -> res S) (s : S) : res S :=
  match cnt with
  | O => Ok s
  | S c => s' <- body i s ;; for_n c (i + 1) body s'
  end.
Definition for_up {S} (lo hi : Z) (body : Z -> S -> res S) (s : S) : res S :=
  for_n (Z.to_nat (hi - lo)) lo body s.
(** for (i = hi; i >= lo; --i) *)
Fixpoint ford_n {S} (cnt : nat) (i : Z) (body : Z -> S -> res S) (s : S) : res S :=
  match cnt with
  | O => Ok s
  | S c => s' <- body i s ;; ford_n c (i - 1) body s'
  end.
Definition for_down {S} (hi lo : Z) (body : Z -> S -> res S) (s : S) : res S :=
  ford_n (Z.to_nat (hi - lo + 1)) hi body s.
(** while loops: [inl] continues with a new state, [inr] leaves the loop *)
Fixpoint loop {S R} (fuel : nat) (step : S -> res (S + R)) (s : S) : res R :=
  match fuel with
  | O => Err Diverge
  | S f => x <- step s ;;
           match x with inl s' => loop f step s' | inr r => Ok r end
  end.

(** * Machine words *)
Definition wrap (w : Z) (v : Z) : Z := v mod 2 ^ w.                       (* uintW_t *)
Definition swrap (w : Z) (v : Z) : Z := (v + 2 ^ (w - 1)) mod 2 ^ w - 2 ^ (w - 1). (* intW_t *)
(** the value v is representable in intw_t *)
Definition fits (w v : Z) : res unit := if (- 2 ^ (w - 1) <=? v) && (v <? 2 ^ (w - 1)) then Ok tt else Err Overflow.
Definition u64 := wrap 64.
Definition u8 := wrap 8.

(** [env]: everything the C++ standard leaves open.
    - [fresh_byte i]: content of byte i of the hash buffer when realloc first provides it
      (None: indeterminate);
    - [fresh_word i]: content of word i of a PackedArray straight after malloc;
    - [big_shift x k]: result of x >> k or x << k with k >= 64. *)
Record env := mkenv {
  fresh_byte : Z -> option Z;
  fresh_word : Z -> Z;
  big_shift : Z -> Z -> Z
}.

(** 64-bit shifts *)
Definition shl64 (E : env) (x k : Z) : Z :=
  if (0 <=? k) && (k <? 64) then u64 (Z.shiftl x k) else u64 (big_shift E x k).
Definition shr64 (E : env) (x k : Z) : Z :=
  if (0 <=? k) && (k <? 64) then Z.shiftr x k else u64 (big_shift E x k).
Definition not64 (x : Z) : Z := 2 ^ 64 - 1 - x.

(** * Weakest preconditions (total correctness) *)
Definition wp {A} (m : res A) (Q : A -> Prop) : Prop :=
  match m with Ok a => Q a | Err _ => False end.

Lemma wp_ok {A} (a : A) (Q : A -> Prop) : Q a -> wp (Ok a) Q.
Proof. exact (fun H => H). Qed.

Lemma wp_bind {A B} (m : res A) (f : A -> res B) Q :
  wp m (fun a => wp (f a) Q) -> wp (bind m f) Q.
Proof. destruct m; simpl; auto. Qed.

Lemma wp_mono {A} (m : res A) (P Q : A -> Prop) :
  wp m P -> (forall a, P a -> Q a) -> wp m Q.
Proof. destruct m; simpl; auto. Qed.

Lemma wp_bind_mono {A B} (m : res A) (f : A -> res B) (P : A -> Prop) Q :
  wp m P -> (forall a, P a -> wp (f a) Q) -> wp (bind m f) Q.
Proof. destruct m; simpl; auto. Qed.

Lemma wp_inv {A} (m : res A) Q : wp m Q -> exists a, m = Ok a /\ Q a.
Proof. destruct m; simpl; [eauto | tauto]. Qed.

Lemma wp_intro {A} (m : res A) (Q : A -> Prop) a : m = Ok a -> Q a -> wp m Q.
Proof. intros -> H; exact H. Qed.

Lemma wp_and {A} (m : res A) (P Q : A -> Prop) : wp m P -> wp m Q -> wp m (fun a => P a /\ Q a).
Proof. destruct m; simpl; auto. Qed.

Lemma wp_eq {A} (m : res A) a : wp m (fun x => x = a) -> m = Ok a.
Proof. destruct m; simpl; [congruence | tauto]. Qed.

Lemma inb_true {A} (a : arr A) i : 0 <= i < alen a -> inb a i = true.
Proof. unfold inb; lia. Qed.

Lemma inb_spec {A} (a : arr A) i : inb a i = true <-> 0 <= i < alen a.
Proof. unfold inb; lia. Qed.

Lemma av_bounds {A} (a : arr A) i v : av a i = Some v -> 0 <= i < alen a.
Proof. unfold av. destruct (inb a i) eqn:E; [|discriminate]. intros _. apply inb_spec; exact E. Qed.

Lemma alen_upd {A} (a : arr A) i v : alen (aupd a i v) = alen a.
Proof. reflexivity. Qed.

Lemma key_inj i j : 0 <= i -> 0 <= j -> key i = key j -> i = j.
Proof. unfold key. lia. Qed.

Lemma av_upd_same {A} (a : arr A) i v : 0 <= i < alen a -> av (aupd a i v) i = Some v.
Proof.
  intros H. unfold av, inb, aupd; simpl.
  replace ((0 <=? i) && (i <? alen a)) with true by lia.
  apply PositiveMap.gss.
Qed.

Lemma av_upd_other {A} (a : arr A) i j v : 0 <= i -> j <> i -> av (aupd a i v) j = av a j.
Proof.
  intros Hi Hne. unfold av, inb, aupd; simpl.
  destruct ((0 <=? j) && (j <? alen a)) eqn:E; [|reflexivity].
  apply PositiveMap.gso. intros Hk; apply Hne. apply key_inj; [lia|lia|exact Hk].
Qed.

Lemma av_upd {A} (a : arr A) i j v : 0 <= i < alen a ->
  av (aupd a i v) j = if j =? i then Some v else av a j.
Proof.
  intros H. destruct (Z.eqb_spec j i) as [->|Hne].
  - apply av_upd_same; exact H.
  - apply av_upd_other; [lia | exact Hne].
Qed.

Lemma alen_new {A} len : alen (@anew A len) = len.
Proof. reflexivity. Qed.

Lemma av_new {A} len i : av (@anew A len) i = None.
Proof. unfold av, anew; simpl. destruct (inb _ _); [apply PositiveMap.gempty | reflexivity]. Qed.

Lemma aget_ok {A} (a : arr A) i v : av a i = Some v -> aget a i = Ok v.
Proof.
  unfold av, aget. destruct (inb a i); [|discriminate].
  intros ->; reflexivity.
Qed.

Lemma aget_inv {A} (a : arr A) i v : aget a i = Ok v -> av a i = Some v.
Proof.
  unfold av, aget. destruct (inb a i); [|discriminate].
  destruct (PositiveMap.find _ _); congruence.
Qed.

Lemma wp_aget {A} (a : arr A) i v (Q : A -> Prop) : av a i = Some v -> Q v -> wp (aget a i) Q.
Proof. intros H HQ. rewrite (aget_ok _ _ _ H). exact HQ. Qed.

Lemma aset_ok {A} (a : arr A) i v : 0 <= i < alen a -> aset a i v = Ok (aupd a i v).
Proof. intros H. unfold aset. rewrite inb_true by exact H. reflexivity. Qed.

Lemma wp_aset {A} (a : arr A) i v (Q : arr A -> Prop) :
  0 <= i < alen a -> Q (aupd a i v) -> wp (aset a i v) Q.
Proof. intros H HQ. rewrite aset_ok by exact H. exact HQ. Qed.

Lemma wp_for_up {S} (Inv : Z -> S -> Prop) lo hi body s :
  lo <= hi -> Inv lo s ->
  (forall i s, lo <= i < hi -> Inv i s -> wp (body i s) (Inv (i + 1))) ->
  wp (for_up lo hi body s) (Inv hi).
Proof.
  intros Hle H0 Hstep. unfold for_up.
  remember (Z.to_nat (hi - lo)) as c eqn:Hc.
  assert (Hg : forall c i s, lo <= i -> i + Z.of_nat c = hi -> Inv i s -> wp (for_n c i body s) (Inv hi)).
  { clear c Hc s H0. induction c as [|c IH]; intros i s Hi He HI; simpl.
    - replace hi with i by lia. exact HI.
    - apply wp_bind. eapply wp_mono. { apply Hstep; [lia | exact HI]. }
      intros s' HI'. apply IH; [lia | lia | exact HI']. }
  apply Hg; [lia | lia | exact H0].
Qed.

Lemma wp_for_down {S} (Inv : Z -> S -> Prop) hi lo body s :
  lo - 1 <= hi -> Inv hi s ->
  (forall i s, lo <= i <= hi -> Inv i s -> wp (body i s) (Inv (i - 1))) ->
  wp (for_down hi lo body s) (Inv (lo - 1)).
Proof.
  intros Hle H0 Hstep. unfold for_down.
  remember (Z.to_nat (hi - lo + 1)) as c eqn:Hc.
  assert (Hg : forall c i s, i <= hi -> i - Z.of_nat c = lo - 1 -> Inv i s -> wp (ford_n c i body s) (Inv (lo - 1))).
  { clear c Hc s H0. induction c as [|c IH]; intros i s Hi He HI; simpl.
    - replace (lo - 1) with i by lia. exact HI.
    - apply wp_bind. eapply wp_mono. { apply Hstep; [lia | exact HI]. }
      intros s' HI'. apply IH; [lia | lia | exact HI']. }
  apply Hg; [lia | lia | exact H0].
Qed.

(** loop rule with a decreasing measure bounded by the fuel *)
Lemma wp_loop {S R} (Inv : S -> Prop) (meas : S -> Z) (step : S -> res (S + R)) (Q : R -> Prop) :
  (forall s, Inv s -> 0 <= meas s) ->
  (forall s, Inv s -> wp (step s) (fun x => match x with
      | inl s' => Inv s' /\ meas s' < meas s | inr r => Q r end)) ->
  forall fuel s, Inv s -> meas s < Z.of_nat fuel -> wp (loop fuel step s) Q.
Proof.
  intros Hpos Hstep. induction fuel as [|f IH]; intros s HI Hf.
  - specialize (Hpos s HI). lia.
  - simpl. apply wp_bind. eapply wp_mono. { apply Hstep; exact HI. }
    intros [s'|r] HS; simpl.
    + destruct HS as [HI' Hm]. apply IH; [exact HI' | lia].
    + exact HS.
Qed.

Lemma for_up_ext {S} lo hi (b1 b2 : Z -> S -> res S) s :
  (forall i s, lo <= i < hi -> b1 i s = b2 i s) -> for_up lo hi b1 s = for_up lo hi b2 s.
Proof.
  intros H. unfold for_up.
  assert (Hg : forall c i s, lo <= i -> i + Z.of_nat c <= hi -> for_n c i b1 s = for_n c i b2 s).
  { induction c as [|c IH]; intros i s' Hi He; simpl; [reflexivity|].
    rewrite H by lia. destruct (b2 i s'); simpl; [apply IH; lia | reflexivity]. }
  destruct (Z_le_gt_dec lo hi).
  - apply Hg; lia.
  - replace (Z.to_nat (hi - lo)) with O by lia. reflexivity.
Qed.

(** * Word lemmas *)
Lemma wrap_small w v : 0 <= v < 2 ^ w -> wrap w v = v.
Proof. intros H. unfold wrap. apply Z.mod_small; exact H. Qed.

Lemma wrap_range w v : 0 <= w -> 0 <= wrap w v < 2 ^ w.
Proof. intros H. unfold wrap. apply Z.mod_pos_bound. apply Z.pow_pos_nonneg; lia. Qed.

Lemma pow2_split w : 1 <= w -> 2 ^ w = 2 * 2 ^ (w - 1).
Proof. intros H. rewrite <- Z.pow_succ_r by lia. f_equal; lia. Qed.

Lemma swrap_small w v : 1 <= w -> - 2 ^ (w - 1) <= v < 2 ^ (w - 1) -> swrap w v = v.
Proof.
  intros Hw H. unfold swrap. rewrite Z.mod_small; [lia|].
  rewrite (pow2_split w) by lia. lia.
Qed.

Lemma swrap_range w v : 1 <= w -> - 2 ^ (w - 1) <= swrap w v < 2 ^ (w - 1).
Proof.
  intros Hw. unfold swrap.
  pose proof (Z.mod_pos_bound (v + 2 ^ (w - 1)) (2 ^ w)) as H.
  rewrite (pow2_split w) in * by lia.
  assert (0 < 2 ^ (w - 1)) by (apply Z.pow_pos_nonneg; lia). lia.
Qed.

Lemma fits_ok w v : - 2 ^ (w - 1) <= v < 2 ^ (w - 1) -> fits w v = Ok tt.
Proof. intros H. unfold fits. destruct (Z.leb_spec (- 2 ^ (w - 1)) v); [|lia]. destruct (Z.ltb_spec v (2 ^ (w - 1))); [reflexivity|lia]. Qed.
Lemma fits_inv w v u : fits w v = Ok u -> - 2 ^ (w - 1) <= v < 2 ^ (w - 1).
Proof. unfold fits. destruct (Z.leb_spec (- 2 ^ (w - 1)) v); [|discriminate]. destruct (Z.ltb_spec v (2 ^ (w - 1))); [lia|discriminate]. Qed.

Lemma aget_upd_same {A} (a : arr A) i w : 0 <= i < alen a -> aget (aupd a i w) i = Ok w.
Proof. intros H. apply aget_ok, av_upd_same, H. Qed.

Lemma aget_upd_other {A} (a : arr A) i j w : 0 <= i -> j <> i -> aget (aupd a i w) j = aget a j.
Proof.
  intros Hi Hj. unfold aget, aupd, inb. cbn [alen adata].
  destruct ((0 <=? j) && (j <? alen a)) eqn:Hin; [|reflexivity].
  rewrite PositiveMap.gso; [reflexivity|].
  intros Hk. apply Hj, key_inj; [lia|lia|exact Hk].
Qed.

Ltac wpb := apply wp_bind.

Lemma aget_uninit {A} (a : arr A) i : 0 <= i < alen a -> av a i = None -> aget a i = Err Uninit.
Proof. intros Hi. unfold av, aget. rewrite inb_true by exact Hi. intros ->. reflexivity. Qed.
Lemma aset_oob {A} (a : arr A) i v : i < 0 \/ alen a <= i -> aset a i v = Err OutOfBounds.
Proof. intros H. unfold aset. destruct (inb a i) eqn:Hi; [|reflexivity]. apply inb_spec in Hi. lia. Qed.

Global Opaque aget aset aupd av anew alen.
