(** Finite sums over lists of indices. *)
From Coq Require Import ZArith List Lia.
Import ListNotations.
Open Scope Z_scope.

Definition sum (f : Z -> Z) (l : list Z) : Z := fold_right (fun i s => f i + s) 0 l.
Lemma sum_ext f g l : (forall i, In i l -> f i = g i) -> sum f l = sum g l.
Proof. induction l as [|i l IH]; intros H; [reflexivity|]. cbn. fold (sum f l) (sum g l). rewrite IH, (H i); [reflexivity|left; reflexivity|]. intros j Hj. apply H. right. exact Hj. Qed.
Lemma sum_le f g l : (forall i, In i l -> f i <= g i) -> sum f l <= sum g l.
Proof. induction l as [|i l IH]; intros H; [reflexivity|]. cbn. fold (sum f l) (sum g l). pose proof (H i (or_introl eq_refl)). enough (sum f l <= sum g l) by lia. apply IH. intros j Hj. apply H. right. exact Hj. Qed.
Lemma sum_upd f g i l : NoDup l -> In i l -> (forall j, j <> i -> f j = g j) -> sum g l = sum f l - f i + g i.
Proof.
  induction l as [|k l IH]; intros Hn Hi H; [destruct Hi|]. inversion Hn; subst. cbn. fold (sum f l) (sum g l). destruct Hi as [->|Hi].
  - rewrite (sum_ext g f l); [lia|]. intros j Hj. symmetry. apply H. intros ->. contradiction.
  - rewrite (IH H3 Hi H), (H k) by (intros ->; contradiction). lia.
Qed.
Lemma sum_lin f a b l : sum (fun i => a * f i + b) l = a * sum f l + b * Z.of_nat (length l).
Proof. induction l as [|i l IH]; cbn [sum fold_right length]; [lia|]. fold (sum f l) (sum (fun i => a * f i + b) l). rewrite IH. lia. Qed.
