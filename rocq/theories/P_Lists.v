(** From index functions to lists: counting, rows, S* positions and substrings. *)
From Verif Require Import Base Count Spec Text Induced Keys P_Extract P_Bridge P_Spec.
From Coq Require Import ZifyBool.
Open Scope Z_scope.

Lemma zseq_n_seq c : forall lo, zseq_n c (Z.of_nat lo) = map Z.of_nat (seq lo c).
Proof. induction c as [|c IH]; intros lo; [reflexivity|]. cbn [zseq_n seq map]. rewrite <- IH. do 2 f_equal. lia. Qed.
Lemma zseq_seq k : zseq 0 (Z.of_nat k) = map Z.of_nat (seq 0 k).
Proof. unfold zseq. rewrite <- zseq_n_seq. f_equal. lia. Qed.
Lemma cnt_count P k : cnt P 0 (Z.of_nat k) = Z.of_nat (count (fun i => P (Z.of_nat i)) (seq 0 k)).
Proof. unfold cnt. rewrite zseq_seq. f_equal. apply count_map. Qed.

Section Lists.
Context (l : list Z).
Notation n := (zl l).
Notation t := (tl_ l).

Lemma rk_row i : (i < length l)%nat -> 1 + rk n (slt t n) (Z.of_nat i) = row_of l i.
Proof.
  intros Hi. unfold rk. rewrite cnt_count, row_of_rowi. unfold rowi. replace (S (length l)) with (length l + 1)%nat by lia.
  rewrite seq_app, count_app. cbn [Nat.add seq]. rewrite count_cons.
  rewrite (suffix_nil l (length l)), (suffix_cons l i) by lia. cbn [lexlt]. unfold count at 3. cbn [filter length].
  rewrite (count_ext _ (fun j => lexlt (suffix l j) (nth i l 0 :: suffix l (S i)))); [lia|].
  intros j Hj. apply in_seq in Hj. rewrite slt_list by lia. rewrite !Nat2Z.id, (suffix_cons l i) by lia. reflexivity.
Qed.
Lemma row_n : row_of l (length l) = 0.
Proof. rewrite row_of_rowi, rowi_n. reflexivity. Qed.

Lemma isS_list i : (i < length l)%nat -> Text.isS t n (Z.of_nat i) = is_S l i.
Proof.
  intros Hi. unfold Text.isS, is_S. rewrite slt_list by lia. rewrite Nat2Z.id. do 2 f_equal. lia.
Qed.
Lemma LMS_list i : Text.LMS t n (Z.of_nat i) = is_LMS l i.
Proof.
  unfold Text.LMS, is_LMS. destruct (Nat.ltb_spec 0 i) as [H0|H0]; [|destruct (Z.ltb_spec 0 (Z.of_nat i)); [lia|reflexivity]].
  destruct (Nat.ltb_spec i (length l)) as [H1|H1]; [|destruct (Z.ltb_spec (Z.of_nat i) n); [lia|]; rewrite !andb_false_r; reflexivity].
  rewrite isS_list by lia. replace (Z.of_nat i - 1) with (Z.of_nat (i - 1)) by lia. rewrite isS_list by lia.
  destruct (Z.ltb_spec 0 (Z.of_nat i)); [|lia]. destruct (Z.ltb_spec (Z.of_nat i) n); [|lia]. reflexivity.
Qed.
Lemma LMS_to_list e : Text.LMS t n e = true -> is_LMS l (Z.to_nat e) = true /\ e = Z.of_nat (Z.to_nat e) /\ In (Z.to_nat e) (lms_positions l).
Proof.
  intros H. pose proof (LMS_bound _ _ _ H). assert (He : e = Z.of_nat (Z.to_nat e)) by lia.
  assert (HL : is_LMS l (Z.to_nat e) = true) by (rewrite <- LMS_list, <- He; exact H).
  split; [exact HL|]. split; [exact He|]. apply filter_In. split; [apply in_seq; lia|exact HL].
Qed.
Lemma nx_list i : nx t n (Z.of_nat i) = Z.of_nat (next_lms l i).
Proof.
  unfold nx, next_lms. replace (Z.to_nat (n - Z.of_nat i)) with (length l - i)%nat by lia.
  generalize (length l - i)%nat as c. intros c. revert i. induction c as [|c IH]; intros i; [reflexivity|].
  cbn [nxf seq find]. rewrite LMS_list. destruct (is_LMS l i); [reflexivity|].
  replace (Z.of_nat i + 1) with (Z.of_nat (S i)) by lia. apply IH.
Qed.
Lemma next_lms_le i : (i <= length l)%nat -> (i <= next_lms l i <= length l)%nat.
Proof. intros H. destruct (nx_spec t n (Z.of_nat i)) as (H1 & _); [lia|]. rewrite nx_list in H1. lia. Qed.

Lemma map_app_nth c : forall lo, (lo + c <= S (length l))%nat ->
  map t (zseq_n c (Z.of_nat lo)) = firstn c (skipn lo (l ++ [0])).
Proof.
  intros lo H. rewrite zseq_n_seq, map_map.
  rewrite (map_ext _ (fun i => nth i (l ++ [0]) 0)).
  2:{ intros i. unfold tl_. rewrite Nat2Z.id. destruct (Nat.lt_ge_cases i (length l)) as [Hl|Hl].
      - rewrite app_nth1 by assumption. reflexivity.
      - rewrite app_nth2, nth_overflow by assumption. destruct (i - length l)%nat as [|[|]]; reflexivity. }
  assert (Hg : forall (k : list Z) c lo, (lo + c <= length k)%nat -> map (fun i => nth i k 0) (seq lo c) = firstn c (skipn lo k)).
  { clear. intros k. induction c as [|c IH]; intros lo H; [reflexivity|]. cbn [seq map].
    change (skipn lo k) with (suffix k lo). rewrite (suffix_cons k lo) by lia. cbn [firstn]. f_equal. apply IH. lia. }
  apply Hg. rewrite app_length. cbn [length]. lia.
Qed.
Lemma sub_list i : In i (lms_positions l) -> P_Extract.sub t n (Z.of_nat i) = star_sub l i.
Proof.
  intros H. apply filter_In in H as [Hi HL]. apply in_seq in Hi.
  unfold P_Extract.sub, star_sub, zseq, suffix. replace (Z.of_nat i + 1) with (Z.of_nat (S i)) by lia. rewrite nx_list.
  pose proof (next_lms_le (S i) ltac:(lia)) as Hn.
  replace (Z.to_nat (Z.of_nat (next_lms l (S i)) + 1 - Z.of_nat i)) with (S (next_lms l (S i) - i)) by lia.
  apply map_app_nth. lia.
Qed.
Lemma tl_n : t n = 0.
Proof. unfold tl_. rewrite Nat2Z.id. apply nth_overflow. lia. Qed.
Lemma tl_n_byte : 0 <= t n < 256.
Proof. rewrite tl_n. lia. Qed.
Lemma tl_byte : Forall is_byte l -> forall i, 0 <= i < n -> 0 <= t i < 256.
Proof. intros H i Hi. rewrite Forall_forall in H. apply H. apply nth_In. lia. Qed.
End Lists.

(** [T] holds the string l followed by a zero byte *)
Definition holds (T : arr Z) (l : list Z) : Prop := forall i, (i < length l)%nat -> av T (Z.of_nat i) = Some (nth i l 0).
Lemma holds_tl T l : holds T (l ++ [0]) -> forall i, 0 <= i <= zl l -> av T i = Some (tl_ l i).
Proof.
  intros H i Hi. replace i with (Z.of_nat (Z.to_nat i)) at 1 by lia. rewrite H by (rewrite app_length; cbn [length]; lia).
  unfold tl_. destruct (Nat.lt_ge_cases (Z.to_nat i) (length l)) as [Hl|Hl].
  - rewrite app_nth1 by assumption. reflexivity.
  - replace (Z.to_nat i) with (length l) by lia. rewrite app_nth2, Nat.sub_diag by lia. cbn [nth]. rewrite nth_overflow by lia. reflexivity.
Qed.
