(** Facts about the specification: rows, the transform, decoding. *)
From Verif Require Import Spec Count Text.
From Coq Require Import ZifyBool.
Open Scope Z_scope.

Lemma filter_ext_in' {A} (f g : A -> bool) l : (forall x, In x l -> f x = g x) -> filter f l = filter g l.
Proof. apply filter_ext_in. Qed.
Lemma suffix_inj T i j : (i <= length T)%nat -> (j <= length T)%nat -> suffix T i = suffix T j -> i = j.
Proof.
  intros Hi Hj H. apply (f_equal (@length Z)) in H. unfold suffix in H. rewrite !skipn_length in H. lia.
Qed.
Lemma suffix_cons T i : (i < length T)%nat -> suffix T i = nth i T 0 :: suffix T (S i).
Proof.
  revert i. induction T as [|x T IH]; intros [|i] H; cbn [length] in H; try lia; [reflexivity|].
  unfold suffix in *. cbn [skipn nth]. rewrite IH by lia. destruct T; reflexivity.
Qed.
Lemma suffix_nil T i : (length T <= i)%nat -> suffix T i = [].
Proof. intros H. apply skipn_all2; lia. Qed.

Lemma count_le {A} (f g : A -> bool) l : (forall x, In x l -> f x = true -> g x = true) -> (count f l <= count g l)%nat.
Proof.
  unfold count. induction l as [|x l IH]; intros H; cbn [filter length]; [lia|].
  specialize (IH (fun y Hy => H y (or_intror Hy))). pose proof (H x (or_introl eq_refl)).
  destruct (f x), (g x); cbn [length]; lia || (specialize (H0 eq_refl); discriminate).
Qed.
Lemma count_lt {A} (f g : A -> bool) l y : (forall x, In x l -> f x = true -> g x = true) ->
  In y l -> f y = false -> g y = true -> (count f l < count g l)%nat.
Proof.
  unfold count. induction l as [|x l IH]; intros H Hin Hf Hg; [contradiction|]. cbn [filter].
  pose proof (count_le f g l (fun z Hz => H z (or_intror Hz))) as Hle. unfold count in Hle.
  destruct Hin as [->|Hin].
  - rewrite Hf, Hg. cbn [length]. lia.
  - specialize (IH (fun z Hz => H z (or_intror Hz)) Hin Hf Hg). pose proof (H x (or_introl eq_refl)).
    destruct (f x), (g x); cbn [length]; lia || (specialize (H0 eq_refl); discriminate).
Qed.
Lemma count_ext {A} (f g : A -> bool) l : (forall x, In x l -> f x = g x) -> count f l = count g l.
Proof. intros H. unfold count. rewrite (filter_ext_in f g l H). reflexivity. Qed.
Lemma count_perm {A} (f : A -> bool) l l' : Permutation l l' -> count f l = count f l'.
Proof.
  unfold count. induction 1; cbn [filter]; repeat match goal with |- context [f ?x] => destruct (f x) end; cbn [length]; lia.
Qed.
Lemma count_map {A B} (f : B -> bool) (g : A -> B) l : count f (map g l) = count (fun x => f (g x)) l.
Proof. unfold count. induction l as [|x l IH]; [reflexivity|]. cbn [map filter]. destruct (f (g x)); cbn [length]; lia. Qed.
Lemma count_app {A} (f : A -> bool) l l' : count f (l ++ l') = (count f l + count f l')%nat.
Proof. unfold count. rewrite filter_app, app_length. reflexivity. Qed.
Lemma count_cons {A} (f : A -> bool) x l : count f (x :: l) = ((if f x then 1 else 0) + count f l)%nat.
Proof. unfold count. cbn [filter]. destruct (f x); reflexivity. Qed.
Lemma count_le_length {A} (f : A -> bool) l : (count f l <= length l)%nat.
Proof. unfold count. induction l as [|x l IH]; [cbn; lia|]. cbn [filter length]. destruct (f x); cbn [length]; lia. Qed.

Section Rows.
Context (T : list Z).
Notation n := (length T).
Definition rowi (i : nat) : nat := count (fun j => lexlt (suffix T j) (suffix T i)) (seq 0 (S n)).
Lemma row_of_rowi i : row_of T i = Z.of_nat (rowi i).
Proof. reflexivity. Qed.
Lemma rowi_bound i : (i <= n)%nat -> (rowi i <= n)%nat.
Proof.
  intros H. assert (rowi i < count (fun _ => true) (seq 0 (S n)))%nat.
  { apply count_lt with (y := i); [reflexivity|apply in_seq; lia|apply lexlt_irr|reflexivity]. }
  pose proof (count_le_length (fun _ : nat => true) (seq 0 (S n))). rewrite seq_length in H1. lia.
Qed.
Lemma rowi_lt i j : (i <= n)%nat -> (j <= n)%nat -> lexlt (suffix T i) (suffix T j) = true -> (rowi i < rowi j)%nat.
Proof.
  intros Hi Hj H. apply count_lt with (y := i).
  - intros x _ Hx. apply (lexlt_trans _ _ _ Hx H).
  - apply in_seq. lia.
  - apply lexlt_irr.
  - exact H.
Qed.
Lemma rowi_lt_iff i j : (i <= n)%nat -> (j <= n)%nat -> (lexlt (suffix T i) (suffix T j) = true <-> (rowi i < rowi j)%nat).
Proof.
  intros Hi Hj. split; [apply rowi_lt; assumption|]. intros H.
  destruct (Nat.eq_dec i j) as [->|Hne]; [lia|].
  destruct (lexlt_total (suffix T i) (suffix T j)) as [H1|H1]; [|assumption|].
  - intros He. apply Hne, (suffix_inj T); assumption.
  - apply rowi_lt in H1; [lia|assumption|assumption].
Qed.
Lemma rowi_inj i j : (i <= n)%nat -> (j <= n)%nat -> rowi i = rowi j -> i = j.
Proof.
  intros Hi Hj H. destruct (Nat.eq_dec i j) as [|Hne]; [assumption|].
  destruct (lexlt_total (suffix T i) (suffix T j)) as [H1|H1].
  - intros He. apply Hne, (suffix_inj T); assumption.
  - apply rowi_lt in H1; lia.
  - apply rowi_lt in H1; lia.
Qed.
Lemma rowi_n : rowi n = O.
Proof.
  unfold rowi, count. rewrite suffix_nil by lia.
  rewrite (filter_ext_in _ (fun _ => false)). { induction (seq 0 (S n)); [reflexivity|assumption]. }
  intros x _. destruct (suffix T x); reflexivity.
Qed.
Lemma rowi_perm : Permutation (map rowi (seq 0 (S n))) (seq 0 (S n)).
Proof.
  apply NoDup_Permutation_bis.
  - assert (Hg : forall l, NoDup l -> (forall x, In x l -> (x <= n)%nat) -> NoDup (map rowi l)).
    { induction l as [|x l IH]; intros Hnd Hl; cbn [map]; constructor; inversion Hnd; subst.
      - intros Hin. apply in_map_iff in Hin as (y & Hy & Hin). apply rowi_inj in Hy.
        + congruence.
        + apply Hl; right; assumption.
        + apply Hl; left; reflexivity.
      - apply IH; [assumption|]. intros; apply Hl; right; assumption. }
    apply Hg; [apply seq_NoDup|]. intros x Hx. apply in_seq in Hx. lia.
  - rewrite map_length. lia.
  - intros x Hx. apply in_map_iff in Hx as (y & <- & Hy). apply in_seq in Hy. apply in_seq.
    pose proof (rowi_bound y ltac:(lia)). lia.
Qed.
Lemma rowi_surj r : (r <= n)%nat -> exists i, (i <= n)%nat /\ rowi i = r.
Proof.
  intros H. assert (Hin : In r (map rowi (seq 0 (S n)))).
  { apply (Permutation_in _ (Permutation_sym rowi_perm)). apply in_seq. lia. }
  apply in_map_iff in Hin as (i & Hi & Hin). apply in_seq in Hin. exists i. split; [lia|assumption].
Qed.

Lemma bwt_row_at i : (i <= n)%nat -> bwt_row T (rowi i) = match i with O => None | S j => Some (nth j T 0) end.
Proof.
  intros Hi. unfold bwt_row.
  destruct (find (fun j => row_of T j =? Z.of_nat (rowi i)) (seq 0 (S n))) as [k|] eqn:Hf.
  - apply find_some in Hf as [Hin Hk]. apply in_seq in Hin. rewrite row_of_rowi in Hk.
    assert (k = i) by (apply rowi_inj; lia). subst k. reflexivity.
  - exfalso. apply find_none with (x := i) in Hf; [|apply in_seq; lia]. rewrite row_of_rowi in Hf. lia.
Qed.

Lemma is_BWT_row row last : is_BWT T row last -> forall r, (r <= n)%nat -> Z.of_nat r <> last -> row (Z.of_nat r) = bwt_row T r.
Proof.
  intros [H1 H2] r Hr Hne. destruct (rowi_surj r Hr) as (i & Hi & <-).
  rewrite bwt_row_at by assumption. destruct i as [|j].
  - exfalso. apply Hne. rewrite H1. reflexivity.
  - rewrite <- row_of_rowi. rewrite H2 by lia. replace (S j - 1)%nat with j by lia. reflexivity.
Qed.
Lemma is_BWT_unique row last row' last' : is_BWT T row last -> is_BWT T row' last' ->
  last = last' /\ forall r, 0 <= r <= Z.of_nat n -> r <> last -> row r = row' r.
Proof.
  intros H H'. split; [destruct H, H'; congruence|]. intros r Hr Hne.
  replace r with (Z.of_nat (Z.to_nat r)) in * by lia.
  rewrite (is_BWT_row _ _ H), (is_BWT_row _ _ H'); try lia; [reflexivity|].
  destruct H as [-> _], H' as [-> _]. lia.
Qed.

(** * Decoding *)
Notation B := (bwt_rows_of T).
Lemma B_length : length B = S n.
Proof. unfold bwt_rows_of. rewrite map_length, seq_length. reflexivity. Qed.
Lemma B_nth r : (r <= n)%nat -> nth r B None = bwt_row T r.
Proof.
  intros H. unfold bwt_rows_of. rewrite (nth_indep _ None (bwt_row T 0)) by (rewrite map_length, seq_length; lia).
  rewrite map_nth, seq_nth by lia. reflexivity.
Qed.
Lemma B_perm : Permutation B (None :: map Some T).
Proof.
  unfold bwt_rows_of. rewrite <- (Permutation_map _ rowi_perm), map_map.
  rewrite (map_ext_in _ (fun i => match i with O => None | S j => Some (nth j T 0) end)).
  2:{ intros i Hi. apply in_seq in Hi. apply bwt_row_at. lia. }
  cbn [seq map]. rewrite <- seq_shift, map_map. apply perm_skip.
  replace (map (fun x => Some (nth x T 0)) (seq 0 n)) with (map Some T); [reflexivity|].
  rewrite <- (map_map (fun x => nth x T 0) Some). f_equal.
  clear. induction T as [|x l IH]; [reflexivity|]. cbn [length seq map nth]. rewrite <- seq_shift, map_map. f_equal. exact IH.
Qed.

Lemma seq_map_nth : T = map (fun i => nth i T 0) (seq 0 n).
Proof. clear. induction T as [|x l IH]; [reflexivity|]. cbn [length seq map nth]. rewrite <- seq_shift, map_map. f_equal. exact IH. Qed.

Lemma LF_row k : (k < n)%nat -> LF B (rowi (S k)) (nth k T 0) = rowi k.
Proof.
  intros Hk. set (c := nth k T 0). unfold LF.
  rewrite (count_perm (fun x => lt_opt x c) _ _ B_perm), count_cons, count_map. cbn [lt_opt].
  (* the rows before row (S k) holding c *)
  assert (H2 : count (fun x => eq_opt x c) (firstn (rowi (S k)) B)
    = count (fun j => (nth j T 0 =? c) && lexlt (suffix T (S j)) (suffix T (S k))) (seq 0 n)).
  { unfold bwt_rows_of. rewrite firstn_map, count_map.
    assert (Hf : firstn (rowi (S k)) (seq 0 (S n)) = filter (fun r => (r <? rowi (S k))%nat) (seq 0 (S n))).
    { pose proof (rowi_bound (S k) ltac:(lia)) as Hb. revert Hb. generalize (rowi (S k)) as r. intros r Hb.
      replace (S n) with (r + (S n - r))%nat by lia. rewrite seq_app, filter_app.
      rewrite firstn_app, seq_length. replace (r - r)%nat with O by lia. cbn [firstn]. rewrite app_nil_r.
      rewrite firstn_all2 by (rewrite seq_length; lia).
      rewrite (filter_ext_in _ (fun _ => true)) by (intros x Hx; apply in_seq in Hx; lia).
      rewrite (filter_ext_in (fun r0 => (r0 <? r)%nat) (fun _ => false) (seq (0 + r) _)) by (intros x Hx; apply in_seq in Hx; lia).
      assert (Ht : forall l : list nat, filter (fun _ => true) l = l) by (induction l; cbn; congruence).
      assert (Hff : forall l : list nat, filter (fun _ => false) l = []) by (induction l; cbn; congruence).
      rewrite Ht, Hff, app_nil_r. reflexivity. }
    rewrite Hf.
    assert (Hc : forall (f g : nat -> bool) l, count f (filter g l) = count (fun x => g x && f x) l).
    { intros f g l. unfold count. induction l as [|x l IH]; [reflexivity|]. cbn [filter].
      destruct (g x) eqn:Hg; cbn [filter andb]; [destruct (f x); cbn [length]; lia|lia]. }
    rewrite Hc. rewrite <- (count_perm _ _ _ rowi_perm), count_map.
    cbn [seq]. rewrite count_cons. rewrite bwt_row_at by lia. cbn [eq_opt]. rewrite andb_false_r. cbn [Nat.add].
    rewrite <- seq_shift, count_map. apply count_ext. intros j Hj. apply in_seq in Hj.
    rewrite bwt_row_at by lia. cbn [eq_opt].
    pose proof (rowi_lt_iff (S j) (S k) ltac:(lia) ltac:(lia)) as Hiff.
    destruct (lexlt (suffix T (S j)) (suffix T (S k))), (Nat.ltb_spec (rowi (S j)) (rowi (S k))); try lia. }
  rewrite H2. unfold rowi.
  replace (S n) with (n + 1)%nat by lia. rewrite seq_app, count_app. cbn [Nat.add seq].
  rewrite count_cons, (suffix_nil T n) by lia. rewrite (suffix_cons T k) by lia. cbn [lexlt].
  assert (H4 : count (fun x => x <? c) T = count (fun i => nth i T 0 <? c) (seq 0 n)).
  { rewrite seq_map_nth at 1. rewrite count_map. reflexivity. }
  rewrite H4.
  assert (H3 : count (fun j => lexlt (suffix T j) (nth k T 0 :: suffix T (S k))) (seq 0 n)
    = (count (fun i => (nth i T 0 <? c)%Z) (seq 0 n) +
       count (fun j => ((nth j T 0 =? c) && lexlt (suffix T (S j)) (suffix T (S k)))%Z) (seq 0 n))%nat).
  { assert (Hg : forall l, (forall x, In x l -> (x < n)%nat) ->
      count (fun j => lexlt (suffix T j) (nth k T 0 :: suffix T (S k))) l
      = (count (fun i => (nth i T 0 <? c)%Z) l +
       count (fun j => ((nth j T 0 =? c) && lexlt (suffix T (S j)) (suffix T (S k)))%Z) l)%nat).
    { induction l as [|x l IH]; intros Hl; [reflexivity|]. rewrite !count_cons.
      rewrite IH by (intros; apply Hl; right; assumption).
      rewrite (suffix_cons T x) by (apply Hl; left; reflexivity). cbn [lexlt]. fold c.
      destruct (Z.ltb_spec (nth x T 0) c), (Z.eqb_spec (nth x T 0) c); cbn [orb andb];
        destruct (lexlt (suffix T (S x)) (suffix T (S k))); cbn [orb andb]; lia. }
    apply Hg. intros x Hx. apply in_seq in Hx. lia. }
  rewrite H3. unfold count. cbn [Nat.add filter length]. lia.
Qed.

Lemma unbwt_ok : forall k, (k <= n)%nat -> unbwt B k (rowi k) (suffix T k) = T.
Proof.
  induction k as [|k IH]; intros Hk; [reflexivity|]. cbn [unbwt].
  rewrite B_nth by (apply rowi_bound; lia). rewrite bwt_row_at by lia.
  rewrite LF_row by lia. rewrite <- suffix_cons by lia. apply IH. lia.
Qed.
Theorem decode_rows_ok : decode_rows B = T.
Proof.
  unfold decode_rows. rewrite B_length. replace (S n - 1)%nat with n by lia.
  transitivity (unbwt B n (rowi n) (suffix T n)); [|apply unbwt_ok; lia]. rewrite rowi_n, suffix_nil by lia. reflexivity.
Qed.

Lemma somes_perm l l' : Permutation l l' -> Permutation (somes l) (somes l').
Proof. intros H. unfold somes. apply Permutation_flat_map. exact H. Qed.
Lemma somes_map_Some l : somes (map Some l) = l.
Proof. unfold somes. induction l as [|x l IH]; [reflexivity|]. cbn. congruence. Qed.
Theorem bwt_bytes_perm : Permutation (somes B) T.
Proof. rewrite (somes_perm _ _ B_perm). cbn. change (Permutation (somes (map Some T)) T). rewrite somes_map_Some. reflexivity. Qed.

(** row [row_of T 0] is the only one without a byte *)
Lemma B_split : B = map Some (firstn (rowi 0) (somes B)) ++ [None] ++ map Some (skipn (rowi 0) (somes B)).
Proof.
  assert (Hn : nth (rowi 0) B None = None).
  { rewrite B_nth by (apply rowi_bound; lia). apply (bwt_row_at 0). lia. }
  assert (Ho : forall r, (r < length B)%nat -> nth r B None = None -> r = rowi 0).
  { intros r Hr Hx. rewrite B_length in Hr. rewrite B_nth in Hx by lia.
    destruct (rowi_surj r ltac:(lia)) as (i & Hi & <-). rewrite bwt_row_at in Hx by lia. destruct i; [reflexivity|discriminate]. }
  assert (Hl : (rowi 0 < length B)%nat) by (rewrite B_length; pose proof (rowi_bound 0); lia).
  revert Hn Ho Hl. generalize (rowi 0) as r. generalize B as l.
  induction l as [|x l IH]; intros r Hn Ho Hl; [cbn in Hl; lia|].
  assert (Hrest : forall l, (forall q, (q < length l)%nat -> nth q l None <> None) -> l = map Some (somes l)).
  { clear. induction l as [|[c|] l IH]; intros H; [reflexivity| |].
    - cbn [somes flat_map app map]. f_equal. apply IH. intros q Hq. apply (H (S q)). cbn [length]. lia.
    - exfalso. apply (H O); [cbn [length]; lia|reflexivity]. }
  destruct r as [|r].
  - cbn [nth] in Hn. subst x. cbn [somes flat_map app firstn map skipn]. f_equal.
    change (l = map Some (somes l)). apply Hrest.
    intros q Hq Hx. specialize (Ho (S q) ltac:(cbn [length]; lia) Hx). lia.
  - destruct x as [c|]; [|specialize (Ho O ltac:(lia) eq_refl); lia].
    cbn [somes flat_map app firstn map skipn]. f_equal. apply IH.
    + exact Hn.
    + intros q Hq Hx. specialize (Ho (S q) ltac:(cbn [length]; lia) Hx). lia.
    + cbn [length] in Hl. lia.
Qed.
End Rows.

Lemma be_value_be64 v : 0 <= v < 2 ^ 64 -> be_value (be64 v) = v.
Proof.
  intros H. unfold be_value, be64. cbn [map fold_left].
  change (256 ^ 7) with 72057594037927936. change (256 ^ 6) with 281474976710656. change (256 ^ 5) with 1099511627776.
  change (256 ^ 4) with 4294967296. change (256 ^ 3) with 16777216. change (256 ^ 2) with 65536. change (256 ^ 1) with 256. change (256 ^ 0) with 1.
  change (2 ^ 64) with 18446744073709551616 in H. Z.to_euclidean_division_equations. lia.
Qed.
Lemma be64_length v : length (be64 v) = 8%nat.
Proof. reflexivity. Qed.

Theorem decode_file_output T : Z.of_nat (length T) < 2 ^ 64 -> decode (file_output T) = T.
Proof.
  intros Hn. unfold decode, file_output.
  change (firstn 8 (be64 (row_of T 0) ++ somes (bwt_rows_of T))) with (be64 (row_of T 0)).
  change (skipn 8 (be64 (row_of T 0) ++ somes (bwt_rows_of T))) with (somes (bwt_rows_of T)).
  rewrite row_of_rowi, be_value_be64 by (pose proof (rowi_bound T 0); lia).
  rewrite Nat2Z.id, <- (B_split T). apply decode_rows_ok.
Qed.
