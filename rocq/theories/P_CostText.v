(** Texts whose S* substrings are pairwise different and all fall into one bucket of the hash table. *)
From Verif Require Import Base Spec Count Text Keys M_HashTable P_HashTable P_Extract P_Bridge P_Lists.
From Coq Require Import ZifyBool.
Open Scope Z_scope.

(** * The pigeonhole principle *)
Lemma NoDup_app_dis {A} (l1 l2 : list A) : NoDup l1 -> NoDup l2 -> (forall x, In x l1 -> ~ In x l2) -> NoDup (l1 ++ l2).
Proof.
  induction l1 as [|x l IH]; intros H1 H2 H3; [exact H2|]. cbn. inversion H1; subst. constructor.
  - rewrite in_app_iff. intros [H|H]; [contradiction|]. apply (H3 x); [left; reflexivity|exact H].
  - apply IH; [assumption|exact H2|]. intros y Hy. apply H3. right. exact Hy.
Qed.
Lemma NoDup_firstn {A} k : forall l : list A, NoDup l -> NoDup (firstn k l).
Proof.
  induction k as [|k IH]; intros l H; [constructor|]. destruct l as [|x l]; [constructor|]. cbn [firstn]. inversion H as [|? ? H1 H2]; subst.
  constructor; [|apply IH, H2]. intros Hin. apply H1. rewrite <- (firstn_skipn k l). apply in_or_app. left. exact Hin.
Qed.
Lemma filter_split {A} (f : A -> bool) l : zln (filter f l) + zln (filter (fun x => negb (f x)) l) = zln l.
Proof. induction l as [|x l IH]; [reflexivity|]. cbn [filter]. destruct (f x); cbn [negb length]; lia. Qed.
Lemma pigeonhole {A} (f : A -> Z) (u : Z) : 0 <= u -> forall (k : nat) (l : list A), (1 <= k)%nat -> NoDup l ->
  (forall x, In x l -> 0 <= f x < Z.of_nat k) -> u * Z.of_nat k <= zln l ->
  exists v l', NoDup l' /\ incl l' l /\ zln l' = u /\ forall x, In x l' -> f x = v.
Proof.
  intros Hu. induction k as [|k IH]; intros l Hk Hnd Hf Hl; [lia|].
  set (a := filter (fun x => f x =? Z.of_nat k) l).
  destruct (Z_le_gt_dec u (zln a)) as [Ha|Ha].
  - exists (Z.of_nat k), (firstn (Z.to_nat u) a). 
    assert (Hin : incl (firstn (Z.to_nat u) a) a) by (intros x Hx; rewrite <- (firstn_skipn (Z.to_nat u) a); apply in_or_app; left; exact Hx).
    split; [|split; [|split]].
    + apply NoDup_firstn, NoDup_filter, Hnd.
    + intros x Hx. apply Hin in Hx. apply filter_In in Hx. apply Hx.
    + rewrite firstn_length_le; lia.
    + intros x Hx. apply Hin in Hx. apply filter_In in Hx. lia.
  - pose proof (filter_split (fun x => f x =? Z.of_nat k) l) as Hsp. fold a in Hsp.
    assert (Hk0 : k <> 0%nat).
    { intros ->. assert (Hz : zln (filter (fun x => negb (f x =? Z.of_nat 0)) l) = 0); [|lia].
      destruct (filter (fun x => negb (f x =? Z.of_nat 0)) l) as [|y r] eqn:Ey; [reflexivity|]. exfalso.
      assert (Hy : In y (y :: r)) by (left; reflexivity). rewrite <- Ey in Hy. apply filter_In in Hy as [Hy1 Hy2]. specialize (Hf y Hy1). lia. }
    destruct (IH (filter (fun x => negb (f x =? Z.of_nat k)) l)) as (v & l' & H1 & H2 & H3 & H4).
    + lia.
    + apply NoDup_filter, Hnd.
    + intros x Hx. apply filter_In in Hx as [Hx1 Hx2]. specialize (Hf x Hx1). lia.
    + rewrite Nat2Z.inj_succ in Hl. assert (u * Z.succ (Z.of_nat k) = u * Z.of_nat k + u) by ring. lia.
    + exists v, l'. split; [exact H1|]. split; [|split; assumption]. intros x Hx. apply H2 in Hx. apply filter_In in Hx. apply Hx.
Qed.

(** * Words of k digits below 8 *)
Definition digits : list Z := [0; 1; 2; 3; 4; 5; 6; 7].
Fixpoint words (k : nat) : list (list Z) :=
  match k with O => [[]] | S k => flat_map (fun d => map (cons d) (words k)) digits end.
Lemma words_len k : zln (words k) = 8 ^ Z.of_nat k.
Proof.
  induction k as [|k IH]; [reflexivity|]. rewrite Nat2Z.inj_succ, Z.pow_succ_r by lia. rewrite <- IH.
  cbn [words digits flat_map]. rewrite !app_length, !map_length. cbn [length]. lia.
Qed.
Lemma words_in k w : In w (words k) -> length w = k /\ Forall (fun d => 0 <= d < 8) w.
Proof.
  revert w. induction k as [|k IH]; intros w Hw; cbn [words] in Hw.
  - destruct Hw as [<-|[]]. split; [reflexivity|constructor].
  - apply in_flat_map in Hw as (d & Hd & Hw). apply in_map_iff in Hw as (w' & <- & Hw'). destruct (IH w' Hw') as [H1 H2].
    split; [cbn [length]; lia|]. constructor; [|exact H2]. cbn in Hd. lia.
Qed.
Lemma words_nodup k : NoDup (words k).
Proof.
  induction k as [|k IH]; cbn [words]; [repeat constructor; intros []|].
  assert (Hd : NoDup digits) by (unfold digits; repeat (constructor; [cbn; lia|]); constructor).
  induction Hd as [|d l Hni Hnd IHd]; cbn [flat_map]; [constructor|].
  apply NoDup_app_dis; [|exact IHd|].
  - clear - IH. induction IH as [|w l Hni Hnd IHl]; cbn [map]; constructor; [|exact IHl].
    intros Hin. apply in_map_iff in Hin as (w' & Hw & Hin). injection Hw as ->. contradiction.
  - intros x Hx Hy. apply in_map_iff in Hx as (w & <- & _). apply in_flat_map in Hy as (d' & Hd' & Hy). apply in_map_iff in Hy as (w' & Hw' & _).
    injection Hw' as -> _. contradiction.
Qed.

(** * Blocks: a zero followed by strictly falling letters that spell the word *)
Fixpoint letters (w : list Z) : list Z := match w with [] => [] | d :: w => (8 * zl w + d + 2) :: letters w end.
Definition blk (w : list Z) : list Z := 0 :: letters w.
Definition bad_text (ws : list (list Z)) : list Z := 1 :: concat (map blk ws).
Definition word (w : list Z) : Prop := length w = 30%nat /\ Forall (fun d => 0 <= d < 8) w.

Lemma letters_len w : length (letters w) = length w.
Proof. induction w as [|d w IH]; [reflexivity|]. cbn [letters length]. rewrite IH. reflexivity. Qed.
Lemma letters_inj w : forall w', length w = length w' -> letters w = letters w' -> w = w'.
Proof.
  induction w as [|d w IH]; intros [|d' w'] Hl H; cbn [length] in Hl; try lia; [reflexivity|]. cbn [letters] in H. injection H as H1 H2.
  assert (Hl' : length w = length w') by lia. f_equal; [rewrite Hl' in H1; lia|apply IH; assumption].
Qed.
Lemma letters_nth w : Forall (fun d => 0 <= d < 8) w -> forall j, (j < length w)%nat ->
  exists d, 0 <= d < 8 /\ nth j (letters w) 0 = 8 * (zl w - 1 - Z.of_nat j) + d + 2.
Proof.
  induction 1 as [|d w Hd Hw IH]; intros j Hj; cbn [length] in Hj; [lia|]. cbn [letters]. destruct j as [|j]; cbn [nth].
  - exists d. split; [exact Hd|]. cbn [length]. lia.
  - destruct (IH j ltac:(lia)) as (d' & Hd' & He). exists d'. split; [exact Hd'|]. rewrite He. cbn [length]. lia.
Qed.
Lemma blk_len w : word w -> length (blk w) = 31%nat.
Proof. intros [H _]. cbn [blk length]. rewrite letters_len, H. reflexivity. Qed.
Lemma blk_inj w w' : word w -> word w' -> blk w = blk w' -> w = w'.
Proof. intros [H _] [H' _] He. injection He as He. apply letters_inj; [congruence|exact He]. Qed.

Lemma concat_nth (m : nat) : forall (ls : list (list Z)) k j, (forall l, In l ls -> length l = m) -> (k < length ls)%nat -> (j < m)%nat ->
  nth (k * m + j) (concat ls) 0 = nth j (nth k ls []) 0.
Proof.
  induction ls as [|l ls IH]; intros k j Hl Hk Hj; cbn [length] in Hk; [lia|]. cbn [concat].
  assert (Hlen : length l = m) by (apply Hl; left; reflexivity). destruct k as [|k]; cbn [nth].
  - rewrite app_nth1 by lia. f_equal. 
  - rewrite app_nth2 by lia. replace (S k * m + j - length l)%nat with (k * m + j)%nat by lia. apply IH; [|lia|exact Hj]. intros l' Hl'. apply Hl. right. exact Hl'.
Qed.
Lemma concat_len (m : nat) : forall ls : list (list Z), (forall l, In l ls -> length l = m) -> length (concat ls) = (length ls * m)%nat.
Proof.
  induction ls as [|l ls IH]; intros Hl; [reflexivity|]. cbn [concat length]. rewrite app_length, IH by (intros; apply Hl; right; assumption).
  rewrite (Hl l) by (left; reflexivity). lia.
Qed.

Section Bad.
Context (ws : list (list Z)) (Hws : forall w, In w ws -> word w).
Let l := bad_text ws.
Let t := tl_ l.
Let u := zl ws.
Let n := zl l.
Lemma bad_len : n = 31 * u + 1.
Proof.
  unfold n, l, bad_text. cbn [length]. rewrite (concat_len 31).
  - rewrite map_length. unfold u. lia.
  - intros b Hb. apply in_map_iff in Hb as (w & <- & Hw). apply blk_len, Hws, Hw.
Qed.
Lemma nth_word k : 0 <= k < u -> word (nth (Z.to_nat k) ws []).
Proof. intros Hk. apply Hws, nth_In. unfold u in Hk. lia. Qed.
Lemma bad_at k j : 0 <= k < u -> 0 <= j < 31 -> t (1 + 31 * k + j) = nth (Z.to_nat j) (blk (nth (Z.to_nat k) ws [])) 0.
Proof.
  intros Hk Hj. unfold t, tl_, l, bad_text. replace (Z.to_nat (1 + 31 * k + j)) with (S (Z.to_nat k * 31 + Z.to_nat j)) by lia. cbn [nth].
  rewrite (concat_nth 31).
  - f_equal. change [] with (@nil Z) at 1. rewrite (nth_indep _ [] (blk [])) by (rewrite map_length; unfold u in Hk; lia). apply map_nth.
  - intros b Hb. apply in_map_iff in Hb as (w & <- & Hw). apply blk_len, Hws, Hw.
  - rewrite map_length. unfold u in Hk. lia.
  - lia.
Qed.
Lemma bad_zero k : 0 <= k <= u -> t (1 + 31 * k) = 0.
Proof.
  intros Hk. destruct (Z.eq_dec k u) as [->|].
  - replace (1 + 31 * u) with n by (rewrite bad_len; lia). apply tl_n.
  - rewrite <- (Z.add_0_r (1 + 31 * k)). rewrite bad_at by lia. reflexivity.
Qed.
Lemma bad_letter k j : 0 <= k < u -> 1 <= j < 31 -> exists d, 0 <= d < 8 /\ t (1 + 31 * k + j) = 8 * (30 - j) + d + 2.
Proof.
  intros Hk Hj. rewrite bad_at by lia. destruct (nth_word k Hk) as [H1 H2].
  destruct (letters_nth _ H2 (Z.to_nat (j - 1)) ltac:(lia)) as (d & Hd & He). exists d. split; [exact Hd|].
  replace (Z.to_nat j) with (S (Z.to_nat (j - 1))) by lia. cbn [blk nth]. rewrite He, H1. lia.
Qed.
Lemma bad_pos i : 0 < i < n -> exists k j, 0 <= k < u /\ 0 <= j < 31 /\ i = 1 + 31 * k + j.
Proof.
  intros Hi. rewrite bad_len in Hi. exists ((i - 1) / 31), ((i - 1) mod 31).
  pose proof (Z.div_mod (i - 1) 31 ltac:(lia)). pose proof (Z.mod_pos_bound (i - 1) 31 ltac:(lia)). lia.
Qed.
Lemma bad_bytes : Forall is_byte l.
Proof.
  apply Forall_forall. intros x Hx. apply (In_nth _ _ 0) in Hx as (i & Hi & <-). unfold is_byte.
  assert (Hx : nth i l 0 = t (Z.of_nat i)) by (unfold t, tl_; rewrite Nat2Z.id; reflexivity). rewrite Hx.
  destruct (Nat.eq_dec i 0) as [->|]; [cbn; lia|].
  destruct (bad_pos (Z.of_nat i) ltac:(unfold n; lia)) as (k & j & Hk & Hj & ->).
  destruct (Z.eq_dec j 0) as [->|]; [rewrite Z.add_0_r, bad_zero by lia; lia|].
  destruct (bad_letter k j Hk ltac:(lia)) as (d & Hd & ->). lia.
Qed.
Lemma bad_isS k j : 0 <= k < u -> 0 <= j < 31 -> isS t n (1 + 31 * k + j) = (j =? 0).
Proof.
  intros Hk Hj. pose proof bad_len as Hn.
  destruct (Z.eq_dec (1 + 31 * k + j) (n - 1)) as [He|He].
  - rewrite He, isS_last. lia.
  - rewrite isS_step by lia. replace (1 + 31 * k + j + 1) with (1 + 31 * k + (j + 1)) by lia.
    destruct (Z.eq_dec j 0) as [->|].
    + rewrite Z.add_0_r, bad_zero by lia. destruct (bad_letter k (0 + 1) Hk ltac:(lia)) as (d & Hd & ->). lia.
    + destruct (bad_letter k j Hk ltac:(lia)) as (d & Hd & ->). destruct (Z.eq_dec j 30) as [->|].
      * replace (1 + 31 * k + (30 + 1)) with (1 + 31 * (k + 1)) by lia. rewrite bad_zero by lia. lia.
      * destruct (bad_letter k (j + 1) Hk ltac:(lia)) as (d' & Hd' & ->). lia.
Qed.
Lemma bad_isS0 : 1 <= u -> isS t n 0 = false.
Proof.
  intros Hu. pose proof bad_len. rewrite isS_step by lia. replace (0 + 1) with (1 + 31 * 0) by lia. rewrite bad_zero by lia.
  replace (t 0) with 1 by reflexivity. reflexivity.
Qed.
Lemma bad_LMS k j : 0 <= k < u -> 0 <= j < 31 -> LMS t n (1 + 31 * k + j) = (j =? 0).
Proof.
  intros Hk Hj. unfold LMS. rewrite bad_isS by assumption. pose proof bad_len.
  destruct (Z.eq_dec j 0) as [->|]; [|lia]. replace (1 + 31 * k + 0 - 1) with (31 * k) by lia.
  replace (isS t n (31 * k)) with false; [lia|]. destruct (Z.eq_dec k 0) as [->|]; [change (31 * 0) with 0; rewrite bad_isS0 by lia; reflexivity|].
  replace (31 * k) with (1 + 31 * (k - 1) + 30) by lia. rewrite bad_isS by lia. reflexivity.
Qed.
Lemma bad_LMS_inv e : LMS t n e = true -> exists k, 0 <= k < u /\ e = 1 + 31 * k.
Proof.
  intros H. pose proof (LMS_bound t n e H). destruct (bad_pos e ltac:(lia)) as (k & j & Hk & Hj & ->).
  rewrite bad_LMS in H by assumption. exists k. split; [exact Hk|lia].
Qed.
Lemma bad_nx k : 0 <= k < u -> nx t n (1 + 31 * k + 1) = 1 + 31 * (k + 1).
Proof.
  intros Hk. pose proof bad_len as Hn.
  assert (Hs : forall j, 0 <= j <= 30 -> nx t n (1 + 31 * k + (31 - j)) = 1 + 31 * (k + 1)).
  { intros j [Hj0 Hj]. revert Hj. pattern j. apply natlike_ind; [| |exact Hj0].
    - intros _. replace (1 + 31 * k + (31 - 0)) with (1 + 31 * (k + 1)) by lia. destruct (Z.eq_dec (k + 1) u) as [->|].
      + replace (1 + 31 * u) with n by lia. apply nx_n. lia.
      + apply nx_LMS. rewrite <- (Z.add_0_r (1 + 31 * (k + 1))). rewrite bad_LMS by lia. reflexivity.
    - intros x Hx IH Hx30. rewrite nx_step; [|lia|rewrite bad_LMS by lia; lia]. rewrite <- IH by lia. f_equal. lia. }
  replace (1 + 31 * k + 1) with (1 + 31 * k + (31 - 30)) by lia. apply Hs. lia.
Qed.
Lemma bad_sub k : 0 <= k < u -> sub t n (1 + 31 * k) = blk (nth (Z.to_nat k) ws []) ++ [0].
Proof.
  intros Hk. unfold sub. rewrite bad_nx by exact Hk. pose proof (blk_len _ (nth_word k Hk)) as Hbl.
  apply (nth_ext _ _ 0 0).
  - rewrite map_length, zseq_length, app_length, Hbl. cbn [length]. lia.
  - intros i Hi. rewrite map_length, zseq_length in Hi.
    rewrite (nth_indep _ 0 (t 0)) by (rewrite map_length, zseq_length; lia). rewrite map_nth. unfold zseq. rewrite zseq_n_nth by lia.
    destruct (Nat.eq_dec i 31) as [->|].
    + rewrite app_nth2 by lia. rewrite Hbl. cbn [Nat.sub nth]. replace (1 + 31 * k + Z.of_nat 31) with (1 + 31 * (k + 1)) by lia. apply bad_zero. lia.
    + rewrite app_nth1 by lia. rewrite bad_at by lia. rewrite Nat2Z.id. reflexivity.
Qed.
Lemma bad_sub_len e : LMS t n e = true -> zl (sub t n e) = 32.
Proof.
  intros He. destruct (bad_LMS_inv e He) as (k & Hk & ->). rewrite bad_sub by exact Hk. rewrite app_length, blk_len by (apply nth_word, Hk). reflexivity.
Qed.
Lemma bad_head : 1 <= u -> nx t n 0 = 1.
Proof.
  intros Hu. pose proof bad_len. rewrite nx_step by (lia || reflexivity). apply nx_LMS. exact (bad_LMS 0 0 ltac:(lia) ltac:(lia)).
Qed.
Lemma bad_inj e e' : NoDup ws -> LMS t n e = true -> LMS t n e' = true -> sub t n e = sub t n e' -> e = e'.
Proof.
  intros Hnd He He' Hs. destruct (bad_LMS_inv e He) as (k & Hk & ->). destruct (bad_LMS_inv e' He') as (k' & Hk' & ->).
  rewrite !bad_sub in Hs by assumption. apply app_inj_tail in Hs as [Hs _]. apply blk_inj in Hs; [|apply nth_word; assumption..].
  apply NoDup_nth in Hs; [unfold u in *; lia|exact Hnd|unfold u in *; lia..].
Qed.
Lemma bad_cnt : u <= cnt (LMS t n) 0 n.
Proof.
  unfold cnt. replace u with (zl (map (fun k => 1 + 31 * k) (zseq 0 u))) by (rewrite map_length, zseq_length; unfold u; lia).
  apply inj_le, NoDup_incl_length.
  - apply FinFun.Injective_map_NoDup; [intros x y; lia|apply zseq_NoDup].
  - intros x Hx. apply in_map_iff in Hx as (k & <- & Hk). apply in_zseq in Hk. apply filter_In. split; [apply in_zseq; rewrite bad_len; lia|].
    rewrite <- (Z.add_0_r (1 + 31 * k)). rewrite bad_LMS by lia. reflexivity.
Qed.
End Bad.

(** u different words whose S* substrings get the same hash value *)
Lemma colliding_words hts u : 1 <= hts -> 0 <= u -> u * hts <= 8 ^ 30 ->
  exists hv ws, NoDup ws /\ zl ws = u /\ (forall w, In w ws -> word w) /\ forall w, In w ws -> hash_of hts (blk w ++ [0]) = hv.
Proof.
  intros Hh Hu Hle.
  destruct (pigeonhole (fun w => hash_of hts (blk w ++ [0])) u Hu (Z.to_nat hts) (words 30)) as (hv & ws & H1 & H2 & H3 & H4).
  - lia.
  - apply words_nodup.
  - intros w _. rewrite Z2Nat.id by lia. apply hash_range. exact Hh.
  - rewrite Z2Nat.id, words_len by lia. exact Hle.
  - exists hv, ws. split; [exact H1|]. split; [exact H3|]. split; [|exact H4]. intros w Hw. apply words_in, H2, Hw.
Qed.
