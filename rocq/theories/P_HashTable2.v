(** Hash table: construction, names, lookup of names, traversal. *)
From Verif Require Import Base M_PackedArray M_HashTable M_Flbwt Spec Count P_PackedArray P_Bytes P_HashTable.
From Coq Require Import ZifyBool.
Open Scope Z_scope.

Lemma azeros_ok len : 0 <= len -> wp (azeros len) (fun a => alen a = len /\ forall i, 0 <= i < len -> av a i = Some 0).
Proof.
  intros Hl. unfold azeros. eapply wp_mono.
  { apply (wp_for_up (fun k a => alen a = len /\ forall i, 0 <= i < k -> av a i = Some 0)); [lia| |].
    - split; [apply alen_new|]. intros; lia.
    - intros i a Hi [Ha Hg]. rewrite aset_ok by lia. cbn [wp]. split; [rewrite alen_upd; assumption|].
      intros j Hj. rewrite av_upd by lia. destruct (Z.eqb_spec j i); [reflexivity|]. apply Hg. lia. }
  cbn beta. auto.
Qed.

(** enough bytes for every value up to n / 2 + 1 *)
Definition name_bytes (n : Z) : Z := (Z.log2 (n / 2 + 1) + 1 + 7) / 8.
Lemma name_bytes_ok n : 0 <= n < 2 ^ 62 -> 1 <= name_bytes n <= 8 /\ n / 2 + 1 < 256 ^ name_bytes n.
Proof.
  intros Hn. unfold name_bytes. assert (Hd : 0 <= n / 2 < 2 ^ 61).
  { split; [apply Z.div_pos; lia|]. apply Z.div_lt_upper_bound; lia. }
  set (x := n / 2 + 1) in *. pose proof (Z.log2_spec x ltac:(lia)) as [H1 H2]. pose proof (Z.log2_nonneg x).
  assert (Z.log2 x < 62) by (apply Z.log2_lt_pow2; lia).
  pose proof (Z.div_mod (Z.log2 x + 1 + 7) 8 ltac:(lia)). pose proof (Z.mod_pos_bound (Z.log2 x + 1 + 7) 8 ltac:(lia)).
  set (k := (Z.log2 x + 1 + 7) / 8) in *. split; [lia|].
  apply Z.lt_le_trans with (2 ^ (Z.log2 x + 1)); [exact H2|].
  change 256 with (2 ^ 8). rewrite <- Z.pow_mul_r by lia. apply Z.pow_le_mono_r; lia.
Qed.

Definition no_ch : Z -> list (Z * list Z) := fun _ => [].
Theorem ht_new_ok E hb size n : 1 <= size -> 13 <= hb -> 0 <= n < 2 ^ 62 ->
  wp (ht_new_hb hb size n) (fun h => HTSIZE h = size /\ HBSIZE h = hb /\ NAME_BYTES h = name_bytes n /\ alen (ht_buf h) = 0 /\
    hinv E h (fun _ => -1) (fun _ => -1) no_ch (fun _ => 0)).
Proof.
  intros Hs Hb Hn. unfold ht_new_hb.
  eapply wp_bind_mono; [apply azeros_ok; lia|]. cbn beta. intros rest [Hr1 Hr2].
  eapply wp_bind_mono; [apply azeros_ok; lia|]. cbn beta. intros head [Hh1 Hh2].
  pose proof (name_bytes_ok n Hn) as [Hnb _].
  assert (Hd : 0 <= n / 2 < 2 ^ 61).
  { split; [apply Z.div_pos; lia|]. apply Z.div_lt_upper_bound; lia. }
  assert (Hu : u64 (n / 2 + 1) = n / 2 + 1) by (unfold u64; apply wrap_small; lia). rewrite Hu.
  rewrite position_of_msb_ok by lia. cbn [bind wp].
  assert (Hnb2 : (Z.log2 (n / 2 + 1) + 1) / 8 + (if (Z.log2 (n / 2 + 1) + 1) mod 8 =? 0 then 0 else 1) = name_bytes n).
  { unfold name_bytes. set (k := Z.log2 (n / 2 + 1) + 1).
    pose proof (Z.div_mod k 8 ltac:(lia)). pose proof (Z.mod_pos_bound k 8 ltac:(lia)).
    pose proof (Z.div_mod (k + 7) 8 ltac:(lia)). pose proof (Z.mod_pos_bound (k + 7) 8 ltac:(lia)).
    destruct (Z.eqb_spec (k mod 8) 0); lia. }
  rewrite Hnb2. cbn [HTSIZE HBSIZE NAME_BYTES ht_buf].
  split; [reflexivity|]. split; [reflexivity|]. split; [reflexivity|]. split; [apply alen_new|].
  constructor; cbn [HTSIZE HBSIZE NAME_BYTES ht_rest ht_head ht_buf]; try assumption.
  - rewrite alen_new. lia.
  - apply bclean_new.
  - intros hv Hhv. left. cbn [ht_head ht_rest]. split; [apply Hh2, Hhv|]. split; [apply Hr2, Hhv|reflexivity].
  - intros; constructor.
  - intros hv q s _ [].
Qed.

Section Table.
Context (E : env) (h : htable) (own role : Z -> Z) (ch : Z -> list (Z * list Z)) (en : Z -> Z).
Context (HI : hinv E h own role ch en).
Notation nb := (NAME_BYTES h).

Definition inch (hv q : Z) (s : list Z) : Prop := 0 <= hv < HTSIZE h /\ In (q, s) (ch hv).

Lemma inch_rec hv q s : inch hv q s ->
  0 < q /\ q + rsize nb (zln s) + 12 <= alen (ht_buf h) /\ q + rsize nb (zln s) <= en hv /\ recd E nb (ht_buf h) q s /\
  (forall i, q <= i < q + rsize nb (zln s) -> own i = hv /\ role i = if i <? name_off q (zln s) then -1 else q).
Proof.
  intros [Hhv Hin]. pose proof (hi_nb _ _ _ _ _ _ HI).
  destruct (hi_bucket _ _ _ _ _ _ HI hv Hhv) as [(A & B & C)|(hd & r & A1 & A2 & A3 & A4 & A5 & A6 & A7 & A8 & A9)].
  - rewrite C in Hin. contradiction.
  - destruct (seg_in E nb own role (ht_buf h) hv hd (ch hv) (en hv) ltac:(lia) A4 q s Hin) as (B1 & B2 & B3 & B4 & B5).
    split; [assumption|]. split; [lia|]. split; [assumption|]. split; assumption.
Qed.
Lemma inch_pos_inj hv q s hv' s' : inch hv q s -> inch hv' q s' -> hv = hv' /\ s = s'.
Proof.
  intros H H'. pose proof (inch_rec _ _ _ H) as (A1 & A2 & A3 & A4 & A5). pose proof (inch_rec _ _ _ H') as (B1 & B2 & B3 & B4 & B5).
  pose proof (hi_nb _ _ _ _ _ _ HI).
  pose proof (rsize_pos nb (zln s) ltac:(lia) (proj1 (rc_len _ _ _ _ _ A4))). pose proof (rsize_pos nb (zln s') ltac:(lia) (proj1 (rc_len _ _ _ _ _ B4))).
  destruct (A5 q ltac:(lia)) as [Ho _]. destruct (B5 q ltac:(lia)) as [Ho' _].
  split; [congruence|].
  pose proof (rc_len _ _ _ _ _ A4) as L1. pose proof (rc_len _ _ _ _ _ B4) as L2.
  pose proof (get_length_ok E _ q (zln s) ltac:(lia) (rc_lenf _ _ _ _ _ A4)) as G1.
  pose proof (get_length_ok E _ q (zln s') ltac:(lia) (rc_lenf _ _ _ _ _ B4)) as G2.
  assert (Hl : zln s = zln s') by congruence.
  apply (nth_ext s s' 0 0); [lia|]. intros k Hk.
  pose proof (rc_str _ _ _ _ _ A4 (Z.of_nat k) ltac:(lia)) as S1. pose proof (rc_str _ _ _ _ _ B4 (Z.of_nat k) ltac:(lia)) as S2.
  rewrite Nat2Z.id in S1, S2. rewrite Hl in S1. congruence.
Qed.
Lemma inch_str_inj hv q q' hv' s : inch hv q s -> inch hv' q' s -> q = q'.
Proof.
  intros [H1 H2] [H3 H4]. pose proof (hi_hash _ _ _ _ _ _ HI hv q s H1 H2). pose proof (hi_hash _ _ _ _ _ _ HI hv' q' s H3 H4).
  replace hv' with hv in * by congruence. pose proof (hi_dist _ _ _ _ _ _ HI hv H1) as Hd.
  apply (lookup_in s _ _ Hd) in H2. apply (lookup_in s _ _ Hd) in H4. congruence.
Qed.

Theorem find_name_ok T p s hv q name : 3 <= zln s -> tseg T p s -> inch hv q s ->
  0 <= name < 256 ^ nb -> enc E (ht_buf h) (name_off q (zln s)) name nb ->
  find_name E h T (zln s) p = Ok name.
Proof.
  intros Hm Ht Hin Hn He. unfold find_name. rewrite (hash_ok h T p s Ht). cbn [bind].
  pose proof (hi_hash _ _ _ _ _ _ HI hv q s (proj1 Hin) (proj2 Hin)) as Hh. rewrite Hh.
  destruct Hin as [Hhv Hin].
  assert (Hhead : exists hd, av (ht_head h) hv = Some hd).
  { destruct (hi_bucket _ _ _ _ _ _ HI hv Hhv) as [(A & _)|(hd & r & A & _)]; eauto. }
  destruct Hhead as [hd Hhd]. rewrite (aget_ok _ _ _ Hhd). cbn [bind].
  destruct (scan_ok E h own role ch en T p s HI Hm Ht hv hd Hhv Hhd) as [(_ & _ & Hc)|(_ & Hsc)].
  - rewrite Hc in Hin. contradiction.
  - rewrite (lookup_in s _ q) in Hsc; [|apply (hi_dist _ _ _ _ _ _ HI); assumption|assumption].
    rewrite Hsc. cbn [bind]. destruct (inch_rec hv q s (conj Hhv Hin)) as (_ & _ & _ & Hr & _).
    pose proof (rc_len _ _ _ _ _ Hr). pose proof (hi_nb _ _ _ _ _ _ HI).
    apply (get_name_ok E h _ q (zln s) name); try assumption; try lia. apply (rc_lenf _ _ _ _ _ Hr).
Qed.
Theorem find_name_absent T p s : 3 <= zln s -> tseg T p s -> (forall hv q, ~ inch hv q s) -> find_name E h T (zln s) p = Err RuntimeError.
Proof.
  intros Hm Ht Hin. unfold find_name. rewrite (hash_ok h T p s Ht). cbn [bind].
  pose proof (hash_range (HTSIZE h) s (hi_size _ _ _ _ _ _ HI)) as Hhv. set (hv := hash_of (HTSIZE h) s) in *.
  assert (Hhead : exists hd, av (ht_head h) hv = Some hd).
  { destruct (hi_bucket _ _ _ _ _ _ HI hv Hhv) as [(A & _)|(hd & r & A & _)]; eauto. }
  destruct Hhead as [hd Hhd]. rewrite (aget_ok _ _ _ Hhd). cbn [bind].
  destruct (scan_ok E h own role ch en T p s HI Hm Ht hv hd Hhv Hhd) as [(_ & Hsc & Hc)|(_ & Hsc)]; rewrite Hsc; [reflexivity|].
  destruct (lookup s (ch hv)) as [q|] eqn:Hl; [|reflexivity]. apply lookup_Some in Hl. exfalso. apply (Hin hv q). split; assumption.
Qed.

(** set_name on a record keeps the table *)
Theorem hinv_set_name hv q s name : inch hv q s -> 0 <= name ->
  exists b', set_name E h (ht_buf h) q name = Ok b' /\ hinv E (with_buf h b') own role ch en /\
    bfr E (name_off q (zln s)) (name_off q (zln s) + nb) (ht_buf h) b' /\
    enc E b' (name_off q (zln s)) name nb.
Proof.
  intros Hin Hn. destruct (inch_rec hv q s Hin) as (A1 & A2 & A3 & A4 & A5).
  pose proof (rc_len _ _ _ _ _ A4) as Hl. pose proof (hi_nb _ _ _ _ _ _ HI) as Hnb.
  pose proof (lenlen_le8 (zln s) ltac:(lia)) as Hll.
  assert (Hno : name_off q (zln s) + nb = q + rsize nb (zln s)) by (unfold name_off, rsize; lia).
  assert (Hnq : q < name_off q (zln s)) by (unfold name_off; lia).
  destruct (set_name_ok E h (ht_buf h) q (zln s) name) as (b' & H1 & H2 & H3 & H4); try lia.
  { apply (rc_lenf _ _ _ _ _ A4). }
  exists b'. split; [assumption|]. split; [|split; assumption]. pose proof (proj1 H2) as Hlen.
  pose proof HI as [I1 I2 I3 I4 I5 I6 I7 I8 I9 I10].
  constructor; cbn [with_buf HTSIZE HBSIZE NAME_BYTES ht_rest ht_head ht_buf]; try assumption.
  - rewrite Hlen. assumption.
  - auto.
  - intros x Hx. apply (bucket_frame E h (with_buf h b') own own role role ch ch en en x);
      cbn [with_buf HTSIZE HBSIZE NAME_BYTES ht_rest ht_head ht_buf]; try reflexivity; try lia.
    + intros i Hi Ho. split; [assumption|]. split; [reflexivity|]. intros Hr. apply (proj2 H2). intros Hr2.
      destruct (A5 i ltac:(lia)) as [Hoi Hri]. replace (i <? name_off q (zln s)) with false in Hri by lia.
      destruct Hr as [Hr|Hr]; [lia|]. replace x with hv in * by congruence. lia.
    + apply I8, Hx.
Qed.

(** growing the buffer and writing beyond the old end keeps the table *)
Theorem hinv_extend b' : alen (ht_buf h) <= alen b' < 2 ^ 63 -> bclean b' ->
  (forall i, 0 <= i < alen (ht_buf h) -> bget E b' i = bget E (ht_buf h) i) ->
  hinv E (with_buf h b') (fun i => if i <? alen (ht_buf h) then own i else -1) role ch en.
Proof.
  intros Hl Hc Hg. pose proof HI as [I1 I2 I3 I4 I5 I6 I7 I8 I9 I10].
  constructor; cbn [with_buf HTSIZE HBSIZE NAME_BYTES ht_rest ht_head ht_buf]; try assumption; try lia.
  intros x Hx. apply (bucket_frame E h (with_buf h b') own _ role role ch ch en en x);
      cbn [with_buf HTSIZE HBSIZE NAME_BYTES ht_rest ht_head ht_buf]; try reflexivity; try lia.
  - intros i Hi Ho. replace (i <? alen (ht_buf h)) with true by lia. split; [assumption|]. split; [reflexivity|].
    intros _. apply Hg. lia.
  - apply I8, Hx.
Qed.
Theorem hinv_write_above L b' : (forall i, L <= i -> own i = -1) -> alen b' = alen (ht_buf h) -> bclean b' ->
  (forall i, 0 <= i < L -> bget E b' i = bget E (ht_buf h) i) ->
  hinv E (with_buf h b') own role ch en.
Proof.
  intros Ho Hl Hc Hg. pose proof HI as [I1 I2 I3 I4 I5 I6 I7 I8 I9 I10].
  constructor; cbn [with_buf HTSIZE HBSIZE NAME_BYTES ht_rest ht_head ht_buf]; try assumption; try lia.
  intros x Hx. apply (bucket_frame E h (with_buf h b') own _ role role ch ch en en x);
      cbn [with_buf HTSIZE HBSIZE NAME_BYTES ht_rest ht_head ht_buf]; try reflexivity; try lia.
  - intros i Hi Hoi. split; [assumption|]. split; [reflexivity|]. intros _. apply Hg.
    destruct (Z_lt_ge_dec i L); [lia|]. specialize (Ho i ltac:(lia)). lia.
  - apply I8, Hx.
Qed.

(** traversal of one bucket *)
Definition at_list (s : arr Z) (lo : Z) (l : list Z) : Prop :=
  forall k, 0 <= k < zln l -> av s (lo + k) = Some (nth (Z.to_nat k) l 0).

Lemma collect_seg hv q l e : seg E nb own role (ht_buf h) hv q l e -> 0 < e < 2 ^ 63 -> bget E (ht_buf h) e = Ok 0 ->
  forall fuel s j, e - q < Z.of_nat fuel -> 0 <= j -> j + zln l <= alen s ->
  wp (loop fuel (fun '(p, s, j) =>
    if p =? 0 then Ok (inr (s, j)) else
    l <- get_length E (ht_buf h) p ;;
    if l =? 0 then Ok (inr (s, j)) else
    if l =? 2 then (p' <- get_pointer E (ht_buf h) p ;; Ok (inl (p', s, j))) else
    s <- aset s j p ;;
    k <- string_info_length E h (ht_buf h) p l ;;
    Ok (inl (u64 (p + k), s, j + 1))) (q, s, j))
   (fun '(s', j') => j' = j + zln l /\ alen s' = alen s /\ at_list s' j (map fst l) /\
      forall i, ~ j <= i < j + zln l -> av s' i = av s i).
Proof.
  pose proof (hi_nb _ _ _ _ _ _ HI) as Hnb.
  assert (Hnb0 : 0 <= nb) by lia.
  intros Hseg. induction Hseg as [q|q q' l e H H0 H1 H2 H3 IH|q s' l e H H0 H1 H2 IH]; intros He Hz fuel s j Hf Hj Hs;
    (destruct fuel as [|fuel]; [exfalso|]).
  - lia.
  - cbn [loop]. replace (q =? 0) with false by lia. rewrite (get_length_zero _ _ _ Hz). cbn [bind wp length map].
    change (0 =? 0) with true. cbn iota. cbn [bind wp]. split; [lia|]. split; [reflexivity|].
    split; [intros k Hk; cbn [length] in Hk; lia|reflexivity].
  - pose proof (seg_le _ _ _ _ _ _ _ _ _ Hnb0 H3). lia.
  - pose proof (seg_le _ _ _ _ _ _ _ _ _ Hnb0 H3).
    cbn [loop]. replace (q =? 0) with false by lia. rewrite (ptrf_length _ _ _ _ H1). cbn [bind].
    change (2 =? 0) with false. change (2 =? 2) with true. cbn iota.
    rewrite (get_pointer_ok E _ q q') by (assumption || lia). cbn [bind]. apply IH; try assumption; lia.
  - pose proof (seg_le _ _ _ _ _ _ _ _ _ Hnb0 H2). pose proof (rsize_pos nb _ ltac:(lia) (proj1 (rc_len _ _ _ _ _ H0))). lia.
  - pose proof (seg_le _ _ _ _ _ _ _ _ _ Hnb0 H2). pose proof (rsize_pos nb _ ltac:(lia) (proj1 (rc_len _ _ _ _ _ H0))).
    pose proof (rc_len _ _ _ _ _ H0) as Hrl.
    assert (Hu : u64 (q + (2 + lenlen (zln s') + zln s' + nb)) = q + rsize nb (zln s')).
    { unfold rsize in *. unfold u64. rewrite wrap_small by lia. reflexivity. }
    cbn [loop]. replace (q =? 0) with false by lia.
    rewrite (get_length_ok E _ q (zln s')) by (try lia; apply (rc_lenf _ _ _ _ _ H0)). cbn [bind].
    replace (zln s' =? 0) with false by lia. replace (zln s' =? 2) with false by lia.
    cbn [length] in Hs. rewrite aset_ok by lia. cbn [bind].
    rewrite (string_info_ok E h _ q (zln s')) by (try lia; apply (rc_lenf _ _ _ _ _ H0)). cbn [bind]. rewrite Hu.
    eapply wp_mono; [apply IH; try assumption; try (rewrite alen_upd); lia|].
    intros [s2 j2] (-> & Hl2 & Hat & Hfr). rewrite alen_upd in Hl2. cbn [length map fst].
    split; [lia|]. split; [assumption|]. split.
    + intros k Hk. cbn [length] in Hk. destruct (Z.eq_dec k 0) as [->|Hk0].
      * rewrite Hfr by lia. rewrite av_upd by lia. replace (j + 0 =? j) with true by lia. reflexivity.
      * replace (Z.to_nat k) with (S (Z.to_nat (k - 1))) by lia. cbn [nth].
        rewrite <- (Hat (k - 1)) by lia. f_equal. lia.
    + intros i Hi. rewrite Hfr by lia. apply av_upd_other; lia.
Qed.

Lemma collect_chain_ok hv hd s j : 0 <= hv < HTSIZE h -> av (ht_head h) hv = Some hd -> 0 <= j -> j + zln (ch hv) <= alen s ->
  wp (collect_chain E h hd s j) (fun '(s', j') => j' = j + zln (ch hv) /\ alen s' = alen s /\ at_list s' j (map fst (ch hv)) /\
      forall i, ~ j <= i < j + zln (ch hv) -> av s' i = av s i).
Proof.
  intros Hhv Hhd Hj Hs. unfold collect_chain.
  destruct (hi_bucket _ _ _ _ _ _ HI hv Hhv) as [(A & B & C)|(hd' & r & A1 & A2 & A3 & A4 & A5 & A6 & A7 & A8 & A9)].
  - replace hd with 0 by congruence. rewrite C. cbn. split; [lia|]. split; [reflexivity|]. split; [intros k Hk; cbn [length] in Hk; lia|reflexivity].
  - replace hd' with hd in * by congruence. pose proof (hi_buf _ _ _ _ _ _ HI).
    pose proof (A9 0 ltac:(lia)) as Hz. rewrite Z.add_0_r in Hz. pose proof (bget_inb _ _ _ _ Hz).
    apply (collect_seg hv hd (ch hv) (en hv)); try assumption; lia.
Qed.

Definition allrec (k : Z) : list (Z * list Z) := flat_map ch (zseq 0 k).
Lemma zseq_snoc lo hi : lo <= hi -> zseq lo (hi + 1) = zseq lo hi ++ [hi].
Proof.
  intros H. unfold zseq. replace (Z.to_nat (hi + 1 - lo)) with (S (Z.to_nat (hi - lo))) by lia.
  assert (Hg : forall c lo, zseq_n (S c) lo = zseq_n c lo ++ [lo + Z.of_nat c]).
  { clear. induction c as [|c IH]; intros lo; [cbn; f_equal; lia|].
    change (zseq_n (S (S c)) lo) with (lo :: zseq_n (S c) (lo + 1)). rewrite IH. cbn [zseq_n app]. do 2 f_equal. f_equal. lia. }
  rewrite Hg. do 2 f_equal. lia.
Qed.
Lemma allrec_snoc k : 0 <= k -> allrec (k + 1) = allrec k ++ ch k.
Proof. intros H. unfold allrec. rewrite zseq_snoc by lia. rewrite flat_map_app. cbn [flat_map]. rewrite app_nil_r. reflexivity. Qed.
Lemma in_allrec k q s : In (q, s) (allrec k) <-> exists hv, 0 <= hv < k /\ In (q, s) (ch hv).
Proof.
  unfold allrec. rewrite in_flat_map. split.
  - intros (x & Hx & Hin). apply in_zseq in Hx. exists x. split; [lia|assumption].
  - intros (x & Hx & Hin). exists x. split; [apply in_zseq; lia|assumption].
Qed.
Lemma allrec_mono k k' : 0 <= k -> k <= k' -> zln (allrec k) <= zln (allrec k').
Proof.
  intros H0 Hk.
  assert (Hg : forall d : nat, zln (allrec k) <= zln (allrec (k + Z.of_nat d))).
  { induction d as [|d IH]; [rewrite Z.add_0_r; lia|].
    replace (k + Z.of_nat (S d)) with (k + Z.of_nat d + 1) by lia. rewrite allrec_snoc by lia. rewrite app_length. lia. }
  specialize (Hg (Z.to_nat (k' - k))). replace (k + Z.of_nat (Z.to_nat (k' - k))) with k' in Hg by lia. exact Hg.
Qed.

Lemma at_list_app s lo l1 l2 : at_list s lo l1 -> at_list s (lo + zln l1) l2 -> at_list s lo (l1 ++ l2).
Proof.
  intros H1 H2 k Hk. rewrite app_length in Hk. destruct (Z_lt_ge_dec k (zln l1)).
  - rewrite app_nth1 by lia. apply H1. lia.
  - rewrite app_nth2 by lia. replace (Z.to_nat k - length l1)%nat with (Z.to_nat (k - zln l1)) by lia.
    rewrite <- H2 by lia. f_equal. lia.
Qed.

Theorem collect_all_ok s : 0 <= HTSIZE h -> 1 + zln (allrec (HTSIZE h)) <= alen s ->
  wp (for_up 0 (HTSIZE h) (fun i '(s, j) => p <- aget (ht_head h) i ;; collect_chain E h p s j) (s, 1))
     (fun '(s', j') => j' = 1 + zln (allrec (HTSIZE h)) /\ alen s' = alen s /\ at_list s' 1 (map fst (allrec (HTSIZE h))) /\
        forall i, ~ 1 <= i < j' -> av s' i = av s i).
Proof.
  intros Hsz Hs.
  apply (wp_for_up (fun k '(s', j') => j' = 1 + zln (allrec k) /\ alen s' = alen s /\ at_list s' 1 (map fst (allrec k)) /\
        forall i, ~ 1 <= i < j' -> av s' i = av s i)); [lia| |].
  - split; [reflexivity|]. split; [reflexivity|]. split; [intros k Hk; cbn [length map allrec flat_map zseq zseq_n] in Hk; cbn in Hk; lia|reflexivity].
  - intros i [s1 j1] Hi (-> & Hl1 & Hat & Hfr).
    assert (Hhead : exists hd, av (ht_head h) i = Some hd).
    { destruct (hi_bucket _ _ _ _ _ _ HI i Hi) as [(A & _)|(hd & r & A & _)]; eauto. }
    destruct Hhead as [hd Hhd]. rewrite (aget_ok _ _ _ Hhd). cbn [bind].
    pose proof (allrec_mono (i + 1) (HTSIZE h) ltac:(lia) ltac:(lia)) as Hmo. rewrite allrec_snoc in Hmo by lia. rewrite app_length in Hmo.
    eapply wp_mono; [apply (collect_chain_ok i hd s1 (1 + zln (allrec i)) Hi Hhd); lia|].
    intros [s2 j2] (-> & Hl2 & Hat2 & Hfr2). rewrite allrec_snoc by lia. rewrite app_length.
    split; [lia|]. split; [lia|]. split.
    + rewrite map_app. apply at_list_app.
      * intros k Hk. rewrite map_length in Hk. rewrite Hfr2 by lia. apply Hat. rewrite map_length. lia.
      * rewrite map_length. exact Hat2.
    + intros x Hx. rewrite Hfr2 by lia. apply Hfr. lia.
Qed.

Lemma allrec_inch q s : In (q, s) (allrec (HTSIZE h)) <-> exists hv, inch hv q s.
Proof. rewrite in_allrec. split; intros (x & A & B); exists x; split; assumption. Qed.
Lemma allrec_NoDup_str : NoDup (map snd (allrec (HTSIZE h))).
Proof.
  assert (Hg : forall d : nat, Z.of_nat d <= HTSIZE h -> NoDup (map snd (allrec (Z.of_nat d)))).
  2: { pose proof (hi_size _ _ _ _ _ _ HI). specialize (Hg (Z.to_nat (HTSIZE h)) ltac:(lia)). rewrite Z2Nat.id in Hg by lia. exact Hg. }
  induction d as [|d IH]; intros Hd; [constructor|].
  replace (Z.of_nat (S d)) with (Z.of_nat d + 1) by lia. rewrite allrec_snoc by lia. rewrite map_app.
  specialize (IH ltac:(lia)).
  assert (Hdis : forall x, In x (map snd (allrec (Z.of_nat d))) -> ~ In x (map snd (ch (Z.of_nat d)))).
  { intros x H1 H2. apply in_map_iff in H1 as ([q1 s1] & E1 & I1). apply in_map_iff in H2 as ([q2 s2] & E2 & I2).
    cbn [snd] in *. subst. apply in_allrec in I1 as (hv & Hhv & Hin).
    pose proof (hi_hash _ _ _ _ _ _ HI hv q1 x ltac:(lia) Hin). pose proof (hi_hash _ _ _ _ _ _ HI (Z.of_nat d) q2 x ltac:(lia) I2). lia. }
  pose proof (hi_dist _ _ _ _ _ _ HI (Z.of_nat d) ltac:(lia)) as Hnd. revert IH Hdis.
  induction (map snd (allrec (Z.of_nat d))) as [|x l IHl]; intros IH Hdis; [exact Hnd|].
  inversion IH; subst. cbn [app]. constructor.
  - rewrite in_app_iff. intros [Hc|Hc]; [contradiction|]. apply (Hdis x); [left; reflexivity|assumption].
  - apply IHl; [assumption|]. intros y Hy. apply Hdis. right. assumption.
Qed.
Lemma NoDup_map_inv' {A B} (f : A -> B) l : NoDup (map f l) -> NoDup l.
Proof. apply NoDup_map_inv. Qed.
Lemma allrec_NoDup_pos : NoDup (map fst (allrec (HTSIZE h))).
Proof.
  assert (H : forall q s s', In (q, s) (allrec (HTSIZE h)) -> In (q, s') (allrec (HTSIZE h)) -> s = s').
  { intros q s s' H1 H2. apply allrec_inch in H1 as [hv H1], H2 as [hv' H2]. apply (inch_pos_inj _ _ _ _ _ H1 H2). }
  pose proof allrec_NoDup_str as Hnd. revert H Hnd. induction (allrec (HTSIZE h)) as [|[q s] l IH]; intros H Hnd; [constructor|].
  cbn [map fst snd] in *. inversion Hnd; subst. constructor.
  - intros Hin. apply in_map_iff in Hin as ([q' s'] & E1 & I1). cbn [fst] in E1. subst q'.
    apply H2. apply in_map_iff. exists (q, s'). split; [|assumption]. cbn [snd].
    apply (H q); [right; assumption|left; reflexivity].
  - apply IH; [|assumption]. intros. apply (H q0); right; assumption.
Qed.
End Table.
