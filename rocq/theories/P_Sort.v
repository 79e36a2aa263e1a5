(** sort_LMS_strings: order, names, head and last records. *)
From Verif Require Import Base M_PackedArray M_HashTable M_Induce M_Flbwt Spec Count Text Keys P_PackedArray P_Bytes P_HashTable P_HashTable2 P_Insert P_Extract.
From Coq Require Import ZifyBool.
Open Scope Z_scope.

(** * The comparison *)
Lemma cmp_loop E b : forall a c fuel p1 p2, Forall is_byte a -> Forall is_byte c -> (length a < fuel)%nat ->
  (forall i, 0 <= i < zln a -> bget E b (p1 + i) = Ok (nth (Z.to_nat i) a 0)) ->
  (forall i, 0 <= i < zln c -> bget E b (p2 + i) = Ok (nth (Z.to_nat i) c 0)) ->
  loop fuel (fun '(p1, p2, l1, l2) =>
    if (0 <? l1) && (0 <? l2) then
      c1 <- bget E b p1 ;;
      c2 <- bget E b p2 ;;
      if c1 =? c2 then Ok (inl (p1 + 1, p2 + 1, l1 - 1, l2 - 1))
      else Ok (inr (c1 <? c2))
    else if l1 =? 0 then Ok (inr false)
    else Ok (inr true)) (p1, p2, zln a, zln c) = Ok (star_lt a c).
Proof.
  unfold star_lt. induction a as [|x a IH]; intros [|y c] [|fuel] p1 p2 Ha Hc Hf H1 H2; try (cbn [length] in Hf; lia).
  - cbn [length app]. reflexivity.
  - cbn [loop length]. change (Z.of_nat 0) with 0. replace ((0 <? 0) && (0 <? Z.of_nat (S (length c)))) with false by lia.
    change (0 =? 0) with true. cbn iota. cbn [bind app lexlt]. inversion Hc; subst. unfold is_byte in *.
    replace (256 <? y) with false by lia. replace (256 =? y) with false by lia. reflexivity.
  - cbn [loop length]. change (Z.of_nat 0) with 0. replace ((0 <? Z.of_nat (S (length a))) && (0 <? 0)) with false by lia.
    replace (Z.of_nat (S (length a)) =? 0) with false by lia. cbn [bind app lexlt]. inversion Ha; subst. unfold is_byte in *.
    replace (x <? 256) with true by lia. reflexivity.
  - cbn [loop length]. replace ((0 <? Z.of_nat (S (length a))) && (0 <? Z.of_nat (S (length c)))) with true by lia.
    pose proof (H1 0 ltac:(cbn [length]; lia)) as E1. pose proof (H2 0 ltac:(cbn [length]; lia)) as E2.
    rewrite Z.add_0_r in E1, E2. cbn [nth Z.to_nat] in E1, E2. rewrite E1, E2. cbn [bind app lexlt].
    destruct (Z.eqb_spec x y) as [->|Hne].
    + cbn [bind]. replace (Z.of_nat (S (length a)) - 1) with (zln a) by lia. replace (Z.of_nat (S (length c)) - 1) with (zln c) by lia.
      rewrite Z.ltb_irrefl. cbn [orb andb].
      inversion Ha; inversion Hc; subst. apply IH; try assumption.
      * cbn [length] in Hf. lia.
      * intros i Hi. replace (p1 + 1 + i) with (p1 + (i + 1)) by lia. rewrite H1 by (cbn [length]; lia).
        replace (Z.to_nat (i + 1)) with (S (Z.to_nat i)) by lia. reflexivity.
      * intros i Hi. replace (p2 + 1 + i) with (p2 + (i + 1)) by lia. rewrite H2 by (cbn [length]; lia).
        replace (Z.to_nat (i + 1)) with (S (Z.to_nat i)) by lia. reflexivity.
    + cbn [bind andb]. rewrite orb_false_r. reflexivity.
Qed.

Theorem LMS_comparison_ok E nb b q1 s1 q2 s2 : recd E nb b q1 s1 -> recd E nb b q2 s2 ->
  LMS_comparison E b q1 q2 = Ok (star_lt s1 s2).
Proof.
  intros [A1 A2 A3 A4 A5 A6] [B1 B2 B3 B4 B5 B6]. unfold LMS_comparison.
  rewrite (get_length_ok E b q1 (zln s1)) by (lia || assumption). cbn [bind].
  rewrite (get_length_ok E b q2 (zln s2)) by (lia || assumption). cbn [bind].
  rewrite (get_first_ok E b q1 _ A3). cbn [bind]. rewrite (get_first_ok E b q2 _ B3). cbn [bind].
  apply cmp_loop; try assumption; try lia.
  - intros i Hi. rewrite <- (A5 i Hi). f_equal. lia.
  - intros i Hi. rewrite <- (B5 i Hi). f_equal. lia.
Qed.

Lemma star_lt_irr a : star_lt a a = false.
Proof. apply lexlt_irr. Qed.
Lemma star_lt_trans a b c : star_lt a b = true -> star_lt b c = true -> star_lt a c = true.
Proof. apply lexlt_trans. Qed.
Lemma star_lt_total a b : a <> b -> star_lt a b = true \/ star_lt b a = true.
Proof. intros H. apply lexlt_total. intros He. apply app_inj_tail in He. tauto. Qed.

(** * Slices *)
Lemma aslice_ok a lo l : at_list a lo l -> aslice a lo (lo + zln l) = Ok l.
Proof.
  intros Hat. unfold aslice.
  assert (H : wp (for_down (lo + zln l - 1) lo (fun i r => x <- aget a i ;; Ok (x :: r)) [])
     (fun r => r = skipn (Z.to_nat (lo - 1 + 1 - lo)) l)).
  { apply (wp_for_down (fun i r => r = skipn (Z.to_nat (i + 1 - lo)) l)); [lia| |].
    - symmetry. apply skipn_all2. lia.
    - intros i r Hi ->. specialize (Hat (i - lo) ltac:(lia)). replace (lo + (i - lo)) with i in Hat by lia.
      rewrite (aget_ok _ _ _ Hat). cbn [bind wp].
      replace (Z.to_nat (i + 1 - lo)) with (S (Z.to_nat (i - lo))) by lia. replace (i - 1 + 1 - lo) with (i - lo) by lia.
      assert (Hlt : (Z.to_nat (i - lo) < length l)%nat) by lia. revert Hlt. generalize (Z.to_nat (i - lo)) as k. clear.
      induction l as [|x l IH]; intros [|k] Hk; cbn [length] in *; try lia; [reflexivity|].
      cbn [nth skipn]. specialize (IH k ltac:(lia)). exact IH. }
  apply wp_inv in H as (r & -> & ->). cbn [bind]. replace (lo - 1 + 1 - lo) with 0 by lia. reflexivity.
Qed.
Lemma ablit_ok l : forall a lo, 0 <= lo -> lo + zln l <= alen a ->
  exists a', ablit a lo l = Ok a' /\ alen a' = alen a /\ at_list a' lo l /\ forall i, ~ lo <= i < lo + zln l -> av a' i = av a i.
Proof.
  induction l as [|x l IH]; intros a lo Hlo Hl; cbn [ablit].
  - exists a. split; [reflexivity|]. split; [reflexivity|]. split; [intros k Hk; cbn [length] in Hk; lia|reflexivity].
  - cbn [length] in Hl. rewrite aset_ok by lia. cbn [bind].
    destruct (IH (aupd a lo x) (lo + 1)) as (a' & H1 & H2 & H3 & H4); [lia|rewrite alen_upd; lia|].
    exists a'. split; [assumption|]. split; [rewrite H2; apply alen_upd|]. split.
    + intros k Hk. cbn [length] in Hk. destruct (Z.eq_dec k 0) as [->|].
      * rewrite H4 by lia. rewrite av_upd by lia. replace (lo + 0 =? lo) with true by lia. reflexivity.
      * replace (Z.to_nat k) with (S (Z.to_nat (k - 1))) by lia. cbn [nth]. rewrite <- (H3 (k - 1)) by lia. f_equal. lia.
    + intros i Hi. cbn [length] in Hi. rewrite H4 by lia. apply av_upd_other; lia.
Qed.

(** * std::sort on the record list *)
Lemma NoDup_snd_eq (recs : list (Z * list Z)) a b : NoDup (map snd recs) -> In a recs -> In b recs -> snd a = snd b -> a = b.
Proof.
  induction recs as [|c recs IH]; intros Hnd Ha Hb He; [contradiction|]. cbn [map] in Hnd. inversion Hnd; subst.
  destruct Ha as [->|Ha], Hb as [->|Hb]; try reflexivity.
  - exfalso. apply H1. rewrite He. apply in_map. assumption.
  - exfalso. apply H1. rewrite <- He. apply in_map. assumption.
  - apply IH; assumption.
Qed.

Lemma sorted_recs srt cmp (recs : list (Z * list Z)) : std_sort srt ->
  NoDup (map snd recs) ->
  (forall a b, In a recs -> In b recs -> cmp (fst a) (fst b) = star_lt (snd a) (snd b)) ->
  exists ol, srt cmp (map fst recs) = map fst ol /\ Permutation ol recs /\
    StronglySorted (fun a b => star_lt (snd a) (snd b) = true) ol.
Proof.
  intros Hsrt Hnd Hcmp.
  assert (Hin : forall x, In x (map fst recs) -> exists a, In a recs /\ fst a = x).
  { intros x Hx. apply in_map_iff in Hx as (a & <- & Ha). eauto. }
  assert (Hsw : strict_weak_order cmp (map fst recs)).
  { split; [|split].
    - intros x Hx. apply Hin in Hx as (a & Ha & <-). rewrite Hcmp by assumption. apply star_lt_irr.
    - intros x y z Hx Hy Hz. apply Hin in Hx as (a & Ha & <-), Hy as (b & Hb & <-), Hz as (c & Hc & <-).
      rewrite !Hcmp by assumption. apply star_lt_trans.
    - intros x y z Hx Hy Hz. apply Hin in Hx as (a & Ha & <-), Hy as (b & Hb & <-), Hz as (c & Hc & <-).
      rewrite !Hcmp by assumption. intros H1 H2 H3 H4.
      destruct (list_eq_dec Z.eq_dec (snd a) (snd b)) as [E1|N1]; [|destruct (star_lt_total _ _ N1); congruence].
      rewrite E1. split; assumption. }
  destruct (Hsrt cmp _ Hsw) as [Hp Hs].
  apply Permutation_sym in Hp. destruct (Permutation_map_inv _ _ (Permutation_sym Hp)) as (ol & Hol & Hpo).
  exists ol. split; [assumption|]. split; [apply Permutation_sym; assumption|]. apply Permutation_sym in Hpo.
  rewrite Hol in Hs.
  assert (Hnd2 : NoDup (map snd ol)).
  { apply (Permutation_NoDup (l := map snd recs)); [|assumption]. apply Permutation_map. apply Permutation_sym. assumption. }
  assert (Hsub : forall a, In a ol -> In a recs) by (intros a Ha; apply (Permutation_in _ Hpo Ha)).
  clear - Hs Hnd2 Hsub Hcmp Hnd. induction ol as [|a ol IH]; constructor.
  - cbn [map] in *. inversion Hs; inversion Hnd2; subst. apply IH; try assumption. intros; apply Hsub; right; assumption.
  - cbn [map] in *. inversion Hs; inversion Hnd2; subst. apply Forall_forall. intros b Hb.
    rewrite Forall_forall in H2. specialize (H2 (fst b) (in_map fst _ _ Hb)).
    rewrite Hcmp in H2; [|apply Hsub; right; assumption|apply Hsub; left; reflexivity].
    destruct (list_eq_dec Z.eq_dec (snd a) (snd b)) as [E1|N1].
    + exfalso. apply H5. rewrite E1. apply in_map. assumption.
    + destruct (star_lt_total _ _ N1); congruence.
Qed.

Lemma ss_nth {A} (R : A -> A -> Prop) (d : A) l : StronglySorted R l -> forall i j, (i < j < length l)%nat -> R (nth i l d) (nth j l d).
Proof.
  induction l as [|a l IH]; intros Hs i j Hij; cbn [length] in Hij; [lia|]. inversion Hs; subst.
  destruct j as [|j]; [lia|]. destruct i as [|i]; cbn [nth].
  - rewrite Forall_forall in H2. apply H2. apply nth_In. lia.
  - apply IH; [assumption|lia].
Qed.

(** * Naming loop *)
Section Names.
Context (E : env) (h : htable) (own role : Z -> Z) (ch : Z -> list (Z * list Z)) (en : Z -> Z).
Context (HI : hinv E h own role ch en).
Context (s : arr Z) (ol : list (Z * list Z)).
Context (Hat : at_list s 1 (map fst ol)).
Context (Hol : forall q x, In (q, x) ol -> exists hv, inch h ch hv q x).
Context (Hnd : NoDup (map fst ol)).
Notation dft := (0, @nil Z).
Definition onth (k : Z) : Z * list Z := nth (Z.to_nat k) ol dft.

Lemma onth_in k : 0 <= k < zln ol -> In (onth k) ol.
Proof. intros H. unfold onth. apply nth_In. lia. Qed.
Lemma onth_inj k j : 0 <= k < zln ol -> 0 <= j < zln ol -> fst (onth k) = fst (onth j) -> k = j.
Proof.
  intros Hk Hj H. unfold onth in H. rewrite <- !(map_nth fst) in H.
  rewrite NoDup_nth in Hnd. specialize (Hnd (Z.to_nat k) (Z.to_nat j)). rewrite map_length in Hnd.
  specialize (Hnd ltac:(lia) ltac:(lia)). cbn [fst] in H. 
  specialize (Hnd H). lia.
Qed.

Definition noff (k : Z) : Z := name_off (fst (onth k)) (zln (snd (onth k))).

Lemma name_loop_ok :
  wp (for_up 1 (zln ol + 1) (fun i h => q <- aget s i ;; b <- set_name E h (ht_buf h) q i ;; Ok (with_buf h b)) h)
     (fun h' => exists b', h' = with_buf h b' /\ hinv E h' own role ch en /\ alen b' = alen (ht_buf h) /\
        (forall k, 0 <= k < zln ol -> enc E b' (noff k) (k + 1) (NAME_BYTES h)) /\
        (forall i, own i = -1 -> bget E b' i = bget E (ht_buf h) i)).
Proof.
  pose proof (hi_nb _ _ _ _ _ _ HI) as Hnb.
  eapply wp_mono.
  { apply (wp_for_up (fun j h' => exists b', h' = with_buf h b' /\ hinv E h' own role ch en /\ alen b' = alen (ht_buf h) /\
        (forall k, 0 <= k < j - 1 -> enc E b' (noff k) (k + 1) (NAME_BYTES h)) /\
        (forall i, own i = -1 -> bget E b' i = bget E (ht_buf h) i))); [lia| |].
    - exists (ht_buf h). split; [destruct h; reflexivity|]. split; [assumption|]. split; [reflexivity|].
      split; [intros; lia|reflexivity].
    - intros j h' Hj (b' & -> & HI' & Hl & Hen & Hfr).
      pose proof (Hat (j - 1) ltac:(rewrite map_length; lia)) as Hq. replace (1 + (j - 1)) with j in Hq by lia.
      change 0 with (fst dft) in Hq. rewrite map_nth in Hq.
      rewrite (aget_ok _ _ _ Hq). cbn [bind]. fold (onth (j - 1)).
      pose proof (onth_in (j - 1) ltac:(lia)) as Hin. destruct (onth (j - 1)) as [q x] eqn:Ho. cbn [fst].
      destruct (Hol q x Hin) as (hv & Hic).
      assert (Hic' : inch (with_buf h b') ch hv q x) by exact Hic.
      destruct (hinv_set_name E (with_buf h b') own role ch en HI' hv q x j Hic' ltac:(lia)) as (b2 & H1 & H2 & H3 & H4).
      cbn [with_buf ht_buf NAME_BYTES] in *.
      change (ht_buf (with_buf h b')) with b' in *.
      rewrite H1. cbn [bind wp]. exists b2. split; [reflexivity|]. split; [exact H2|].
      split; [rewrite (proj1 H3); assumption|].
      pose proof (inch_rec E (with_buf h b') own role ch en HI' hv q x Hic') as (A1 & A2 & A3 & A4 & A5).
      cbn [with_buf ht_buf NAME_BYTES] in *.
      assert (Hno : name_off q (zln x) + NAME_BYTES h = q + rsize (NAME_BYTES h) (zln x)) by (unfold name_off, rsize; lia).
      pose proof (rc_len _ _ _ _ _ A4). pose proof (lenlen_le8 (zln x) ltac:(lia)).
      assert (Hnq : q < name_off q (zln x)) by (unfold name_off; lia).
      split.
      + intros k Hk. destruct (Z.eq_dec k (j - 1)) as [->|Hkj].
        * unfold noff. rewrite Ho. cbn [fst snd]. replace (j - 1 + 1) with j by lia. assumption.
        * eapply enc_frame; [apply (Hen k); lia|]. intros i Hi. apply (proj2 H3). intros Hi2.
          destruct (onth k) as [q' x'] eqn:Ho'. unfold noff in Hi. rewrite Ho' in Hi. cbn [fst snd] in Hi.
          destruct (Hol q' x') as (hv' & Hic2); [rewrite <- Ho'; apply onth_in; lia|].
          assert (Hic2' : inch (with_buf h b') ch hv' q' x') by exact Hic2.
          pose proof (inch_rec E (with_buf h b') own role ch en HI' hv' q' x' Hic2') as (B1 & B2 & B3 & B4 & B5).
          cbn [with_buf ht_buf NAME_BYTES] in *.
          assert (Hno' : name_off q' (zln x') + NAME_BYTES h = q' + rsize (NAME_BYTES h) (zln x')) by (unfold name_off, rsize; lia).
          pose proof (rc_len _ _ _ _ _ B4). pose proof (lenlen_le8 (zln x') ltac:(lia)).
          assert (Hnq' : q' < name_off q' (zln x')) by (unfold name_off; lia).
          destruct (A5 i ltac:(lia)) as [_ R1]. destruct (B5 i ltac:(lia)) as [_ R2].
          replace (i <? name_off q (zln x)) with false in R1 by lia. replace (i <? name_off q' (zln x')) with false in R2 by lia.
          assert (Hqq : q' = q) by congruence.
          assert (k = j - 1); [|lia]. apply onth_inj; [lia|lia|]. rewrite Ho, Ho'. exact Hqq.
      + intros i Hi. rewrite (proj2 H3); [apply Hfr; assumption|]. intros Hi2.
        destruct (A5 i ltac:(lia)) as [R1 _]. destruct Hic. lia. }
  cbn beta. intros h' (b' & H1 & H2 & H3 & H4 & H5). exists b'. split; [assumption|]. split; [assumption|]. split; [assumption|].
  split; [|assumption]. intros k Hk. apply H4. lia.
Qed.
End Names.

(** minimum and maximum *)
Lemma minmax_ok (s : arr Z) (f : Z -> Z) k : 1 <= k -> (forall i, 0 <= i < k -> av s i = Some (f i)) ->
  (forall i, 0 <= i < k -> 0 <= f i <= f 0) ->
  wp (for_up 1 k (fun i '(mn, mx) => x <- aget s i ;; Ok (if x <? mn then x else mn, if mx <? x then x else mx)) (f 0, f 0))
     (fun '(mn, mx) => mx = f 0 /\ (exists i, 0 <= i < k /\ mn = f i) /\ forall i, 0 <= i < k -> mn <= f i).
Proof.
  intros Hk Hs Hf.
  apply (wp_for_up (fun j '(mn, mx) => mx = f 0 /\ (exists i, 0 <= i < j /\ mn = f i) /\ forall i, 0 <= i < j -> mn <= f i)); [lia| |].
  - split; [reflexivity|]. split; [exists 0; split; [lia|reflexivity]|]. intros i Hi. replace i with 0 by lia. lia.
  - intros j [mn mx] Hj (-> & (i0 & Hi0 & Hmn) & Hle). rewrite (aget_ok _ _ _ (Hs j ltac:(lia))). cbn [bind wp].
    pose proof (Hf j ltac:(lia)). replace (f 0 <? f j) with false by lia. split; [reflexivity|].
    destruct (Z.ltb_spec (f j) mn).
    + split; [exists j; split; [lia|reflexivity]|]. intros i Hi. destruct (Z.eq_dec i j) as [->|]; [lia|]. specialize (Hle i ltac:(lia)). lia.
    + split; [exists i0; split; [lia|assumption]|]. intros i Hi. destruct (Z.eq_dec i j) as [->|]; [lia|]. apply Hle; lia.
Qed.

Section Sort.
Context (E : env) (srt : sorter) (hts : Z) (T : arr Z) (t : Z -> Z) (n : Z).
Context (Hsrt : std_sort srt).
Context (Hts : 1 <= hts <= 2 ^ 48) (Hn : 3 <= n <= 2 ^ 58).
Context (HT : forall i, 0 <= i <= n -> av T i = Some (t i)).
Context (Hb : forall i, 0 <= i < n -> 0 <= t i < 256) (Hz : 0 <= t n < 256).
Notation isS := (isS t n).
Notation LMS := (LMS t n).
Notation nx := (nx t n).
Notation sub := (sub t n).
Notation he := (nx 0).
Context (Hfh : fresh_ok E (he + 1)).

(** size of the head record *)
Definition hsize : Z := rsize (name_bytes n) (he + 1).

Record sorted_st (co co' : container) (Sv : arr Z) (h : htable) (own role : Z -> Z) (ch : Z -> list (Z * list Z)) (en : Z -> Z)
    (ol : list (Z * list Z)) (pos mn : Z) : Prop := {
  so_ht : c_ht co' = Some h;
  so_inv : hinv E h own role ch en;
  so_str : has_strings t n h ch 0;
  so_hts : HTSIZE h = hts;
  so_nb : NAME_BYTES h = name_bytes n;
  so_M : c_M co' = c_M co; so_C : c_C co' = c_C co; so_NL : c_NL co' = c_NL co;
  so_num : c_num co' = c_num co; so_uniq : c_uniq co' = c_uniq co; so_n : c_n co' = c_n co;
  so_perm : Permutation ol (allrec ch hts);
  so_sorted : StronglySorted (fun a b => star_lt (snd a) (snd b) = true) ol;
  so_u : c_uniq co = zln ol;
  so_pos : 0 <= pos;
  so_below : forall q x, In (q, x) ol -> 0 < q /\ q + rsize (name_bytes n) (zln x) <= pos;
  so_Sv0 : av Sv 0 = Some (pos + hsize);
  so_SvH : av Sv (zln ol + 1) = Some pos;
  so_Sv : forall k, 0 <= k < zln ol -> av Sv (k + 1) = Some (fst (onth ol k));
  so_names : forall k, 0 <= k < zln ol -> enc E (ht_buf h) (noff ol k) (k + 1) (name_bytes n);
  so_hlen : lenf E (ht_buf h) pos (he + 1);
  so_hsent : bget E (ht_buf h) (pos + 1 + lenlen (he + 1)) = Ok (u8 (t 0 + 1));
  so_hstr : forall i, 0 <= i <= he -> bget E (ht_buf h) (pos + 2 + lenlen (he + 1) + i) = Ok (t i);
  so_last : c_lastptr co' = pos + 2 + lenlen (he + 1);
  so_base : c_bwp_base co' = mn - 1;
  so_mn : 0 <= mn <= pos;
  so_mnle : forall q x, In (q, x) ol -> mn <= q;
  so_width : c_bwp_width co' = Z.log2 (pos + hsize - mn + 2) + 1;
  so_samax : c_sa_max co' = pos + hsize + 3 - (mn - 1);
  so_max : pos + hsize + 16 < 2 ^ 63 - 2 ^ 50 }.

Lemma he_range : 1 <= he <= n.
Proof.
  pose proof (nx_spec t n 0 ltac:(lia)) as (H1 & H2 & _). split; [|lia].
  rewrite nx_step by (lia || reflexivity). pose proof (nx_spec t n (0 + 1) ltac:(lia)). lia.
Qed.

Theorem sort_ok co : extracted E hts t n co ->
  wp (sort_LMS_strings E srt T co) (fun '(Sv, co') => exists h own role ch en ol pos mn,
    sorted_st co co' Sv h own role ch en ol pos mn).
Proof.
  intros [XM XNL XC Xnum Xub Xn Xhead (h & own & role & ch & en & Xht & HI & Hstr & Hhts & Hhb & Hnb & Hlen & Hu)].
  unfold buf_bound in Hlen. unfold sort_LMS_strings. rewrite Xht, Xhead.
  pose proof he_range as Hhe. pose proof (name_bytes_ok n ltac:(lia)) as [Hnb8 Hnb2].
  pose proof (LMS_half t n ltac:(lia)) as Hhalf. pose proof (cnt_nonneg LMS 0 n) as Hcn.
  set (u := c_uniq co) in *. set (pos := alen (ht_buf h)) in *.
  assert (Hu0 : 0 <= u) by (rewrite Hu; lia).
  assert (E1 : u64 (u + 2) = u + 2) by (unfold u64; apply wrap_small; lia). rewrite E1.
  assert (E2 : u64 (he + 1) = he + 1) by (unfold u64; apply wrap_small; lia). rewrite E2.
  rewrite calculate_lenlen_ok by lia. cbn [bind].
  pose proof (lenlen_le8 (he + 1) ltac:(lia)) as Hll. set (ll := lenlen (he + 1)) in *.
  pose proof (hi_buf _ _ _ _ _ _ HI) as Hbuf. fold pos in Hbuf.
  rewrite Hnb. set (nb := name_bytes n) in *.
  set (sp := 1 + 1 + ll + (he + 1) + nb + (1 + 1 + 1 + 1 + nb)).
  assert (Hsp : sp = hsize + 4 + nb) by (unfold hsize, rsize, sp; fold ll nb; lia).
  assert (Hhs : hsize = 2 + ll + (he + 1) + nb) by (unfold hsize, rsize; fold ll nb; lia).
  assert (E3 : u64 (pos + sp) = pos + sp) by (unfold u64; apply wrap_small; lia). rewrite E3.
  set (b1 := brealloc (ht_buf h) (pos + sp)). set (h1 := with_buf h b1).
  assert (Hb1l : alen b1 = pos + sp) by apply alen_realloc.
  assert (HI1 : hinv E h1 (fun i => if i <? pos then own i else -1) role ch en).
  { apply (hinv_extend E h own role ch en HI b1).
    - rewrite Hb1l. fold pos. lia.
    - apply bclean_realloc; [fold pos; lia|]. apply (hi_clean _ _ _ _ _ _ HI).
    - intros i Hi. apply bget_realloc_old; [fold pos; lia|assumption]. }
  set (own1 := fun i => if i <? pos then own i else -1) in *.
  set (recs := allrec ch hts) in *.
  assert (Hh1s : HTSIZE h1 = hts) by exact Hhts.
  (* collect *)
  eapply wp_bind_mono.
  { apply (collect_all_ok E h1 own1 role ch en HI1 (anew (u + 2))); [lia|]. rewrite Hh1s, alen_new. fold recs. lia. }
  rewrite Hh1s. fold recs. intros [s1 j] (-> & Hs1l & Hs1 & _). rewrite alen_new in Hs1l.
  replace (1 + zln recs - 1) with (zln recs) by lia.
  rewrite <- (map_length fst recs) at 1. rewrite (aslice_ok s1 1 (map fst recs) Hs1). cbn [bind].
  (* the records *)
  assert (Hrec : forall a, In a recs -> exists hv, inch h1 ch hv (fst a) (snd a)).
  { intros [q x] Ha. apply (allrec_inch h1 ch q x). rewrite Hh1s. exact Ha. }
  assert (Hcmp : forall a b, In a recs -> In b recs -> LMS_comparison E b1 (fst a) (fst b) = Ok (star_lt (snd a) (snd b))).
  { intros a b Ha Hb'. destruct (Hrec a Ha) as (hv & Hia). destruct (Hrec b Hb') as (hv' & Hib).
    apply (LMS_comparison_ok E (NAME_BYTES h1) b1).
    - apply (inch_rec E h1 own1 role ch en HI1 hv _ _ Hia).
    - apply (inch_rec E h1 own1 role ch en HI1 hv' _ _ Hib). }
  change (ht_buf h1) with b1.
  assert (Hall : forallb (fun x => forallb (fun y => is_ok (LMS_comparison E b1 x y)) (map fst recs)) (map fst recs) = true).
  { apply forallb_forall. intros x Hx. apply forallb_forall. intros y Hy.
    apply in_map_iff in Hx as (a & <- & Ha). apply in_map_iff in Hy as (b & <- & Hb'). rewrite Hcmp by assumption. reflexivity. }
  rewrite Hall. cbn [negb].
  pose proof (allrec_NoDup_str E h1 own1 role ch en HI1) as HndS. rewrite Hh1s in HndS. fold recs in HndS.
  pose proof (allrec_NoDup_pos E h1 own1 role ch en HI1) as HndP. rewrite Hh1s in HndP. fold recs in HndP.
  destruct (sorted_recs srt (fun x y => ok_true (LMS_comparison E b1 x y)) recs Hsrt HndS) as (ol & Hol1 & Hol2 & Hol3).
  { intros a b Ha Hb'. rewrite Hcmp by assumption. reflexivity. }
  rewrite Hol1.
  assert (Hoz : zln ol = zln recs) by (rewrite (Permutation_length Hol2); reflexivity).
  destruct (ablit_ok (map fst ol) s1 1) as (s2 & Hs2 & Hs2l & Hs2a & _); [lia|rewrite map_length; lia|].
  rewrite Hs2. cbn [bind].
  assert (HolIn : forall q x, In (q, x) ol -> exists hv, inch h1 ch hv q x).
  { intros q x Hin. apply (Hrec (q, x)). apply (Permutation_in _ Hol2 Hin). }
  assert (HolNd : NoDup (map fst ol)).
  { apply (Permutation_NoDup (l := map fst recs)); [|assumption]. apply Permutation_map, Permutation_sym, Hol2. }
  (* names *)
  rewrite <- Hoz.
  eapply wp_bind_mono; [apply (name_loop_ok E h1 own1 role ch en HI1 s2 ol Hs2a HolIn HolNd)|].
  cbn beta. intros h2 (b2 & -> & HI2 & Hb2l & Hen2 & Hfr2).
  change (ht_buf h1) with b1 in *. change (NAME_BYTES h1) with (NAME_BYTES h) in *. rewrite Hnb in *. fold nb in Hen2.
  change (ht_buf (with_buf h1 b2)) with b2.
  assert (Hfresh : forall i, pos <= i < pos + sp -> bget E b2 i = match fresh_byte E i with Some v => Ok (u8 v) | None => Err Uninit end).
  { intros i Hi. rewrite Hfr2; [|unfold own1; replace (i <? pos) with false by lia; reflexivity].
    unfold b1. apply bget_realloc_new; [apply (hi_clean _ _ _ _ _ _ HI)|fold pos; lia|fold pos; lia]. }
  assert (Hs2u : alen s2 = u + 2) by lia.
  rewrite aset_ok by lia. cbn [bind].
  destruct (set_length_lenf E b2 pos (he + 1)) as (b3 & Hb3 & Hf3 & Hc3 & Hlf3); try lia.
  { unfold len_safe. fold ll. destruct Hfh as [Hm|Hzero]; [left; exact Hm|right]. intros i Hi.
    rewrite Hfresh by lia. rewrite Hzero. reflexivity. }
  rewrite Hb3. cbn [bind]. pose proof (proj1 Hf3) as Hb3l. fold ll in Hf3.
  destruct (set_name_ok E (with_buf h1 b2) b3 pos (he + 1) (u + 1)) as (b4 & Hb4 & Hf4 & Hc4 & _); try lia; try assumption.
  { change (NAME_BYTES (with_buf h1 b2)) with (NAME_BYTES h). rewrite Hnb. fold nb. lia. }
  { change (NAME_BYTES (with_buf h1 b2)) with (NAME_BYTES h). rewrite Hnb. fold nb. unfold name_off. fold ll. lia. }
  rewrite Hb4. cbn [bind]. change (NAME_BYTES (with_buf h1 b2)) with (NAME_BYTES h) in Hf4. rewrite Hnb in Hf4. fold nb in Hf4.
  unfold name_off in Hf4. fold ll in Hf4. pose proof (proj1 Hf4) as Hb4l.
  assert (Hlf4 : lenf E b4 pos (he + 1)).
  { eapply lenf_frame; [lia|exact Hlf3|]. fold ll. intros i Hi. apply (proj2 Hf4). lia. }
  rewrite (proj1 Hlf4). fold ll. cbn [bind]. cbv zeta.
  rewrite (aget_ok _ _ _ (HT 0 ltac:(lia))). cbn [bind].
  rewrite bset_ok by lia. cbn [bind].
  set (b5 := aupd b4 (pos + (1 + ll)) (u8 (t 0 + 1))). assert (Hb5l : alen b5 = alen b4) by apply alen_upd.
  set (hd := map t (zseq 0 (he + 1))).
  assert (Hhdl : zln hd = he + 1) by (unfold hd; rewrite map_length, zseq_length; lia).
  assert (Hhdn : forall i, 0 <= i <= he -> nth (Z.to_nat i) hd 0 = t i).
  { intros i Hi. unfold hd. rewrite (nth_indep _ 0 (t 0)) by (rewrite map_length, zseq_length; lia).
    rewrite map_nth. unfold zseq. rewrite zseq_n_nth by lia. f_equal. lia. }
  pose proof (copy_ok E T 0 hd b5 (pos + (1 + ll) + 1)) as Hcopy. rewrite Hhdl in Hcopy.
  eapply wp_bind_mono; [apply Hcopy; try lia|].
  { intros i Hi. rewrite Hhdn by lia. apply HT. lia. }
  { apply Forall_forall. intros x Hx. apply in_map_iff in Hx as (y & <- & Hy). apply in_zseq in Hy. unfold is_byte.
    destruct (Z.eq_dec y n) as [->|]; [lia|]. apply Hb. lia. }
  cbn beta. intros b6 (Hf6 & Hc6 & Hg6). pose proof (proj1 Hf6) as Hb6l.
  rewrite aset_ok by (rewrite alen_upd; lia). cbn [bind].
  set (r := pos + (1 + ll) + 1 + (he + 1) + nb).
  assert (Hr : r = pos + hsize) by (unfold r; lia).
  assert (H1ll : lenlen 1 = 1) by reflexivity.
  destruct (set_length_lenf E b6 r 1) as (b7 & Hb7 & Hf7 & Hc7 & Hlf7); try lia; try (left; discriminate).
  rewrite Hb7. cbn [bind]. rewrite H1ll in Hf7. pose proof (proj1 Hf7) as Hb7l.
  rewrite bset_ok by lia. cbn [bind]. change (u8 0) with 0.
  set (b8 := aupd b7 (r + 2) 0). assert (Hb8l : alen b8 = alen b7) by apply alen_upd.
  eapply wp_bind_mono; [apply (zeros_ok E b8 (r + 4) nb); lia|].
  cbn beta. intros b9 (Hf9 & Hc9 & _). pose proof (proj1 Hf9) as Hb9l.
  set (s4 := aupd (aupd s2 (u + 1) pos) 0 r).
  assert (Hs40 : av s4 0 = Some r) by (apply av_upd_same; rewrite alen_upd; lia).
  assert (Hs4H : av s4 (u + 1) = Some pos).
  { unfold s4. rewrite av_upd_other by lia. apply av_upd_same. lia. }
  assert (Hs4k : forall k, 0 <= k < zln ol -> av s4 (k + 1) = Some (fst (onth ol k))).
  { intros k Hk. unfold s4. rewrite !av_upd_other by lia. pose proof (Hs2a k ltac:(rewrite map_length; lia)) as Hq.
    change 0 with (fst (0, @nil Z)) in Hq. rewrite map_nth in Hq. unfold onth. rewrite <- Hq. f_equal. lia. }
  assert (Hbelow : forall q x, In (q, x) ol -> 0 < q /\ q + rsize nb (zln x) <= pos).
  { intros q x Hin. destruct (HolIn q x Hin) as (hv & Hic).
    assert (Hic' : inch h ch hv q x) by exact Hic.
    pose proof (inch_rec E h own role ch en HI hv q x Hic') as (A1 & A2 & _). rewrite Hnb in A2. fold nb pos in A2. lia. }
  rewrite (aget_ok _ _ _ Hs40). cbn [bind].
  set (f := fun i => if i =? 0 then r else if i =? u + 1 then pos else fst (onth ol (i - 1))).
  assert (Hf0 : f 0 = r) by reflexivity.
  assert (Hfk : forall k, 0 <= k < zln ol -> f (k + 1) = fst (onth ol k)).
  { intros k Hk. unfold f. replace (k + 1 =? 0) with false by lia. replace (k + 1 =? u + 1) with false by lia.
    f_equal. f_equal. lia. }
  assert (Hfb : forall k, 0 <= k < zln ol -> 0 < fst (onth ol k) < pos).
  { intros k Hk. pose proof (onth_in ol k Hk) as Hin. destruct (onth ol k) as [q x]. cbn [fst].
    destruct (Hbelow q x Hin) as [G1 G2]. pose proof (HolIn q x Hin) as (hv & Hic).
    pose proof (inch_rec E h1 own1 role ch en HI1 hv q x Hic) as (_ & _ & _ & A4 & _).
    pose proof (rsize_pos nb (zln x) ltac:(lia) (proj1 (rc_len _ _ _ _ _ A4))). lia. }
  rewrite <- Hf0. eapply wp_bind_mono; [apply (minmax_ok s4 f (u + 2)); [lia| |]|].
  { intros i Hi. unfold f. destruct (Z.eqb_spec i 0) as [->|]; [assumption|].
    destruct (Z.eqb_spec i (u + 1)) as [->|]; [assumption|]. rewrite <- (Hs4k (i - 1)) by lia. f_equal. lia. }
  { intros i Hi. rewrite Hf0. unfold f. destruct (Z.eqb_spec i 0); [lia|]. destruct (Z.eqb_spec i (u + 1)); [lia|].
    specialize (Hfb (i - 1) ltac:(lia)). lia. }
  cbn beta. intros [mn mx] (-> & (i0 & Hi0 & Hmn) & Hle). rewrite Hf0.
  assert (Hmn0 : 0 <= mn <= pos).
  { split.
    - rewrite Hmn. unfold f. destruct (Z.eqb_spec i0 0); [lia|]. destruct (Z.eqb_spec i0 (u + 1)); [lia|].
      specialize (Hfb (i0 - 1) ltac:(lia)). lia.
    - specialize (Hle (u + 1) ltac:(lia)). unfold f in Hle. replace (u + 1 =? 0) with false in Hle by lia. rewrite Z.eqb_refl in Hle. lia. }
  rewrite position_of_msb_ok by lia. cbn [bind].
  assert (Hlf9 : lenf E b9 r 1).
  { eapply lenf_frame; [lia|exact Hlf7|]. rewrite H1ll. intros i Hi. rewrite (proj2 Hf9) by lia.
    unfold b8. rewrite bget_upd by lia. replace (i =? r + 2) with false by lia. reflexivity. }
  rewrite (get_length_ok E b9 r 1) by (lia || assumption). cbn [bind].
  rewrite (get_first_ok E b9 r 1 Hlf9). cbn [bind wp]. rewrite H1ll.
  (* frames *)
  assert (F9 : forall i, 0 <= i < pos -> bget E b9 i = bget E b2 i).
  { intros i Hi. rewrite (proj2 Hf9) by lia. unfold b8. rewrite bget_upd by lia. replace (i =? r + 2) with false by lia.
    rewrite (proj2 Hf7) by lia. rewrite (proj2 Hf6) by lia. unfold b5. rewrite bget_upd by lia.
    replace (i =? pos + (1 + ll)) with false by lia. rewrite (proj2 Hf4) by lia. apply (proj2 Hf3). lia. }
  assert (F6 : forall i, pos <= i < r -> bget E b9 i = bget E b6 i).
  { intros i Hi. rewrite (proj2 Hf9) by lia. unfold b8. rewrite bget_upd by lia. replace (i =? r + 2) with false by lia.
    apply (proj2 Hf7). lia. }
  exists (with_buf (with_buf h1 b2) b9), own1, role, ch, en, ol, pos, mn.
  constructor; cbn [c_ht c_M c_C c_NL c_num c_uniq c_n c_head_end c_bwp_base c_bwp_width c_sa_max c_lastptr]; try reflexivity.
  - apply (hinv_write_above E (with_buf h1 b2) own1 role ch en HI2 pos b9).
    + intros i Hi. unfold own1. replace (i <? pos) with false by lia. reflexivity.
    + change (ht_buf (with_buf h1 b2)) with b2. lia.
    + apply Hc9. apply bclean_upd; [lia|]. apply Hc7, Hc6. apply bclean_upd; [lia|]. apply Hc4, Hc3.
      apply (hi_clean _ _ _ _ _ _ HI2).
    + exact F9.
  - exact Hstr.
  - exact Hhts.
  - exact Hnb.
  - exact Hol2.
  - exact Hol3.
  - fold u. lia.
  - lia.
  - exact Hbelow.
  - rewrite Hs40. f_equal. lia.
  - rewrite <- Hs4H. f_equal. lia.
  - exact Hs4k.
  - intros k Hk. change (ht_buf (with_buf (with_buf h1 b2) b9)) with b9.
    eapply enc_frame; [apply (Hen2 k Hk)|]. intros i Hi. apply F9. pose proof (onth_in ol k Hk) as Hin.
    unfold noff in Hi. destruct (onth ol k) as [q x] eqn:Ho. cbn [fst snd] in Hi. destruct (Hbelow q x Hin) as [G1 G2].
    unfold name_off in Hi. unfold rsize in G2. pose proof (HolIn q x Hin) as (hv & Hic).
    pose proof (inch_rec E h1 own1 role ch en HI1 hv q x Hic) as (_ & _ & _ & A4 & _). pose proof (rc_len _ _ _ _ _ A4).
    pose proof (lenlen_le8 (zln x) ltac:(lia)). lia.
  - change (ht_buf (with_buf (with_buf h1 b2) b9)) with b9. eapply lenf_frame; [lia|exact Hlf4|]. fold ll. intros i Hi.
    rewrite F6 by lia. rewrite (proj2 Hf6) by lia. unfold b5. rewrite bget_upd by lia.
    replace (i =? pos + (1 + ll)) with false by lia. reflexivity.
  - change (ht_buf (with_buf (with_buf h1 b2) b9)) with b9. fold ll. rewrite F6 by lia. rewrite (proj2 Hf6) by lia.
    unfold b5. rewrite bget_upd by lia. replace (pos + 1 + ll =? pos + (1 + ll)) with true by lia. reflexivity.
  - change (ht_buf (with_buf (with_buf h1 b2) b9)) with b9. fold ll. intros i Hi. rewrite F6 by lia.
    replace (pos + 2 + ll + i) with (pos + (1 + ll) + 1 + i) by lia. rewrite Hg6 by lia. rewrite Hhdn by lia. reflexivity.
  - fold ll. lia.
  - assumption.
  - intros q x Hin. apply In_nth with (d := (0, @nil Z)) in Hin as (k & Hk & Hnth).
    specialize (Hle (Z.of_nat k + 1) ltac:(lia)). rewrite Hfk in Hle by lia. unfold onth in Hle. rewrite Nat2Z.id, Hnth in Hle. exact Hle.
  - rewrite Hr. reflexivity.
  - lia.
  - lia.
Qed.
End Sort.
