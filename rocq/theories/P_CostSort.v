(** The number of steps of sort_LMS_strings (M_Cost.v), with the time of the comparisons that std::sort makes. *)
From Verif Require Import Base Spec Count Text Keys M_PackedArray M_Queue M_HashTable M_Cells M_Sais M_Split M_Induce M_Flbwt M_SaisCost M_Cost SortSpec
  P_PackedArray P_Bytes P_Cells P_HashTable P_HashTable2 Sums P_Insert P_Buffer P_Extract P_Sort P_SaisCost P_SaisLinear P_Cost P_CostInduce P_CostHash.
From Coq Require Import ZifyBool.
Open Scope Z_scope.

Section Collect.
Context (E : env) (h : htable) (own role : Z -> Z) (ch : Z -> list (Z * list Z)) (en : Z -> Z).
Context (HI : hinv E h own role ch en).
Notation nb := (NAME_BYTES h).
Definition owned (hv lo hi : Z) : Z := cnt (fun i => own i =? hv) lo hi.

Lemma collect_seg_cost hv q l e : seg E nb own role (ht_buf h) hv q l e -> 0 < e < 2 ^ 63 -> bget E (ht_buf h) e = Ok 0 ->
  forall fuel s j, cb (4 * (owned hv q e + 1)) (cloop fuel (collect_step1 E h) (q, s, j)).
Proof.
  pose proof (hi_nb _ _ _ _ _ _ HI) as Hnb.
  assert (Hnb0 : 0 <= nb) by lia.
  intros Hseg. induction Hseg as [q|q q' l e H H0 H1 H2 H3 IH|q s' l e H H0 H1 H2 IH]; intros He Hz fuel s j;
    (destruct fuel as [|fuel]; [intros ? ? ?; discriminate|]); cbn [cloop]; unfold collect_step1 at 1; cbn zeta.
  - replace (q =? 0) with false by lia. rewrite (get_length_zero _ _ _ Hz). cbn [tick bind]. unfold cbind at 2. cbn [bind]. change (0 =? 0) with true. cbv iota.
    unfold owned. rewrite cnt_nil by lia. intros a c Hc. cbn [cbind tick cret bind] in Hc. apply ok_snd in Hc. lia.
  - pose proof (seg_le _ _ _ _ _ _ _ _ _ Hnb0 H3).
    replace (q =? 0) with false by lia. rewrite (ptrf_length _ _ _ _ H1).
    assert (Hc : owned hv q' e + 1 <= owned hv q e).
    { unfold owned. rewrite (cnt_split _ q' e ltac:(lia) q ltac:(lia)).
      pose proof (cnt_pos (fun i => own i =? hv) q q q' ltac:(lia) ltac:(destruct (H2 q ltac:(lia)); lia)). lia. }
    intros a c. cbn [tick bind]. unfold cbind at 3. cbn [bind]. change (2 =? 0) with false. change (2 =? 2) with true. cbv iota.
    rewrite (get_pointer_ok E _ q q') by (assumption || lia). cbn [cbind tick cret bind].
    destruct (cloop fuel (collect_step1 E h) (q', s, j)) as [[a' c']|] eqn:Er; [|discriminate]. intros Hr. apply ok_snd in Hr.
    specialize (IH He Hz fuel s j a' c' Er). lia.
  - pose proof (seg_le _ _ _ _ _ _ _ _ _ Hnb0 H2). pose proof (rsize_pos nb _ ltac:(lia) (proj1 (rc_len _ _ _ _ _ H0))).
    pose proof (rc_len _ _ _ _ _ H0) as Hrl.
    assert (Hu : u64 (q + (2 + lenlen (zln s') + zln s' + nb)) = q + rsize nb (zln s')).
    { unfold rsize in *. unfold u64. rewrite wrap_small by lia. reflexivity. }
    assert (Hc : owned hv (q + rsize nb (zln s')) e + 1 <= owned hv q e).
    { unfold owned. rewrite (cnt_split _ (q + rsize nb (zln s')) e ltac:(lia) q ltac:(lia)).
      pose proof (cnt_pos (fun i => own i =? hv) q q (q + rsize nb (zln s')) ltac:(lia) ltac:(destruct (H1 q ltac:(lia)); lia)). lia. }
    replace (q =? 0) with false by lia.
    rewrite (get_length_ok E _ q (zln s')) by (try lia; apply (rc_lenf _ _ _ _ _ H0)).
    intros a c. cbn [cbind tick cret bind]. replace (zln s' =? 0) with false by lia. replace (zln s' =? 2) with false by lia.
    destruct (aset s j q) as [s2|]; cbn [cbind tick cret bind]; [|discriminate].
    rewrite (string_info_ok E h _ q (zln s')) by (try lia; apply (rc_lenf _ _ _ _ _ H0)). cbn [cbind tick cret bind]. rewrite Hu.
    destruct (cloop fuel (collect_step1 E h) (q + rsize nb (zln s'), s2, j + 1)) as [[a' c']|] eqn:Er; cbn [cbind tick cret bind]; [|discriminate]. intros Hr. apply ok_snd in Hr.
    specialize (IH He Hz fuel s2 (j + 1) a' c' Er). lia.
Qed.
Lemma collect_chain_cost hv hd s j : 0 <= hv < HTSIZE h -> av (ht_head h) hv = Some hd ->
  cb (4 * (owned hv 0 (alen (ht_buf h)) + 1)) (collect_chain_steps E h hd s j).
Proof.
  intros Hhv Hhd. unfold collect_chain_steps. cbn zeta. pose proof (hi_buf _ _ _ _ _ _ HI).
  pose proof (cnt_nonneg (fun i => own i =? hv) 0 (alen (ht_buf h))) as H0. fold (owned hv 0 (alen (ht_buf h))) in H0.
  destruct (hi_bucket _ _ _ _ _ _ HI hv Hhv) as [(A & B & C)|(hd' & r & A1 & A2 & A3 & A4 & A5 & A6 & A7 & A8 & A9)].
  - replace hd with 0 by congruence. cbn [cloop]. unfold collect_step1 at 1. cbn zeta. change (0 =? 0) with true. cbv iota.
    intros a c Hc. cbn [cbind tick cret bind] in Hc. apply ok_snd in Hc. lia.
  - replace hd' with hd in * by congruence.
    pose proof (A9 0 ltac:(lia)) as Hz. rewrite Z.add_0_r in Hz. pose proof (bget_inb _ _ _ _ Hz).
    pose proof (hi_nb _ _ _ _ _ _ HI) as Hnb. pose proof (seg_le _ nb _ _ _ _ _ _ _ ltac:(lia) A4).
    eapply cb_le; [apply (collect_seg_cost hv hd (ch hv) (en hv)); try assumption; lia|].
    unfold owned. rewrite (cnt_split _ hd (alen (ht_buf h)) ltac:(lia) 0 ltac:(lia)). rewrite (cnt_split _ (en hv) (alen (ht_buf h)) ltac:(lia) hd ltac:(lia)).
    pose proof (cnt_nonneg (fun i => own i =? hv) 0 hd). pose proof (cnt_nonneg (fun i => own i =? hv) (en hv) (alen (ht_buf h))). lia.
Qed.
Definition below (k : Z) : Z := cnt (fun i => (0 <=? own i) && (own i <? k)) 0 (alen (ht_buf h)).
Lemma below_succ k : 0 <= k -> below (k + 1) = below k + owned k 0 (alen (ht_buf h)).
Proof. intros Hk. unfold below, owned. apply cnt_disj; intros; lia. Qed.
Lemma collect_all_cost x : cb (4 * alen (ht_buf h) + 6 * HTSIZE h + 1)
  (cfor_up 0 (HTSIZE h) (fun i '(s, j) => p <~ tick (aget (ht_head h) i) ;; collect_chain_steps E h p s j) x).
Proof.
  pose proof (hi_size _ _ _ _ _ _ HI). pose proof (hi_buf _ _ _ _ _ _ HI).
  apply cb_cens. eapply cens_mono.
  { apply (cens_up (fun _ _ => True) (fun k => 4 * below k + 5 * k)); [lia|exact I|].
    intros i [s j] Hi _. eapply cens_bind; [apply cens_tick; intros p Hp; exact Hp|]. cbn beta. intros p c [Hp ->].
    eapply cens_mono; [apply cens_cb, (collect_chain_cost i p s j Hi (aget_inv _ _ _ Hp))|]. cbn beta. intros y c Hc. split; [exact I|].
    rewrite below_succ by lia. lia. }
  cbn beta. intros y c [_ Hc]. pose proof (cnt_range (fun i => (0 <=? own i) && (own i <? HTSIZE h)) (alen (ht_buf h)) 0) as Hr. fold (below (HTSIZE h)) in Hr.
  pose proof (cnt_nonneg (fun i => (0 <=? own i) && (own i <? 0)) 0 (alen (ht_buf h))) as Hr0. fold (below 0) in Hr0. lia.
Qed.
End Collect.


(** * one call of the comparison *)
Lemma comparison_loop E buf : forall fuel p1 p2 l1 l2 b,
  0 <= l1 -> 0 <= l2 ->
  loop fuel (fun '(p1, p2, l1, l2) =>
    if (0 <? l1) && (0 <? l2) then
      c1 <- bget E buf p1 ;;
      c2 <- bget E buf p2 ;;
      if c1 =? c2 then Ok (inl (p1 + 1, p2 + 1, l1 - 1, l2 - 1))
      else Ok (inr (c1 <? c2))
    else if l1 =? 0 then Ok (inr false)
    else Ok (inr true)) (p1, p2, l1, l2) = Ok b ->
  exists k, cloop fuel (fun '(p1, p2, l1, l2) =>
    if (0 <? l1) && (0 <? l2) then
      c1 <~ tick (bget E buf p1) ;;
      c2 <~ tick (bget E buf p2) ;;
      if c1 =? c2 then cret (inl (p1 + 1, p2 + 1, l1 - 1, l2 - 1))
      else cret (inr (c1 <? c2))
    else if l1 =? 0 then cret (inr false)
    else cret (inr true)) (p1, p2, l1, l2) = Ok (b, k) /\ 0 <= k <= 3 * Z.min l1 l2 + 1.
Proof.
  induction fuel as [|f IH]; intros p1 p2 l1 l2 b H1 H2; cbn [loop cloop]; [discriminate|].
  destruct ((0 <? l1) && (0 <? l2)) eqn:Hc.
  - apply andb_true_iff in Hc as [Hc1 Hc2]; apply Z.ltb_lt in Hc1, Hc2.
    destruct (bget E buf p1) as [c1|] eqn:G1; [|discriminate]. destruct (bget E buf p2) as [c2|] eqn:G2; [|discriminate].
    cbn [bind cbind tick cret]. destruct (c1 =? c2).
    + cbn [bind cbind tick cret]. intros Hl. destruct (IH (p1 + 1) (p2 + 1) (l1 - 1) (l2 - 1) b ltac:(lia) ltac:(lia) Hl) as (k & Hk & Hb).
      rewrite Hk. cbn [bind cbind]. eexists. split; [reflexivity|]. lia.
    + cbn [bind cbind tick cret]. intros Hl. injection Hl as <-. eexists. split; [reflexivity|]. lia.
  - destruct (l1 =? 0); cbn [bind cbind tick cret]; intros Hl; injection Hl as <-; eexists; (split; [reflexivity|]); lia.
Qed.
Lemma comparison_steps E buf p1 p2 l1 l2 b : LMS_comparison E buf p1 p2 = Ok b ->
  get_length E buf p1 = Ok l1 -> get_length E buf p2 = Ok l2 -> 0 <= l1 -> 0 <= l2 ->
  exists steps, LMS_comparison_steps E buf p1 p2 = Ok (b, steps) /\ steps <= 3 * Z.min l1 l2 + 5.
Proof.
  unfold LMS_comparison, LMS_comparison_steps. intros H G1 G2 H1 H2. rewrite G1, G2 in *. cbn [bind cbind tick] in *.
  destruct (get_first_character_pointer E buf p1) as [f1|]; [|discriminate].
  destruct (get_first_character_pointer E buf p2) as [f2|]; [|discriminate]. cbn [bind cbind tick] in *.
  destruct (comparison_loop E buf _ _ _ _ _ _ H1 H2 H) as (k & Hk & Hb). rewrite Hk. cbn [bind cbind].
  eexists. split; [reflexivity|]. lia.
Qed.

(** * The strings in the table: different S* substrings, so their lengths add up to at most n and their number *)
Lemma lengths_sum t n (recs : list (Z * list Z)) : 1 <= n -> NoDup (map snd recs) ->
  (forall x, In x (map snd recs) -> exists e, 0 <= e < n /\ LMS t n e = true /\ x = sub t n e) ->
  2 * zln recs <= n /\ fold_right (fun a s => zln (snd a) + s) 0 recs <= n + zln recs.
Proof.
  intros Hn Hnd Hstr.
  assert (Hg : forall L : list Z, NoDup L -> incl (map snd recs) (map (sub t n) L) -> (forall e, In e L -> LMS t n e = true) ->
    (length recs <= length L)%nat /\ fold_right (fun a s => zln (snd a) + s) 0 recs <= sum (P_SaisStages.plen t n) L + zln recs).
  { clear Hstr. revert Hnd. induction recs as [|[q x] recs IH]; intros Hnd L HL Hi Hl.
    - cbn [length fold_right]. split; [lia|]. assert (H0 : 0 <= sum (P_SaisStages.plen t n) L); [|lia].
      clear - Hl. induction L as [|e L IH]; [cbn; lia|]. cbn [sum fold_right]. fold (sum (P_SaisStages.plen t n) L).
      pose proof (sub_len_LMS t n e (Hl e ltac:(left; reflexivity))). unfold P_SaisStages.plen at 1. specialize (IH ltac:(intros; apply Hl; right; assumption)). lia.
    - cbn [map snd] in *. inversion Hnd as [|? ? Hx Hnd']; subst.
      assert (He : exists e, sub t n e = x /\ In e L) by (apply in_map_iff, Hi; left; reflexivity). destruct He as (e & He & HeL).
      apply in_split in HeL as (L1 & L2 & ->). pose proof (NoDup_remove_1 _ _ _ HL) as HL'.
      destruct (IH Hnd' (L1 ++ L2) HL') as [A B].
      + intros y Hy. pose proof (Hi y ltac:(right; exact Hy)) as Hy2. rewrite map_app in *. cbn [map] in Hy2. apply in_app_iff. apply in_app_iff in Hy2 as [H|[H|H]]; [left; exact H| |right; exact H].
        exfalso. apply Hx. rewrite <- He. rewrite H. exact Hy.
      + intros e' He'. apply Hl. apply in_app_iff. apply in_app_iff in He'. destruct He'; [left|right; right]; assumption.
      + pose proof (sub_len_LMS t n e (Hl e ltac:(apply in_app_iff; right; left; reflexivity))) as [H1 _].
        assert (Hs : sum (P_SaisStages.plen t n) (L1 ++ e :: L2) = P_SaisStages.plen t n e + sum (P_SaisStages.plen t n) (L1 ++ L2)).
        { clear. induction L1 as [|y L1 IH]; [reflexivity|]. cbn [app sum fold_right]. fold (sum (P_SaisStages.plen t n) (L1 ++ e :: L2)) (sum (P_SaisStages.plen t n) (L1 ++ L2)). lia. }
        rewrite Hs. unfold P_SaisStages.plen at 1. rewrite !app_length in *. cbn [length fold_right snd] in *. rewrite <- He in *. lia. }
  destruct (Hg (filter (LMS t n) (zseq 0 n))) as [A B].
  - apply NoDup_filter, zseq_NoDup.
  - intros x Hx. destruct (Hstr x Hx) as (e & He & HL & ->). apply in_map. apply filter_In. split; [apply in_zseq; lia|exact HL].
  - intros e He. apply filter_In in He. apply He.
  - pose proof (plen_sum t n 0 ltac:(lia)) as Hp. pose proof (nx_spec t n 0 ltac:(lia)) as Hx.
    pose proof (LMS_half t n ltac:(lia)) as Hh. unfold cnt in Hh. lia.
Qed.

(** the comparison of the strings is a strict weak order of their records *)
Lemma star_order_weak cmp (recs : list (Z * list Z)) :
  (forall a b, In a recs -> In b recs -> cmp (fst a) (fst b) = star_lt (snd a) (snd b)) -> strict_weak_order cmp (map fst recs).
Proof.
  intros Hcmp.
  assert (Hin : forall x, In x (map fst recs) -> exists a, In a recs /\ fst a = x).
  { intros x Hx. apply in_map_iff in Hx as (a & <- & Ha). eauto. }
  split; [|split].
  - intros x Hx. apply Hin in Hx as (a & Ha & <-). rewrite Hcmp by assumption. apply star_lt_irr.
  - intros x y z Hx Hy Hz. apply Hin in Hx as (a & Ha & <-), Hy as (b & Hb & <-), Hz as (c & Hc & <-).
    rewrite !Hcmp by assumption. apply star_lt_trans.
  - intros x y z Hx Hy Hz. apply Hin in Hx as (a & Ha & <-), Hy as (b & Hb & <-), Hz as (c & Hc & <-).
    rewrite !Hcmp by assumption. intros H1 H2 H3 H4.
    destruct (list_eq_dec Z.eq_dec (snd a) (snd b)) as [E1|N1]; [|destruct (star_lt_total _ _ N1); congruence].
    rewrite E1. split; assumption.
Qed.

(** * The time of std::sort on different strings *)
Definition sort_bound (st : sort_time) (n K : Z) : Prop := forall (recs : list (Z * list Z)) cmp time,
  NoDup (map fst recs) -> strict_weak_order cmp (map fst recs) -> 2 * zln recs <= n ->
  fold_right (fun a s => zln (snd a) + s) 0 recs <= n + zln recs ->
  (forall a b, In a recs -> In b recs -> time (fst a) (fst b) <= 3 * Z.min (zln (snd a)) (zln (snd b)) + 5) ->
  st cmp time (map fst recs) <= K.
Lemma untimed_bound n : sort_bound untimed n 0.
Proof. intros recs cmp time _ _ _ _ _. reflexivity. Qed.
Lemma charged_bound alg d n : charged alg d -> (forall j k, (j <= k)%nat -> d j <= d k) -> 0 <= n -> 
  sort_bound (asked_time alg) n (7 * n * d (Z.to_nat (n / 2))).
Proof.
  intros Hc Hd Hn0 recs cmp time Hnd Hsw Hm HL Ht. destruct (Hc cmp _ Hsw Hnd) as (ps & H1 & H2). unfold asked_time. rewrite map_length in H2.
  set (w := fun p => match find (fun a => fst a =? p) recs with Some a => 3 * zln (snd a) + 5 | None => 0 end).
  assert (Hw : forall a, In a recs -> w (fst a) = 3 * zln (snd a) + 5).
  { intros a Ha. unfold w. destruct (find _ recs) as [b|] eqn:Ef.
    - apply find_some in Ef as [Hb Hbe]. assert (fst b = fst a) by lia.
      assert (a = b) as ->; [|reflexivity]. clear - Hnd Ha Hb H. induction recs as [|c r IH]; [contradiction|]. cbn [map] in Hnd. inversion Hnd; subst.
      destruct Ha as [->|Ha], Hb as [->|Hb]; try reflexivity.
      + exfalso. apply H2. rewrite <- H. apply in_map. assumption.
      + exfalso. apply H2. rewrite H. apply in_map. assumption.
      + apply IH; assumption.
    - exfalso. pose proof (find_none _ _ Ef a Ha) as H. cbn beta in H. lia. }
  assert (Hw0 : forall p, 0 <= w p) by (intros p; unfold w; destruct (find _ _) as [[? ?]|]; lia).
  (* every comparison costs at most what its payer is worth *)
  assert (Hs : fold_right (fun '(x, y) s => time x y + s) 0 (asked cmp (alg (map fst recs))) <= sum w ps).
  { clear H2. induction H1 as [|[x y] p qs ps' (Hx & Hy & Hp) H1 IH]; [reflexivity|]. cbn [fold_right sum]. fold (sum w ps').
    apply in_map_iff in Hx as (a & <- & Ha). apply in_map_iff in Hy as (b & <- & Hb). specialize (Ht a b Ha Hb).
    assert (time (fst a) (fst b) <= w p); [|lia]. destruct Hp as [-> | ->]; rewrite Hw by assumption; lia. }
  assert (Hps : incl ps (map fst recs)).
  { clear - H1. induction H1 as [|[x y] p qs ps' (Hx & Hy & Hp) H1 IH]; [intros z []|]. intros z [<-|Hz]; [destruct Hp as [-> | ->]; assumption|auto]. }
  (* the payers *)
  assert (Hocc : sum w ps = sum (fun q => Z.of_nat (count_occ Z.eq_dec ps q) * w q) (map fst recs)).
  { clear - Hps Hnd. induction ps as [|p ps IH].
    - change (sum w []) with 0. symmetry. clear. induction (map fst recs) as [|q l IH]; [reflexivity|]. unfold sum in *. cbn [fold_right]. rewrite IH. reflexivity.
    - cbn [sum fold_right]. fold (sum w ps). rewrite IH by (intros z Hz; apply Hps; right; exact Hz).
      rewrite (sum_upd (fun q => Z.of_nat (count_occ Z.eq_dec ps q) * w q) (fun q => Z.of_nat (count_occ Z.eq_dec (p :: ps) q) * w q) p _ Hnd (Hps p ltac:(left; reflexivity))).
      + cbn [count_occ]. destruct (Z.eq_dec p p); [|congruence]. lia.
      + intros q Hq. cbn [count_occ]. destruct (Z.eq_dec p q); [congruence|reflexivity]. }
  assert (Hd0 : 0 <= d (length recs)) by (specialize (H2 0); lia).
  assert (Hd2 : sum w ps <= d (length recs) * (3 * (n + zln recs) + 5 * zln recs)).
  { rewrite Hocc. apply (Z.le_trans _ (sum (fun q => d (length recs) * w q + 0) (map fst recs))).
    - apply sum_le. intros q _. pose proof (Z.mul_le_mono_nonneg_r _ _ (w q) (Hw0 q) (H2 q)). lia.
    - rewrite sum_lin. apply (Z.le_trans _ (d (length recs) * sum w (map fst recs))); [lia|]. apply Z.mul_le_mono_nonneg_l; [exact Hd0|].
      assert (Hsum : sum w (map fst recs) = 3 * fold_right (fun a s => zln (snd a) + s) 0 recs + 5 * zln recs); [|lia].
      clear - Hw. assert (Hg : forall r, incl r recs -> sum w (map fst r) = 3 * fold_right (fun a s => zln (snd a) + s) 0 r + 5 * zln r).
      2: { apply Hg. intros z Hz. exact Hz. }
      induction r as [|a r IH]; intros Hi; [reflexivity|]. cbn [map sum fold_right length]. fold (sum w (map fst r)).
      rewrite Hw by (apply Hi; left; reflexivity). rewrite IH by (intros z Hz; apply Hi; right; exact Hz). lia. }
  assert (Hmono : d (length recs) <= d (Z.to_nat (n / 2))).
  { apply Hd. apply Nat2Z.inj_le. rewrite Z2Nat.id by (apply Z.div_pos; lia). apply Z.div_le_lower_bound; lia. }
  apply (Z.le_trans _ (d (length recs) * (7 * n))).
  - eapply Z.le_trans; [exact Hs|]. eapply Z.le_trans; [exact Hd2|]. apply Z.mul_le_mono_nonneg_l; [exact Hd0|]. lia.
  - rewrite (Z.mul_comm (d (length recs))). apply Z.mul_le_mono_nonneg_l; [lia|exact Hmono].
Qed.

Section Sort.
Context (E : env) (hts : Z) (srt : sorter) (T : arr Z) (t : Z -> Z) (n : Z).
Context (Hts : 1 <= hts <= 2 ^ 48) (Hn : 3 <= n <= 2 ^ 58).
Context (st : sort_time) (Kst : Z) (Hst : sort_bound st n Kst).
(** the steps of sort_LMS_strings: linear in the text and the number of buckets *)
Theorem c_sort co : extracted E hts t n co -> cb (4 * (buf_bound hts n + n + 281) + 6 * hts + 14 * n + 100 + Kst) (sort_steps E srt st T co).
Proof.
  intros [XM XNL XC Xnum Xub Xn Xhead (h & own & role & ch & en & Xht & HI & Hstr & Hhs & Hhb & Hnb & Hlen & Hu)].
  unfold sort_steps. rewrite Xht, Xhead. cbn zeta.
  assert (Hhe : 0 <= nx t n 0 <= n) by (pose proof (nx_spec t n 0 ltac:(lia)); lia).
  pose proof (cnt_nonneg (LMS t n) 0 n) as Hcn. pose proof (LMS_half t n ltac:(lia)) as Hhalf.
  pose proof (hi_nb _ _ _ _ _ _ HI) as Hnb8. pose proof (hi_buf _ _ _ _ _ _ HI) as Hbuf.
  assert (Hu0 : 0 <= c_uniq co) by (rewrite Hu; lia).
  set (he := nx t n 0) in *. set (pos := alen (ht_buf h)) in *.
  apply cb_cens.
  eapply cens_bind; [apply cens_tick; intros x Hx; exact Hx|]. cbn beta. intros s0 c0 [Hs0 ->]. injection Hs0 as <-.
  eapply cens_bind; [apply cens_tick, ens_lenlen|]. cbn beta. intros ll c1 [Hll ->].
  eapply cens_bind; [apply cens_tick; intros x Hx; exact Hx|]. cbn beta. intros b1 c2 [Hb1 ->].
  injection Hb1 as <-.
  set (N := u64 (pos + (1 + 1 + ll + (he + 1) + NAME_BYTES h + (1 + 1 + 1 + 1 + NAME_BYTES h)))).
  assert (HN : N = pos + (1 + 1 + ll + (he + 1) + NAME_BYTES h + (1 + 1 + 1 + 1 + NAME_BYTES h))).
  { unfold N, u64. apply wrap_small. unfold buf_bound in *. lia. }
  set (b1 := brealloc (ht_buf h) N). set (h1 := with_buf h b1).
  assert (Hb1l : alen b1 = N) by apply alen_realloc.
  assert (HI1 : hinv E h1 (fun i => if i <? pos then own i else -1) role ch en).
  { apply (hinv_extend E h own role ch en HI b1).
    - rewrite Hb1l. fold pos. unfold buf_bound in *. lia.
    - apply bclean_realloc; [fold pos; lia|]. apply (hi_clean _ _ _ _ _ _ HI).
    - intros i Hi. apply bget_realloc_old; [fold pos; lia|assumption]. }
  assert (Hcl : ens (for_up 0 (HTSIZE h1) (fun i '(s, j) => p <- aget (ht_head h1) i ;; collect_chain E h1 p s j) (anew (u64 (c_uniq co + 2)), 1))
    (fun x => snd x = 1 + c_uniq co /\ at_list (fst x) 1 (map fst (allrec ch hts)))).
  { intros [s' j'] Hr. cbn [fst snd].
    pose proof (collect_all_ok E h1 _ role ch en HI1 (anew (u64 (c_uniq co + 2))) ltac:(change (HTSIZE h1) with (HTSIZE h); lia)) as Hc.
    change (HTSIZE h1) with (HTSIZE h) in *. rewrite Hhs in *. rewrite Hu.
    rewrite Hr in Hc. cbn [wp] in Hc. destruct Hc as (A & _ & B & _); [rewrite alen_new; unfold u64; rewrite wrap_small by lia; lia|]. split; assumption. }
  assert (Hcol : cb (4 * N + 6 * hts + 1) (cfor_up 0 (HTSIZE h1) (fun i '(s, j) =>
      p <~ tick (aget (ht_head h1) i) ;; collect_chain_steps E h1 p s j) (anew (u64 (c_uniq co + 2)), 1))).
  { pose proof (collect_all_cost E h1 _ role ch en HI1 (anew (u64 (c_uniq co + 2)), 1)) as Hc.
    change (HTSIZE h1) with (HTSIZE h) in Hc |- *. rewrite Hhs in Hc |- *. change (ht_buf h1) with b1 in Hc. rewrite Hb1l in Hc. exact Hc. }
  eapply cens_bind.
  { eapply cens_lift; [|exact Hcl|exact Hcol]. apply dr_for_up. intros i [s j]. apply dr_bind; [apply dr_tick|intros q]. apply d_collect. }
  cbn beta. intros [s1 j] c3 [[Hj Hat] Hc3]. cbn [fst snd] in Hj, Hat. subst j.
  replace (1 + c_uniq co - 1) with (c_uniq co) by lia.
  assert (Hcb : forall A K (m : cres A) (Q : A -> Z -> Prop), cb K m -> (forall a c, c <= K -> Q a c) -> cens m Q).
  { intros A K m Q Hm HQ a c H. apply HQ, (Hm a c H). }
  (* the call of std::sort *)
  assert (Hcall : cb (1 + Kst) (call_sort_steps E srt st (ht_buf h1) (c_uniq co) s1)).
  { unfold call_sort_steps. destruct (call_sort E srt (ht_buf h1) (c_uniq co) s1) as [s'|]; [|intros ? ? ?; discriminate]. cbn [bind].
    set (recs := allrec ch hts) in *. rewrite Hu. rewrite <- (map_length fst recs). rewrite (aslice_ok s1 1 (map fst recs) Hat). cbn [bind].
    intros a c Hc. apply ok_snd in Hc. subst c. apply Z.add_le_mono_l.
    assert (Hh1s : HTSIZE h1 = hts) by exact Hhs.
    assert (Hrec : forall a, In a recs -> exists hv, inch h1 ch hv (fst a) (snd a)).
    { intros [q x] Ha. apply (allrec_inch h1 ch q x). rewrite Hh1s. exact Ha. }
    assert (Hrd : forall a, In a recs -> recd E (NAME_BYTES h1) b1 (fst a) (snd a)).
    { intros a' Ha. destruct (Hrec a' Ha) as (hv & Hia). apply (inch_rec E h1 _ role ch en HI1 hv _ _ Hia). }
    assert (Hcmp : forall a b, In a recs -> In b recs -> LMS_comparison E b1 (fst a) (fst b) = Ok (star_lt (snd a) (snd b))).
    { intros a' b' Ha Hb'. apply (LMS_comparison_ok E (NAME_BYTES h1) b1); apply Hrd; assumption. }
    pose proof (allrec_NoDup_str E h1 _ role ch en HI1) as HndS. rewrite Hh1s in HndS. fold recs in HndS.
    pose proof (allrec_NoDup_pos E h1 _ role ch en HI1) as HndP. rewrite Hh1s in HndP. fold recs in HndP.
    destruct (lengths_sum t n recs ltac:(lia) HndS) as [Hl1 Hl2].
    { intros x Hx. apply in_map_iff in Hx as ([q y] & <- & Hx). destruct (Hrec _ Hx) as (hv & Hhv & Hin). cbn [fst snd] in *.
      change (HTSIZE h1) with (HTSIZE h) in Hhv.
      destruct (proj1 (Hstr y)) as (e & He & HL & ->); [exists hv; split; [exact Hhv|]; apply in_map_iff; exists (q, y); split; [reflexivity|exact Hin]|].
      exists e. split; [lia|]. split; [exact HL|reflexivity]. }
    apply Hst; try assumption.
    - apply star_order_weak; [intros a' b' Ha Hb'; change (ht_buf h1) with b1; rewrite Hcmp by assumption; reflexivity].
    - intros a' b' Ha Hb'. unfold comparison_time. change (ht_buf h1) with b1. pose proof (Hrd a' Ha) as Ra. pose proof (Hrd b' Hb') as Rb.
      destruct (comparison_steps E b1 (fst a') (fst b') (zln (snd a')) (zln (snd b')) _ (Hcmp a' b' Ha Hb')) as (k & Hk & Hb2).
      + apply get_length_ok; [|apply (rc_lenf _ _ _ _ _ Ra)]. pose proof (rc_len _ _ _ _ _ Ra). lia.
      + apply get_length_ok; [|apply (rc_lenf _ _ _ _ _ Rb)]. pose proof (rc_len _ _ _ _ _ Rb). lia.
      + lia.
      + lia.
      + rewrite Hk. exact Hb2. }
  eapply Hcb.
  { eapply cb_bind; [exact Hcall|intros s2].
    eapply cb_bind. { apply cb_for_up with (K := 2); [lia|]. intros i x. eapply cb_le; [|apply Z.le_refl]. change 2 with (1 + (1 + 0)). repeat (eapply cb_bind; [apply cb_tick|intros ?]). apply cb_ret. }
    intros h2. do 6 (eapply cb_bind; [apply cb_tick|intros ?]). 
    eapply cb_bind. { apply cb_for_up with (K := 2); [lia|]. intros i x. change 2 with (1 + 1). eapply cb_bind; [apply cb_tick|intros ?]. apply cb_tick. }
    intros b3. do 3 (eapply cb_bind; [apply cb_tick|intros ?]).
    eapply cb_bind. { apply cb_for_up with (K := 1); [lia|]. intros i x. apply cb_tick. }
    intros b4. eapply cb_bind; [apply cb_tick|intros ?].
    eapply cb_bind. { apply cb_for_up with (K := 1); [lia|]. intros i [mn mx]. change 1 with (1 + 0). eapply cb_bind; [apply cb_tick|intros ?]. apply cb_ret. }
    intros [mn mx]. do 3 (eapply cb_bind; [apply cb_tick|intros ?]). apply cb_ret. }
  cbn beta. intros _ c Hc. fold he. lia.
Qed.
End Sort.

