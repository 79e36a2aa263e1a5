(** The hash table: representation invariant, insertion, lookup, traversal. *)
From Verif Require Import Base M_PackedArray M_HashTable Spec P_Bytes.
From Coq Require Import ZifyBool.
Open Scope Z_scope.

Notation zln l := (Z.of_nat (length l)).

(** text T holds the string s at offset p *)
Definition tseg (T : arr Z) (p : Z) (s : list Z) : Prop :=
  forall i, 0 <= i < zln s -> av T (p + i) = Some (nth (Z.to_nat i) s 0).

Definition hash_of (size : Z) (s : list Z) : Z :=
  fold_left (fun x c => u64 (u64 (x * 101) + c)) s 0 mod size.

Lemma hash_ok h T p s : tseg T p s -> hash_function h T (zln s) p = Ok (hash_of (HTSIZE h) s).
Proof.
  intros Ht. unfold hash_function.
  assert (H : wp (for_up 0 (zln s) (fun i x => c <- aget T (p + i) ;; Ok (u64 (u64 (x * 101) + c))) 0)
     (fun x => x = fold_left (fun x c => u64 (u64 (x * 101) + c)) (firstn (Z.to_nat (zln s)) s) 0)).
  { apply (wp_for_up (fun i x => x = fold_left (fun x c => u64 (u64 (x * 101) + c)) (firstn (Z.to_nat i) s) 0)); [lia|reflexivity|].
    intros i x Hi ->. rewrite (aget_ok _ _ _ (Ht i Hi)). cbn [bind wp].
    replace (Z.to_nat (i + 1)) with (S (Z.to_nat i)) by lia.
    assert (Hf : forall k, (k < length s)%nat -> firstn (S k) s = firstn k s ++ [nth k s 0]).
    { clear. induction s as [|a s IH]; intros k Hk; cbn [length] in Hk; [lia|].
      destruct k; [destruct s; reflexivity|]. cbn [firstn app nth]. f_equal. apply IH. lia. }
    rewrite Hf by lia. rewrite fold_left_app. reflexivity. }
  apply wp_inv in H as (x & H & Hx). rewrite H. cbn [bind]. f_equal. rewrite Hx. unfold hash_of.
  rewrite Nat2Z.id, firstn_all. reflexivity.
Qed.
Lemma hash_range size s : 1 <= size -> 0 <= hash_of size s < size.
Proof. intros H. unfold hash_of. apply Z.mod_pos_bound. lia. Qed.

(** * Records *)
Definition rsize (nb m : Z) : Z := 2 + lenlen m + m + nb.
Record recd (E : env) (nb : Z) (b : arr Z) (q : Z) (s : list Z) : Prop := {
  rc_len : 3 <= zln s < 2 ^ 60;
  rc_byte : Forall is_byte s;
  rc_lenf : lenf E b q (zln s);
  rc_first : bget E b (q + 1 + lenlen (zln s)) = Ok (u8 (nth 0 s 0 + 1));
  rc_str : forall i, 0 <= i < zln s -> bget E b (q + 2 + lenlen (zln s) + i) = Ok (nth (Z.to_nat i) s 0);
  rc_end : q + rsize nb (zln s) <= alen b }.

Lemma recd_frame E nb b b' q s : recd E nb b q s -> alen b <= alen b' ->
  (forall i, q <= i < name_off q (zln s) -> bget E b' i = bget E b i) -> recd E nb b' q s.
Proof.
  intros [H1 H2 H3 H4 H5 H6] Hl Hf. pose proof (lenlen_le8 (zln s) ltac:(lia)). unfold name_off in Hf.
  constructor; try assumption; try lia.
  - eapply lenf_frame; [lia|eassumption|]. intros; apply Hf; lia.
  - rewrite Hf by lia. assumption.
  - intros i Hi. rewrite Hf by lia. apply H5, Hi.
Qed.

(** * Chains.  [own]: bucket owning a byte; [role]: -1, or the record whose name field the byte belongs to.
    A pointer leads to a record. *)
Section Seg.
Context (E : env) (nb : Z) (own role : Z -> Z) (b : arr Z) (hv : Z).
Inductive seg : Z -> list (Z * list Z) -> Z -> Prop :=
| seg_nil q : seg q [] q
| seg_ptr q q' l e : 0 < q -> q + 10 <= q' < 2 ^ 63 -> ptrf E b q q' ->
    (forall i, q <= i < q + 10 -> own i = hv /\ role i = -1) -> seg q' l e -> (exists s l', l = (q', s) :: l') -> seg q l e
| seg_rec q s l e : 0 < q -> recd E nb b q s ->
    (forall i, q <= i < q + rsize nb (zln s) -> own i = hv /\ role i = if i <? name_off q (zln s) then -1 else q) ->
    seg (q + rsize nb (zln s)) l e -> seg q ((q, s) :: l) e.
End Seg.

Lemma rsize_pos nb m : 0 <= nb -> 3 <= m -> 3 <= rsize nb m.
Proof. intros H Hm. pose proof (lenlen_spec m ltac:(lia)). unfold rsize. lia. Qed.

Lemma seg_le E nb own role b hv q l e : 0 <= nb -> seg E nb own role b hv q l e -> q <= e.
Proof.
  intros Hnb. induction 1; [lia|lia|]. pose proof (rsize_pos nb (zln s) Hnb (proj1 (rc_len _ _ _ _ _ H0))). lia.
Qed.

Lemma seg_app E nb own role b hv q l1 m : seg E nb own role b hv q l1 m -> forall l2 e, seg E nb own role b hv m l2 e ->
  seg E nb own role b hv q (l1 ++ l2) e.
Proof.
  induction 1; intros l2 e' Hs; cbn [app]; [assumption|eapply seg_ptr; eauto|eapply seg_rec; eauto].
  destruct H4 as (s & l' & ->). eexists. eexists. reflexivity.
Qed.

Lemma seg_frame E nb own role own' role' b b' hv q l e : 0 <= nb -> alen b <= alen b' ->
  (forall i, own i = hv -> 0 < i < e -> own' i = own i /\ role' i = role i /\ (role i = -1 -> bget E b' i = bget E b i)) ->
  seg E nb own role b hv q l e -> seg E nb own' role' b' hv q l e.
Proof.
  intros Hnb Hl Hf. induction 1 as [q|q q' l e H H0 H1 H2 H3 IH|q s l e H H0 H1 H2 IH]; [constructor| |].
  - pose proof (seg_le _ _ _ _ _ _ _ _ _ Hnb H3).
    apply (seg_ptr _ _ _ _ _ _ q q'); try assumption; [| |apply IH; assumption].
    + eapply ptrf_frame; [eassumption|]. intros i Hi. destruct (H2 i Hi). apply Hf; [assumption|lia|assumption].
    + intros i Hi. destruct (H2 i Hi) as [Ha Hb]. destruct (Hf i Ha ltac:(lia)) as (-> & -> & _). auto.
  - pose proof (seg_le _ _ _ _ _ _ _ _ _ Hnb H2). pose proof (lenlen_le8 (zln s)) as Hll.
    pose proof (rc_len _ _ _ _ _ H0) as Hrl.
    apply seg_rec; try assumption; [| |apply IH; assumption].
    + eapply recd_frame; [eassumption|assumption|]. intros i Hi. unfold name_off in Hi.
      destruct (H1 i) as [Ha Hb]; [unfold rsize; lia|]. unfold name_off in Hb.
      apply (proj2 (proj2 (Hf i Ha ltac:(unfold rsize in *; lia)))). rewrite Hb. replace (_ <? _) with true by lia. reflexivity.
    + intros i Hi. destruct (H1 i Hi) as [Ha Hb]. destruct (Hf i Ha ltac:(lia)) as (-> & -> & _). auto.
Qed.

(** members of a chain *)
Lemma seg_in E nb own role b hv q l e : 0 <= nb -> seg E nb own role b hv q l e -> forall p s, In (p, s) l ->
  q <= p /\ 0 < p /\ p + rsize nb (zln s) <= e /\ recd E nb b p s /\
  (forall i, p <= i < p + rsize nb (zln s) -> own i = hv /\ role i = if i <? name_off p (zln s) then -1 else p).
Proof.
  intros Hnb. induction 1 as [q|q q' l e H H0 H1 H2 H3 IH|q s l e H H0 H1 H2 IH]; intros p s' Hin.
  - contradiction.
  - destruct (IH p s' Hin) as (A & B & C). split; [lia|]. auto.
  - pose proof (rsize_pos nb (zln s) Hnb (proj1 (rc_len _ _ _ _ _ H0))). pose proof (seg_le _ _ _ _ _ _ _ _ _ Hnb H2).
    destruct Hin as [He|Hin].
    + injection He as <- <-. split; [lia|]. split; [assumption|]. split; [lia|]. split; assumption.
    + destruct (IH p s' Hin) as (A & B & C). split; [lia|]. auto.
Qed.
Lemma seg_NoDup E nb own role b hv q l e : 0 <= nb -> seg E nb own role b hv q l e -> NoDup (map fst l).
Proof.
  intros Hnb. induction 1 as [q|q q' l e H H0 H1 H2 H3 IH|q s l e H H0 H1 H2 IH]; [constructor|assumption|].
  cbn [map fst]. constructor; [|assumption]. intros Hin. apply in_map_iff in Hin as ([p s'] & Hp & Hin). cbn [fst] in Hp. subst p.
  pose proof (rsize_pos nb (zln s) Hnb (proj1 (rc_len _ _ _ _ _ H0))).
  pose proof (seg_in _ _ _ _ _ _ _ _ _ Hnb H2 q s' Hin). lia.
Qed.
(** the walk passes only through initialised terminated bytes *)
Lemma seg_start E nb own role b hv q l e : seg E nb own role b hv q l e -> 0 < e -> 0 < q.
Proof. intros H He. destruct H; assumption. Qed.

(** * Comparison of a text string with a record *)
Lemma same_string_ok E b T p q s s' nb : tseg T p s -> recd E nb b q s' -> length s = length s' ->
  exists r : bool, same_string E b T (zln s) p q (lenlen (zln s')) = Ok r /\ (r = true <-> s = s').
Proof.
  intros Ht Hr Hlen.
  assert (H : wp (same_string E b T (zln s) p q (lenlen (zln s'))) (fun r : bool => r = true <-> s = s')).
  { unfold same_string.
    apply (wp_loop (fun i => 0 <= i <= zln s /\ forall j, 0 <= j < i -> nth (Z.to_nat j) s 0 = nth (Z.to_nat j) s' 0) (fun i => zln s - i)).
    - intros i [Hi _]. lia.
    - intros i [Hi Heq]. destruct (Z.eqb_spec i (zln s)) as [->|Hne]; cbn [wp].
      + split; [|reflexivity]. intros _. apply (nth_ext s s' 0 0); [assumption|].
        intros k Hk. specialize (Heq (Z.of_nat k) ltac:(lia)). rewrite Nat2Z.id in Heq. exact Heq.
      + rewrite (aget_ok _ _ _ (Ht i ltac:(lia))). cbn [bind].
        replace (q + 1 + 1 + lenlen (zln s') + i) with (q + 2 + lenlen (zln s') + i) by lia.
        rewrite (rc_str _ _ _ _ _ Hr) by lia. cbn [bind].
        destruct (Z.eqb_spec (nth (Z.to_nat i) s 0) (nth (Z.to_nat i) s' 0)) as [He|He]; cbn [wp].
        * split; [|lia]. split; [lia|]. intros j Hj. destruct (Z.eq_dec j i) as [->|]; [assumption|]. apply Heq. lia.
        * split; [discriminate|]. intros ->. congruence.
    - split; [lia|]. intros; lia.
    - lia. }
  apply wp_inv in H as (r & H1 & H2). eauto.
Qed.

Definition str_dec := list_eq_dec Z.eq_dec.
Fixpoint lookup (s : list Z) (l : list (Z * list Z)) : option Z :=
  match l with [] => None | (q, s') :: l => if str_dec s s' then Some q else lookup s l end.
Lemma lookup_None s l : lookup s l = None <-> ~ In s (map snd l).
Proof.
  induction l as [|[q s'] l IH]; cbn [lookup map snd In]; [tauto|]. destruct (str_dec s s') as [->|Hne].
  - split; [discriminate|]. intros H. exfalso. apply H. left. reflexivity.
  - rewrite IH. split; [intros H [He|Hi]; [congruence|contradiction]|]. intros H Hi. apply H. right. assumption.
Qed.
Lemma lookup_Some s l q : lookup s l = Some q -> In (q, s) l.
Proof.
  induction l as [|[q' s'] l IH]; cbn [lookup]; [discriminate|]. destruct (str_dec s s') as [->|Hne].
  - intros H. injection H as ->. left. reflexivity.
  - intros H. right. apply IH, H.
Qed.
Lemma lookup_in s l q : NoDup (map snd l) -> In (q, s) l -> lookup s l = Some q.
Proof.
  induction l as [|[q' s'] l IH]; cbn [lookup map snd]; [intros _ []|]. intros Hn Hin. inversion Hn; subst.
  destruct (str_dec s s') as [->|Hne].
  - destruct Hin as [He|Hin]; [congruence|]. exfalso. apply H1. apply in_map_iff. exists (q, s'). auto.
  - destruct Hin as [He|Hin]; [congruence|]. apply IH; assumption.
Qed.

Definition scan_step E h (T : arr Z) m p (q : Z) : res (Z + scan) :=
    let b := ht_buf h in
    if q =? 0 then Ok (inr (ScanEnd 0)) else
    l <- get_length E b q ;;
    if l =? 0 then Ok (inr (ScanEnd q)) else
    if l =? 2 then (q' <- get_pointer E b q ;; Ok (inl q')) else
    if negb (l =? m) then (s <- string_info_length E h b q l ;; Ok (inl (u64 (q + s)))) else
    l2 <- bget E b q ;;
    same <- same_string E b T m p q l2 ;;
    if (same : bool) then Ok (inr (ScanDup q)) else
    s <- string_info_length E h b q l ;;
    Ok (inl (u64 (q + s))).

Lemma scan_seg E h T p s own role hv q l e :
  0 <= NAME_BYTES h <= 8 -> 3 <= zln s -> tseg T p s ->
  seg E (NAME_BYTES h) own role (ht_buf h) hv q l e -> 0 < e < 2 ^ 63 -> bget E (ht_buf h) e = Ok 0 ->
  forall fuel, e - q < Z.of_nat fuel ->
  loop fuel (scan_step E h T (zln s) p) q = Ok (match lookup s l with Some q' => ScanDup q' | None => ScanEnd e end).
Proof.
  intros Hnb Hm Ht Hseg. induction Hseg as [q|q q' l e H H0 H1 H2 H3 IH|q s' l e H H0 H1 H2 IH]; intros He Hz fuel Hf;
    (destruct fuel as [|fuel]; [exfalso|]).
  - lia.
  - cbn [loop lookup]. unfold scan_step at 1. cbn zeta. replace (q =? 0) with false by lia.
    rewrite (get_length_zero _ _ _ Hz). reflexivity.
  - pose proof (seg_le _ _ _ _ _ _ _ _ _ (proj1 Hnb) H3). lia.
  - pose proof (seg_le _ _ _ _ _ _ _ _ _ (proj1 Hnb) H3).
    cbn [loop]. unfold scan_step at 1. cbn zeta. replace (q =? 0) with false by lia.
    rewrite (ptrf_length _ _ _ _ H1). cbn [bind]. change (2 =? 0) with false. change (2 =? 2) with true. cbn iota.
    rewrite (get_pointer_ok E _ q q') by (assumption || lia). cbn [bind]. apply IH; [assumption|assumption|lia].
  - pose proof (seg_le _ _ _ _ _ _ _ _ _ (proj1 Hnb) H2). pose proof (rsize_pos _ _ (proj1 Hnb) (proj1 (rc_len _ _ _ _ _ H0))). lia.
  - pose proof (seg_le _ _ _ _ _ _ _ _ _ (proj1 Hnb) H2). pose proof (rsize_pos _ _ (proj1 Hnb) (proj1 (rc_len _ _ _ _ _ H0))).
    pose proof (rc_len _ _ _ _ _ H0) as Hrl.
    assert (Hnext : loop fuel (scan_step E h T (zln s) p) (q + rsize (NAME_BYTES h) (zln s')) =
      Ok (match lookup s l with Some q' => ScanDup q' | None => ScanEnd e end)) by (apply IH; [assumption|assumption|lia]).
    assert (Hu : u64 (q + (2 + lenlen (zln s') + zln s' + NAME_BYTES h)) = q + rsize (NAME_BYTES h) (zln s')).
    { unfold rsize in *. unfold u64. rewrite wrap_small by lia. reflexivity. }
    cbn [loop lookup]. unfold scan_step at 1. cbn zeta. replace (q =? 0) with false by lia.
    rewrite (get_length_ok E _ q (zln s')) by (try lia; apply (rc_lenf _ _ _ _ _ H0)). cbn [bind].
    replace (zln s' =? 0) with false by lia. replace (zln s' =? 2) with false by lia.
    destruct (Z.eqb_spec (zln s') (zln s)) as [Hl|Hl]; cbn [negb].
    + rewrite (proj1 (rc_lenf _ _ _ _ _ H0)). cbn [bind].
      destruct (same_string_ok E (ht_buf h) T p q s s' (NAME_BYTES h) Ht H0 ltac:(lia)) as (r & Hr & Hiff).
      rewrite Hr. cbn [bind]. destruct (str_dec s s') as [Hs|Hs].
      * replace r with true by (symmetry; apply Hiff; assumption). reflexivity.
      * destruct r; [exfalso; apply Hs, Hiff; reflexivity|].
        rewrite (string_info_ok E h _ q (zln s')) by (try lia; apply (rc_lenf _ _ _ _ _ H0)). cbn [bind].
        rewrite Hu. exact Hnext.
    + destruct (str_dec s s') as [Hs|Hs]; [subst; lia|].
      rewrite (string_info_ok E h _ q (zln s')) by (try lia; apply (rc_lenf _ _ _ _ _ H0)). cbn [bind].
      rewrite Hu. exact Hnext.
Qed.

(** * Writing a record *)
Lemma copy_ok E T p s b r : tseg T p s -> Forall is_byte s -> 0 <= r -> r + zln s <= alen b ->
  wp (for_up 0 (zln s) (fun i b => c <- aget T (p + i) ;; bset b (r + i) c) b)
     (fun b' => bfr E r (r + zln s) b b' /\ (bclean b -> bclean b') /\
        forall i, 0 <= i < zln s -> bget E b' (r + i) = Ok (nth (Z.to_nat i) s 0)).
Proof.
  intros Ht Hby Hr Hl.
  apply (wp_for_up (fun k b' => bfr E r (r + zln s) b b' /\ (bclean b -> bclean b') /\
        forall i, 0 <= i < k -> bget E b' (r + i) = Ok (nth (Z.to_nat i) s 0))); [lia| |].
  - split; [apply bfr_refl|]. split; [auto|]. intros; lia.
  - intros i b' Hi (Hf & Hc & Hg). rewrite (aget_ok _ _ _ (Ht i Hi)). cbn [bind]. pose proof (proj1 Hf).
    rewrite bset_ok by lia. cbn [wp].
    assert (Hb : u8 (nth (Z.to_nat i) s 0) = nth (Z.to_nat i) s 0).
    { apply u8_small. rewrite Forall_forall in Hby. apply Hby. apply nth_In. lia. }
    rewrite Hb. split; [eapply bfr_trans; [eassumption|apply bfr_upd; lia]|].
    split; [intros; apply bclean_upd; [lia|auto]|].
    intros j Hj. rewrite bget_upd by lia. destruct (Z.eqb_spec (r + j) (r + i)); [f_equal; f_equal; f_equal; lia|]. apply Hg. lia.
Qed.
Lemma zeros_ok E b r k : 0 <= k -> 0 <= r -> r + k <= alen b ->
  wp (for_up 0 k (fun i b => bset b (r + i) 0) b)
     (fun b' => bfr E r (r + k) b b' /\ (bclean b -> bclean b') /\ forall i, 0 <= i < k -> bget E b' (r + i) = Ok 0).
Proof.
  intros Hk Hr Hl.
  apply (wp_for_up (fun j b' => bfr E r (r + k) b b' /\ (bclean b -> bclean b') /\
        forall i, 0 <= i < j -> bget E b' (r + i) = Ok 0)); [lia| |].
  - split; [apply bfr_refl|]. split; [auto|]. intros; lia.
  - intros i b' Hi (Hf & Hc & Hg). pose proof (proj1 Hf). rewrite bset_ok by lia. cbn [wp]. change (u8 0) with 0.
    split; [eapply bfr_trans; [eassumption|apply bfr_upd; lia]|].
    split; [intros; apply bclean_upd; [lia|auto]|].
    intros j Hj. rewrite bget_upd by lia. destruct (Z.eqb_spec (r + j) (r + i)); [reflexivity|]. apply Hg. lia.
Qed.

Lemma write_record_ok E h T p s b r : 3 <= zln s < 2 ^ 60 -> tseg T p s -> Forall is_byte s ->
  0 <= NAME_BYTES h -> 0 <= r -> r + rsize (NAME_BYTES h) (zln s) + 12 <= alen b -> len_safe E b r (zln s) ->
  wp (write_record E h T (zln s) p (lenlen (zln s)) b r) (fun b' =>
    bfr E r (r + rsize (NAME_BYTES h) (zln s) + 12) b b' /\ (bclean b -> bclean b') /\
    recd E (NAME_BYTES h) b' r s /\
    (forall i, 0 <= i < 12 -> bget E b' (r + rsize (NAME_BYTES h) (zln s) + i) = Ok 0)).
Proof.
  intros Hm Ht Hby Hnb Hr Hl Hs. pose proof (lenlen_le8 (zln s) ltac:(lia)) as Hll. unfold rsize in *.
  set (m := zln s) in *. set (lb := lenlen m) in *. unfold write_record.
  destruct (set_length_lenf E b r m) as (b1 & H1 & Hf1 & Hc1 & Hlf); try assumption; try lia. rewrite H1. cbn [bind].
  pose proof (proj1 Hf1) as Hl1. fold lb in Hf1.
  pose proof (Ht 0 ltac:(lia)) as Ht0. rewrite Z.add_0_r in Ht0. rewrite (aget_ok _ _ _ Ht0). cbn [bind].
  rewrite bset_ok by lia. cbn [bind]. cbn zeta.
  set (b2 := aupd b1 (r + 1 + lb) (u8 (nth 0 s 0 + 1))).
  assert (Hl2 : alen b2 = alen b1) by apply alen_upd.
  assert (Hf2 : bfr E (r + 1 + lb) (r + 1 + lb + 1) b1 b2) by (apply bfr_upd; lia).
  eapply wp_bind_mono; [apply (copy_ok E T p s b2 (r + 1 + lb + 1)); try assumption; fold m; lia|].
  cbn beta. fold m. intros b3 (Hf3 & Hc3 & Hg3). pose proof (proj1 Hf3) as Hl3.
  eapply wp_mono; [apply (zeros_ok E b3 (r + 1 + lb + 1 + m + NAME_BYTES h) 12); lia|].
  cbn beta. intros b4 (Hf4 & Hc4 & Hg4). pose proof (proj1 Hf4) as Hl4.
  split.
  { eapply bfr_trans; [eapply bfr_mono; [exact Hf1|lia|lia]|]. eapply bfr_trans; [eapply bfr_mono; [exact Hf2|lia|lia]|].
    eapply bfr_trans; [eapply bfr_mono; [exact Hf3|lia|lia]|]. eapply bfr_mono; [exact Hf4|lia|lia]. }
  split.
  { intros Hc. apply Hc4, Hc3. apply bclean_upd; [lia|auto]. }
  split.
  - constructor; fold m; fold lb; try assumption; try lia.
    + eapply lenf_frame; [lia|exact Hlf|]. fold lb. intros i Hi.
      rewrite (proj2 Hf4), (proj2 Hf3), (proj2 Hf2) by lia. reflexivity.
    + rewrite (proj2 Hf4), (proj2 Hf3) by lia. unfold b2. rewrite bget_upd by lia. rewrite Z.eqb_refl. reflexivity.
    + intros i Hi. rewrite (proj2 Hf4) by lia. replace (r + 2 + lb + i) with (r + 1 + lb + 1 + i) by lia. apply Hg3, Hi.
    + unfold rsize. fold lb. lia.
  - intros i Hi. rewrite <- (Hg4 i Hi). f_equal. lia.
Qed.

(** * The invariant *)
Section Inv.
Context (E : env) (h : htable) (own role : Z -> Z) (ch : Z -> list (Z * list Z)) (en : Z -> Z).
Definition bucket_ok (hv : Z) : Prop :=
  (av (ht_head h) hv = Some 0 /\ av (ht_rest h) hv = Some 0 /\ ch hv = []) \/
  (exists hd r, av (ht_head h) hv = Some hd /\ 0 < hd /\ 0 < en hv /\
    seg E (NAME_BYTES h) own role (ht_buf h) hv hd (ch hv) (en hv) /\
    av (ht_rest h) hv = Some r /\ 13 <= r /\ en hv + r - 1 <= alen (ht_buf h) /\
    (forall i, en hv <= i < en hv + r - 1 -> own i = hv) /\
    (forall i, 0 <= i < 12 -> bget E (ht_buf h) (en hv + i) = Ok 0)).
Record hinv : Prop := {
  hi_size : 1 <= HTSIZE h;
  hi_hb : 13 <= HBSIZE h;
  hi_nb : 1 <= NAME_BYTES h <= 8;
  hi_rest : alen (ht_rest h) = HTSIZE h;
  hi_head : alen (ht_head h) = HTSIZE h;
  hi_buf : 0 <= alen (ht_buf h) < 2 ^ 63;
  hi_clean : bclean (ht_buf h);
  hi_bucket : forall hv, 0 <= hv < HTSIZE h -> bucket_ok hv;
  hi_dist : forall hv, 0 <= hv < HTSIZE h -> NoDup (map snd (ch hv));
  hi_hash : forall hv q s, 0 <= hv < HTSIZE h -> In (q, s) (ch hv) -> hash_of (HTSIZE h) s = hv }.
End Inv.

(** the fresh-memory condition under which the length of a string is read back *)
Definition fresh_ok (E : env) (m : Z) : Prop := m mod 256 <> 0 \/ forall i, fresh_byte E i = Some 0.

Lemma scan_ok E h own role ch en T p s : hinv E h own role ch en -> 3 <= zln s -> tseg T p s ->
  forall hv hd, 0 <= hv < HTSIZE h -> av (ht_head h) hv = Some hd ->
  (hd = 0 /\ scan_chain E h T (zln s) p hd = Ok (ScanEnd 0) /\ ch hv = []) \/
  (0 < hd /\ scan_chain E h T (zln s) p hd = Ok (match lookup s (ch hv) with Some q' => ScanDup q' | None => ScanEnd (en hv) end)).
Proof.
  intros HI Hm Ht hv hd Hhv Hhd.
  destruct (hi_bucket _ _ _ _ _ _ HI hv Hhv) as [(H1 & H2 & H3)|(hd' & r & H1 & H2 & H3 & H4 & H5 & H6 & H7 & H8 & H9)].
  - left. split; [congruence|]. replace hd with 0 by congruence. split; [reflexivity|assumption].
  - right. replace hd' with hd in * by congruence. split; [assumption|].
    pose proof (hi_nb _ _ _ _ _ _ HI) as Hnb. pose proof (hi_buf _ _ _ _ _ _ HI) as Hbuf.
    pose proof (H9 0 ltac:(lia)) as Hz. rewrite Z.add_0_r in Hz. pose proof (bget_inb _ _ _ _ Hz).
    apply (scan_seg E h T p s own role hv hd (ch hv) (en hv)); try assumption; try lia.
Qed.

Lemma bucket_frame E h h' own own' role role' ch ch' en en' hv : 0 <= NAME_BYTES h ->
  NAME_BYTES h' = NAME_BYTES h -> alen (ht_buf h) <= alen (ht_buf h') ->
  av (ht_head h') hv = av (ht_head h) hv -> av (ht_rest h') hv = av (ht_rest h) hv ->
  ch' hv = ch hv -> en' hv = en hv ->
  (forall i, 0 < i < alen (ht_buf h) -> own i = hv ->
     own' i = hv /\ role' i = role i /\ (role i = -1 \/ en hv <= i -> bget E (ht_buf h') i = bget E (ht_buf h) i)) ->
  bucket_ok E h own role ch en hv -> bucket_ok E h' own' role' ch' en' hv.
Proof.
  intros Hnb0 Hnb Hl Hh Hr Hc He Hf [(H1 & H2 & H3)|(hd & r & H1 & H2 & H3 & H4 & H5 & H6 & H7 & H8 & H9)].
  - left. rewrite Hh, Hr, Hc. auto.
  - right. exists hd, r. rewrite Hh, Hr, Hc, He, Hnb. split; [assumption|]. split; [assumption|]. split; [assumption|].
    split.
    { eapply seg_frame; [assumption|exact Hl| |exact H4]. intros i Ho Hi.
      destruct (Hf i ltac:(lia) Ho) as (A & B & C). split; [congruence|]. split; [assumption|]. intros; apply C; auto. }
    split; [assumption|]. split; [assumption|]. split; [lia|]. split.
    + intros i Hi. apply Hf; [lia|apply H8; lia].
    + intros i Hi. rewrite <- (H9 i Hi). apply Hf; [lia|apply H8; lia|right; lia].
Qed.

(** state in which the record of s can be written at r, in bucket hv *)
Record ready (E : env) (h : htable) (own role : Z -> Z) (ch : Z -> list (Z * list Z)) (en : Z -> Z)
    (hv r m : Z) : Prop := {
  rd_size : 1 <= HTSIZE h; rd_hb : 13 <= HBSIZE h; rd_nb : 1 <= NAME_BYTES h <= 8;
  rd_rest : alen (ht_rest h) = HTSIZE h; rd_head : alen (ht_head h) = HTSIZE h;
  rd_buf : 0 <= alen (ht_buf h) < 2 ^ 63; rd_clean : bclean (ht_buf h);
  rd_hv : 0 <= hv < HTSIZE h;
  rd_others : forall x, 0 <= x < HTSIZE h -> x <> hv -> bucket_ok E h own role ch en x;
  rd_dist : forall x, 0 <= x < HTSIZE h -> NoDup (map snd (ch x));
  rd_hash : forall x q s, 0 <= x < HTSIZE h -> In (q, s) (ch x) -> hash_of (HTSIZE h) s = x;
  rd_ready : exists hd r1, av (ht_head h) hv = Some hd /\ 0 < hd /\ 0 < r /\
     (exists mid, seg E (NAME_BYTES h) own role (ht_buf h) hv hd (ch hv) mid /\
        (mid = r \/ 0 < mid /\ mid + 10 <= r < 2 ^ 63 /\ ptrf E (ht_buf h) mid r /\
           forall i, mid <= i < mid + 10 -> own i = hv /\ role i = -1)) /\
     av (ht_rest h) hv = Some r1 /\ rsize (NAME_BYTES h) m + 13 <= r1 /\ r + r1 - 1 <= alen (ht_buf h) /\
     (forall i, r <= i < r + r1 - 1 -> own i = hv);
  rd_safe : len_safe E (ht_buf h) r m }.

Definition upd_ch (ch : Z -> list (Z * list Z)) (hv q : Z) (s : list Z) : Z -> list (Z * list Z) :=
  fun x => if x =? hv then ch x ++ [(q, s)] else ch x.

Lemma finish_ok E h own role ch en T p s r :
  let hv := hash_of (HTSIZE h) s in
  ready E h own role ch en hv r (zln s) -> 3 <= zln s < 2 ^ 60 -> tseg T p s -> Forall is_byte s ->
  ~ In s (map snd (ch hv)) ->
  wp (b <- write_record E h T (zln s) p (lenlen (zln s)) (ht_buf h) r ;;
      rest <- aget (ht_rest h) hv ;;
      rest' <- aset (ht_rest h) hv (u64 (rest - rsize (NAME_BYTES h) (zln s))) ;;
      Ok (mkht (HTSIZE h) (HBSIZE h) (NAME_BYTES h) rest' (ht_head h) b, 1))
    (fun '(h', x) => x = 1 /\ HTSIZE h' = HTSIZE h /\ HBSIZE h' = HBSIZE h /\ NAME_BYTES h' = NAME_BYTES h /\
       alen (ht_buf h') = alen (ht_buf h) /\ write_record E h T (zln s) p (lenlen (zln s)) (ht_buf h) r = Ok (ht_buf h') /\
       exists role' en', hinv E h' own role' (upd_ch ch hv r s) en').
Proof.
  intros hv [H1 H2 H3 H4 H5 H6 H7 H8 H9 H10 H11 (hd & r1 & A1 & A2 & A3 & (mid & A4 & A4') & A5 & A6 & A7 & A8) H13] Hm Ht Hby Hnin.
  set (sz := rsize (NAME_BYTES h) (zln s)) in *. pose proof (rsize_pos (NAME_BYTES h) (zln s) ltac:(lia) (proj1 Hm)) as Hsz. fold sz in Hsz.
  destruct (wp_inv _ _ (write_record_ok E h T p s (ht_buf h) r ltac:(assumption) ltac:(assumption) ltac:(assumption) ltac:(lia) ltac:(lia) ltac:(fold sz; lia) ltac:(assumption)))
    as (b' & Hw & Hf & Hc & Hrec & Hz). fold sz in Hf, Hz. rewrite Hw. cbn [bind]. pose proof (proj1 Hf) as Hl.
  rewrite (aget_ok _ _ _ A5). cbn [bind]. rewrite aset_ok by lia. cbn [bind wp].
  split; [reflexivity|]. split; [reflexivity|]. split; [reflexivity|]. split; [reflexivity|]. split; [exact Hl|]. split; [reflexivity|].
  exists (fun i => if (r <=? i) && (i <? r + sz) then (if i <? name_off r (zln s) then -1 else r) else role i).
  exists (fun x => if x =? hv then r + sz else en x).
  assert (Hu : u64 (r1 - sz) = r1 - sz) by (unfold u64; apply wrap_small; lia). rewrite Hu.
  constructor; cbn [HTSIZE HBSIZE NAME_BYTES ht_rest ht_head ht_buf]; try assumption.
  - rewrite Hl. assumption.
  - apply Hc, H7.
  - intros x Hx. destruct (Z.eq_dec x hv) as [->|Hne].
    + right. exists hd, (r1 - sz). cbn [HTSIZE HBSIZE NAME_BYTES ht_rest ht_head ht_buf]. unfold upd_ch. rewrite !Z.eqb_refl.
      split; [assumption|]. split; [assumption|]. split; [lia|]. split.
      { eapply seg_app.
        - assert (Hmr : mid <= r) by (destruct A4' as [->|(_ & Hmr & _)]; lia).
          eapply seg_frame; [lia| | |exact A4]; [lia|]. intros i Ho Hi. split; [reflexivity|].
          replace ((r <=? i) && (i <? r + sz)) with false by lia. split; [reflexivity|].
          intros _. apply (proj2 Hf). lia.
        - match goal with |- seg ?E ?nb ?ow ?ro ?b ?v mid _ _ => assert (Hsr : seg E nb ow ro b v r [(r, s)] (r + sz)) end.
          { apply seg_rec; [assumption|assumption| |constructor].
            fold sz. intros i Hi. split; [apply A8; lia|]. replace ((r <=? i) && (i <? r + sz)) with true by lia. reflexivity. }
          destruct A4' as [->|(B1 & B2 & B3 & B4)]; [exact Hsr|].
          apply (seg_ptr _ _ _ _ _ _ mid r); try assumption; [| |eexists; eexists; reflexivity].
          + eapply ptrf_frame; [exact B3|]. intros i Hi. apply (proj2 Hf). lia.
          + intros i Hi. replace ((r <=? i) && (i <? r + sz)) with false by lia. apply B4, Hi. }
      split; [apply av_upd_same; lia|]. split; [lia|]. split; [lia|]. split; [intros i Hi; apply A8; lia|].
      intros i Hi. rewrite <- (Hz i Hi). f_equal.
    + apply (bucket_frame E h _ own own role _ ch _ en _ x); cbn [HTSIZE HBSIZE NAME_BYTES ht_rest ht_head ht_buf]; try reflexivity; try lia.
      * apply av_upd_other; lia.
      * unfold upd_ch. replace (x =? hv) with false by lia. reflexivity.
      * replace (x =? hv) with false by lia. reflexivity.
      * intros i Hi Ho. assert (~ r <= i < r + r1 - 1) by (intros Hin; specialize (A8 i Hin); lia).
        split; [assumption|]. replace ((r <=? i) && (i <? r + sz)) with false by lia. split; [reflexivity|].
        intros _. apply (proj2 Hf). lia.
      * apply H9; assumption.
  - intros x Hx. unfold upd_ch. destruct (Z.eqb_spec x hv) as [->|Hne]; [|apply H10; assumption].
    rewrite map_app. cbn [map snd]. specialize (H10 hv H8).
    clear - H10 Hnin. induction (map snd (ch hv)) as [|y l IH]; cbn [app]; [constructor; [auto|constructor]|].
    inversion H10; subst. constructor.
    + rewrite in_app_iff. cbn [In]. intros [H|[H|[]]]; [contradiction|]. subst. apply Hnin. left. reflexivity.
    + apply IH; [assumption|intros H; apply Hnin; right; assumption].
  - intros x q s' Hx. unfold upd_ch. destruct (Z.eqb_spec x hv) as [->|Hne]; [|apply H11; assumption].
    rewrite in_app_iff. cbn [In]. intros [H|[H|[]]]; [apply (H11 hv q); assumption|]. injection H as <- <-. reflexivity.
Qed.

(** where insert_string puts a record of size sz in bucket hv: in the rest of the current block, or in a new block *)
Definition placed (E : env) (h : htable) (own en : Z -> Z) (hv sz r : Z) (b1 : arr Z) : Prop :=
  (r = en hv /\ b1 = ht_buf h /\ exists r1, av (ht_rest h) hv = Some r1 /\ sz + 12 < r1) \/
  (r = alen (ht_buf h) + 1 /\ alen b1 = alen (ht_buf h) + HBSIZE h + sz /\
   exists b2, b2 = brealloc (ht_buf h) (alen (ht_buf h) + HBSIZE h + sz) /\ (b1 = b2 \/ (av (ht_head h) hv <> Some 0 /\ set_pointer b2 (en hv) r = Ok b1))).

(** the record of s fits into the rest of the current block of its bucket *)
Definition fits_block (h : htable) (s : list Z) : Prop :=
  exists r1, av (ht_rest h) (hash_of (HTSIZE h) s) = Some r1 /\ rsize (NAME_BYTES h) (zln s) + 12 < r1.

Theorem insert_exact E h own role ch en T p s :
  hinv E h own role ch en -> 3 <= zln s < 2 ^ 60 -> tseg T p s -> Forall is_byte s ->
  (~ In s (map snd (ch (hash_of (HTSIZE h) s))) -> fresh_ok E (zln s) \/ fits_block h s) -> alen (ht_buf h) + HBSIZE h + rsize (NAME_BYTES h) (zln s) < 2 ^ 63 ->
  let hv := hash_of (HTSIZE h) s in
  wp (insert_string E h T (zln s) p) (fun '(h', x) =>
    (In s (map snd (ch hv)) /\ x = 0 /\ h' = h) \/
    (~ In s (map snd (ch hv)) /\ x = 1 /\ HTSIZE h' = HTSIZE h /\ HBSIZE h' = HBSIZE h /\ NAME_BYTES h' = NAME_BYTES h /\
     alen (ht_buf h) <= alen (ht_buf h') <= alen (ht_buf h) + HBSIZE h + rsize (NAME_BYTES h) (zln s) /\
     exists r own' role' en', 0 < r /\ hinv E h' own' role' (upd_ch ch hv r s) en' /\
       exists b1, write_record E h T (zln s) p (lenlen (zln s)) b1 r = Ok (ht_buf h') /\ placed E h own en hv (rsize (NAME_BYTES h) (zln s)) r b1)).
Proof.
  intros HI Hm Ht Hby Hfr Hbound hv. pose proof HI as [H1 H2 H3 H4 H5 H6 H7 H8 H9 H10].
  pose proof (hash_range (HTSIZE h) s H1) as Hhv. fold hv in Hhv.
  set (sz := rsize (NAME_BYTES h) (zln s)) in *. pose proof (rsize_pos (NAME_BYTES h) (zln s) ltac:(lia) (proj1 Hm)) as Hsz. fold sz in Hsz.
  pose proof (lenlen_le8 (zln s) ltac:(lia)) as Hll.
  unfold insert_string. rewrite (hash_ok h T p s Ht). cbn [bind]. fold hv.
  assert (Hhead : exists hd, av (ht_head h) hv = Some hd).
  { destruct (H8 hv Hhv) as [(A & _)|(hd & r & A & _)]; eauto. }
  destruct Hhead as [hd Hhd]. rewrite (aget_ok _ _ _ Hhd). cbn [bind].
  assert (Hspace : u64 (1 + 1 + lenlen (zln s) + zln s + NAME_BYTES h) = sz).
  { unfold sz, rsize in *. unfold u64. rewrite wrap_small by lia. lia. }
  assert (Hssz : swrap 64 sz = sz) by (apply swrap_small; lia).
  assert (Hb1 : u64 (alen (ht_buf h) + HBSIZE h + sz) = alen (ht_buf h) + HBSIZE h + sz) by (unfold u64; apply wrap_small; lia).
  assert (Hb2 : u64 (alen (ht_buf h) + 1) = alen (ht_buf h) + 1) by (unfold u64; apply wrap_small; lia).
  assert (Hb3 : u64 (HBSIZE h + sz) = HBSIZE h + sz) by (unfold u64; apply wrap_small; lia).
  set (b0 := ht_buf h) in *.
  set (b1 := brealloc b0 (alen b0 + HBSIZE h + sz)).
  assert (Hl1 : alen b1 = alen b0 + HBSIZE h + sz) by apply alen_realloc.
  assert (Hold : forall i, 0 <= i < alen b0 -> bget E b1 i = bget E b0 i) by (intros; apply bget_realloc_old; lia).
  assert (Hcl1 : bclean b1) by (apply bclean_realloc; [lia|assumption]).
  assert (Hsafe : fresh_ok E (zln s) -> forall b', (forall i, alen b0 <= i -> bget E b' i = bget E b1 i) -> len_safe E b' (alen b0 + 1) (zln s)).
  { intros Hfr' b' Hb'. destruct Hfr' as [Hfr'|Hfr']; [left; assumption|right]. intros j Hj. rewrite Hb' by lia.
    unfold b1. rewrite bget_realloc_new; [|assumption|lia|].
    - rewrite Hfr'. reflexivity.
    - unfold sz, rsize in *. lia. }
  set (own1 := fun i => if i <? alen b0 then own i else hv).
  destruct (scan_ok E h own role ch en T p s HI (proj1 Hm) Ht hv hd Hhv Hhd) as [(Hhd0 & Hscan & Hch)|(Hhd0 & Hscan)]; rewrite Hscan; cbn [bind].
  - (* empty bucket *)
    rewrite calculate_lenlen_ok by lia. cbn [bind]. rewrite Hspace.
    assert (Hrest : av (ht_rest h) hv = Some 0).
    { destruct (H8 hv Hhv) as [(A & B & _)|(hd' & r & A & A2 & _)]; [assumption|]. assert (hd' = 0) by congruence. lia. }
    assert (Hnin : ~ In s (map snd (ch hv))) by (rewrite Hch; auto).
    assert (Hfr1 : fresh_ok E (zln s)).
    { destruct (Hfr Hnin) as [H|(r1 & Hr1 & Hlt)]; [exact H|]. fold hv in Hr1. fold sz in Hlt. rewrite Hrest in Hr1. injection Hr1 as <-. lia. }
    rewrite (aget_ok _ _ _ Hrest). cbn [bind]. rewrite Hssz. change (swrap 64 0) with 0.
    replace (0 - 12 <=? sz) with true by lia. rewrite aset_ok by lia. cbn [bind]. change (0 =? 0) with true. cbn iota.
    rewrite aset_ok by lia. cbn [bind]. rewrite Hb1, Hb2, Hb3. fold b1.
    set (h1 := mkht _ _ _ _ _ _).
    assert (Hready : ready E h1 own1 role ch en hv (alen b0 + 1) (zln s)).
    { unfold h1. constructor; cbn [HTSIZE HBSIZE NAME_BYTES ht_rest ht_head ht_buf]; try assumption; try lia.
      - intros x Hx Hne. apply (bucket_frame E h _ own own1 role role ch ch en en x); cbn [HTSIZE HBSIZE NAME_BYTES ht_rest ht_head ht_buf];
          try reflexivity; try lia; try (apply av_upd_other; lia); try (apply H8; assumption).
        + fold b0. lia.
        + fold b0. intros i Hi Ho. unfold own1. replace (i <? alen b0) with true by lia. split; [assumption|]. split; [reflexivity|].
          intros _. apply Hold. lia.
      - exists (alen b0 + 1), (HBSIZE h + sz). split; [apply av_upd_same; lia|]. split; [lia|]. split; [lia|].
        split; [exists (alen b0 + 1); split; [rewrite Hch; constructor|left; reflexivity]|]. split; [apply av_upd_same; lia|]. fold sz. split; [lia|]. split; [lia|].
        intros i Hi. unfold own1. replace (i <? alen b0) with false by lia. reflexivity.
      - apply (Hsafe Hfr1). reflexivity. }
    pose proof (finish_ok E h1 own1 role ch en T p s (alen b0 + 1) Hready Hm Ht Hby) as Hfin.
    change (HTSIZE h1) with (HTSIZE h) in Hfin. cbn zeta in Hfin. fold hv in Hfin.
    eapply wp_mono; [exact (Hfin Hnin)|]. intros [h' x] (-> & HA & HB & HC & HD & Hwr & role' & en' & HE).
    right. split; [assumption|]. split; [reflexivity|]. split; [assumption|]. split; [assumption|]. split; [assumption|].
    split; [rewrite HD; change (ht_buf h1) with b1; lia|]. exists (alen b0 + 1), own1, role', en'. split; [lia|]. split; [exact HE|].
    exists b1. split; [exact Hwr|]. right. fold b0 sz. split; [reflexivity|]. split; [exact Hl1|]. exists b1. split; [reflexivity|left; reflexivity].
  - destruct (lookup s (ch hv)) as [q'|] eqn:Hlk.
    { cbn [wp]. left. split; [|auto]. apply lookup_Some in Hlk. apply in_map_iff. exists (q', s). auto. }
    apply lookup_None in Hlk.
    rewrite calculate_lenlen_ok by lia. cbn [bind]. rewrite Hspace.
    destruct (H8 hv Hhv) as [(A & _)|(hd' & r1 & A1 & A2 & A3 & A4 & A5 & A6 & A7 & A8 & A9)]; [assert (hd = 0) by congruence; lia|].
    replace hd' with hd in * by congruence. fold b0 in A4, A7, A9.
    rewrite (aget_ok _ _ _ A5). cbn [bind]. rewrite Hssz.
    rewrite (swrap_small 64 r1) by lia.
    destruct (Z.leb_spec (r1 - 12) sz) as [Hle|Hgt].
    + (* new block, linked from the old one *)
      assert (Hfr1 : fresh_ok E (zln s)).
      { destruct (Hfr Hlk) as [H|(r2 & Hr2 & Hlt)]; [exact H|]. fold hv in Hr2. fold sz in Hlt. rewrite A5 in Hr2. injection Hr2 as <-. lia. }
      rewrite aset_ok by lia. cbn [bind]. replace (en hv =? 0) with false by lia.
      rewrite Hb1, Hb2, Hb3. fold b1.
      destruct (set_pointer_ok E b1 (en hv) (alen b0 + 1)) as (b2 & Hp & Hpf & Hpc & Hptr); try lia.
      rewrite Hp. cbn [bind]. pose proof (proj1 Hpf) as Hl2.
      set (h1 := mkht _ _ _ _ _ _).
      set (role1 := fun i => if (en hv <=? i) && (i <? en hv + 10) then -1 else role i).
      assert (Hready : ready E h1 own1 role1 ch en hv (alen b0 + 1) (zln s)).
      { unfold h1. constructor; cbn [HTSIZE HBSIZE NAME_BYTES ht_rest ht_head ht_buf]; try assumption; try lia.
        - auto.
        - intros x Hx Hne. apply (bucket_frame E h _ own own1 role role1 ch ch en en x); cbn [HTSIZE HBSIZE NAME_BYTES ht_rest ht_head ht_buf];
            try reflexivity; try lia; try (apply av_upd_other; lia); try (apply H8; assumption).
          + fold b0. lia.
          + fold b0. intros i Hi Ho.
            assert (~ en hv <= i < en hv + r1 - 1) by (intros Hin; specialize (A8 i Hin); lia).
            unfold own1, role1. replace (i <? alen b0) with true by lia. split; [assumption|].
            replace ((en hv <=? i) && (i <? en hv + 10)) with false by lia. split; [reflexivity|].
            intros _. rewrite (proj2 Hpf) by lia. apply Hold. lia.
        - exists hd, (HBSIZE h + sz). split; [assumption|]. split; [lia|]. split; [lia|].
          split.
          { exists (en hv). split.
            - eapply (seg_frame E _ own role own1 role1 b0 b2); [lia|lia| |exact A4].
              intros i Ho Hi. unfold own1, role1. replace (i <? alen b0) with true by lia.
              replace ((en hv <=? i) && (i <? en hv + 10)) with false by lia. split; [reflexivity|]. split; [reflexivity|].
              intros _. rewrite (proj2 Hpf) by lia. apply Hold. lia.
            - right. split; [assumption|]. split; [lia|]. split; [assumption|].
              intros i Hi. unfold own1, role1. replace (i <? alen b0) with true by lia.
              replace ((en hv <=? i) && (i <? en hv + 10)) with true by lia. split; [apply A8; lia|reflexivity]. }
          split; [apply av_upd_same; lia|]. fold sz. split; [lia|]. split; [lia|].
          intros i Hi. unfold own1. replace (i <? alen b0) with false by lia. reflexivity.
        - apply (Hsafe Hfr1). intros i Hi. apply (proj2 Hpf). lia. }
      pose proof (finish_ok E h1 own1 role1 ch en T p s (alen b0 + 1) Hready Hm Ht Hby) as Hfin.
      change (HTSIZE h1) with (HTSIZE h) in Hfin. cbn zeta in Hfin. fold hv in Hfin.
      eapply wp_mono; [exact (Hfin Hlk)|]. intros [h' x] (-> & HA & HB & HC & HD & Hwr & role' & en' & HE).
      right. split; [assumption|]. split; [reflexivity|]. split; [assumption|]. split; [assumption|]. split; [assumption|].
      split; [rewrite HD; change (ht_buf h1) with b2; lia|]. exists (alen b0 + 1), own1, role', en'. split; [lia|]. split; [exact HE|].
      exists b2. split; [exact Hwr|]. right. fold b0 sz. split; [reflexivity|]. split; [lia|]. exists b1. split; [reflexivity|right].
      split; [rewrite A1; intros [= H0]; lia|exact Hp].
    + (* room in the current block *)
      cbn [bind].
      assert (Hready : ready E h own role ch en hv (en hv) (zln s)).
      { constructor; try assumption.
        - intros x Hx _. apply H8, Hx.
        - exists hd, r1. fold b0. fold sz. split; [assumption|]. split; [assumption|]. split; [assumption|].
          split; [exists (en hv); split; [assumption|left; reflexivity]|]. split; [assumption|]. split; [lia|]. split; assumption.
        - right. fold b0. intros j Hj. rewrite <- (A9 (j + 1) ltac:(lia)). f_equal. lia. }
      pose proof (finish_ok E h own role ch en T p s (en hv) Hready Hm Ht Hby) as Hfin.
      cbn zeta in Hfin. fold hv in Hfin. fold b0 in Hfin.
      eapply wp_mono; [exact (Hfin Hlk)|]. intros [h' x] (-> & HA & HB & HC & HD & Hwr & role' & en' & HE).
      right. split; [assumption|]. split; [reflexivity|]. split; [assumption|]. split; [assumption|]. split; [assumption|].
      split; [rewrite HD; fold b0; lia|]. exists (en hv), own, role', en'. split; [lia|]. split; [exact HE|].
      exists b0. split; [exact Hwr|]. left. split; [reflexivity|]. split; [reflexivity|]. exists r1. fold sz. split; [exact A5|lia].
Qed.
Theorem insert_any E h own role ch en T p s :
  hinv E h own role ch en -> 3 <= zln s < 2 ^ 60 -> tseg T p s -> Forall is_byte s ->
  (~ In s (map snd (ch (hash_of (HTSIZE h) s))) -> fresh_ok E (zln s) \/ fits_block h s) -> alen (ht_buf h) + HBSIZE h + rsize (NAME_BYTES h) (zln s) < 2 ^ 63 ->
  let hv := hash_of (HTSIZE h) s in
  wp (insert_string E h T (zln s) p) (fun '(h', x) =>
    (In s (map snd (ch hv)) /\ x = 0 /\ h' = h) \/
    (~ In s (map snd (ch hv)) /\ x = 1 /\ HTSIZE h' = HTSIZE h /\ HBSIZE h' = HBSIZE h /\ NAME_BYTES h' = NAME_BYTES h /\
     alen (ht_buf h) <= alen (ht_buf h') <= alen (ht_buf h) + HBSIZE h + rsize (NAME_BYTES h) (zln s) /\
     exists r own' role' en', 0 < r /\ hinv E h' own' role' (upd_ch ch hv r s) en')).
Proof.
  intros HI Hm Ht Hby Hfr Hbound hv. eapply wp_mono; [exact (insert_exact E h own role ch en T p s HI Hm Ht Hby Hfr Hbound)|].
  intros [h' x] [H|(H1 & H2 & H3 & H4 & H5 & H6 & r & own' & role' & en' & H7 & H8 & _)]; [left; exact H|right].
  split; [exact H1|]. split; [exact H2|]. split; [exact H3|]. split; [exact H4|]. split; [exact H5|]. split; [exact H6|]. exists r, own', role', en'. split; assumption.
Qed.
Theorem insert_ok E h own role ch en T p s :
  hinv E h own role ch en -> 3 <= zln s < 2 ^ 60 -> tseg T p s -> Forall is_byte s ->
  fresh_ok E (zln s) -> alen (ht_buf h) + HBSIZE h + rsize (NAME_BYTES h) (zln s) < 2 ^ 63 ->
  let hv := hash_of (HTSIZE h) s in
  wp (insert_string E h T (zln s) p) (fun '(h', x) =>
    (In s (map snd (ch hv)) /\ x = 0 /\ h' = h) \/
    (~ In s (map snd (ch hv)) /\ x = 1 /\ HTSIZE h' = HTSIZE h /\ HBSIZE h' = HBSIZE h /\ NAME_BYTES h' = NAME_BYTES h /\
     alen (ht_buf h) <= alen (ht_buf h') <= alen (ht_buf h) + HBSIZE h + rsize (NAME_BYTES h) (zln s) /\
     exists r own' role' en', 0 < r /\ hinv E h' own' role' (upd_ch ch hv r s) en')).
Proof. intros HI Hm Ht Hby Hfr. exact (insert_any E h own role ch en T p s HI Hm Ht Hby (fun _ => or_introl Hfr)). Qed.

