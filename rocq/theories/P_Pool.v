(** Every proper program over a pool of queues runs without error, returns what the abstract
    sequences return, leaves the rest of the heap alone and leaks nothing. *)
From Verif Require Import Base M_PackedArray M_Queue M_Heap Histories Pool P_Size P_Queue P_Heap P_Bank.
From Coq Require Import FMapPositive ZifyBool.
Open Scope Z_scope.

Section Pool.
Context (al : allocator) (E : env) (Hal : fresh_alloc al) (hb : heap) (Hroom : room al (None, hb)).

(** implementation state (h, v) of the abstract pool s *)
Definition prel (h0 h : heap) (v : Z -> pointer) (s : pool) (N : Z) : Prop :=
  exists g nl, bank h0 g h nl /\
    forall i, match s i with
              | None => g i = None
              | Some (w, l) => exists a q, g i = Some (a, q) /\ v i = Some a /\ qrep E w q l /\ zlen l <= N
              end.

Lemma prel_upd h0 h' v s N (i : Z) w l a q g nl' :
  bank h0 (fupd g i (Some (a, q))) h' nl' -> v i = Some a -> qrep E w q l -> zlen l <= N + 1 ->
  (forall j, match s j with
              | None => g j = None
              | Some (w, l) => exists a q, g j = Some (a, q) /\ v j = Some a /\ qrep E w q l /\ zlen l <= N
              end) ->
  prel h0 h' v (fupd s i (Some (w, l))) (N + 1).
Proof.
  intros B Hv Hr Hl Hs. exists (fupd g i (Some (a, q))), nl'. split; [exact B|]. intros j. unfold fupd.
  destruct (Z.eqb_spec j i) as [->|Hj]; [eauto 8|]. specialize (Hs j). destruct (s j) as [[wj lj]|]; [|exact Hs].
  destruct Hs as (b & qj & H1 & H2 & H3 & H4). exists b, qj. (split; [assumption|split; [assumption|split; [assumption|lia]]]).
Qed.

Lemma pool_exec_ok h0 h v s N op s' o : keeps hb h0 -> 0 <= N -> N + 1 < 2 ^ 64 -> prel h0 h v s N -> spec_exec s op = Some (s', o) ->
  exists h' v', pool_exec al E h v op = Ok (h', v', o) /\ prel h0 h' v' s' (N + 1).
Proof.
  intros Hkp HN HN2 (g & nl & B & Hs) He.
  assert (I : forall x, within (None, hb) h x).
  { intros x. split; [|exact I]. apply (keeps_trans hb h0 h Hkp). intros a o' Ha. rewrite (bank_outside _ _ _ _ a B); [exact Ha|]. rewrite Ha. discriminate. }
  destruct op as [i w|i op|i]; cbn [spec_exec] in He.
  - (* new *)
    pose proof (Hs i) as Hi. destruct (s i) as [|] eqn:Hsi; [discriminate|]. destruct ((1 <=? w) && (w <=? 63)) eqn:Hw; [|discriminate].
    inversion He; subst s' o; clear He. cbn [pool_exec].
    destruct (bank_add al _ Hal Hroom h0 g h nl i w (I _) B Hi) as (a & h' & Hnq & _ & Ha). rewrite Hnq. cbn [bind].
    exists h', (fupd v i (Some a)). split; [reflexivity|].
    eapply prel_upd; [exact Ha| |apply q_new_rep; lia|cbn; lia|].
    + unfold fupd. rewrite Z.eqb_refl. reflexivity.
    + intros j. specialize (Hs j). unfold fupd. destruct (Z.eqb_spec j i) as [->|Hj]; [rewrite Hsi in *; exact Hs|exact Hs].
  - (* call *)
    pose proof (Hs i) as Hi. destruct (s i) as [[w l]|] eqn:Hsi; [|discriminate]. destruct Hi as (a & q & Hg & Hv & Hr & Hl).
    destruct (fits_b w op) eqn:Hfit; [|discriminate]. destruct (seq_exec l op) as [[l' o']|] eqn:Hex; [|discriminate].
    inversion He; subst s' o'; clear He. destruct op as [x|x| |]; cbn [seq_exec fits_b pool_exec] in *.
    + inversion Hex; subst l' o; clear Hex.
      destruct (enqueue_ok E w q l x Hr ltac:(lia)) as (q' & H1 & H2).
      destruct (bank_enqueue al _ Hal Hroom E h0 g h nl i a q x q' (I _) B Hg H1) as (h' & nl' & H3 & H4).
      exists h', v. rewrite Hv, H3. split; [reflexivity|]. eapply prel_upd; try eassumption. rewrite app_length. cbn. lia.
    + inversion Hex; subst l' o; clear Hex.
      destruct (enqueue_l_ok E w q l x Hr ltac:(lia)) as (q' & H1 & H2).
      destruct (bank_enqueue_l al _ Hal Hroom E h0 g h nl i a q x q' (I _) B Hg H1) as (h' & nl' & H3 & H4).
      exists h', v. rewrite Hv, H3. split; [reflexivity|]. eapply prel_upd; try eassumption. cbn [length]. lia.
    + destruct l as [|x l]; [discriminate|]. inversion Hex; subst l' o; clear Hex.
      destruct (dequeue_ok E w q x l Hr) as (q' & H1 & H2).
      destruct (bank_dequeue E h0 g h nl i a q x q' B Hg H1) as (h' & nl' & H3 & H4).
      exists h', v. rewrite Hv, H3. split; [reflexivity|]. eapply prel_upd; try eassumption. cbn [length] in Hl. lia.
    + inversion Hex; subst l' o; clear Hex. exists h, v. rewrite Hv, (bank_is_empty _ _ _ _ _ _ _ B Hg). cbn [bind].
      rewrite (q_is_empty_ok E w q l Hr ltac:(lia)). split; [destruct l; reflexivity|].
      exists g, nl. split; [exact B|]. intros j. specialize (Hs j). unfold fupd. destruct (Z.eqb_spec j i) as [->|Hj].
      * exists a, q. (split; [assumption|split; [assumption|split; [assumption|lia]]]).
      * destruct (s j) as [[wj lj]|]; [|exact Hs]. destruct Hs as (b & qj & H1 & H2 & H3 & H4). exists b, qj. (split; [assumption|split; [assumption|split; [assumption|lia]]]).
  - (* delete *)
    pose proof (Hs i) as Hi. destruct (s i) as [[w l]|] eqn:Hsi; [|discriminate]. destruct Hi as (a & q & Hg & Hv & Hr & Hl).
    inversion He; subst s' o; clear He. cbn [pool_exec].
    destruct (bank_delete h0 g h nl i a q B Hg) as (h' & H3 & H4). exists h', v. rewrite Hv, H3. split; [reflexivity|].
    exists (fupd g i None), nl. split; [exact H4|]. intros j. specialize (Hs j). unfold fupd. destruct (Z.eqb_spec j i) as [->|Hj]; [reflexivity|].
    destruct (s j) as [[wj lj]|]; [|exact Hs]. destruct Hs as (b & qj & H1 & H2 & H3' & H5). exists b, qj. (split; [assumption|split; [assumption|split; [assumption|lia]]]).
Qed.

Lemma pool_run_ok h0 ops : keeps hb h0 -> forall h v s N s' r, 0 <= N -> N + zlen ops < 2 ^ 64 -> prel h0 h v s N -> spec_run s ops = Some (s', r) ->
  exists h' v' , pool_run al E h v ops = Ok (h', r) /\ prel h0 h' v' s' (N + zlen ops).
Proof.
  intros Hkp. induction ops as [|op ops IH]; intros h v s N s' r HN Hb Hp He; cbn [spec_run pool_run] in *.
  - inversion He; subst. exists h, v. split; [reflexivity|]. cbn. rewrite Z.add_0_r. exact Hp.
  - destruct (spec_exec s op) as [[s1 o]|] eqn:H1; [|discriminate]. destruct (spec_run s1 ops) as [[s2 r']|] eqn:H2; [|discriminate].
    inversion He; subst s' r; clear He. cbn [length] in Hb.
    destruct (pool_exec_ok h0 h v s N op s1 o Hkp HN ltac:(lia) Hp H1) as (h1 & v1 & -> & Hp1). cbn [bind].
    destruct (IH h1 v1 s1 (N + 1) s2 r' ltac:(lia) ltac:(lia) Hp1 H2) as (h2 & v2 & -> & Hp2). cbn [bind].
    exists h2, v2. split; [reflexivity|]. replace (N + zlen (op :: ops)) with (N + 1 + zlen ops) by (cbn [length]; lia). exact Hp2.
Qed.

(** number of heap blocks *)
Lemma qrep_blocks w q l : qrep E w q l -> Z.of_nat (length (q_blocks q)) <= (zlen l + 2046) / 1024.
Proof.
  intros H. pose proof (P_Queue.qr_shape _ _ _ _ (proj1 H)) as Hs. destruct (q_blocks q) as [|b bs] eqn:Hb.
  - cbn. apply Z.div_pos; lia.
  - apply Z.div_le_lower_bound; lia.
Qed.
Lemma prel_count h0 h v s N vs : prel h0 h v s N -> NoDup vs -> (forall i, s i <> None -> In i vs) ->
  Z.of_nat (hcount h) <= Z.of_nat (hcount h0) + fold_right Z.add 0 (map (fun i => queue_blocks (s i)) vs).
Proof.
  intros (g & nl & B & Hs) _ Hd.
  set (cl := fun i => match g i with Some (a, _) => cells a (nl i) | None => [] end).
  set (L := map fst (helements h0) ++ flat_map cl vs).
  assert (Hinc : incl (map fst (helements h)) L).
  { intros x Hx. apply in_map_iff in Hx as ([x' o] & Hx' & Hin). cbn in Hx'. subst x'. apply helements_complete in Hin.
    unfold L. apply in_app_iff.
    destruct (in_dec Pos.eq_dec x (flat_map cl vs)) as [Hi|Hi]; [right; exact Hi|]. left.
    assert (Ho : find x h = find x h0).
    { apply (b_out _ _ _ _ B). intros i a q Hg Hc. apply Hi. apply in_flat_map. exists i. split.
      - apply Hd. specialize (Hs i). intros He. rewrite He in Hs. congruence.
      - unfold cl. rewrite Hg. exact Hc. }
    rewrite Ho in Hin. apply helements_correct in Hin. apply in_map_iff. exists (x, o). auto. }
  pose proof (elements_keys h) as Hnd.
  pose proof (NoDup_incl_length Hnd Hinc) as Hlen. unfold L in Hlen. rewrite app_length, !map_length in Hlen.
  rewrite !hcount_1.
  assert (Hc : Z.of_nat (length (flat_map cl vs)) <= fold_right Z.add 0 (map (fun i => queue_blocks (s i)) vs)).
  { clear -B Hs. induction vs as [|i vs IH]; cbn; [lia|]. rewrite app_length.
    assert (zlen (cl i) <= queue_blocks (s i)); [|lia].
    specialize (Hs i). unfold cl. destruct (s i) as [[w l]|].
    - destruct Hs as (a & q & Hg & _ & Hr & _). rewrite Hg. cbn [cells length queue_blocks]. rewrite foot_length.
      destruct (b_q _ _ _ _ B _ _ _ Hg) as (hq & _ & Hq). pose proof (qr_bl _ _ _ _ Hq) as Hbl. apply qrep_blocks in Hr.
      rewrite Hbl, map_length in Hr. lia.
    - rewrite Hs. cbn. lia. }
  apply Nat2Z.inj_le in Hlen. rewrite Nat2Z.inj_add in Hlen. eapply Z.le_trans; [exact Hlen|]. apply Z.add_le_mono_l. exact Hc.
Qed.

Theorem pool_correct h0 ops s' r : keeps hb h0 -> zlen ops < 2 ^ 64 -> spec_run (fun _ => None) ops = Some (s', r) ->
  exists h', pool_run al E h0 (fun _ => None) ops = Ok (h', r) /\
    (forall a, hfind a h0 <> None -> hfind a h' = hfind a h0) /\
    ((forall i, s' i = None) -> same_heap h' h0) /\
    (forall vs, NoDup vs -> (forall i, s' i <> None -> In i vs) ->
      Z.of_nat (hcount h') <= Z.of_nat (hcount h0) + fold_right Z.add 0 (map (fun i => queue_blocks (s' i)) vs)).
Proof.
  intros Hkp Hlen He.
  assert (Hp0 : prel h0 h0 (fun _ => None) (fun _ => None) 0).
  { exists (fun _ => None), (fun _ => []). split; [apply bank_empty|]. intros i. reflexivity. }
  destruct (pool_run_ok h0 ops Hkp _ _ _ 0 _ _ ltac:(lia) ltac:(lia) Hp0 He) as (h' & v' & Hr & Hp).
  exists h'. split; [exact Hr|]. split; [|split].
  - destruct Hp as (g & nl & B & _). intros a. apply (bank_outside _ _ _ _ _ B).
  - destruct Hp as (g & nl & B & Hs). intros Hn. apply (bank_done _ _ _ _ B). intros i. specialize (Hs i). rewrite Hn in Hs. exact Hs.
  - intros vs. apply (prel_count _ _ _ _ _ _ Hp).
Qed.
End Pool.

Lemma bump_fresh : fresh_alloc bump.
Proof.
  intros h sz a Ha. inversion Ha; subst a; clear Ha. destruct (hfind _ h) as [o|] eqn:Hf; [|reflexivity]. exfalso.
  apply helements_correct in Hf. revert Hf. generalize (helements h). intros L.
  set (m := fold_right (fun x m => Pos.max (fst x) m) 1%positive L).
  assert (H : forall x, In x L -> (fst x <= m)%positive).
  { unfold m; clear m. induction L as [|y L IH]; intros x [].
    - subst y. cbn. apply Pos.le_max_l.
    - cbn. specialize (IH x H). lia. }
  intros Hi. apply H in Hi. cbn in Hi. lia.
Qed.
Lemma bump_upto_fresh n : fresh_alloc (bump_upto n).
Proof. intros h sz a. unfold bump_upto. destruct (Nat.leb n _); [discriminate|apply bump_fresh]. Qed.
Lemma bump_bytes_fresh n : fresh_alloc (bump_bytes n).
Proof. intros h sz a. unfold bump_bytes. destruct (_ <=? n); [apply bump_fresh|discriminate]. Qed.
Lemma bump_never : never_fails bump.
Proof. intros h sz. discriminate. Qed.
Lemma bump_enough n : enough (bump_bytes n) n.
Proof. intros h sz H. unfold bump_bytes. destruct (Z.leb_spec (hsize h + sz) n); [discriminate|lia]. Qed.
