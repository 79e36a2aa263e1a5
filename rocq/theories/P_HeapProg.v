(** bwt_string and bwt_file on the heap: what is left allocated, and how much is needed. *)
From Verif Require Import Base M_PackedArray M_Queue M_HashTable M_Cells M_Sais M_Split M_Induce M_Flbwt M_File M_Heap M_HeapProg
  Spec BlockSpec Histories Pool P_PackedArray P_HashTable P_Bridge P_Spec P_Size P_Heap P_Bank P_HeapSim P_HeapInduce Sums P_Insert P_SaisLen P_Buffer P_Sort P_Extract P_Lists P_Blocks P_Flbwt P_File P_Props.
From Coq Require Import FMapPositive ZifyBool Permutation.
Import M_Heap.
Open Scope Z_scope.

Notation blk := (@cons (addr * (kind * Z))).
Notation zl l := (Z.of_nat (length l)).

Lemma own_plus h0 L h : own h0 L h -> heap_plus h0 L h.
Proof.
  intros [A B C D]. split; [exact A|]. split; [|exact D]. intros a k H. split; [|apply C, H].
  apply B. unfold addrs. apply in_map_iff. exists (a, k). auto.
Qed.

(** largest prefix sum *)
Fixpoint peak (l : list Z) : Z := match l with [] => 0 | x :: l => x + Z.max 0 (peak l) end.
Fixpoint total (l : list Z) : Z := match l with [] => 0 | x :: l => x + total l end.
Lemma peak_scale cs k K : Forall (fun c => 0 <= c) cs -> k <= K -> 0 <= K -> peak (map (fun c => c * k) cs) <= total cs * K.
Proof.
  intros HF Hk HK. induction cs as [|c cs IH]; cbn; [lia|]. apply Forall_cons_iff in HF as [Hc HF]. specialize (IH HF).
  assert (0 <= total cs). { clear - HF. induction cs as [|x l IH]; cbn; [lia|]. apply Forall_cons_iff in HF as [H HF]. specialize (IH HF). lia. }
  assert (c * k <= c * K) by nia. assert (0 <= total cs * K) by nia. lia.
Qed.
Lemma peak_nonneg l : Forall (fun c => 0 <= c) l -> peak l = total l /\ 0 <= total l.
Proof. induction l as [|x l IH]; intros HF; cbn; [lia|]. apply Forall_cons_iff in HF as [Hc HF]. specialize (IH HF). lia. Qed.

Ltac inn := cbn; repeat first [left; reflexivity | right].

Section HeapProg.
Context (al : allocator) (Bd : bound) (Hal : fresh_alloc al) (Hroom : room al Bd).

(** one more block *)
Lemma own_new h0 L h k : own h0 L h -> within Bd h0 (hsize h0 + lsz L + snd k) ->
  exists a, hnew al h (OOther k) = Ok (a, hadd a (OOther k) h) /\
    hmalloc al h (OOther k) = (Some a, hadd a (OOther k) h) /\
    own h0 (blk (a, k) L) (hadd a (OOther k) h).
Proof using Hal Hroom.
  intros HO HB. destruct (alloc_ok al Bd Hal Hroom h (OOther k)) as (a & F0 & Hf & F1 & F2 & _).
  { eapply within_own; [exact HO|exact HB|]. rewrite (own_size _ _ _ HO). cbn [osize]. lia. }
  exists a. split; [exact F1|]. split; [exact F2|]. apply own_add; [exact HO|exact Hf].
Qed.

(** * arrays *)
Lemma new_arrays_own h0 : forall szs L h, own h0 L h -> within Bd h0 (hsize h0 + lsz L + peak szs) ->
  exists l h', h_new_arrays al szs h = Ok (ptrs l, h') /\ own h0 (arrays l ++ L) h' /\ map snd l = szs.
Proof using Hal Hroom.
  induction szs as [|sz szs IH]; intros L h HO HB; [exists [], h; auto|]. cbn [h_new_arrays]. cbn [peak] in HB.
  destruct (own_new h0 L h (KNewArray, sz) HO) as (a & F1 & _ & O1). { eapply within_le; [exact HB|]. cbn [snd]. lia. }
  rewrite F1. cbn [bind].
  destruct (IH (blk (a, (KNewArray, sz)) L) _ O1) as (l & h' & F2 & O2 & E2). { eapply within_le; [exact HB|]. rewrite lsz_cons. cbn [snd]. lia. }
  rewrite F2. cbn [bind]. exists ((a, sz) :: l), h'. split; [reflexivity|]. split; [|cbn; rewrite E2; reflexivity].
  eapply own_perm; [exact O2|]. cbn. apply Permutation_sym, Permutation_middle.
Qed.
Lemma delete_arrays_own h0 L : forall l h, own h0 (arrays l ++ L) h ->
  exists h', h_delete_arrays h (ptrs l) = Ok h' /\ own h0 L h'.
Proof.
  induction l as [|[a z] l IH]; intros h HO; [exists h; auto|]. cbn [ptrs map h_delete_arrays fst].
  destruct (own_free h0 (arrays l ++ L) h a (KNewArray, z) HO) as (h1 & F1 & O1). cbn [fst] in F1. rewrite F1. cbn [bind]. apply IH, O1.
Qed.
Lemma lsz_arrays l : lsz (arrays l) = total (map snd l).
Proof. induction l as [|[a z] l IH]; [reflexivity|]. change (lsz (arrays ((a, z) :: l))) with (z + lsz (arrays l)). rewrite IH. reflexivity. Qed.
Lemma buckets_own cs h0 L h k fs live need bn : own h0 L h -> within Bd h0 (hsize h0 + lsz L + peak (map (fun c => c * k) cs)) ->
  Forall (alive h0 L) (live ++ need) -> (fs < k -> Forall2 Z.le bn (map (fun c => c * k) cs)) ->
  exists C h1, h_buckets al cs h k fs = Ok (C, h1) /\ uses h1 (live ++ need ++ combine (bucket_blocks C) bn) = Ok tt /\
  exists h2, h_delete_buckets h1 C k fs = Ok h2 /\ own h0 L h2.
Proof using Hal Hroom.
  intros HO HB HL Hbn. unfold h_buckets, h_delete_buckets. destruct (Z.leb_spec k fs) as [H|H].
  - eexists _, _. split; [reflexivity|]. split.
    { cbn [bucket_blocks combine]. rewrite app_nil_r. eapply own_uses; eassumption. }
    destruct (Z.ltb_spec fs k); [lia|]. eexists. split; [reflexivity|]. exact HO.
  - destruct (new_arrays_own h0 _ L h HO HB) as (l & h' & F & O & Hl). rewrite F. cbn [bind].
    eexists _, _. split; [reflexivity|]. split.
    { cbn [bucket_blocks]. rewrite app_assoc. eapply own_uses; [exact O|]. apply Forall_app. split; [|apply alive_arrays; rewrite Hl; apply Hbn, H].
      eapply Forall_alive_incl; [|exact HL]. apply incl_appr, incl_refl. }
    destruct (Z.ltb_spec fs k); [|lia].
    destruct (delete_arrays_own h0 L l h' O) as (h2 & G & O2). exists h2. split; [exact G|exact O2].
Qed.

(** * sais *)
Section Sais.
Context (St : Type) (cs : list Z) (live : list (pointer * Z)) (SAs : list pointer) (need bneed : St -> list Z) (choose : St -> Z -> Z -> Z -> St)
  (st1 : St -> text -> Z -> Z -> Z -> res (St * Z * Z))
  (coll : St -> Z -> Z -> Z -> res St)
  (tran : St -> text -> Z -> Z -> Z -> res St)
  (st3 : St -> text -> Z -> Z -> Z -> Z -> res St)
  (Hcs : Forall (fun c => 0 <= c) cs)
  (Hcount : forall s T fs n k, 0 <= n -> ens (st1 s T fs n k) (fun x => 0 <= snd (fst x) <= n))
  (P : St -> Prop)
  (Hbneed : forall s n k fs, fs < k -> Forall2 Z.le (bneed (choose s n k fs)) (map (fun c => c * k) cs))
  (P1 : forall s T fs n k, P s -> ens (st1 s T fs n k) (fun x => P (fst (fst x))))
  (P2 : forall s fs n m, P s -> ens (coll s fs n m) P)
  (P3 : forall s T fs n m, P s -> ens (tran s T fs n m) P)
  (P4 : forall s T fs n k m, P s -> ens (st3 s T fs n k m) P).
Fixpoint gsais (fuel : nat) (s : St) (T : text) (fs n k : Z) : res St :=
  match fuel with
  | O => Err Diverge
  | S f =>
    '(s, m, name) <- st1 s T fs n k ;;
    s <- (if name <? m then
            s <- coll s fs n m ;;
            s <- gsais f s (TCells (n + fs - m)) (fs + n - m * 2) m name ;;
            tran s T fs n m
          else Ok s) ;;
    st3 s T fs n k m
  end.
Lemma gsais_sim h0 L K : (forall s, P s -> Forall (alive h0 L) (live ++ combine SAs (need s))) -> within Bd h0 (hsize h0 + lsz L + total cs * K) -> forall fuel h s T fs n k,
  own h0 L h -> P s -> 0 <= n <= K -> k <= K ->
  rsim (gsais fuel s T fs n k) (h_sais al St cs live SAs need bneed choose st1 coll tran st3 fuel h s T fs n k) (fun s x => fst x = s /\ own h0 L (snd x) /\ P s).
Proof using Hal Hroom Hcs Hcount Hbneed P1 P2 P3 P4.
  intros HL HB. induction fuel as [|f IH]; intros h s T fs n k HO HP Hn Hk; [apply rsim_err|]. cbn [gsais h_sais].
  assert (HBk : within Bd h0 (hsize h0 + lsz L + peak (map (fun c => c * k) cs))).
  { eapply within_le; [exact HB|]. pose proof (peak_scale cs k K Hcs Hk ltac:(lia)). lia. }
  destruct (buckets_own cs h0 L h k fs live _ (bneed (choose s n k fs)) HO HBk (HL s HP) (Hbneed s n k fs)) as (C & h1 & F1 & U1 & h2 & F2 & S2). rewrite F1. cbn [bind]. rewrite U1. cbn [bind].
  apply rsim_same. intros [[s1 m] name] Hs1. rewrite F2. cbn [bind].
  pose proof (Hcount s T fs n k ltac:(lia) _ Hs1) as Hm. cbn [fst snd] in Hm. pose proof (P1 s T fs n k HP _ Hs1) as Q1. cbn [fst] in Q1.
  eapply rsim_bind with (R1 := fun s x => fst x = s /\ own h0 L (snd x) /\ P s).
  - destruct (Z.ltb_spec name m); [|apply rsim_ok; split; [reflexivity|split; [exact S2|exact Q1]]].
    apply rsim_same. intros s2 Hs2. pose proof (P2 _ _ _ _ Q1 _ Hs2) as Q2.
    eapply rsim_bind; [apply IH; [exact S2|exact Q2|lia|lia]|]. intros s3 [s3' h3] _ (E3 & S3 & Q3). cbn in E3, S3. subst s3'.
    intros s4 H4. rewrite H4. cbn [bind]. eexists. split; [reflexivity|]. split; [reflexivity|]. split; [exact S3|exact (P3 _ _ _ _ _ Q3 _ H4)].
  - intros s2 [s2' h3] _ (E3 & S3 & Q3). cbn in E3, S3. subst s2'.
    destruct (buckets_own cs h0 L h3 k fs live _ (bneed (choose s2 n k fs)) S3 HBk (HL s2 Q3) (Hbneed s2 n k fs)) as (C4 & h4 & F4 & U4 & h5 & F5 & S5). rewrite F4. cbn [bind]. rewrite U4. cbn [bind].
    intros s5 H5. rewrite H5. cbn [bind]. rewrite F5. cbn [bind]. eexists. split; [reflexivity|]. split; [reflexivity|]. split; [exact S5|exact (P4 _ _ _ _ _ _ Q3 _ H5)].
Qed.
End Sais.
Lemma sais_g E W : forall f s T fs n k, sais E W f s T fs n k = gsais st (stage1 E W) (collect_names W) (translate E W) (stage3 E W) f s T fs n k.
Proof.
  induction f as [|f IH]; intros s T fs n k; [reflexivity|]. cbn [sais gsais].
  destruct (stage1 E W s T fs n k) as [[[s1 m] name]|]; [|reflexivity]. cbn [bind]. destruct (name <? m); [|reflexivity].
  destruct (collect_names W s1 fs n m) as [s2|]; [|reflexivity]. cbn [bind]. rewrite IH. reflexivity.
Qed.
Lemma ssais_g E W OP : forall f s T fs n k,
  ssais E W OP f s T fs n k = gsais (o_st OP) (sstage1 E W OP) (scollect_names OP) (stranslate E W OP) (sstage3 E W OP) f s T fs n k.
Proof.
  induction f as [|f IH]; intros s T fs n k; [reflexivity|]. cbn [ssais gsais].
  destruct (sstage1 E W OP s T fs n k) as [[[s1 m] name]|]; [|reflexivity]. cbn [bind]. destruct (name <? m); [|reflexivity].
  destruct (scollect_names OP s1 fs n m) as [s2|]; [|reflexivity]. cbn [bind]. rewrite IH. reflexivity.
Qed.
(** the arrays of SA have N cells *)
Definition cells1 (N : Z) (s : st) : Prop := alen (mem s) = N.
Definition cells2 (N : Z) (s : st2) : Prop := alen (m2L s) = N /\ alen (m2U s) = N.
Definition cells3 (N : Z) (s : st3) : Prop := alen (m3L s) = N /\ alen (m3M s) = N /\ alen (m3U s) = N.
Lemma ens_set2 uw L U i v : ens (set_2part uw L U i v) (fun x => alen (fst x) = alen L /\ alen (snd x) = alen U).
Proof.
  unfold set_2part. eapply ens_bind; [apply ens_aset|]. cbn beta. intros U' _ HU. eapply ens_bind; [apply ens_aset|]. cbn beta. intros L' _ HL. apply ens_ok. auto.
Qed.
Lemma ens_set3 L M U i v : ens (set_3part L M U i v) (fun x => alen (fst (fst x)) = alen L /\ alen (snd (fst x)) = alen M /\ alen (snd x) = alen U).
Proof.
  unfold set_3part. eapply ens_bind; [apply ens_aset|]. cbn beta. intros U' _ HU. eapply ens_bind; [apply ens_aset|]. cbn beta. intros M' _ HM.
  eapply ens_bind; [apply ens_aset|]. cbn beta. intros L' _ HL. apply ens_ok. auto.
Qed.
Lemma cells1_wr W N s p i v : cells1 N s -> ens (wr W s p i v) (cells1 N).
Proof.
  unfold cells1. intros H. unfold wr. apply ens_skip. intros x _. destruct (sp p); (eapply ens_bind; [apply ens_aset|]; cbn beta; intros a _ Ha; apply ens_ok; cbn [mem]; congruence).
Qed.
Lemma cells2_put uw N s p i v : cells2 N s -> ens (put2p uw s p i v) (cells2 N).
Proof.
  unfold cells2. intros [H1 H2]. unfold put2p. apply ens_skip. intros x _.
  destruct (sp p); (eapply ens_bind; [apply ens_set2|]; cbn beta; intros [L U] _ [HL HU]; apply ens_ok; cbn [m2L m2U fst snd] in *; split; congruence).
Qed.
Lemma cells2_zero N s p i : cells2 N s -> ens (zero2p s p i) (cells2 N).
Proof.
  unfold cells2. intros [H1 H2]. unfold zero2p.
  destruct (sp p); (eapply ens_bind; [apply ens_aset|]; cbn beta; intros U _ HU; eapply ens_bind; [apply ens_aset|]; cbn beta; intros L _ HL; apply ens_ok; cbn [m2L m2U]; split; congruence).
Qed.
Lemma cells3_put N s p i v : cells3 N s -> ens (put3p s p i v) (cells3 N).
Proof.
  unfold cells3. intros (H1 & H2 & H3). unfold put3p. apply ens_skip. intros x _.
  destruct (sp p); (eapply ens_bind; [apply ens_set3|]; cbn beta; intros [[L M] U] _ (HL & HM & HU); apply ens_ok; cbn [m3L m3M m3U fst snd] in *; split; [|split]; congruence).
Qed.
Lemma cells3_zero N s p i : cells3 N s -> ens (zero3p s p i) (cells3 N).
Proof.
  unfold cells3. intros (H1 & H2 & H3). unfold zero3p.
  destruct (sp p); (eapply ens_bind; [apply ens_aset|]; cbn beta; intros U _ HU; eapply ens_bind; [apply ens_aset|]; cbn beta; intros M _ HM;
    eapply ens_bind; [apply ens_aset|]; cbn beta; intros L _ HL; apply ens_ok; cbn [m3L m3M m3U]; split; [|split]; congruence).
Qed.
Lemma sais1_sim E W live SAs h0 L K N fuel h s T fs n k : (forall s, cells1 N s -> Forall (alive h0 L) (live ++ combine SAs (need1 W s))) -> 0 <= W ->
  within Bd h0 (hsize h0 + lsz L + W / 8 * K) -> own h0 L h -> cells1 N s -> 0 <= n <= K -> k <= K ->
  rsim (sais E W fuel s T fs n k) (h_sais1 al E W live SAs fuel h s T fs n k) (fun s x => fst x = s /\ own h0 L (snd x) /\ cells1 N s).
Proof using Hal Hroom.
  intros HL HW HB HO HN Hn Hk. rewrite sais_g. unfold h_sais1. eapply gsais_sim; try eassumption.
  - constructor; [apply Z.div_pos; lia|constructor].
  - intros. apply stage1_count. assumption.
  - intros s1 n1 k1 fs1 Hf. unfold bneed1, choose_buckets. destruct (Z.leb_spec k1 fs1); [lia|]. cbn [fst tmp map]. rewrite alen_new. constructor; [lia|constructor].
  - intros s1 T1 fs1 n1 k1 H1. apply (e_stage1 E W (cells1 N)); [apply cells1_wr|intros s2 k2 H2; exact H2|exact H1].
  - intros s1 fs1 n1 m1 H1. apply (e_collect W (cells1 N)); [apply cells1_wr|exact H1].
  - intros s1 T1 fs1 n1 m1 H1. apply (e_translate E W (cells1 N)); [apply cells1_wr|exact H1].
  - intros s1 T1 fs1 n1 k1 m1 H1. apply (e_stage3 E W (cells1 N)); [apply cells1_wr|intros s2 k2 H2; exact H2|exact H1].
  - eapply within_le; [exact HB|]. cbn [total]. lia.
Qed.
Lemma sais2_sim E W OP cs need bneed live SAs (P : o_st OP -> Prop) h0 L K fuel h s T fs n k : Forall (fun c => 0 <= c) cs ->
  (forall s p i v, P s -> ens (o_put OP s p i v) P) -> (forall s p i, P s -> ens (o_zero OP s p i) P) ->
  (forall s k, P s -> P (o_new OP s k)) -> (forall s, P s -> P (o_del OP s)) ->
  (forall s k, Forall2 Z.le (bneed (o_new OP s k)) (map (fun c => c * k) cs)) ->
  (forall s, P s -> Forall (alive h0 L) (live ++ combine SAs (need s))) -> within Bd h0 (hsize h0 + lsz L + total cs * K) ->
  own h0 L h -> P s -> 0 <= n <= K -> k <= K ->
  rsim (ssais E W OP fuel s T fs n k) (h_sais2 al E W OP cs need bneed live SAs fuel h s T fs n k) (fun s x => fst x = s /\ own h0 L (snd x) /\ P s).
Proof using Hal Hroom.
  intros Hcs A1 A2 A3 A4 A5 HL HB HO HP Hn Hk. rewrite ssais_g. unfold h_sais2. eapply gsais_sim; try eassumption.
  - intros. apply sstage1_count. assumption.
  - intros s1 n1 k1 fs1 Hf. unfold schoose_buckets. destruct (Z.leb_spec k1 fs1); [lia|]. cbn [fst]. apply A5.
  - intros s1 T1 fs1 n1 k1 H1. apply f_stage1; assumption.
  - intros s1 fs1 n1 m1 H1. apply f_collect; assumption.
  - intros s1 T1 fs1 n1 m1 H1. apply f_translate; assumption.
  - intros s1 T1 fs1 n1 k1 m1 H1. apply f_stage3; assumption.
Qed.

(** * Container and HashTable *)
Definition bufl (p : pointer) (size : Z) : list (addr * (kind * Z)) := match p with None => [] | Some b => [(b, (KMalloc, size))] end.
(** the blocks of a Container whose HashTable exists *)
Definition contl (hts : Z) (o r d ca : addr) : list (addr * (kind * Z)) :=
  [(r, (KNewArray, 8 * hts)); (d, (KNewArray, 8 * hts)); (o, (KNew, 64)); (ca, (KNew, 12472))].
Lemma contl_size hts o r d ca : lsz (contl hts o r d ca) = 16 * hts + 12536.
Proof. unfold contl. rewrite !lsz_cons. cbn [snd]. change (lsz []) with 0. lia. Qed.

(** realloc of the buffer *)
Lemma realloc_own h0 L h p A A' : own h0 (bufl p A ++ L) h -> within Bd h0 (hsize h0 + lsz (bufl p A) + lsz L + A') ->
  exists b h', hrealloc al h p A' = Ok (Some b, h') /\ own h0 (bufl (Some b) A' ++ L) h'.
Proof using Hal Hroom.
  intros HO HB. unfold hrealloc.
  destruct (own_new h0 _ h (KMalloc, A') HO) as (b & _ & F1 & O1). { rewrite lsz_app. eapply within_le; [exact HB|]. cbn [snd]. lia. }
  rewrite F1. cbn [bind deref]. destruct p as [a|].
  - destruct (own_free_in h0 [(b, (KMalloc, A'))] L _ a (KMalloc, A) O1) as (h2 & F2 & O2). cbn [fst] in F2. rewrite F2. cbn [bind].
    eexists _, _. split; [reflexivity|]. exact O2.
  - cbn [hfree bind]. eexists _, _. split; [reflexivity|]. exact O1.
Qed.
Lemma cont_delete_own h0 L0 L hts o r d ca b A h : own h0 (L0 ++ (bufl (Some b) A ++ contl hts o r d ca) ++ L) h ->
  exists h', h_cont_delete h (mkcp (Some ca) (Some (mkhtp (Some o) (Some r) (Some d) (Some b)))) = Ok h' /\ own h0 (L0 ++ L) h'.
Proof.
  intros HO. unfold h_cont_delete, h_ht_delete. cbn [cp_ht cp_obj hp_rest hp_head hp_buf hp_obj bufl app contl] in *.
  assert (HO1 : own h0 ((L0 ++ [(b, (KMalloc, A))]) ++ blk (r, (KNewArray, 8 * hts)) (blk (d, (KNewArray, 8 * hts)) (blk (o, (KNew, 64)) (blk (ca, (KNew, 12472)) L)))) h).
  { rewrite <- app_assoc. exact HO. }
  destruct (own_free_in _ _ _ _ _ _ HO1) as (h1 & F1 & O1). cbn [fst] in F1. rewrite F1. cbn [bind].
  destruct (own_free_in _ _ _ _ _ _ O1) as (h2 & F2 & O2). cbn [fst] in F2. rewrite F2. cbn [bind].
  rewrite <- app_assoc in O2. cbn [app] in O2.
  destruct (own_free_in _ _ _ _ _ _ O2) as (h3 & F3 & O3). cbn [fst] in F3. rewrite F3. cbn [bind].
  destruct (own_free_in _ _ _ _ _ _ O3) as (h4 & F4 & O4). cbn [fst] in F4. rewrite F4. cbn [bind].
  destruct (own_free_in _ _ _ _ _ _ O4) as (h5 & F5 & O5). cbn [fst] in F5. rewrite F5. exists h5. split; [reflexivity|exact O5].
Qed.

Context (E : env).
(** the workspace after extract_LMS_strings; no HashTable: n <= 2 *)
Definition cont_own (h0 : heap) (hts A : Z) (L0 L : list (addr * (kind * Z))) (cp : cptr) (h : heap) : Prop :=
  exists ca o r d buf A', cp = mkcp (Some ca) (Some (mkhtp (Some o) (Some r) (Some d) buf)) /\ lsz (bufl buf A') <= A /\
    own h0 (L0 ++ (bufl buf A' ++ contl hts o r d ca) ++ L) h.
Lemma extract_sim hts h0 L h (pT : addr) T n : 0 <= hts -> 3 <= n < 2 ^ 59 -> own h0 L h -> alive h0 L (Some pT, alen T) ->
  within Bd h0 (hsize h0 + lsz L + 16 * hts + 12536 + 2 * buf_bound hts n) ->
  rsim (extract_LMS_strings E hts T n) (h_extract al E hts h (Some pT) T n)
    (fun co '(co', cp, h') => co' = co /\ cont_own h0 hts (buf_bound hts n) [] L cp h').
Proof using Hal Hroom.
  intros Hts Hn HO HT HB. unfold extract_LMS_strings, h_extract, h_ht_new.
  assert (Hbb : 0 <= buf_bound hts n) by (unfold buf_bound; lia).
  destruct (own_new h0 L h (KNew, 12472) HO) as (ca & F1 & _ & O1). { eapply within_le; [exact HB|]. cbn [snd]. lia. }
  rewrite F1. cbn [bind]. set (h1 := hadd ca _ h) in *.
  apply rsim_same. intros co Hco. destruct (Z.leb_spec n 2); [lia|].
  apply rsim_same. intros ht Hht.
  destruct (own_new h0 _ h1 (KNew, 64) O1) as (o & F2 & _ & O2). { eapply within_le; [exact HB|]. rewrite !lsz_cons. cbn [snd]. lia. }
  rewrite F2. cbn [bind]. set (h2 := hadd o _ h1) in *.
  destruct (own_new h0 _ h2 (KNewArray, 8 * hts) O2) as (r & F3 & _ & O3). { eapply within_le; [exact HB|]. rewrite !lsz_cons. cbn [snd]. lia. }
  rewrite F3. cbn [bind]. set (h3 := hadd r _ h2) in *.
  destruct (own_new h0 _ h3 (KNewArray, 8 * hts) O3) as (d & F4 & _ & O4). { eapply within_le; [exact HB|]. rewrite !lsz_cons. cbn [snd]. lia. }
  rewrite F4. cbn [bind]. set (h4 := hadd d _ h3) in *.
  set (L4 := contl hts o r d ca ++ L).
  assert (O4' : own h0 (bufl None 0 ++ L4) h4) by (cbn [bufl app contl]; eapply own_perm; [exact O4|apply perm_swap]).
  assert (HS4 : lsz L4 = 16 * hts + 12536 + lsz L) by (subst L4; rewrite lsz_app, contl_size; lia).
  apply rsim_same. intros M _. apply rsim_same. intros t _. apply rsim_same. intros M' _. apply rsim_same. intros NL _. apply rsim_same. intros C _.
  cbn [hp_buf hp_obj hp_rest hp_head].
  destruct (ht_new_xb hts n ht M' C NL ltac:(lia) ltac:(lia) Hht) as [HX HX0].
  pose proof (ht_new_head hts n ht Hts Hht) as HH0.
  set (inv := fun (k : Z) (s : xst) (x : xst * pointer * heap) => let '(s', buf, h') := x in s' = s /\ xb hts n (k - 1) s /\
    alen (ht_head (x_ht s)) = hts /\ (alen (ht_buf (x_ht s)) = 0 \/ buf <> None) /\ own h0 (bufl buf (alen (ht_buf (x_ht s))) ++ L4) h').
  eapply rsim_bind with (R1 := inv 0).
  - apply (rsim_for_down_i inv); [lia| |].
    { unfold inv. split; [reflexivity|]. split; [replace (n - 2 + 1 - 1) with (n - 2) by lia; exact HX|]. split; [exact HH0|]. split; [left; exact HX0|exact O4']. }
    intros i s [[s' buf] h'] Hi (-> & HXi & Hh & Hbf & O). replace (i + 1 - 1) with i in HXi by lia. unfold h_extract_step.
    intros s1 H1. rewrite H1. cbn [bind].
    pose proof (extract_step_xb E hts T n i s ltac:(lia) ltac:(lia) HXi s1 H1) as HX1.
    pose proof (extract_step_head E T i s s1 H1) as HH1. rewrite Hh in HH1.
    pose proof (xb_bound hts n (i - 1) s1 HX1 Hts ltac:(lia)) as HB1.
    pose proof (xb_bound hts n i s HXi Hts ltac:(lia)) as HB0.
    assert (HR : exists buf' h'', (if alen (ht_buf (x_ht s1)) =? alen (ht_buf (x_ht s)) then Ok (buf, h') else hrealloc al h' buf (alen (ht_buf (x_ht s1)))) = Ok (buf', h'') /\
      (alen (ht_buf (x_ht s1)) = 0 \/ buf' <> None) /\ own h0 (bufl buf' (alen (ht_buf (x_ht s1))) ++ L4) h'').
    { destruct (Z.eqb_spec (alen (ht_buf (x_ht s1))) (alen (ht_buf (x_ht s)))) as [He|He].
      - exists buf, h'. rewrite He. split; [reflexivity|]. split; [exact Hbf|exact O].
      - destruct (realloc_own h0 L4 h' buf _ (alen (ht_buf (x_ht s1))) O) as (b & h'' & F & O').
        { eapply within_le; [exact HB|]. assert (lsz (bufl buf (alen (ht_buf (x_ht s)))) <= alen (ht_buf (x_ht s))) by (destruct buf; cbn; lia). lia. }
        exists (Some b), h''. split; [exact F|]. split; [right; discriminate|exact O']. }
    destruct HR as (buf' & h'' & FR & Hbf' & O'). rewrite FR. cbn [bind].
    assert (HU : uses h'' ([(Some pT, alen T); (Some ca, 12472); (Some o, 64)] ++ [(Some r, 8 * alen (ht_rest (x_ht s1))); (Some d, 8 * alen (ht_head (x_ht s1)))]) = Ok tt).
    { eapply own_uses; [exact O'|]. cbn [app]. rewrite HH1, (hb_len _ _ (xb_ht _ _ _ _ HX1)). constructor; [|constructor; [|constructor; [|constructor; [|constructor; [|constructor]]]]].
      - eapply alive_incl; [|exact HT]. unfold L4. apply incl_appr, incl_appr, incl_refl.
      - apply (alive_in _ _ ca (KNew, 12472)); [|apply Z.le_refl]. apply in_app_iff. right. apply in_app_iff. left. inn.
      - apply (alive_in _ _ o (KNew, 64)); [|apply Z.le_refl]. apply in_app_iff. right. apply in_app_iff. left. inn.
      - apply (alive_in _ _ r (KNewArray, 8 * hts)); [|apply Z.le_refl]. apply in_app_iff. right. apply in_app_iff. left. inn.
      - apply (alive_in _ _ d (KNewArray, 8 * hts)); [|apply Z.le_refl]. apply in_app_iff. right. apply in_app_iff. left. inn. }
    match goal with |- context [uses h'' ?l] => replace (uses h'' l) with (Ok tt) by (symmetry; exact HU) end. cbn [bind].
    assert (HU2 : uses h'' (if alen (ht_buf (x_ht s1)) =? 0 then [] else [(buf', alen (ht_buf (x_ht s1)))]) = Ok tt).
    { destruct (Z.eqb_spec (alen (ht_buf (x_ht s1))) 0) as [He|He]; [reflexivity|]. destruct Hbf' as [Hz|Hb]; [contradiction|]. destruct buf' as [b|]; [|destruct Hb; reflexivity].
      eapply own_uses; [exact O'|]. constructor; [|constructor]. apply alive_here, Z.le_refl. }
    match goal with |- context [uses h'' ?l] => replace (uses h'' l) with (Ok tt) by (symmetry; exact HU2) end. cbn [bind]. eexists. split; [reflexivity|]. split; [reflexivity|]. split; [exact HX1|]. split; [exact HH1|]. split; [exact Hbf'|exact O'].
  - intros s [[s' buf] h'] _ (-> & HX1 & _ & _ & O). pose proof (xb_bound hts n (0 - 1) s HX1 Hts ltac:(lia)) as HB1.
    apply rsim_ok. split; [reflexivity|]. exists ca, o, r, d, buf, (alen (ht_buf (x_ht s))). split; [reflexivity|].
    split; [destruct buf; cbn; lia|]. cbn [app]. rewrite <- app_assoc. exact O.
Qed.

Lemma sort_sim srt hts h0 A A' S L h (pT : addr) T co cp : cont_own h0 hts A [] L cp h -> alive h0 L (Some pT, alen T) ->
  S = 8 * u64 (c_uniq co + 2) ->
  ens (sort_LMS_strings E srt T co) (fun x => exists h', c_ht (snd x) = Some h' /\ 0 <= alen (ht_buf h') <= A' /\ alen (ht_rest h') = hts /\ alen (ht_head h') = hts /\
    8 * alen (fst x) = S) -> 0 <= A' ->
  within Bd h0 (hsize h0 + lsz L + 16 * hts + 12536 + A + A' + S) ->
  rsim (sort_LMS_strings E srt T co) (h_sort al E srt h (Some pT) T co cp)
    (fun x '(Sv, ps, co', cp', h') => x = (Sv, co') /\ exists a ca o r d b A2, ps = Some a /\ 0 <= A2 <= A' /\
      cp' = mkcp (Some ca) (Some (mkhtp (Some o) (Some r) (Some d) (Some b))) /\ (forall X, Forall (alive h0 ((bufl (Some b) A2 ++ contl hts o r d ca) ++ X)) (cont_blocks co' cp')) /\
      own h0 (blk (a, (KMalloc, S)) ((bufl (Some b) A2 ++ contl hts o r d ca) ++ L)) h').
Proof using Hal Hroom.
  intros (ca & o & r & d & buf & A1 & -> & HA1 & HO) HT HS Hens HA' HB.
  unfold h_sort. rewrite <- HS. cbn [app] in HO.
  destruct (own_new h0 _ h (KMalloc, S) HO) as (a & _ & F1 & O1).
  { eapply within_le; [exact HB|]. rewrite !lsz_app, contl_size. cbn [snd]. lia. }
  rewrite F1. cbn [bind deref]. set (h1 := hadd a _ h) in *. cbn [cp_ht hp_buf cp_obj hp_obj hp_rest hp_head].
  set (L1 := contl hts o r d ca ++ blk (a, (KMalloc, S)) L).
  assert (O1' : own h0 (bufl buf A1 ++ L1) h1).
  { eapply own_perm; [exact O1|]. unfold L1. rewrite app_assoc. apply Permutation_middle. }
  intros [Sv co'] Hs. destruct (Hens _ Hs) as (ht & Hht & Hlen & Hrest & Hhead & HSv). cbn [fst snd] in Hht, HSv. rewrite Hs. cbn [bind]. rewrite Hht.
  assert (HS1 : lsz L1 = 16 * hts + 12536 + S + lsz L) by (unfold L1; rewrite lsz_app, contl_size, lsz_cons; cbn [snd]; lia).
  destruct (realloc_own h0 L1 h1 buf A1 (alen (ht_buf ht)) O1') as (b & h2 & F2 & O2). { eapply within_le; [exact HB|]. lia. }
  rewrite F2. cbn [bind].
  assert (O3 : own h0 (blk (a, (KMalloc, S)) ((bufl (Some b) (alen (ht_buf ht)) ++ contl hts o r d ca) ++ L)) h2).
  { eapply own_perm; [exact O2|]. unfold L1. rewrite app_assoc. apply Permutation_sym, Permutation_middle. }
  set (cp' := mkcp (Some ca) (Some (mkhtp (Some o) (Some r) (Some d) (Some b)))).
  assert (HC : forall X, Forall (alive h0 ((bufl (Some b) (alen (ht_buf ht)) ++ contl hts o r d ca) ++ X)) (cont_blocks co' cp')).
  { intros X. unfold cont_blocks, cp'. cbn [cp_obj cp_ht hp_obj hp_rest hp_head hp_buf]. rewrite Hht, Hrest, Hhead. constructor; [|constructor; [|constructor; [|constructor; [|constructor; [|constructor]]]]].
    - apply (alive_in _ _ ca (KNew, 12472)); [|apply Z.le_refl]. apply in_app_iff. left. inn.
    - apply (alive_in _ _ o (KNew, 64)); [|apply Z.le_refl]. apply in_app_iff. left. inn.
    - apply (alive_in _ _ r (KNewArray, 8 * hts)); [|apply Z.le_refl]. apply in_app_iff. left. inn.
    - apply (alive_in _ _ d (KNewArray, 8 * hts)); [|apply Z.le_refl]. apply in_app_iff. left. inn.
    - apply (alive_in _ _ b (KMalloc, alen (ht_buf ht))); [|apply Z.le_refl]. apply in_app_iff. left. inn. }
  assert (HU : uses h2 ((Some pT, alen T) :: (Some a, 8 * alen Sv) :: cont_blocks co' cp') = Ok tt).
  { eapply own_uses; [exact O3|]. constructor; [|constructor; [|]].
    - eapply alive_incl; [|exact HT]. intros x Hx. right. apply in_app_iff. right. exact Hx.
    - apply alive_here. cbn [snd]. lia.
    - eapply Forall_alive_incl; [|apply (HC L)]. intros x Hx. right. exact Hx. }
  match goal with |- context [uses h2 ?l] => replace (uses h2 l) with (Ok tt) by (symmetry; exact HU) end. cbn [bind].
  eexists. split; [reflexivity|]. split; [reflexivity|]. exists a, ca, o, r, d, b, (alen (ht_buf ht)).
  split; [reflexivity|]. split; [exact Hlen|]. split; [reflexivity|]. split; [exact HC|exact O3].
Qed.

(** * the branches *)
Definition res_own (h0 : heap) (n : Z) (L : list (addr * (kind * Z))) (r : bwt_result) (x : bwt_result * pointer * pointer * heap) : Prop :=
  let '(r', pR, pB, h') := x in
  r' = r /\ exists aR aB, pR = Some aR /\ pB = Some aB /\ own h0 (blk (aR, (KMalloc, 16)) (blk (aB, (KNewArray, n + 1)) L)) h'.

(** release S and T1 *)
Lemma free_three h0 l L h (ps pt pw : addr) sS sT : own h0 (arrays l ++ blk (pw, (KMalloc, sT)) (blk (pt, (KNew, 32)) (blk (ps, (KMalloc, sS)) L))) h ->
  exists h1 h2, hfree KMalloc h (Some ps) = Ok h1 /\ h_delete_t1 h1 (Some pt) (Some pw) = Ok h2 /\ own h0 (arrays l ++ L) h2.
Proof.
  intros HO.
  assert (HO' : own h0 ((arrays l ++ [(pw, (KMalloc, sT)); (pt, (KNew, 32))]) ++ blk (ps, (KMalloc, sS)) L) h) by (rewrite <- app_assoc; exact HO).
  destruct (own_free_in _ _ _ _ _ _ HO') as (h1 & F1 & O1). rewrite <- app_assoc in O1. cbn [app] in O1. cbn [fst] in F1.
  destruct (own_free_in _ _ _ _ _ _ O1) as (h2 & F2 & O2). cbn [fst] in F2.
  destruct (own_free_in _ _ _ _ _ _ O2) as (h3 & F3 & O3). cbn [fst] in F3.
  exists h1, h3. split; [exact F1|]. split; [unfold h_delete_t1; rewrite F2; exact F3|exact O3].
Qed.

Section Branch.
Context (h0 : heap) (L : list (addr * (kind * Z))) (h : heap) (Sv : arr Z) (T1 : packed) (co : container) (cp : cptr) (ps pt pw : addr) (sS sT c : Z).
Let LL := blk (pw, (KMalloc, sT)) (blk (pt, (KNew, 32)) (blk (ps, (KMalloc, sS)) L)).
Context (HO : own h0 LL h) (Hcp : Forall (alive h0 L) (cont_blocks co cp)) (HsS : 8 * alen Sv <= sS) (HsT : pa_bytes T1 <= sT)
  (Hnum : 0 <= c_num co < 2 ^ 60) (Huniq : 0 <= c_uniq co <= c_num co) (Hn : 0 <= c_n co) (Hc : 0 <= c)
  (HB1 : within Bd h0 (hsize h0 + lsz L + sT + 32 + sS + 2 * (c * (c_num co + 2))))
  (HB2 : within Bd h0 (hsize h0 + lsz L + c * (c_num co + 2) + qneed (c_bwp_width co) (c_num co + 1)))
  (HB3 : within Bd h0 (hsize h0 + lsz L + induce_need (c_bwp_width co) (c_num co) (c_n co))).
Lemma LL_size : lsz LL = lsz L + sT + 32 + sS.
Proof. unfold LL. rewrite !lsz_cons. cbn [snd]. lia. Qed.
Lemma u_total : u64 (c_num co + 2) = c_num co + 2 /\ u64 (c_num co + 1) = c_num co + 1 /\ u64 (c_uniq co + 2) = c_uniq co + 2.
Proof using Hnum Huniq. unfold u64. rewrite !wrap_small by lia. auto. Qed.
Lemma live_blocks l need : Forall2 Z.le need (map snd l) -> Forall (alive h0 (arrays l ++ LL)) ([(Some pt, 32); (Some pw, pa_bytes T1)] ++ combine (ptrs l) need).
Proof using HsT.
  intros Hl. apply Forall_app. split; [|apply alive_arrays, Hl]. constructor; [|constructor; [|constructor]].
  - apply (alive_in _ _ pt (KNew, 32)); [|apply Z.le_refl]. apply in_app_iff. right. unfold LL. inn.
  - apply (alive_in _ _ pw (KMalloc, sT)); [|exact HsT]. apply in_app_iff. right. unfold LL. inn.
Qed.
Lemma final_uses l need h2 : Forall2 Z.le need (map snd l) -> own h0 (arrays l ++ LL) h2 ->
  uses h2 ((Some ps, 8 * alen Sv) :: [(Some pt, 32); (Some pw, pa_bytes T1)] ++ combine (ptrs l) need ++ cont_blocks co cp) = Ok tt.
Proof using Hcp HsS HsT.
  intros Hl O. eapply own_uses; [exact O|]. constructor.
  - apply (alive_in _ _ ps (KMalloc, sS)); [|exact HsS]. apply in_app_iff. right. unfold LL. inn.
  - rewrite app_assoc. apply Forall_app. split; [apply live_blocks, Hl|]. eapply Forall_alive_incl; [|exact Hcp]. apply incl_appr. unfold LL. apply incl_tl, incl_tl, incl_tl, incl_refl.
Qed.
(** the end of every branch *)
Lemma branch_end l need h2 rd : Forall2 Z.le need (map snd l) -> own h0 (arrays l ++ LL) h2 -> 0 <= total (map snd l) <= c * (c_num co + 2) ->
  rsim (induce_bwt_rd E rd co)
    (_ <- uses h2 ((Some ps, 8 * alen Sv) :: [(Some pt, 32); (Some pw, pa_bytes T1)] ++ combine (ptrs l) need ++ cont_blocks co cp) ;;
     h <- hfree KMalloc h2 (Some ps) ;; h <- h_delete_t1 h (Some pt) (Some pw) ;; h_induce_bwt al E h (ptrs l) need rd co cp)
    (res_own h0 (c_n co) L).
Proof using Hal Hroom Hcp HsS HsT Hnum Hn HB2 HB3.
  intros Hl O Ht. rewrite final_uses by assumption. cbn [bind].
  destruct (free_three h0 l L h2 ps pt pw sS sT O) as (h3 & h4 & F3 & F4 & O4). rewrite F3. cbn [bind]. rewrite F4. cbn [bind].
  eapply rsim_mono; [apply (induce_sim al Bd Hal Hroom E h0 L h4 l need rd co cp O4 Hl); [lia|exact Hn|rewrite lsz_arrays; lia| |exact HB3|exact Hcp]|].
  - rewrite lsz_arrays. eapply within_le; [exact HB2|]. lia.
  - intros r [[[r' pR] pB] h5] H. exact H.
Qed.
Lemma branch_sim W : W / 8 = c -> 0 <= W ->
  rsim (bwt_branch E W Sv T1 co) (h_branch al E W h Sv (Some ps) T1 (Some pt) (Some pw) co cp) (res_own h0 (c_n co) L).
Proof using Hal Hroom HO Hcp HsS HsT Hnum Huniq Hn Hc HB1 HB2 HB3.
  intros HW HW0. unfold bwt_branch, h_branch. destruct (c_ht co) as [ht|]; [|apply rsim_err]. cbv zeta.
  destruct u_total as (U1 & U2 & U3). rewrite U1, U2, U3, HW.
  destruct (new_arrays_own h0 [c * (c_num co + 2)] LL h HO) as (l & h1 & F1 & O1 & E1).
  { rewrite LL_size. eapply within_le; [exact HB1|]. cbn [peak]. assert (0 <= c * (c_num co + 2)) by nia. lia. }
  assert (Ht : 0 <= total (map snd l) <= c * (c_num co + 2)) by (rewrite E1; cbn [total]; nia).
  rewrite F1. cbn [bind].
  eapply rsim_bind; [eapply (sais1_sim E W _ _ h0 (arrays l ++ LL) (c_num co + 2) (c_num co + 2)); [|exact HW0| |exact O1|apply alen_new|lia|lia]|].
  { intros s0 Hs0. apply live_blocks. unfold need1. rewrite Hs0, E1, HW. constructor; [apply Z.le_refl|constructor]. }
  { rewrite lsz_app, lsz_arrays, LL_size, HW. eapply within_le; [exact HB1|]. lia. }
  intros s [s' h2] _ (E2 & S2 & N2). cbn in E2, S2. subst s'. unfold cells1 in N2.
  apply rsim_same. intros SA1 HS1. apply rsim_same. intros SA2 HS2.
  assert (N3 : alen SA1 = c_num co + 2).
  { revert HS1. generalize SA1. apply ens_for_up_s; [exact N2|]. intros i a Ha. apply ens_skip. intros v _. apply ens_skip. intros w _. eapply ens_mono; [apply ens_aset|]. cbn beta. intros b Hb. congruence. }
  assert (N4 : alen SA2 = c_num co + 2).
  { revert HS2. generalize SA2. apply ens_for_up_s; [exact N3|]. intros i a Ha. do 6 (apply ens_skip; intros ? _). eapply ens_mono; [apply ens_aset|]. cbn beta. intros b Hb. congruence. }
  apply (branch_end l _ h2 (aget SA2)); [|exact S2|exact Ht]. rewrite N4, E1, ?HW. constructor; [apply Z.le_refl|constructor].
Qed.
Lemma branch2_sim uw : 0 <= uw -> 4 + uw / 8 = c ->
  rsim (bwt_branch2 E uw Sv T1 co) (h_branch2 al E uw h Sv (Some ps) T1 (Some pt) (Some pw) co cp) (res_own h0 (c_n co) L).
Proof using Hal Hroom HO Hcp HsS HsT Hnum Huniq Hn Hc HB1 HB2 HB3.
  intros HW0 HW. unfold bwt_branch2, h_branch2. destruct (c_ht co) as [ht|]; [|apply rsim_err]. cbv zeta.
  destruct u_total as (U1 & U2 & U3). rewrite U1, U2, U3. pose proof (Z.div_pos uw 8 HW0 ltac:(lia)).
  assert (HP : Forall (fun c => 0 <= c) [4 * (c_num co + 2); uw / 8 * (c_num co + 2)]) by (repeat constructor; nia).
  destruct (peak_nonneg _ HP) as [P1 P2]. assert (P3 : total [4 * (c_num co + 2); uw / 8 * (c_num co + 2)] = c * (c_num co + 2)) by (cbn [total]; nia).
  destruct (new_arrays_own h0 [4 * (c_num co + 2); uw / 8 * (c_num co + 2)] LL h HO) as (l & h1 & F1 & O1 & E1).
  { rewrite LL_size, P1, P3. eapply within_le; [exact HB1|]. nia. }
  assert (Ht : 0 <= total (map snd l) <= c * (c_num co + 2)) by (rewrite E1; lia).
  rewrite F1. cbn [bind].
  eapply rsim_bind; [eapply (sais2_sim E (32 + uw) (ops2 uw) [4; uw / 8] _ _ _ _ (cells2 (c_num co + 2)) h0 (arrays l ++ LL) (c_num co + 2));
    [repeat constructor; lia|apply cells2_put|apply cells2_zero|intros s0 k0 Hs0; exact Hs0|intros s0 Hs0; exact Hs0| | | |exact O1|split; apply alen_new|lia|lia]|].
  { intros s0 k0. unfold bneed2. cbn [ops2 o_new map]. unfold new2p. cbn [t2L t2U]. rewrite !alen_new. constructor; [apply Z.le_refl|constructor; [apply Z.le_refl|constructor]]. }
  { intros s0 [Hs0 Hs1]. apply live_blocks. unfold need2. rewrite Hs0, Hs1, E1. constructor; [apply Z.le_refl|constructor; [apply Z.le_refl|constructor]]. }
  { rewrite lsz_app, lsz_arrays, LL_size. eapply within_le; [exact HB1|]. cbn [total]. nia. }
  intros s [s' h2] _ (E2 & S2 & N2). cbn in E2, S2. subst s'.
  apply rsim_same. intros [L1 U4] HS1. apply rsim_same. intros [L2 U5] HS2.
  assert (N3 : alen (fst (L1, U4)) = c_num co + 2 /\ alen (snd (L1, U4)) = c_num co + 2).
  { revert HS1. generalize (L1, U4). apply ens_for_up_s; [exact N2|]. intros i [a1 a2] Ha. cbn [fst snd] in Ha. do 2 (apply ens_skip; intros ? _). eapply ens_mono; [apply ens_set2|]. cbn beta. intros b Hb. intuition congruence. }
  assert (N4 : alen (fst (L2, U5)) = c_num co + 2 /\ alen (snd (L2, U5)) = c_num co + 2).
  { revert HS2. generalize (L2, U5). apply ens_for_up_s; [exact N3|]. intros i [a1 a2] Ha. cbn [fst snd] in Ha. do 6 (apply ens_skip; intros ? _). eapply ens_mono; [apply ens_set2|]. cbn beta. intros b Hb. intuition congruence. }
  cbn [fst snd] in N4. destruct N4 as [N4 N5].
  apply (branch_end l _ h2 (get_2part L2 U5)); [|exact S2|exact Ht]. rewrite N4, N5, E1. constructor; [apply Z.le_refl|constructor; [apply Z.le_refl|constructor]].
Qed.
Lemma branch3_sim : c = 7 ->
  rsim (bwt_branch3 E Sv T1 co) (h_branch3 al E h Sv (Some ps) T1 (Some pt) (Some pw) co cp) (res_own h0 (c_n co) L).
Proof using Hal Hroom HO Hcp HsS HsT Hnum Huniq Hn Hc HB1 HB2 HB3.
  intros HW. unfold bwt_branch3, h_branch3. destruct (c_ht co) as [ht|]; [|apply rsim_err]. cbv zeta.
  destruct u_total as (U1 & U2 & U3). rewrite U1, U2, U3.
  assert (HP : Forall (fun c => 0 <= c) [4 * (c_num co + 2); 2 * (c_num co + 2); 1 * (c_num co + 2)]) by (repeat constructor; nia).
  destruct (peak_nonneg _ HP) as [P1 P2]. assert (P3 : total [4 * (c_num co + 2); 2 * (c_num co + 2); 1 * (c_num co + 2)] = c * (c_num co + 2)) by (cbn [total]; nia).
  destruct (new_arrays_own h0 [4 * (c_num co + 2); 2 * (c_num co + 2); 1 * (c_num co + 2)] LL h HO) as (l & h1 & F1 & O1 & E1).
  { rewrite LL_size, P1, P3. eapply within_le; [exact HB1|]. nia. }
  assert (Ht : 0 <= total (map snd l) <= c * (c_num co + 2)) by (rewrite E1; lia).
  rewrite F1. cbn [bind].
  eapply rsim_bind; [eapply (sais2_sim E 56 ops3 [4; 2; 1] _ _ _ _ (cells3 (c_num co + 2)) h0 (arrays l ++ LL) (c_num co + 2));
    [repeat constructor; lia|apply cells3_put|apply cells3_zero|intros s0 k0 Hs0; exact Hs0|intros s0 Hs0; exact Hs0| | | |exact O1|split; [|split]; apply alen_new|lia|lia]|].
  { intros s0 k0. unfold bneed3. cbn [ops3 o_new map]. unfold new3p. cbn [t3L t3M t3U]. rewrite !alen_new. constructor; [apply Z.le_refl|constructor; [apply Z.le_refl|constructor; [apply Z.le_refl|constructor]]]. }
  { intros s0 (Hs0 & Hs1 & Hs2). apply live_blocks. unfold need3. rewrite Hs0, Hs1, Hs2, E1. constructor; [apply Z.le_refl|constructor; [apply Z.le_refl|constructor; [apply Z.le_refl|constructor]]]. }
  { rewrite lsz_app, lsz_arrays, LL_size. eapply within_le; [exact HB1|]. cbn [total]. nia. }
  intros s [s' h2] _ (E2 & S2 & N2). cbn in E2, S2. subst s'.
  apply rsim_same. intros [[L1 M1] U4] HS1. apply rsim_same. intros [[L2 M2] U5] HS2.
  set (len3 := fun x : arr Z * arr Z * arr Z => alen (fst (fst x)) = c_num co + 2 /\ alen (snd (fst x)) = c_num co + 2 /\ alen (snd x) = c_num co + 2).
  assert (N3 : len3 (L1, M1, U4)).
  { revert HS1. generalize (L1, M1, U4). apply ens_for_up_s; [exact N2|]. unfold len3. intros i [[a1 a2] a3] Ha. cbn [fst snd] in Ha. do 2 (apply ens_skip; intros ? _). eapply ens_mono; [apply ens_set3|]. cbn beta. intros b Hb. intuition congruence. }
  assert (N4 : len3 (L2, M2, U5)).
  { revert HS2. generalize (L2, M2, U5). apply ens_for_up_s; [exact N3|]. unfold len3. intros i [[a1 a2] a3] Ha. cbn [fst snd] in Ha. do 6 (apply ens_skip; intros ? _). eapply ens_mono; [apply ens_set3|]. cbn beta. intros b Hb. intuition congruence. }
  unfold len3 in N4. cbn [fst snd] in N4. destruct N4 as (N4 & N5 & N6).
  apply (branch_end l _ h2 (get_3part L2 M2 U5)); [|exact S2|exact Ht]. rewrite N4, N5, N6, E1. constructor; [apply Z.le_refl|constructor; [apply Z.le_refl|constructor; [apply Z.le_refl|constructor]]].
Qed.
End Branch.

(** bytes needed besides the text *)
Definition budget (hts n : Z) : Z := 59 * n + 1040 * hts + 12640000.
Lemma block_bytes_le w : 0 <= w <= 63 -> block_bytes w <= 8128.
Proof.
  intros Hw. unfold block_bytes, pa_bytes, pa_new. cbn [pa_arr]. rewrite alen_new. unfold QSIZ.
  assert (Hu : u64 (1024 * w) = 1024 * w) by (unfold u64; apply wrap_small; lia). rewrite Hu.
  pose proof (Z.div_le_upper_bound (1024 * w) 64 1008 ltac:(lia) ltac:(lia)). lia.
Qed.
Lemma qneed_le w N : 0 <= w <= 63 -> 0 <= N -> qneed w N <= 12625488 + 8 * N.
Proof.
  intros Hw HN. unfold qneed. pose proof (block_bytes_le w Hw). pose proof (block_bytes_pos w).
  pose proof (Z.div_pos N 1024 HN ltac:(lia)). pose proof (Z.mul_div_le N 1024 ltac:(lia)). nia.
Qed.

Definition out_own (h0 : heap) (n : Z) (L : list (addr * (kind * Z))) (r : option (arr Z) * option bwt_result) (x : option (bwt_result * pointer * pointer) * heap) : Prop :=
  match snd r with
  | None => fst x = None
  | Some r => exists r' pR pB, fst x = Some (r', pR, pB) /\ res_own h0 n L r (r', pR, pB, snd x)
  end.

Section BwtIs.
Context (srt : sorter) (hts n : Z) (T : arr Z).
Context (Hts : 0 <= hts) (Hn : 3 <= n <= 2 ^ 58)
  (Hx : ens (extract_LMS_strings E hts T n) (fun co => 0 <= c_uniq co <= c_num co /\ exists he, c_head_end co = Some he /\ 0 <= he <= n))
  (Hw : forall co, extract_LMS_strings E hts T n = Ok co -> ens (sort_LMS_strings E srt T co) (fun x => 0 <= c_bwp_width (snd x) <= 63)).

Lemma branch_of_sim W bits h0 L h Sv T1 co cp (ps pt pw : addr) sS sT :
  sa_width bits = Some W -> own h0 (blk (pw, (KMalloc, sT)) (blk (pt, (KNew, 32)) (blk (ps, (KMalloc, sS)) L))) h -> Forall (alive h0 L) (cont_blocks co cp) -> 8 * alen Sv <= sS -> pa_bytes T1 <= sT ->
  0 <= c_num co < 2 ^ 60 -> 0 <= c_uniq co <= c_num co -> 0 <= c_n co ->
  within Bd h0 (hsize h0 + lsz L + sT + 32 + sS + 2 * (8 * (c_num co + 2))) ->
  within Bd h0 (hsize h0 + lsz L + 8 * (c_num co + 2) + qneed (c_bwp_width co) (c_num co + 1)) ->
  within Bd h0 (hsize h0 + lsz L + induce_need (c_bwp_width co) (c_num co) (c_n co)) ->
  rsim (bwt_branch_of E W Sv T1 co) (h_branch_of al E W h Sv (Some ps) T1 (Some pt) (Some pw) co cp) (res_own h0 (c_n co) L).
Proof using Hal Hroom.
  intros HW HO Hcp HsS HsT Hnum Huniq Hcn HB1 HB2 HB3. unfold sa_width in HW.
  assert (HB1' : forall c, 0 <= c <= 8 -> within Bd h0 (hsize h0 + lsz L + sT + 32 + sS + 2 * (c * (c_num co + 2)))).
  { intros c Hc. eapply within_le; [exact HB1|]. nia. }
  assert (HB2' : forall c, 0 <= c <= 8 -> within Bd h0 (hsize h0 + lsz L + c * (c_num co + 2) + qneed (c_bwp_width co) (c_num co + 1))).
  { intros c Hc. eapply within_le; [exact HB2|]. nia. }
  unfold bwt_branch_of, h_branch_of.
  destruct (bits <? 32); [injection HW as <-|destruct (bits <? 40); [injection HW as <-|destruct (bits <? 48); [injection HW as <-|destruct (bits <? 56); [injection HW as <-|destruct (bits <? 64); [injection HW as <-|discriminate]]]]].
  - change (32 =? 40) with false. change (32 =? 48) with false. change (32 =? 56) with false. cbv iota.
    eapply (branch_sim h0 L h Sv T1 co cp ps pt pw sS sT 4); try eassumption; try lia; first [apply HB1'; lia|apply HB2'; lia|reflexivity].
  - change (40 =? 40) with true. cbv iota.
    eapply (branch2_sim h0 L h Sv T1 co cp ps pt pw sS sT 5); try eassumption; try lia; first [apply HB1'; lia|apply HB2'; lia|reflexivity].
  - change (48 =? 40) with false. change (48 =? 48) with true. cbv iota.
    eapply (branch2_sim h0 L h Sv T1 co cp ps pt pw sS sT 6); try eassumption; try lia; first [apply HB1'; lia|apply HB2'; lia|reflexivity].
  - change (56 =? 40) with false. change (56 =? 48) with false. change (56 =? 56) with true. cbv iota.
    eapply (branch3_sim h0 L h Sv T1 co cp ps pt pw sS sT 7); try eassumption; try lia; first [apply HB1'; lia|apply HB2'; lia|reflexivity].
  - change (64 =? 40) with false. change (64 =? 48) with false. change (64 =? 56) with false. cbv iota.
    eapply (branch_sim h0 L h Sv T1 co cp ps pt pw sS sT 8); try eassumption; try lia; first [apply HB1'; lia|apply HB2'; lia|reflexivity].
Qed.

(** the caller's block is the first of the list *)
Lemma bwt_is_sim h0 L LT h free_T (pT : addr) : own h0 LT h -> alive h0 LT (Some pT, alen T) ->
  ((free_T : bool) = true -> exists kT, LT = blk (pT, kT) L /\ fst kT = KMalloc /\ 0 <= snd kT) ->
  within Bd h0 (hsize h0 + lsz LT + budget hts n) ->
  rsim (bwt_is E srt hts T n free_T) (h_bwt_is al E srt hts h (Some pT) T n free_T) (out_own h0 n (if free_T then L else LT)).
Proof using Hal Hroom Hts Hn Hx Hw.
  intros HO HaT Hfree HB. unfold bwt_is, h_bwt_is.
  unfold budget in HB.
  eapply rsim_bind; [eapply (extract_sim hts h0 LT h pT T n); [lia|lia|exact HO|exact HaT|]|].
  { eapply within_le; [exact HB|]. unfold buf_bound. lia. }
  intros co [[co1 cp] h1] Hco [-> C1].
  destruct (extract_buffer2 E hts T n Hts ltac:(lia) co Hco) as (ht & Hht & Hhb & Hn1 & Hn2 & Hcn & Hlen & Hhd).
  destruct (Hx co Hco) as (Hu & he & Hhe & Hhe2).
  assert (HU : u64 (c_uniq co + 2) = c_uniq co + 2) by (unfold u64; apply wrap_small; lia).
  pose proof (sort_buffer E srt T co ht he Hht Hhe ltac:(lia) (hb_nb _ _ Hhb) (hb_buf _ _ Hhb)) as Hsb.
  set (A' := buf_bound hts n + n + 280).
  eapply rsim_bind; [eapply (sort_sim srt hts h0 (buf_bound hts n) A' (8 * u64 (c_uniq co + 2)) LT h1 pT T co cp C1 HaT eq_refl)|].
  { eapply ens_mono; [exact Hsb|]. intros x (h' & E1 & E2 & _ & _ & _ & E3 & E4 & E5). exists h'. split; [exact E1|]. split; [subst A'; unfold buf_bound; lia|]. rewrite E3, E4, E5, (hb_len _ _ Hhb). auto. }
  { subst A'. unfold buf_bound. lia. }
  { eapply within_le; [exact HB|]. subst A'. unfold buf_bound. rewrite HU. lia. }
  intros [Sv co2] [[[[Sv' ps] co2'] cp2] h2] Hsort (He & a & ca & o & r & d & b & A2 & -> & HA2 & -> & HLcc & O2). inversion He; subst Sv' co2'. clear He.
  destruct (Hsb _ Hsort) as (ht2 & Hht2 & Hlen2 & Hnum2 & Huniq2 & Hcn2 & _ & _ & HSv). cbn [fst snd] in Hht2, Hnum2, Huniq2, Hcn2, HSv.
  pose proof (Hw co Hco _ Hsort) as Hwid. cbn [snd] in Hwid.
  set (cp2 := mkcp (Some ca) (Some (mkhtp (Some o) (Some r) (Some d) (Some b)))) in *.
  set (Lc := bufl (Some b) A2 ++ contl hts o r d ca) in *.
  assert (HLc : lsz Lc = A2 + 16 * hts + 12536).
  { unfold Lc. rewrite lsz_app, contl_size. cbn [bufl]. rewrite lsz_cons. cbn [snd lsz fold_right]. lia. }
  apply rsim_same. intros T1 HT1.
  pose proof (create_bytes E T n co2 ltac:(lia) ltac:(lia) T1 HT1) as Hpb.
  unfold h_new_t1.
  destruct (own_new h0 _ h2 (KNew, 32) O2) as (pt & F3 & _ & O3).
  { eapply within_le; [exact HB|]. rewrite !lsz_cons, !lsz_app, HLc. cbn [snd]. subst A'. unfold buf_bound in *. rewrite HU. lia. }
  rewrite F3. cbn [bind]. set (h3 := hadd pt _ h2) in *.
  destruct (own_new h0 _ h3 (KMalloc, pa_bytes T1) O3) as (pw & _ & F4 & O4).
  { eapply within_le; [exact HB|]. rewrite !lsz_cons, !lsz_app, HLc. cbn [snd]. subst A'. unfold buf_bound in *. rewrite HU. lia. }
  rewrite F4. cbn [bind deref]. set (h4 := hadd pw _ h3) in *.
  assert (HUs : uses h4 ((Some pT, alen T) :: (Some pt, 32) :: (Some pw, pa_bytes T1) :: cont_blocks co2 cp2) = Ok tt).
  { eapply own_uses; [exact O4|]. constructor; [|constructor; [|constructor; [|]]].
    - eapply alive_incl; [|exact HaT]. intros x Hxx. right. right. right. apply in_app_iff. right. exact Hxx.
    - apply (alive_in _ _ pt (KNew, 32)); [|apply Z.le_refl]. inn.
    - apply alive_here, Z.le_refl.
    - eapply Forall_alive_incl; [|apply (HLcc LT)]. intros x Hxx. right. right. right. exact Hxx. }
  match goal with |- context [uses h4 ?l] => replace (uses h4 l) with (Ok tt) by (symmetry; exact HUs) end. cbn [bind].
  set (LF := if free_T then L else LT).
  assert (H5 : exists h5, (if free_T then hfree KMalloc h4 (Some pT) else Ok h4) = Ok h5 /\
    own h0 (blk (pw, (KMalloc, pa_bytes T1)) (blk (pt, (KNew, 32)) (blk (a, (KMalloc, 8 * u64 (c_uniq co + 2))) (Lc ++ LF)))) h5).
  { subst LF. destruct free_T; [|exists h4; split; [reflexivity|exact O4]]. destruct (Hfree eq_refl) as (kT & -> & HkT & _).
    apply (own_free_in h0 ([(pw, (KMalloc, pa_bytes T1)); (pt, (KNew, 32)); (a, (KMalloc, 8 * u64 (c_uniq co + 2)))] ++ Lc) L h4 pT kT) in O4.
    destruct O4 as (h5 & F5 & O5). exists h5. rewrite HkT in F5. split; [exact F5|exact O5]. }
  destruct H5 as (h5 & F5 & O5). eapply rsim_right; [exact F5|]. cbv beta.
  assert (HLF : lsz LF <= lsz LT).
  { subst LF. destruct free_T; [|lia]. destruct (Hfree eq_refl) as (kT & -> & _ & HkT). rewrite lsz_cons. cbn [snd]. lia. }
  apply rsim_same. intros bits _. destruct (sa_width bits) as [W|] eqn:HW.
  - pose proof (qneed_le (c_bwp_width co2) (c_num co2 + 1) Hwid ltac:(lia)) as Hq.
    eapply rsim_bind; [eapply (branch_of_sim W bits h0 (Lc ++ LF) h5 Sv T1 co2 cp2 a pt pw _ _ HW O5)|].
    { apply HLcc. } { rewrite HSv. lia. } { apply Z.le_refl. } { lia. } { lia. } { lia. }
    { eapply within_le; [exact HB|]. rewrite lsz_app, HLc, HU. subst A'. unfold buf_bound in *. lia. }
    { eapply within_le; [exact HB|]. rewrite lsz_app, HLc. subst A'. unfold buf_bound in *. lia. }
    { eapply within_le; [exact HB|]. rewrite lsz_app, HLc. unfold induce_need. subst A'. unfold buf_bound in *. lia. }
    intros rr [[[r' pR] pB] h6] _ (-> & aR & aB & -> & -> & O6).
    destruct (cont_delete_own h0 [(aR, (KMalloc, 16)); (aB, (KNewArray, c_n co2 + 1))] LF hts o r d ca b A2 h6 O6) as (h7 & F7 & O7).
    eapply rsim_right; [exact F7|]. cbv beta. apply rsim_ok. cbn [out_own snd fst]. eexists _, _, _. split; [reflexivity|]. split; [reflexivity|].
    exists aR, aB. split; [reflexivity|]. split; [reflexivity|]. rewrite Hcn2, Hcn in O7. exact O7.
  - destruct (cont_delete_own h0 [(pw, (KMalloc, pa_bytes T1)); (pt, (KNew, 32)); (a, (KMalloc, 8 * u64 (c_uniq co + 2)))] LF hts o r d ca b A2 h5 O5) as (h7 & F7 & O7).
    eapply rsim_right; [exact F7|]. cbv beta. apply rsim_ok. reflexivity.
Qed.
Lemma bwt_string_sim h0 L LT h free_T (pT : addr) : own h0 LT h -> alive h0 LT (Some pT, alen T) ->
  ((free_T : bool) = true -> exists kT, LT = blk (pT, kT) L /\ fst kT = KMalloc /\ 0 <= snd kT) ->
  within Bd h0 (hsize h0 + lsz LT + budget hts n) ->
  rsim (bwt_string_gen hts E srt (Some T) n free_T) (h_bwt_string al hts E srt h (Some pT) T n free_T) (out_own h0 n (if free_T then L else LT)).
Proof using Hal Hroom Hts Hn Hx Hw.
  intros HO H1 H2 H3. unfold bwt_string_gen, h_bwt_string. destruct (n <=? 0); [apply rsim_err|]. apply bwt_is_sim; assumption.
Qed.
End BwtIs.

(** * what is known of the values *)
Lemma vals_ok srt hts T l : std_sort srt -> 1 <= hts <= 2 ^ 48 -> Forall is_byte l -> 3 <= zl l <= 2 ^ 58 -> holds T (l ++ [0]) -> fresh_good E hts l ->
  ens (extract_LMS_strings E hts T (zl l)) (fun co => 0 <= c_uniq co <= c_num co /\ exists he, c_head_end co = Some he /\ 0 <= he <= zl l) /\
  (forall co, extract_LMS_strings E hts T (zl l) = Ok co -> ens (sort_LMS_strings E srt T co) (fun x => 0 <= c_bwp_width (snd x) <= 63)).
Proof.
  intros Hs Hts Hl Hn HT Hf.
  pose proof (extract_fresh E hts T l Hts Hl Hn HT Hf) as Hex.
  destruct (wp_inv _ _ Hex) as (co & Hco & HX). split.
  - intros co' Hco'. rewrite Hco in Hco'. inversion Hco'; subst co'. clear Hco'.
    destruct (ex_ht _ _ _ _ _ HX) as (h & own & role & ch & en & _ & _ & _ & _ & _ & _ & _ & Hu).
    split. { rewrite (ex_num _ _ _ _ _ HX). split; [rewrite Hu; lia|apply (ex_ub _ _ _ _ _ HX)]. }
    eexists. split; [apply (ex_head _ _ _ _ _ HX)|]. pose proof (he_range (tl_ l) (zl l) Hn). lia.
  - intros co' Hco'. rewrite Hco in Hco'. inversion Hco'; subst co'. clear Hco'.
    intros x Hx. pose proof (sort_ok E srt hts T (tl_ l) (zl l) Hs Hts Hn (holds_tl T l HT) (tl_byte l Hl) (tl_n_byte l) (fresh_good_head E hts l Hf) co HX) as Hso.
    destruct (wp_inv _ _ Hso) as (y & Hy & HY). rewrite Hx in Hy. inversion Hy; subst y. clear Hy. destruct x as [Sv co'].
    destruct HY as (h & own & role & ch & en & ol & pos & mn & Hst). cbn [snd].
    rewrite (so_width _ _ _ _ _ _ _ _ _ _ _ _ _ _ _ Hst).
    pose proof (so_max _ _ _ _ _ _ _ _ _ _ _ _ _ _ _ Hst). pose proof (so_mn _ _ _ _ _ _ _ _ _ _ _ _ _ _ _ Hst).
    match goal with |- context [Z.log2 ?x] => pose proof (Z.log2_nonneg x); assert (Z.log2 x < 63) by (destruct (Z_le_gt_dec x 0); [rewrite Z.log2_nonpos by lia; lia|apply Z.log2_lt_pow2; lia]) end. lia.
Qed.
Lemma own_remove h (a : addr) k : find a h = Some (OOther k) -> own (hremove a h) (blk (a, k) []) h.
Proof.
  intros H. constructor.
  - cbn. constructor; [intros []|constructor].
  - intros x [<-|[]]. apply hgrs.
  - intros x k' [Hx|[]]. inversion Hx; subst. exact H.
  - intros x Hx. symmetry. apply hgro. intros ->. apply Hx. left. reflexivity.
Qed.

(** * bwt_string *)
Theorem h_string_ok srt hts T l free_T h (pT : addr) kd size : std_sort srt -> 1 <= hts <= 2 ^ 48 -> Forall is_byte l -> 3 <= zl l <= 2 ^ 58 ->
  holds T (l ++ [0]) -> fresh_good E hts l -> find pT h = Some (OOther (kd, size)) -> ((free_T : bool) = true -> kd = KMalloc) -> alen T <= size ->
  within Bd (if free_T then hremove pT h else h) (hsize h + budget hts (zl l)) ->
  exists r aR aB h', h_bwt_string al hts E srt h (Some pT) T (zl l) free_T = Ok (Some (r, Some aR, Some aB), h') /\
    (alen (r_BWT r) = zl l + 1 /\ is_BWT l (av (r_BWT r)) (r_last r)) /\
    heap_plus (if free_T then hremove pT h else h) [(aR, (KMalloc, 16)); (aB, (KNewArray, zl l + 1))] h'.
Proof using Hal Hroom.
  intros Hs Hts Hl Hn HT Hf Hp Hk Hz HB.
  destruct (bwt_string_list E srt hts T l free_T Hs Hts Hl Hn HT Hf) as (r & Hr & Hr2).
  destruct (vals_ok srt hts T l Hs Hts Hl Hn HT Hf) as [Hx Hw].
  set (h0 := if free_T then hremove pT h else h) in *. set (LT := if free_T then blk (pT, (kd, size)) [] else []).
  assert (HO : own h0 LT h). { subst h0 LT. destruct free_T; [apply own_remove, Hp|]. apply own_nil. intros a. reflexivity. }
  destruct (bwt_string_sim srt hts (zl l) T ltac:(lia) Hn Hx Hw h0 [] LT h free_T pT HO) with (a := (if free_T then None else Some T, Some r)) as ([x h'] & F & O).
  { exists pT, (kd, size). split; [reflexivity|]. split; [exact Hz|]. subst h0 LT. destruct free_T; [left; left; reflexivity|right; exact Hp]. }
  { intros ->. exists (kd, size). split; [reflexivity|]. split; [apply Hk; reflexivity|cbn [snd]; pose proof (av_bounds _ _ _ (holds_tl T l HT 0 ltac:(lia))); lia]. }
  { eapply within_le; [exact HB|]. rewrite (own_size _ _ _ HO). lia. }
  { exact Hr. }
  cbn [out_own snd fst] in O. destruct O as (r' & pR & pB & -> & -> & aR & aB & -> & -> & O).
  exists r, aR, aB, h'. split; [exact F|]. split; [exact Hr2|]. apply own_plus. subst LT. destruct free_T; exact O.
Qed.

(** * bwt_file *)
(** the blocks still allocated when bwt_file returns or throws *)
Definition file_leak (f : io) : list (kind * Z) :=
  if negb (in_open f) then [] else
  if negb (malloc_ok f) then [] else
  match in_data f with
  | [] => [(KMalloc, 1); (KFile, 0)]
  | _ => if out_open f then [] else [(KMalloc, 16); (KNewArray, zl (in_data f) + 1)]
  end.
Lemma h_open_ok h0 L h ok k : own h0 L h -> within Bd h0 (hsize h0 + lsz L + snd k) ->
  if (ok : bool) then exists a, h_open al h ok k = (Some a, hadd a (OOther k) h) /\ own h0 (blk (a, k) L) (hadd a (OOther k) h)
  else h_open al h ok k = (None, h).
Proof using Hal Hroom.
  intros HO HB. destruct ok; [|reflexivity]. destruct (own_new h0 L h k HO HB) as (a & _ & F & O). exists a. split; [exact F|exact O].
Qed.

Theorem h_file_ok srt hts f h : std_sort srt -> 1 <= hts <= 2 ^ 48 -> Forall is_byte (in_data f) ->
  (in_data f = [] \/ 3 <= zl (in_data f) <= 2 ^ 58) -> fresh_good E hts (in_data f) -> in_tell f = zl (in_data f) ->
  within Bd h (hsize h + (zl (in_data f) + 1) + budget hts (zl (in_data f))) ->
  exists h' L, h_bwt_file al hts E srt h f = Ok (h', fst (bwt_file_gen hts E srt f), snd (bwt_file_gen hts E srt f)) /\
    heap_plus h L h' /\ map snd L = file_leak f.
Proof using Hal Hroom.
  intros Hs Hts Hb Hn Hf Htell HB. unfold h_bwt_file, bwt_file_gen, file_leak.
  assert (O0 : own h [] h) by (apply own_nil; intros a; reflexivity).
  rewrite Htell. set (l := in_data f) in *. unfold budget in HB.
  pose proof (h_open_ok h [] h (in_open f) (KFile, 0) O0 ltac:(eapply within_le; [exact HB|]; cbn [lsz fold_right snd]; lia)) as G1.
  destruct (in_open f); cbn [negb]; [|rewrite G1; exists h, []; split; [reflexivity|]; split; [apply own_plus, O0|reflexivity]].
  destruct G1 as (fp & F1 & O1). rewrite F1. set (h1 := hadd fp _ h) in *.
  assert (Hu : u64 (zl l) = zl l). { unfold u64. apply wrap_small. destruct Hn as [->|Hn]; cbn; lia. }
  assert (Hu1 : u64 (zl l + 1) = zl l + 1). { unfold u64. apply wrap_small. destruct Hn as [->|Hn]; cbn; lia. }
  cbv zeta. rewrite Hu, Hu1.
  pose proof (h_open_ok h _ h1 (malloc_ok f) (KMalloc, zl l + 1) O1 ltac:(eapply within_le; [exact HB|]; cbn [lsz fold_right snd]; lia)) as G2.
  destruct (malloc_ok f); cbn [negb].
  2:{ rewrite G2. destruct (own_free _ _ _ _ _ O1) as (h2 & F2 & O2). cbn [fst] in F2. rewrite F2. cbn [bind]. exists h2, []. split; [reflexivity|]. split; [apply own_plus, O2|reflexivity]. }
  destruct G2 as (pT & F2 & O2). rewrite F2. set (h2 := hadd pT _ h1) in *.
  assert (U2 : uses h2 [(Some fp, 0); (Some pT, alen (anew (A:=Z) (zl l + 1)))] = Ok tt).
  { rewrite alen_new. eapply own_uses; [exact O2|]. constructor; [|constructor; [|constructor]];
    [apply (alive_in _ _ fp (KFile, 0))|apply (alive_in _ _ pT (KMalloc, zl l + 1))]; try (apply Z.le_refl); inn. }
  match goal with |- context [uses h2 ?x] => replace (uses h2 x) with (Ok tt) by (symmetry; exact U2) end. cbn [bind].
  destruct (fread_ok (zl l) l eq_refl) as (T & HT & Hal' & Hat). { destruct Hn as [->|Hn]; cbn; lia. }
  rewrite Hu1 in HT. rewrite HT. cbn [bind]. destruct (Z.leb_spec (zl l) 0) as [Hz|Hz].
  { exists h2. eexists. split; [reflexivity|]. split; [apply own_plus, O2|]. destruct l; [reflexivity|cbn in Hz; lia]. }
  assert (Hn' : 3 <= zl l <= 2 ^ 58) by (destruct Hn as [H|Hn]; [rewrite H in Hz; cbn in Hz; lia|exact Hn]). clear Hn.
  destruct (own_free_in h [(pT, (KMalloc, zl l + 1))] [] h2 fp (KFile, 0) O2) as (h3 & F3 & O3). cbn [fst] in F3. rewrite F3. cbn [bind].
  cbn [app] in O3.
  assert (U3 : uses h3 [(Some pT, alen T)] = Ok tt).
  { eapply own_uses; [exact O3|]. constructor; [|constructor]. apply (alive_in _ _ pT (KMalloc, zl l + 1)); [inn|cbn [snd]; lia]. }
  match goal with |- context [uses h3 ?x] => replace (uses h3 x) with (Ok tt) by (symmetry; exact U3) end. cbn [bind].
  rewrite aset_ok by lia. cbn [bind].
  assert (HH : holds (aupd T (zl l) 0) (l ++ [0])).
  { intros i Hi. rewrite app_length in Hi. cbn [length] in Hi. rewrite av_upd by lia.
    destruct (Z.eqb_spec (Z.of_nat i) (zl l)) as [He|He].
    - replace i with (length l) by lia. rewrite app_nth2, Nat.sub_diag by lia. reflexivity.
    - rewrite app_nth1 by lia. specialize (Hat (Z.of_nat i) ltac:(lia)). rewrite Nat2Z.id in Hat. exact Hat. }
  destruct (bwt_string_list E srt hts _ l true Hs Hts Hb Hn' HH Hf) as (r & Hr & HBl & HBW). rewrite Hr.
  destruct (vals_ok srt hts _ l Hs Hts Hb Hn' HH Hf) as [Hx Hw].
  destruct (bwt_string_sim srt hts (zl l) _ ltac:(lia) Hn' Hx Hw h [] _ h3 true pT O3 ltac:(apply alive_here; rewrite alen_upd; cbn [snd]; lia)) with (a := (@None (arr Z), Some r)) as ([x h4] & F4 & O4).
  { intros _. exists (KMalloc, zl l + 1). split; [reflexivity|]. split; [reflexivity|cbn [snd]; lia]. }
  { eapply within_le; [exact HB|]. cbn [lsz fold_right snd]. unfold budget. lia. }
  { exact Hr. }
  cbn [out_own snd fst] in O4. destruct O4 as (r' & pR & pB & -> & -> & aR & aB & -> & -> & O4). rewrite F4. cbn [bind].
  pose proof (h_open_ok h _ h4 (out_open f) (KFile, 0) O4 ltac:(eapply within_le; [exact HB|]; cbn [lsz fold_right snd]; lia)) as G5.
  destruct (out_open f); cbn [negb].
  2:{ rewrite G5. exists h4. eexists. split; [reflexivity|]. split; [apply own_plus, O4|]. destruct l; [cbn in Hz; lia|reflexivity]. }
  destruct G5 as (fq & F5 & O5). rewrite F5. set (h5 := hadd fq _ h4) in *.
  destruct (own_new h _ h5 (KNewArray, 8) O5) as (rk & _ & F6 & O6). { eapply within_le; [exact HB|]; cbn [lsz fold_right snd]; lia. }
  rewrite F6. cbn [bind]. set (h6 := hadd rk _ h5) in *.
  assert (U6 : uses h6 [(Some fq, 0); (Some rk, 8); (Some aR, 16); (Some aB, alen (r_BWT r))] = Ok tt).
  { eapply own_uses; [exact O6|].
    constructor; [|constructor; [|constructor; [|constructor; [|constructor]]]];
    [apply (alive_in _ _ fq (KFile, 0))|apply (alive_in _ _ rk (KNewArray, 8))|apply (alive_in _ _ aR (KMalloc, 16))|apply (alive_in _ _ aB (KNewArray, zl l + 1))];
    try (apply Z.le_refl); [inn|inn|inn|inn|cbn [snd]; lia]. }
  match goal with |- context [uses h6 ?x] => replace (uses h6 x) with (Ok tt) by (symmetry; exact U6) end. cbn [bind].
  destruct (own_free _ _ _ _ _ O6) as (h7 & F7 & O7). cbn [fst] in F7. rewrite F7. cbn [bind].
  rewrite (write_result_ok (out_limit f) l r) by (assumption || lia). cbn [bind].
  destruct (own_free _ _ _ _ _ O7) as (h8 & F8 & O8). cbn [fst] in F8. rewrite F8. cbn [bind].
  destruct (own_free_in h [(aR, (KMalloc, 16))] [] h8 aB (KNewArray, zl l + 1) O8) as (h9 & F9 & O9). cbn [fst] in F9. rewrite F9. cbn [bind].
  cbn [app] in O9. destruct (own_free _ _ _ _ _ O9) as (h10 & F10 & O10). cbn [fst] in F10. rewrite F10. cbn [bind].
  exists h10, []. split; [reflexivity|]. split; [apply own_plus, O10|]. destruct l; [cbn in Hz; lia|reflexivity].
Qed.
End HeapProg.

Lemma plus_nil h h' : heap_plus h [] h' -> same_heap h' h.
Proof. intros (_ & _ & H) a. apply H. intros []. Qed.

Section FileHeap.
Context (al : allocator) (Bd : bound) (Hal : fresh_alloc al) (Hroom : room al Bd) (hts : Z) (E : env) (srt : sorter) (f : io) (h : heap).
Theorem h_file_no_input : in_open f = false -> h_bwt_file al hts E srt h f = Ok (h, Err InvalidArgument, None).
Proof. intros H. unfold h_bwt_file, h_open. rewrite H. reflexivity. Qed.
Theorem h_file_no_memory : in_open f = true -> malloc_ok f = false -> within Bd h (hsize h) ->
  exists h', h_bwt_file al hts E srt h f = Ok (h', Err RuntimeError, None) /\ same_heap h' h.
Proof using Hal Hroom.
  intros H1 H2 HB. unfold h_bwt_file. rewrite H1, H2.
  assert (O0 : own h [] h) by (apply own_nil; intros a; reflexivity).
  destruct (h_open_ok al Bd Hal Hroom h [] h true (KFile, 0) O0) as (fp & F1 & O1). { eapply within_le; [exact HB|]. cbn [lsz fold_right snd]. lia. }
  rewrite F1. cbn [h_open]. destruct (own_free _ _ _ _ _ O1) as (h2 & F2 & O2). cbn [fst] in F2. rewrite F2. cbn [bind].
  exists h2. split; [reflexivity|]. apply own_nil_inv, O2.
Qed.
Theorem h_file_nothing_read : in_open f = true -> malloc_ok f = true -> in_data f = [] \/ in_tell f = 0 -> within Bd h (hsize h + u64 (u64 (in_tell f) + 1)) ->
  exists h' aT aF, h_bwt_file al hts E srt h f = Ok (h', Err RuntimeError, None) /\ heap_plus h [(aT, (KMalloc, u64 (u64 (in_tell f) + 1))); (aF, (KFile, 0))] h'.
Proof using Hal Hroom.
  intros H1 H2 H3 HB. unfold h_bwt_file. rewrite H1, H2. cbv zeta.
  assert (O0 : own h [] h) by (apply own_nil; intros a; reflexivity).
  assert (Hz : 0 <= u64 (u64 (in_tell f) + 1)) by (apply Z.mod_pos_bound; lia).
  destruct (h_open_ok al Bd Hal Hroom h [] h true (KFile, 0) O0) as (fp & F1 & O1). { eapply within_le; [exact HB|]. cbn [lsz fold_right snd]. lia. }
  rewrite F1. set (h1 := hadd fp _ h) in *.
  destruct (h_open_ok al Bd Hal Hroom h _ h1 true (KMalloc, u64 (u64 (in_tell f) + 1)) O1) as (pT & F2 & O2). { eapply within_le; [exact HB|]. cbn [lsz fold_right snd]. lia. }
  rewrite F2. set (h2 := hadd pT _ h1) in *.
  assert (U2 : uses h2 [(Some fp, 0); (Some pT, alen (anew (A:=Z) (u64 (u64 (in_tell f) + 1))))] = Ok tt).
  { rewrite alen_new. eapply own_uses; [exact O2|]. constructor; [|constructor; [|constructor]];
    [apply (alive_in _ _ fp (KFile, 0))|apply (alive_in _ _ pT (KMalloc, u64 (u64 (in_tell f) + 1)))]; try (apply Z.le_refl); inn. }
  match goal with |- context [uses h2 ?x] => replace (uses h2 x) with (Ok tt) by (symmetry; exact U2) end. cbn [bind].
  assert (Hl : firstn (Z.to_nat (Z.min (u64 (in_tell f)) (Z.of_nat (length (in_data f))))) (in_data f) = []).
  { destruct H3 as [->| ->]; [destruct (Z.to_nat _); reflexivity|]. change (u64 0) with 0. rewrite Z.min_l by lia. reflexivity. }
  unfold fread. rewrite Hl. cbn [ablit bind length]. change (Z.of_nat 0 <=? 0) with true. cbv iota.
  eexists _, _, _. split; [reflexivity|]. apply own_plus, O2.
Qed.
Context (Hs : std_sort srt) (Hts : 1 <= hts <= 2 ^ 48) (Hb : Forall is_byte (in_data f)) (Hn : 3 <= zl (in_data f) <= 2 ^ 58)
  (Hf : fresh_good E hts (in_data f)) (Hi : in_open f = true) (Ht : in_tell f = zl (in_data f)) (Hm : malloc_ok f = true)
  (HB : within Bd h (hsize h + (zl (in_data f) + 1) + budget hts (zl (in_data f)))).
Theorem h_file_success : out_open f = true ->
  exists h', h_bwt_file al hts E srt h f = Ok (h', Ok tt, Some (match out_limit f with None => file_output (in_data f) | Some k => firstn k (file_output (in_data f)) end)) /\ same_heap h' h.
Proof using Hal Hroom Hs Hts Hb Hn Hf Hi Ht Hm HB.
  intros Ho. destruct (h_file_ok al Bd Hal Hroom E srt hts f h Hs Hts Hb (or_intror Hn) Hf Ht HB) as (h' & L & F & P & K).
  rewrite (bwt_file_ok hts E srt f Hs Hts Hb Hn Hf Hi Ht Hm Ho) in F. exists h'. split; [exact F|].
  unfold file_leak in K. rewrite Hi, Hm, Ho in K. cbn [negb] in K. destruct (in_data f) as [|x l]; [cbn in Hn; lia|].
  destruct L; [|discriminate]. apply plus_nil, P.
Qed.
Theorem h_file_no_output : out_open f = false ->
  exists h' aR aB, h_bwt_file al hts E srt h f = Ok (h', Err InvalidArgument, None) /\ heap_plus h [(aR, (KMalloc, 16)); (aB, (KNewArray, zl (in_data f) + 1))] h'.
Proof using Hal Hroom Hs Hts Hb Hn Hf Hi Ht Hm HB.
  intros Ho. destruct (h_file_ok al Bd Hal Hroom E srt hts f h Hs Hts Hb (or_intror Hn) Hf Ht HB) as (h' & L & F & P & K).
  assert (Hg : bwt_file_gen hts E srt f = (Err InvalidArgument, None)).
  { apply file_noout; assumption. }
  rewrite Hg in F. unfold file_leak in K. rewrite Hi, Hm, Ho in K. cbn [negb] in K. destruct (in_data f) as [|x l] eqn:Hd; [cbn in Hn; lia|].
  destruct L as [|[a k] [|[b k'] [|? ?]]]; try discriminate. cbn [map snd] in K. inversion K; subst. exists h', a, b. split; [exact F|exact P].
Qed.
End FileHeap.
