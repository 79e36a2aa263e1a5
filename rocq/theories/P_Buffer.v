(** Size of the string buffer, for every run that succeeds. *)
From Verif Require Import Base M_PackedArray M_Queue M_HashTable M_Cells M_Sais M_Split M_Induce M_Flbwt Spec Count
  P_PackedArray P_Bytes P_HashTable P_HashTable2 Sums P_Insert P_HeapSim P_Props.
From Coq Require Import ZifyBool.
Open Scope Z_scope.

(** the array head keeps its length *)
Lemma insert_head E h T m p : ens (insert_string E h T m p) (fun x => alen (ht_head (fst x)) = alen (ht_head h)).
Proof.
  unfold insert_string. apply ens_skip. intros hv _. apply ens_skip. intros q0 _. apply ens_skip. intros sc _.
  destruct sc as [q|q]; [apply ens_ok; reflexivity|]. apply ens_skip. intros lb _. apply ens_skip. intros rest _.
  eapply ens_bind with (P := fun x => alen (ht_head (fst x)) = alen (ht_head h)).
  - destruct (_ <=? _); [|apply ens_ok; reflexivity]. apply ens_skip. intros rest' _. destruct (q =? 0).
    + eapply ens_bind; [apply ens_aset|]. cbn beta. intros head' _ Hh. apply ens_ok. exact Hh.
    + apply ens_skip. intros b' _. apply ens_ok. reflexivity.
  - intros [h1 r] _ H1. cbn [fst] in H1. apply ens_skip. intros b _. apply ens_skip. intros r1 _. apply ens_skip. intros r2 _. apply ens_ok. exact H1.
Qed.
Lemma extract_step_head E T i s : ens (extract_step E T i s) (fun s' => alen (ht_head (x_ht s')) = alen (ht_head (x_ht s))).
Proof.
  unfold extract_step. apply ens_skip. intros ti _. apply ens_skip. intros ti1 _. apply ens_skip. intros M _.
  destruct (ti <? ti1); [apply ens_ok; reflexivity|]. destruct (ti1 <? ti).
  - eapply ens_bind with (P := fun '(ht, C, num, uniq, p, q) => alen (ht_head ht) = alen (ht_head (x_ht s))).
    + destruct (x_prevS s); [|apply ens_ok; reflexivity]. cbv zeta. apply ens_skip. intros tp _. apply ens_skip. intros C _.
      eapply ens_bind; [apply insert_head|]. cbn beta. intros [ht r] _ A. apply ens_ok. exact A.
    + intros [[[[[ht C] num] uniq] p] q] _ A. apply ens_skip. intros NL _. apply ens_ok. exact A.
  - apply ens_skip. intros NL _. apply ens_ok. reflexivity.
Qed.
Lemma ht_new_head hts n ht : 0 <= hts -> ht_new hts n = Ok ht -> alen (ht_head ht) = hts.
Proof.
  intros Ht H. unfold ht_new, ht_new_hb in H. destruct (wp_inv _ _ (azeros_ok hts Ht)) as (a' & Ha & Hl & _). rewrite Ha in H. cbn [bind] in H.
  binv H. inversion H; subst ht. exact Hl.
Qed.

Theorem extract_buffer2 E hts T n : 0 <= hts -> 3 <= n < 2 ^ 59 ->
  ens (extract_LMS_strings E hts T n) (fun co => exists ht, c_ht co = Some ht /\ hb hts ht /\
    0 <= c_num co /\ 2 * c_num co <= n - 1 /\ c_n co = n /\
    alen (ht_buf ht) <= 512 * hts + 2 * n + 50 * c_num co /\ alen (ht_head ht) = hts).
Proof.
  intros Ht Hn. unfold extract_LMS_strings. apply ens_skip. intros co Hco. destruct (Z.leb_spec n 2); [lia|].
  apply ens_skip. intros ht Hht. apply ens_skip. intros M _. apply ens_skip. intros t _. apply ens_skip. intros M' _.
  apply ens_skip. intros NL _. apply ens_skip. intros C _.
  destruct (ht_new_xb hts n ht M' C NL Ht ltac:(lia) Hht) as [Hx _].
  eapply ens_bind.
  - eapply (ens_for_down (fun i s => xb hts n i s /\ alen (ht_head (x_ht s)) = hts)); [lia|split; [exact Hx|apply (ht_new_head _ _ _ Ht Hht)]|]. intros i s Hi [HI Hh].
    intros s' Hs'. split; [exact (extract_step_xb E hts T n i s ltac:(lia) ltac:(lia) HI s' Hs')|]. rewrite (extract_step_head _ _ _ _ _ Hs'). exact Hh.
  - cbn beta. intros s _ [[H1 H2 H3 H4] Hh]. apply ens_ok. cbn [c_ht c_num c_n]. exists (x_ht s).
    pose proof (rsum_le hts _ H1 Ht).
    split; [reflexivity|]. split; [exact H1|]. split; [lia|]. split; [destruct (x_prevS s); lia|]. split; [reflexivity|]. split; [lia|exact Hh].
Qed.

(** * sort_LMS_strings *)
Lemma ens_lenlen m : ens (calculate_lenlen m) (fun v => 0 <= v <= 255).
Proof.
  unfold calculate_lenlen, calculate_lenlen_fuel. apply ens_loop with (I := fun x => 0 <= snd x <= 255); [|cbn; lia].
  intros [v b] Hb. cbn [snd] in Hb. destruct (top_byte v =? 0); apply ens_ok; cbn [snd]; [|exact Hb].
  unfold u8, wrap. pose proof (Z.mod_pos_bound (b - 1) (2 ^ 8) ltac:(lia)). lia.
Qed.
Lemma ens_collect E h p s j N : alen s = N -> ens (collect_chain E h p s j) (fun x => alen (fst x) = N).
Proof.
  intros Hs. unfold collect_chain. cbv zeta. apply (ens_loop (fun x => alen (snd (fst x)) = N)); [|exact Hs].
  intros [[q a] k] Ha. cbn [fst snd] in Ha. destruct (q =? 0); [apply ens_ok; exact Ha|]. apply ens_skip. intros l _.
  destruct (l =? 0); [apply ens_ok; exact Ha|]. destruct (l =? 2); [apply ens_skip; intros q' _; apply ens_ok; exact Ha|].
  eapply ens_bind; [apply ens_aset|]. cbn beta. intros a' _ Ha'. apply ens_skip. intros z _. apply ens_ok. cbn [fst snd]. congruence.
Qed.
Lemma ens_ablit (a : arr Z) i l : ens (ablit a i l) (fun b => alen b = alen a).
Proof.
  revert a i. induction l as [|x l IH]; intros a i; cbn [ablit]; [apply ens_ok; reflexivity|].
  eapply ens_bind; [apply ens_aset|]. cbn beta. intros b _ Hb c Hc. rewrite (IH _ _ _ Hc). exact Hb.
Qed.
Theorem sort_buffer E srt T co h he : c_ht co = Some h -> c_head_end co = Some he -> 0 <= he -> 0 <= NAME_BYTES h <= 8 -> 0 <= alen (ht_buf h) ->
  ens (sort_LMS_strings E srt T co) (fun x => exists h', c_ht (snd x) = Some h' /\
    0 <= alen (ht_buf h') <= alen (ht_buf h) + he + 280 /\
    c_num (snd x) = c_num co /\ c_uniq (snd x) = c_uniq co /\ c_n (snd x) = c_n co /\
    ht_rest h' = ht_rest h /\ ht_head h' = ht_head h /\ alen (fst x) = u64 (c_uniq co + 2)).
Proof.
  intros Hh He Hhe Hnb Hb. unfold sort_LMS_strings. rewrite Hh, He. cbv zeta.
  eapply ens_bind; [apply ens_lenlen|]. cbn beta. intros ll _ Hll.
  set (N := u64 (alen (ht_buf h) + (1 + 1 + ll + (he + 1) + NAME_BYTES h + (1 + 1 + 1 + 1 + NAME_BYTES h)))).
  assert (HN : 0 <= N <= alen (ht_buf h) + he + 280).
  { subst N. match goal with |- context [u64 ?x] => pose proof (u64_le x ltac:(lia)) end. lia. }
  cbn [with_buf HTSIZE ht_head ht_buf].
  set (U := u64 (c_uniq co + 2)).
  eapply ens_bind with (P := fun x => alen (fst x) = U).
  { apply ens_for_up_s; [apply alen_new|]. intros i [s j] Hs. cbn [fst] in Hs. apply ens_skip. intros p _. apply ens_collect. exact Hs. }
  intros [s j] _ Hs. cbn [fst] in Hs. apply ens_skip. intros l _. destruct (negb _); [apply ens_err|].
  eapply ens_bind; [apply ens_ablit|]. cbn beta. intros s2 _ Hs2.
  eapply ens_bind with (P := fun h' => alen (ht_buf h') = N /\ ht_rest h' = ht_rest h /\ ht_head h' = ht_head h).
  { apply ens_for_up_s; [cbn [with_buf ht_buf]; split; [apply alen_realloc|split; reflexivity]|]. intros i h1 (H1 & R1 & D1). apply ens_skip. intros q _.
    eapply ens_bind; [apply ens_set_name|]. cbn beta. intros b _ Hb'. apply ens_ok. cbn [with_buf ht_buf ht_rest ht_head]. split; [congruence|split; assumption]. }
  cbn beta. intros h1 _ (H1 & R1 & D1). eapply ens_bind; [apply ens_aset|]. cbn beta. intros s3 _ Hs3.
  eapply ens_bind; [apply ens_set_length|]. cbn beta. intros b1 _ B1.
  eapply ens_bind; [apply ens_set_name|]. cbn beta. intros b2 _ B2. apply ens_skip. intros l2 _. apply ens_skip. intros t0 _.
  eapply ens_bind; [apply ens_bset|]. cbn beta. intros b3 _ B3.
  eapply ens_bind with (P := fun c => alen c = N).
  { apply ens_for_up_s; [congruence|]. intros i c Hc. apply ens_skip. intros d _. intros e Hd. rewrite (ens_bset _ _ _ e Hd). exact Hc. }
  cbn beta. intros b4 _ B4. eapply ens_bind; [apply ens_aset|]. cbn beta. intros s4 _ Hs4.
  eapply ens_bind; [apply ens_set_length|]. cbn beta. intros b5 _ B5.
  eapply ens_bind; [apply ens_bset|]. cbn beta. intros b6 _ B6.
  eapply ens_bind with (P := fun c => alen c = N).
  { apply ens_for_up_s; [congruence|]. intros i c Hc e Hd. rewrite (ens_bset _ _ _ e Hd). exact Hc. }
  cbn beta. intros b7 _ B7. apply ens_skip. intros s0 _. apply ens_skip. intros [mn mx] _. apply ens_skip. intros w _.
  apply ens_skip. intros l3 _. apply ens_skip. intros fc _. apply ens_ok. cbn [fst snd c_ht c_num c_uniq c_n].
  eexists. split; [reflexivity|]. cbn [with_buf ht_buf ht_rest ht_head]. rewrite B7. split; [exact HN|]. split; [reflexivity|]. split; [reflexivity|].
  split; [reflexivity|]. split; [exact R1|]. split; [exact D1|]. congruence.
Qed.

(** * create_shortened_string *)
Theorem create_bytes E T n co : 0 <= c_num co < 2 ^ 57 -> 0 <= c_uniq co < 2 ^ 60 ->
  ens (create_shortened_string E T n co) (fun T1 => 0 <= M_Heap.pa_bytes T1 <= 8 * c_num co + 32).
Proof.
  intros Hnum Hun. unfold create_shortened_string. destruct (c_ht co) as [h|]; [|apply ens_err]. cbv zeta.
  assert (U1 : u64 (c_uniq co + 1) = c_uniq co + 1) by (unfold u64; apply wrap_small; lia). rewrite U1.
  assert (U2 : u64 (c_num co + 2) = c_num co + 2) by (unfold u64; apply wrap_small; lia). rewrite U2.
  rewrite position_of_msb_ok by lia. cbn [bind]. set (bits := Z.log2 (c_uniq co + 1) + 1).
  assert (Hbits : 1 <= bits <= 61).
  { subst bits. pose proof (Z.log2_nonneg (c_uniq co + 1)). assert (Z.log2 (c_uniq co + 1) < 61) by (apply Z.log2_lt_pow2; lia). lia. }
  set (P := M_Heap.pa_bytes (pa_new (c_num co + 2) bits)).
  assert (HP : 0 <= P <= 8 * c_num co + 32).
  { subst P. unfold M_Heap.pa_bytes, pa_new. cbn [pa_arr]. rewrite alen_new.
    assert (Hm : 0 <= (c_num co + 2) * bits <= (c_num co + 2) * 61) by nia.
    assert (Hu : u64 ((c_num co + 2) * bits) = (c_num co + 2) * bits) by (unfold u64; apply wrap_small; lia). rewrite Hu.
    pose proof (Z.div_pos ((c_num co + 2) * bits) 64 ltac:(lia) ltac:(lia)).
    pose proof (Z.div_le_upper_bound ((c_num co + 2) * bits) 64 (c_num co + 2) ltac:(lia) ltac:(lia)). lia. }
  assert (Hset : forall T1 i v, ens (pa_set E T1 i v) (fun T2 => M_Heap.pa_bytes T2 = M_Heap.pa_bytes T1)).
  { intros T1 i v T2 H2. eapply P_Heap.pa_set_bytes. exact H2. }
  eapply ens_bind; [apply Hset|]. cbn beta. intros T1 _ H1.
  eapply ens_bind with (P := fun x => M_Heap.pa_bytes (fst (fst (fst x))) = P).
  - apply ens_for_down_s; [exact H1|]. intros i [[[T2 prevS] q] j] H2. cbn [fst] in H2. apply ens_skip. intros ti _. apply ens_skip. intros ti1 _.
    destruct (ti <? ti1); [apply ens_ok; exact H2|]. destruct (ti1 <? ti); [|apply ens_ok; exact H2].
    destruct prevS; [|apply ens_ok; exact H2]. apply ens_skip. intros name _. eapply ens_bind; [apply Hset|]. cbn beta. intros T3 _ H3.
    apply ens_ok. cbn [fst]. congruence.
  - intros [[[T2 prevS] q] j] _ H2. cbn [fst] in H2. intros T3 H3. rewrite (Hset _ _ _ _ H3). lia.
Qed.

(** * sais: number of LMS suffixes *)
Lemma stage1_count E W s T fs n k : 0 <= n -> ens (stage1 E W s T fs n k) (fun x => 0 <= snd (fst x) <= n).
Proof.
  intros Hn. unfold stage1. destruct (choose_buckets s n k fs) as [[s1 C] B]. apply ens_skip. intros s2 _. apply ens_skip. intros s3 _.
  apply ens_skip. intros s4 _. apply ens_skip. intros s5 _. apply ens_skip. intros s6 _. cbv zeta.
  eapply ens_bind with (P := fun x => 0 <= snd x <= n).
  - unfold compact_lms. apply (ens_for_up (fun i x => 0 <= snd x <= i)); [lia|cbn; lia|]. intros i [s7 m] Hi Hm. cbn [snd] in Hm.
    apply ens_skip. intros p _. destruct (0 <? p); [|apply ens_ok; cbn [snd]; lia]. apply ens_skip. intros pv _. apply ens_skip. intros c0 _.
    destruct (c0 <? pv); [|apply ens_ok; cbn [snd]; lia]. apply ens_skip. intros [j c1] _.
    destruct (_ && _); [|apply ens_ok; cbn [snd]; lia]. apply ens_skip. intros s8 _. apply ens_ok. cbn [snd]. lia.
  - intros [s7 m] _ Hm. cbn [snd] in Hm. apply ens_skip. intros s8 _. apply ens_skip. intros [s9 j] _. apply ens_skip. intros [s10 name] _.
    apply ens_ok. cbn [fst snd]. exact Hm.
Qed.
Lemma sstage1_count E W OP s T fs n k : 0 <= n -> ens (sstage1 E W OP s T fs n k) (fun x => 0 <= snd (fst x) <= n).
Proof.
  intros Hn. unfold sstage1. destruct (schoose_buckets OP s n k fs) as [[s1 C] B]. apply ens_skip. intros s2 _. apply ens_skip. intros s3 _.
  apply ens_skip. intros s4 _. apply ens_skip. intros s5 _. apply ens_skip. intros s6 _. cbv zeta.
  eapply ens_bind with (P := fun x => 0 <= snd x <= n).
  - unfold scompact_lms. apply (ens_for_up (fun i x => 0 <= snd x <= i)); [lia|cbn; lia|]. intros i [s7 m] Hi Hm. cbn [snd] in Hm.
    apply ens_skip. intros p _. destruct (0 <? p); [|apply ens_ok; cbn [snd]; lia]. apply ens_skip. intros pv _. apply ens_skip. intros c0 _.
    destruct (c0 <? pv); [|apply ens_ok; cbn [snd]; lia]. apply ens_skip. intros [j c1] _.
    destruct (_ && _); [|apply ens_ok; cbn [snd]; lia]. apply ens_skip. intros s8 _. apply ens_ok. cbn [snd]. lia.
  - intros [s7 m] _ Hm. cbn [snd] in Hm. apply ens_skip. intros s8 _. apply ens_skip. intros [s9 j] _. apply ens_skip. intros [s10 name] _.
    apply ens_ok. cbn [fst snd]. exact Hm.
Qed.
