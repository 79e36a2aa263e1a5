(** How often the string buffer is reallocated, and how much is copied. *)
From Verif Require Import Base Spec BlockSpec Count Text Keys M_PackedArray M_Queue M_HashTable M_Cells M_Sais M_Split M_Induce M_Flbwt M_Moves
  P_PackedArray P_Bytes P_Cells P_HashTable P_HashTable2 Sums P_Insert P_Buffer P_Extract P_Sort P_Names P_Create P_Spec P_Lists P_SplitBranch P_Bridge P_Blocks P_Flbwt.
From Coq Require Import ZifyBool.
Open Scope Z_scope.

(** the buffer is unchanged or grows by a block at least *)
Lemma insert_growth E hts h T m p : hb hts h -> 1 <= m < 2 ^ 60 -> alen (ht_buf h) < 2 ^ 63 ->
  ens (insert_string E h T m p) (fun x => alen (ht_buf (fst x)) = alen (ht_buf h) \/ alen (ht_buf h) + 512 <= alen (ht_buf (fst x))).
Proof.
  intros Hh Hm Hlt. unfold insert_string. apply ens_skip. intros hv _. apply ens_skip. intros q0 _. apply ens_skip. intros sc _.
  destruct sc as [q|q]; [apply ens_ok; left; reflexivity|].
  rewrite calculate_lenlen_ok by lia. cbn [bind]. pose proof (lenlen_le8 m ltac:(lia)) as Hl.
  destruct Hh as [H1 H2 H3 H4 H5].
  set (sp := 1 + 1 + lenlen m + m + NAME_BYTES h). assert (Hu : u64 sp = sp) by (unfold u64; apply wrap_small; subst sp; lia). rewrite Hu.
  apply ens_skip. intros rest Hr.
  eapply ens_bind with (P := fun x => alen (ht_buf (fst x)) = alen (ht_buf h) \/ alen (ht_buf h) + 512 <= alen (ht_buf (fst x))).
  - destruct (_ <=? _); [|apply ens_ok; left; reflexivity].
    rewrite H1. assert (Hu2 : u64 (alen (ht_buf h) + 512 + sp) = alen (ht_buf h) + 512 + sp) by (unfold u64; apply wrap_small; subst sp; lia). rewrite Hu2.
    apply ens_skip. intros rest' _. destruct (q =? 0).
    + apply ens_skip. intros head' _. apply ens_ok. right. cbn [fst ht_buf].
      change (alen (brealloc (ht_buf h) (alen (ht_buf h) + 512 + sp))) with (alen (ht_buf h) + 512 + sp). subst sp; lia.
    + eapply ens_bind; [apply ens_set_pointer|]. cbn beta. intros b' _ Hb'. apply ens_ok. right. cbn [fst ht_buf]. rewrite Hb'.
      change (alen (brealloc (ht_buf h) (alen (ht_buf h) + 512 + sp))) with (alen (ht_buf h) + 512 + sp). subst sp; lia.
  - intros [h1 r] _ B. cbn [fst] in B.
    eapply ens_bind; [apply ens_write_record|]. cbn beta. intros b _ Hb. apply ens_skip. intros rest1 Hr1.
    apply ens_skip. intros rest2 Hr2. apply ens_ok. cbn [fst ht_buf]. rewrite Hb. exact B.
Qed.
Lemma extract_step_growth E hts T n i s : n <= 2 ^ 58 -> 0 <= hts <= 2 ^ 48 -> 0 <= i -> xb hts n i s ->
  ens (extract_step E T i s) (fun s' => alen (ht_buf (x_ht s')) = alen (ht_buf (x_ht s)) \/ alen (ht_buf (x_ht s)) + 512 <= alen (ht_buf (x_ht s'))).
Proof.
  intros Hn Ht Hi Hx. pose proof (xb_bound hts n i s Hx ltac:(lia) ltac:(lia)) as HB. assert (HB2 : buf_bound hts n < 2 ^ 63) by (unfold buf_bound; lia).
  pose proof Hx as [H1 H2 H3 H4]. unfold extract_step. apply ens_skip. intros ti _. apply ens_skip. intros ti1 _. apply ens_skip. intros M _.
  destruct (ti <? ti1); [apply ens_ok; left; reflexivity|].
  destruct (ti1 <? ti); [|apply ens_skip; intros NL _; apply ens_ok; left; reflexivity].
  eapply ens_bind with (P := fun '(ht, C, num, uniq, p, q) => alen (ht_buf ht) = alen (ht_buf (x_ht s)) \/ alen (ht_buf (x_ht s)) + 512 <= alen (ht_buf ht)).
  - destruct (x_prevS s) eqn:Hp; [|apply ens_ok; left; reflexivity].
    cbv zeta. apply ens_skip. intros tp _. apply ens_skip. intros C _.
    assert (Hu : u64 (x_q s - (i + 1) + 1) = x_q s - (i + 1) + 1) by (unfold u64; apply wrap_small; lia). rewrite Hu.
    eapply ens_bind; [apply (insert_growth E hts); [exact H1|lia|unfold buf_bound in *; lia]|]. cbn beta. intros [ht r] _ A. apply ens_ok. exact A.
  - intros [[[[[ht C] num] uniq] p] q] _ A. apply ens_skip. intros NL _. apply ens_ok. exact A.
Qed.

(** after reallocating up to a buffer of L bytes *)
Definition mvb (L : Z) (k : moves) : Prop := 0 <= mv_calls k /\ 0 <= mv_bytes k /\ 512 * mv_calls k <= L /\ 1024 * mv_bytes k <= L * L.
Lemma mvb_grow L L' k : 0 <= L -> mvb L k -> L + 512 <= L' -> mvb L' (moved k L).
Proof. intros HL (A & B & C & D) H. unfold mvb, moved. cbn [mv_calls mv_bytes]. split; [lia|]. split; [lia|]. split; [lia|]. nia. Qed.
Lemma for_down_moves E T n hi s : 
  (let '(s1, k) := (s : xst * moves) in True) ->
  forall f, for_down hi n (extract_step E T) (fst s) = Ok f -> exists k, for_down hi n (extract_step_moves E T) s = Ok (f, k).
Proof.
  intros _. unfold for_down.
  assert (G : forall c i s f, ford_n c i (extract_step E T) (fst s) = Ok f -> exists k, ford_n c i (extract_step_moves E T) s = Ok (f, k)).
  { induction c as [|c IH]; intros i [x k] f H; cbn [ford_n fst] in *.
    - injection H as ->. exists k. reflexivity.
    - binv H. unfold extract_step_moves at 1. rewrite B. cbn [bind]. apply (IH _ (a, _)). exact H. }
  intros f. apply G.
Qed.
Theorem extract_moves_ok E hts T n co : 0 <= hts <= 2 ^ 48 -> 3 <= n <= 2 ^ 58 -> extract_LMS_strings E hts T n = Ok co ->
  exists k h, extract_moves E hts T n = Ok (co, k) /\ c_ht co = Some h /\ mvb (alen (ht_buf h)) k.
Proof.
  intros Ht Hn H. unfold extract_LMS_strings in H. unfold extract_moves. binv H. cbn [bind].
  destruct (Z.leb_spec n 2); [lia|]. binv H. cbn [bind]. binv H. cbn [bind]. binv H. cbn [bind].
  binv H. cbn [bind]. binv H. cbn [bind]. binv H. cbn [bind]. binv H.
  destruct (ht_new_xb hts n a0 a3 a5 a4 ltac:(lia) ltac:(lia) B0) as [Hx Hz].
  destruct (for_down_moves E T 0 (n - 2) (mkxst a0 a3 a5 a4 0 0 false n n, mkmoves 0 0) I _ B6) as [k Hk]. rewrite Hk. cbn [bind].
  exists k, (x_ht a6). split; [congruence|]. split; [injection H as <-; reflexivity|].
  refine (proj2 (ens_for_down (fun i (x : xst * moves) => xb hts n i (fst x) /\ mvb (alen (ht_buf (x_ht (fst x)))) (snd x)) (n - 2) 0
    (extract_step_moves E T) (mkxst a0 a3 a5 a4 0 0 false n n, mkmoves 0 0) ltac:(lia) _ _ (a6, k) Hk)).
  - cbn [fst snd]. split; [exact Hx|]. cbn [x_ht] in *. rewrite Hz. repeat split; cbn; lia.
  - intros i [s k'] Hi [HX HM] [s' k2] Hs'. cbn [fst snd] in *. unfold extract_step_moves in Hs'. binv Hs'. injection Hs' as E1 E2. subst s' k2.
    pose proof (xb_bound hts n i s HX ltac:(lia) ltac:(lia)) as HB.
    split; [exact (extract_step_xb E hts T n i s ltac:(lia) ltac:(lia) HX a7 B7)|].
    destruct (extract_step_growth E hts T n i s ltac:(lia) Ht ltac:(lia) HX a7 B7) as [He|Hg].
    + rewrite He, Z.eqb_refl. exact HM.
    + destruct (Z.eqb_spec (alen (ht_buf (x_ht a7))) (alen (ht_buf (x_ht s)))); [lia|]. apply mvb_grow; [lia|exact HM|exact Hg].
Qed.

(** * List level *)
(** the largest buffer *)
Definition buffer_limit (hts n : Z) : Z := Z.min (512 * hts + 27 * n) (267 * n).
Theorem bwt_string_moves_list E srt hts T l : std_sort srt -> 1 <= hts <= 2 ^ 48 -> Forall is_byte l -> 3 <= zl l <= 2 ^ 58 ->
  holds T (l ++ [0]) -> fresh_good E hts l ->
  exists Sv co calls bytes, let L := buffer_limit hts (zl l) in
    bwt_string_moves E srt hts T (zl l) = Ok (Sv, co, mkmoves calls bytes) /\
    (co1 <- extract_LMS_strings E hts T (zl l) ;; sort_LMS_strings E srt T co1) = Ok (Sv, co) /\
    1 <= calls /\ 512 * (calls - 1) <= L /\ 0 <= bytes /\ 1024 * bytes <= L * (L + 1024).
Proof.
  intros Hs Hts Hl Hn HT Hf.
  destruct (bwt_string_list E srt hts T l false Hs Hts Hl Hn HT Hf) as (r & Hr & _).
  unfold bwt_string_gen in Hr. destruct (Z.leb_spec (zl l) 0); [lia|]. unfold bwt_is in Hr.
  pose proof (extract_fresh E hts T l Hts Hl Hn HT Hf) as Hx.
  destruct (extract_LMS_strings E hts T (zl l)) as [co|e] eqn:Ee; [cbn [bind] in Hr|discriminate Hr]. cbn [wp] in Hx.
  destruct (sort_LMS_strings E srt T co) as [[Sv co']|e] eqn:Es; [clear Hr|discriminate Hr].
  destruct (extract_moves_ok E hts T (zl l) co ltac:(lia) ltac:(lia) Ee) as ([calls bytes] & h & Hm & Hh & A & B & C & D). cbn [mv_calls mv_bytes] in *.
  exists Sv, co', (calls + 1), (bytes + alen (ht_buf h)). cbv zeta.
  split; [unfold bwt_string_moves; rewrite Hm; cbn [bind]; rewrite Es; cbn [bind]; rewrite Hh; reflexivity|].
  split; [exact Es|].
  destruct (ex_ht _ _ _ _ _ Hx) as (h' & own & role & ch & en & Xht & HI & _ & _ & _ & _ & Hlen & _). replace h' with h in * by congruence.
  pose proof (hi_buf _ _ _ _ _ _ HI) as Hb0.
  pose proof (LMS_cnt_bound (tl_ l) (zl l) Hn 0 ltac:(lia)) as Hc.
  assert (HL : alen (ht_buf h) <= buffer_limit hts (zl l)) by (unfold buffer_limit; unfold buf_bound in Hlen; lia).
  split; [lia|]. split; [lia|]. split; [lia|]. nia.
Qed.
