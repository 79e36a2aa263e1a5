(** create_shortened_string, the suffix array of the reduced text, and record pointers. *)
From Verif Require Import Base M_PackedArray M_HashTable M_Sais M_Induce M_Flbwt Spec Count Text Induced Keys P_PackedArray P_SaisMem P_SaisInduce P_Sais
  P_Bytes P_HashTable P_HashTable2 P_Extract P_Sort P_Names.
From Coq Require Import ZifyBool.
Open Scope Z_scope.

(** index of a string in the sorted list *)
Fixpoint posn (s : list Z) (l : list (Z * list Z)) : Z :=
  match l with
  | [] => 0
  | (_, x) :: l => if list_eq_dec Z.eq_dec s x then 0 else 1 + posn s l
  end.
Lemma posn_in s l : In s (map snd l) -> 0 <= posn s l < zln l /\ snd (onth l (posn s l)) = s.
Proof.
  induction l as [|[q x] l IH]; intros H; [contradiction|]. cbn [posn map snd length] in *.
  destruct (list_eq_dec Z.eq_dec s x) as [->|Hne]; [split; [lia|reflexivity]|].
  destruct H as [H|H]; [congruence|]. destruct (IH H) as [H1 H2]. split; [lia|].
  unfold onth in *. replace (Z.to_nat (1 + posn s l)) with (S (Z.to_nat (posn s l))) by lia. exact H2.
Qed.

(** bwt_branch with another continuation in place of induce_bwt *)
Definition branch_with {A} (cont : arr Z -> res A) (E : env) (W : Z) (Sv : arr Z) (T1 : packed) (co : container) : res A :=
  match c_ht co with
  | None => Err NullDeref
  | Some h =>
    let total := u64 (c_num co + 2) in
    let T1_length := u64 (c_num co + 1) in
    let k := u64 (c_uniq co + 2) in
    s <- sais E W DEPTH (mkst (anew total) (anew 0)) (TPack (pa_arr T1) (pa_bits T1)) 0 T1_length k ;;
    SA <- for_up 0 (c_num co + 1) (fun i SA => v <- aget SA i ;; _ <- fits W (v + 1) ;; aset SA i (v + 1)) (mem s) ;;
    SA <- for_up 0 (c_num co + 1) (fun i SA =>
        p <- aget SA i ;;
        name <- pa_get E T1 (p - 1) ;;
        q <- aget Sv name ;;
        l <- get_length E (ht_buf h) q ;;
        fc <- get_first_character_pointer E (ht_buf h) q ;;
        _ <- fits W (fc + l - 1 - c_bwp_base co) ;;
        aset SA i (fc + l - 1 - c_bwp_base co)) SA ;;
    cont SA
  end.

Section Create.
Context (E : env) (hts : Z) (T : arr Z) (t : Z -> Z) (n : Z).
Context (Hts : 1 <= hts <= 2 ^ 48) (Hn : 3 <= n <= 2 ^ 58).
Context (HT : forall i, 0 <= i <= n -> av T i = Some (t i)).
Context (Hb : forall i, 0 <= i < n -> 0 <= t i < 256) (Hz : 0 <= t n < 256).
Context (Hstar : star_order t n).
Notation isS := (isS t n).
Notation LMS := (LMS t n).
Notation nx := (nx t n).
Notation sub := (sub t n).
Notation slt := (slt t n).
Notation he := (nx 0).
Notation m := (cnt LMS 0 n).
Notation lms := (sel LMS 0 n).
Context (co co' : container) (Sv : arr Z) (h : htable) (own role : Z -> Z) (ch : Z -> list (Z * list Z)) (en : Z -> Z)
    (ol : list (Z * list Z)) (pos mn : Z).
Context (Hex : extracted E hts t n co).
Context (Hso : sorted_st E hts t n co co' Sv h own role ch en ol pos mn).
Notation u := (zln ol).
Notation buf := (ht_buf h).

(** the name of the S* substring at e *)
Definition nam (e : Z) : Z := 1 + posn (sub e) ol.
Definition qrec (e : Z) : Z := fst (onth ol (posn (sub e) ol)).

Lemma sub_ol e : LMS e = true -> In (sub e) (map snd ol).
Proof.
  intros He. pose proof (LMS_bound t n e He).
  destruct (proj2 (so_str _ _ _ _ _ _ _ _ _ _ _ _ _ _ _ Hso (sub e))) as (hv & Hhv & Hin).
  { exists e. split; [lia|]. split; [assumption|reflexivity]. }
  apply in_map_iff in Hin as ([q x] & Hx & Hin). cbn [snd] in Hx. subst x.
  rewrite (so_hts _ _ _ _ _ _ _ _ _ _ _ _ _ _ _ Hso) in Hhv.
  assert (Hr : In (q, sub e) (allrec ch hts)) by (apply in_allrec; exists hv; split; assumption).
  apply (Permutation_in _ (Permutation_sym (so_perm _ _ _ _ _ _ _ _ _ _ _ _ _ _ _ Hso))) in Hr.
  apply (in_map snd) in Hr. exact Hr.
Qed.
Lemma nam_range e : LMS e = true -> 1 <= nam e <= u.
Proof. intros He. destruct (posn_in _ _ (sub_ol e He)). unfold nam. lia. Qed.
Lemma nam_rec e : LMS e = true -> onth ol (nam e - 1) = (qrec e, sub e).
Proof.
  intros He. destruct (posn_in _ _ (sub_ol e He)) as [H1 H2]. unfold nam, qrec. replace (1 + posn (sub e) ol - 1) with (posn (sub e) ol) by lia.
  rewrite <- H2 at 3. destruct (onth ol _); reflexivity.
Qed.
Lemma rec_inch e : LMS e = true -> exists hv, inch h ch hv (qrec e) (sub e).
Proof.
  intros He. pose proof (nam_range e He). pose proof (onth_in ol (nam e - 1) ltac:(lia)) as Hin. rewrite nam_rec in Hin by assumption.
  apply (Permutation_in _ (so_perm _ _ _ _ _ _ _ _ _ _ _ _ _ _ _ Hso)) in Hin.
  apply (allrec_inch h ch). rewrite (so_hts _ _ _ _ _ _ _ _ _ _ _ _ _ _ _ Hso). exact Hin.
Qed.
Lemma rec_recd e : LMS e = true -> recd E (name_bytes n) buf (qrec e) (sub e).
Proof.
  intros He. destruct (rec_inch e He) as (hv & Hic).
  pose proof (inch_rec E h own role ch en (so_inv _ _ _ _ _ _ _ _ _ _ _ _ _ _ _ Hso) hv _ _ Hic) as (_ & _ & _ & A & _).
  rewrite (so_nb _ _ _ _ _ _ _ _ _ _ _ _ _ _ _ Hso) in A. exact A.
Qed.
Lemma rec_below e : LMS e = true -> mn <= qrec e /\ 0 < qrec e /\ qrec e + rsize (name_bytes n) (zln (sub e)) <= pos.
Proof.
  intros He. pose proof (nam_range e He). pose proof (onth_in ol (nam e - 1) ltac:(lia)) as Hin. rewrite nam_rec in Hin by assumption.
  split; [apply (so_mnle _ _ _ _ _ _ _ _ _ _ _ _ _ _ _ Hso _ _ Hin)|]. apply (so_below _ _ _ _ _ _ _ _ _ _ _ _ _ _ _ Hso _ _ Hin).
Qed.

Lemma nam_eq e f : LMS e = true -> LMS f = true -> nam e = nam f -> sub e = sub f.
Proof. intros He Hf H. pose proof (nam_rec e He) as H1. pose proof (nam_rec f Hf) as H2. rewrite H in H1. congruence. Qed.
Lemma nam_lt e f : LMS e = true -> LMS f = true -> nam e < nam f -> star_lt (sub e) (sub f) = true.
Proof.
  intros He Hf H. pose proof (nam_range e He). pose proof (nam_range f Hf).
  pose proof (ss_nth _ (0, @nil Z) ol (so_sorted _ _ _ _ _ _ _ _ _ _ _ _ _ _ _ Hso) (Z.to_nat (nam e - 1)) (Z.to_nat (nam f - 1)) ltac:(lia)) as Hs.
  cbn beta in Hs. fold (onth ol (nam e - 1)) in Hs. fold (onth ol (nam f - 1)) in Hs.
  rewrite !nam_rec in Hs by assumption. exact Hs.
Qed.
Lemma u_le_m : u <= m.
Proof. pose proof (ex_ub _ _ _ _ _ Hex). rewrite (so_u _ _ _ _ _ _ _ _ _ _ _ _ _ _ _ Hso) in H. exact H. Qed.

Lemma find_nam e : LMS e = true -> find_name E h T (zln (sub e)) e = Ok (nam e).
Proof.
  intros He. destruct (rec_inch e He) as (hv & Hic). pose proof (sub_len_LMS t n e He) as [_ Hl].
  pose proof (nam_range e He) as Hr. pose proof u_le_m. pose proof (LMS_half t n ltac:(lia)).
  pose proof (name_bytes_ok n ltac:(lia)) as [Hn1 Hn2]. assert (2 * (n / 2) <= n) by (apply Z.mul_div_le; lia).
  assert (Hdiv : m <= n / 2) by (apply Z.div_le_lower_bound; lia).
  apply (find_name_ok E h own role ch en (so_inv _ _ _ _ _ _ _ _ _ _ _ _ _ _ _ Hso) T e (sub e) hv (qrec e)); try assumption; try lia.
  - apply (sub_tseg T t n HT e He).
  - rewrite (so_nb _ _ _ _ _ _ _ _ _ _ _ _ _ _ _ Hso). lia.
  - rewrite (so_nb _ _ _ _ _ _ _ _ _ _ _ _ _ _ _ Hso).
    pose proof (so_names _ _ _ _ _ _ _ _ _ _ _ _ _ _ _ Hso (nam e - 1) ltac:(lia)) as Hen.
    unfold noff in Hen. rewrite nam_rec in Hen by assumption. cbn [fst snd] in Hen. replace (nam e - 1 + 1) with (nam e) in Hen by lia.
    exact Hen.
Qed.

Definition bitsT1 : Z := Z.log2 (u + 1) + 1.
Theorem create_ok : wp (create_shortened_string E T n co') (fun T1 =>
  pa_wf T1 /\ pa_bits T1 = bitsT1 /\ pa_len T1 = m + 2 /\
  pa_val E T1 0 = u + 1 /\ pa_val E T1 (m + 1) = 0 /\
  forall e, LMS e = true -> pa_val E T1 (1 + cnt LMS 0 e) = nam e).
Proof.
  unfold create_shortened_string. rewrite (so_ht _ _ _ _ _ _ _ _ _ _ _ _ _ _ _ Hso).
  rewrite (so_num _ _ _ _ _ _ _ _ _ _ _ _ _ _ _ Hso), (so_uniq _ _ _ _ _ _ _ _ _ _ _ _ _ _ _ Hso).
  rewrite (so_u _ _ _ _ _ _ _ _ _ _ _ _ _ _ _ Hso), (ex_num _ _ _ _ _ Hex).
  pose proof u_le_m as Hum. pose proof (LMS_half t n ltac:(lia)) as Hhalf. pose proof (cnt_nonneg LMS 0 n) as Hm0.
  assert (E1 : u64 (m + 2) = m + 2) by (unfold u64; apply wrap_small; lia). rewrite E1.
  assert (E2 : u64 (u + 1) = u + 1) by (unfold u64; apply wrap_small; lia). rewrite E2.
  rewrite position_of_msb_ok by lia. cbn [bind]. fold bitsT1.
  pose proof (Z.log2_spec (u + 1) ltac:(lia)) as [_ Hlog]. pose proof (Z.log2_nonneg (u + 1)).
  assert (Hlb : Z.log2 (u + 1) < 58) by (apply Z.log2_lt_pow2; lia).
  replace (Z.succ (Z.log2 (u + 1))) with bitsT1 in Hlog by (unfold bitsT1; lia).
  assert (Hbt : 1 <= bitsT1 <= 59) by (unfold bitsT1; lia).
  pose proof (pa_new_wf (m + 2) bitsT1 ltac:(lia) ltac:(lia) ltac:(nia)) as Hwf0.
  destruct (pa_set_ok E (pa_new (m + 2) bitsT1) (m + 2 - 1) 0) as (T1a & Hs1 & Hwf1 & Hb1 & Hl1 & Hv1); try assumption.
  { unfold pa_new. cbn [pa_len]. lia. }
  { unfold pa_new. cbn [pa_bits]. lia. }
  unfold pa_new in Hb1, Hl1, Hv1; cbn [pa_len pa_bits] in Hb1, Hl1, Hv1. cbv zeta. rewrite Hs1. cbn [bind].
  eapply wp_bind_mono.
  { apply (wp_for_down (fun i '(T1, prevS, q, j) =>
      pa_wf T1 /\ pa_bits T1 = bitsT1 /\ pa_len T1 = m + 2 /\ pa_val E T1 (m + 1) = 0 /\ prevS = isS (i + 1) /\
      q = nx (i + 2) /\ j = cnt LMS 0 (i + 2) /\
      forall e, i + 2 <= e < n -> LMS e = true -> pa_val E T1 (1 + cnt LMS 0 e) = nam e)); [lia| |].
    - split; [assumption|]. split; [assumption|]. split; [assumption|].
      split. { rewrite Hv1 by lia. replace (m + 1 =? m + 2 - 1) with true by lia. reflexivity. }
      replace (n - 2 + 1) with (n - 1) by lia. rewrite isS_last. replace (n - 2 + 2) with n by lia. rewrite nx_n by lia.
      split; [reflexivity|]. split; [reflexivity|]. split; [lia|]. intros; lia.
    - intros i [[[T1 prevS] q] j] Hi (Hwf & Hbb & Hll & Hlast & -> & -> & -> & Hvals).
      rewrite (aget_ok _ _ _ (HT i ltac:(lia))). cbn [bind].
      rewrite (aget_ok _ _ _ (HT (i + 1) ltac:(lia))). cbn [bind].
      assert (HLMS : LMS (i + 1) = isS (i + 1) && negb (isS i)).
      { unfold Text.LMS. replace (i + 1 - 1) with i by lia. lia. }
      pose proof (isS_step t n i ltac:(lia)) as Hst.
      replace (i - 1 + 2) with (i + 1) in * by lia. replace (i - 1 + 1) with i in * by lia.
      assert (Hc1 : cnt LMS 0 (i + 2) = cnt LMS 0 (i + 1) + if LMS (i + 1) then 1 else 0).
      { replace (i + 2) with (i + 1 + 1) by lia. apply cnt_snoc. lia. }
      assert (Hkeep : LMS (i + 1) = false -> nx (i + 2) = nx (i + 1) /\ cnt LMS 0 (i + 2) = cnt LMS 0 (i + 1) /\
         forall e, i + 1 <= e < n -> LMS e = true -> pa_val E T1 (1 + cnt LMS 0 e) = nam e).
      { intros HnL. split; [rewrite (nx_step t n (i + 1)) by (assumption || lia); f_equal; lia|].
        split; [rewrite Hc1, HnL; lia|]. intros e He HeL. apply Hvals; [|assumption].
        destruct (Z.eq_dec e (i + 1)) as [->|]; [congruence|lia]. }
      destruct (Z.ltb_spec (t i) (t (i + 1))) as [Hlt|Hge].
      { cbn [wp]. destruct (Hkeep ltac:(lia)) as (-> & -> & Hv).
        split; [assumption|]. split; [assumption|]. split; [assumption|]. split; [assumption|].
        split; [lia|]. split; [reflexivity|]. split; [reflexivity|assumption]. }
      destruct (Z.ltb_spec (t (i + 1)) (t i)) as [Hlt|Hge2].
      2: { cbn [wp]. destruct (Hkeep ltac:(lia)) as (-> & -> & Hv).
        split; [assumption|]. split; [assumption|]. split; [assumption|]. split; [assumption|].
        split; [lia|]. split; [reflexivity|]. split; [reflexivity|assumption]. }
      destruct (isS (i + 1)) eqn:HS1.
      2: { cbn [wp]. destruct (Hkeep ltac:(lia)) as (-> & -> & Hv).
        split; [assumption|]. split; [assumption|]. split; [assumption|]. split; [assumption|].
        split; [lia|]. split; [reflexivity|]. split; [reflexivity|assumption]. }
      assert (HnL : LMS (i + 1) = true) by lia. rewrite HnL in Hc1.
      pose proof (sub_len_LMS t n (i + 1) HnL) as [Hsl Hsl2]. replace (i + 1 + 1) with (i + 2) in Hsl by lia.
      assert (E3 : u64 (nx (i + 2) - (i + 1) + 1) = zln (sub (i + 1))).
      { unfold u64. rewrite wrap_small; lia. }
      rewrite E3. rewrite find_nam by assumption. cbn [bind].
      pose proof (nam_range (i + 1) HnL) as Hnr.
      pose proof (cnt_nonneg LMS 0 (i + 1)). pose proof (cnt_mono_hi LMS 0 (i + 2) n ltac:(lia)).
      destruct (pa_set_ok E T1 (cnt LMS 0 (i + 2)) (nam (i + 1))) as (T2 & Hs2 & Hwf2 & Hb2 & Hl2 & Hv2); try assumption; try lia.
      { rewrite Hbb. lia. }
      rewrite Hs2. cbn [bind wp].
      split; [assumption|]. split; [congruence|]. split; [congruence|].
      split. { rewrite Hv2 by lia. replace (m + 1 =? cnt LMS 0 (i + 2)) with false by lia. assumption. }
      split; [lia|]. split; [rewrite nx_LMS by assumption; reflexivity|]. split; [lia|].
      intros e He HeL. pose proof (cnt_mono_hi LMS 0 e n ltac:(lia)). pose proof (cnt_nonneg LMS 0 e).
      rewrite Hv2 by lia. destruct (Z.eq_dec e (i + 1)) as [->|].
      + replace (1 + cnt LMS 0 (i + 1) =? cnt LMS 0 (i + 2)) with true by lia. reflexivity.
      + pose proof (cnt_lt_hi LMS 0 (i + 1) e ltac:(lia) HnL).
        replace (1 + cnt LMS 0 e =? cnt LMS 0 (i + 2)) with false by lia. apply Hvals; [lia|assumption]. }
  cbn beta. intros [[[T1 prevS] q] j] (Hwf & Hbb & Hll & Hlast & -> & -> & -> & Hvals).
  destruct (pa_set_ok E T1 0 (u + 1)) as (T2 & Hs2 & Hwf2 & Hb2 & Hl2 & Hv2); try assumption; try lia.
  { rewrite Hbb. lia. }
  rewrite Hs2. cbn [wp]. split; [assumption|]. split; [congruence|]. split; [congruence|].
  split. { rewrite Hv2 by lia. reflexivity. }
  split. { rewrite Hv2 by lia. replace (m + 1 =? 0) with false by lia. assumption. }
  intros e HeL. pose proof (LMS_bound t n e HeL). pose proof (cnt_mono_hi LMS 0 e n ltac:(lia)). pose proof (cnt_nonneg LMS 0 e).
  rewrite Hv2 by lia. replace (1 + cnt LMS 0 e =? 0) with false by lia. apply Hvals; [lia|assumption].
Qed.

(** * Pointers of text positions *)
Definition hptr : Z := pos + 2 + lenlen (he + 1).
Definition ptr (x : Z) : Z :=
  if cnt LMS 0 x =? 0 then hptr + x
  else let e := lms (cnt LMS 0 x - 1) in qrec e + 2 + lenlen (zln (sub e)) + (x - e).

Lemma he_spec : 1 <= he <= n /\ (he = n \/ LMS he = true) /\ cnt LMS 0 he = 0.
Proof.
  pose proof (nx_spec t n 0 ltac:(lia)) as (H1 & H2 & H3). split; [|split; assumption].
  destruct (Z.eq_dec he 0) as [He|]; [|lia]. rewrite He in H2. destruct H2 as [H2|H2]; [lia|discriminate].
Qed.
Lemma lms0 : lms 0 = he.
Proof.
  pose proof he_spec as (H1 & [H2|H2] & H3).
  - rewrite lms_out; [lia|]. rewrite H2 in H3. lia.
  - replace (lms 0) with (lms (cnt LMS 0 he)) by (rewrite H3; reflexivity). apply sel_cnt; [|assumption]. pose proof (LMS_bound t n _ H2). lia.
Qed.
Lemma piece x : 0 <= x <= n ->
  (cnt LMS 0 x = 0 /\ x <= he) \/
  (exists e, LMS e = true /\ e < x <= nx (e + 1) /\ cnt LMS 0 x = 1 + cnt LMS 0 e).
Proof.
  intros Hx. pose proof (cnt_nonneg LMS 0 x) as Hc0. destruct (Z.eq_dec (cnt LMS 0 x) 0) as [Hc|Hc].
  - left. split; [assumption|]. pose proof he_spec as (H1 & [H2|H2] & H3); [lia|].
    destruct (Z_le_gt_dec x he); [assumption|]. pose proof (cnt_pos LMS he 0 x ltac:(lia) H2). lia.
  - right. pose proof (cnt_mono_hi LMS 0 x n ltac:(lia)).
    destruct (lms_spec t n (cnt LMS 0 x - 1) ltac:(lia)) as [HL He]. set (e := lms (cnt LMS 0 x - 1)) in *.
    pose proof (LMS_bound t n e HL) as Hbe. exists e. split; [assumption|]. split; [|lia].
    assert (e < x).
    { destruct (Z_lt_ge_dec e x); [assumption|]. pose proof (cnt_mono_hi LMS 0 x e ltac:(lia)). lia. }
    split; [assumption|]. destruct (Z_le_gt_dec x (nx (e + 1))); [assumption|].
    pose proof (nx_gt t n e HL) as Hg. destruct (nx_spec t n (e + 1) ltac:(lia)) as (_ & [H2|H2] & _); [lia|].
    pose proof (cnt_lt_hi LMS 0 e (nx (e + 1)) ltac:(lia) HL). pose proof (cnt_lt_hi LMS 0 (nx (e + 1)) x ltac:(lia) H2). lia.
Qed.
Lemma ptr_head x : cnt LMS 0 x = 0 -> ptr x = hptr + x.
Proof. intros H. unfold ptr. rewrite H. reflexivity. Qed.
Lemma ptr_piece e x : LMS e = true -> cnt LMS 0 x = 1 + cnt LMS 0 e ->
  ptr x = qrec e + 2 + lenlen (zln (sub e)) + (x - e).
Proof.
  intros He H. pose proof (cnt_nonneg LMS 0 e). pose proof (LMS_bound t n e He). unfold ptr.
  replace (cnt LMS 0 x =? 0) with false by lia. replace (cnt LMS 0 x - 1) with (cnt LMS 0 e) by lia.
  rewrite sel_cnt by (assumption || lia). reflexivity.
Qed.
Lemma piece_chr e x : LMS e = true -> e <= x <= nx (e + 1) ->
  bget E buf (qrec e + 2 + lenlen (zln (sub e)) + (x - e)) = Ok (t x).
Proof.
  intros He Hx. pose proof (sub_len_LMS t n e He) as [Hl _]. rewrite (rc_str _ _ _ _ _ (rec_recd e He)) by lia.
  rewrite sub_nth by lia. f_equal. f_equal. lia.
Qed.

Lemma ptr_chr x : 0 <= x <= n -> bget E buf (ptr x) = Ok (t x).
Proof.
  intros Hx. destruct (piece x Hx) as [(Hc & Hxh)|(e & He & Hxe & Hc)].
  - rewrite ptr_head by assumption. apply (so_hstr _ _ _ _ _ _ _ _ _ _ _ _ _ _ _ Hso). lia.
  - rewrite (ptr_piece e) by assumption. apply piece_chr; [assumption|lia].
Qed.
Lemma ptr_prev x : 1 <= x <= n -> bget E buf (ptr x - 1) = Ok (t (x - 1)).
Proof.
  intros Hx. destruct (piece x ltac:(lia)) as [(Hc & Hxh)|(e & He & Hxe & Hc)].
  - rewrite ptr_head by assumption. replace (hptr + x - 1) with (hptr + (x - 1)) by lia.
    apply (so_hstr _ _ _ _ _ _ _ _ _ _ _ _ _ _ _ Hso). lia.
  - rewrite (ptr_piece e) by assumption. rewrite <- (piece_chr e (x - 1)) by (assumption || lia). f_equal. lia.
Qed.
Lemma ptr_pred x : 1 <= x <= n -> LMS (x - 1) = false -> ptr (x - 1) = ptr x - 1.
Proof.
  intros Hx HL.
  assert (Hcc : cnt LMS 0 x = cnt LMS 0 (x - 1)).
  { pose proof (cnt_snoc LMS 0 (x - 1) ltac:(lia)) as Hs. replace (x - 1 + 1) with x in Hs by lia. rewrite HL in Hs. lia. }
  unfold ptr. rewrite Hcc. destruct (cnt LMS 0 (x - 1) =? 0); lia.
Qed.
Lemma ptr_star x : 1 <= x <= n -> LMS (x - 1) = true -> ptr x = qrec (x - 1) + 2 + lenlen (zln (sub (x - 1))) + 1.
Proof.
  intros Hx HL. rewrite (ptr_piece (x - 1) x); [lia|assumption|].
  pose proof (cnt_snoc LMS 0 (x - 1) ltac:(lia)) as Hs. replace (x - 1 + 1) with x in Hs by lia. rewrite HL in Hs. lia.
Qed.
Lemma ptr_sent x : 1 <= x <= n -> LMS (x - 1) = true \/ x = 1 -> bget E buf (ptr x - 2) = Ok (u8 (t (x - 1) + 1)).
Proof.
  intros Hx [HL| ->].
  - rewrite ptr_star by assumption. pose proof (rc_first _ _ _ _ _ (rec_recd _ HL)) as Hf.
    pose proof (sub_len_LMS t n _ HL). rewrite <- (sub_nth t n (x - 1) 0) in Hf || idtac.
    assert (H0 : nth 0 (sub (x - 1)) 0 = t (x - 1)).
    { change 0%nat with (Z.to_nat 0). rewrite sub_nth by lia. f_equal. lia. }
    rewrite H0 in Hf. rewrite <- Hf. f_equal. lia.
  - assert (Hc : cnt LMS 0 1 = 0) by (apply cnt_false; intros i Hi; replace i with 0 by lia; reflexivity).
    rewrite ptr_head by assumption. unfold hptr. replace (1 - 1) with 0 by lia. rewrite <- (so_hsent _ _ _ _ _ _ _ _ _ _ _ _ _ _ _ Hso). f_equal. lia.
Qed.
Lemma ptr_below e x : LMS e = true -> e <= x <= nx (e + 1) -> mn + 3 <= qrec e + 2 + lenlen (zln (sub e)) + (x - e) < pos.
Proof.
  intros He Hx. pose proof (sub_len_LMS t n e He) as [Hl Hl2]. pose proof (rec_below e He) as (H1 & H2 & H3).
  pose proof (lenlen_spec (zln (sub e)) ltac:(lia)). unfold rsize in H3. pose proof (name_bytes_ok n ltac:(lia)). lia.
Qed.
Lemma ptr_lastptr x : 0 <= x <= n -> (ptr x = c_lastptr co' <-> x = 0).
Proof.
  intros Hx. rewrite (so_last _ _ _ _ _ _ _ _ _ _ _ _ _ _ _ Hso). fold hptr.
  destruct (piece x Hx) as [(Hc & Hxh)|(e & He & Hxe & Hc)].
  - rewrite ptr_head by assumption. lia.
  - rewrite (ptr_piece e) by assumption. pose proof (ptr_below e x He ltac:(lia)). pose proof (LMS_bound t n e He).
    pose proof he_spec. pose proof (lenlen_spec (he + 1) ltac:(lia)). unfold hptr. lia.
Qed.
Lemma ptr_dead x : 1 <= x <= n -> LMS (x - 1) = true -> ptr x - 1 <> c_lastptr co'.
Proof.
  intros Hx HL. rewrite (so_last _ _ _ _ _ _ _ _ _ _ _ _ _ _ _ Hso). fold hptr. rewrite ptr_star by assumption.
  pose proof (nx_gt t n _ HL). pose proof (ptr_below (x - 1) (x - 1) HL ltac:(lia)). pose proof he_spec. pose proof (lenlen_spec (he + 1) ltac:(lia)). unfold hptr. lia.
Qed.
Lemma ptr_range x : 0 <= x <= n -> mn <= ptr x - 1 /\ ptr x < pos + hsize t n.
Proof.
  intros Hx. pose proof he_spec. pose proof (lenlen_spec (he + 1) ltac:(lia)). pose proof (name_bytes_ok n ltac:(lia)).
  pose proof (so_mn _ _ _ _ _ _ _ _ _ _ _ _ _ _ _ Hso).
  unfold hsize, rsize. destruct (piece x Hx) as [(Hc & Hxh)|(e & He & Hxe & Hc)].
  - rewrite ptr_head by assumption. unfold hptr. lia.
  - rewrite (ptr_piece e) by assumption. pose proof (ptr_below e x He ltac:(lia)). lia.
Qed.

(** * The reduced text *)
Definition red (j : Z) : Z := if j <? m then nam (lms j) else 0.
Lemma red_slt i j : 0 <= i <= m -> 0 <= j <= m -> Text.slt red (m + 1) i j = slt (lms i) (lms j).
Proof.
  intros Hi Hj. pose proof (cnt_nonneg LMS 0 n). rewrite slt_sentinel; try lia.
  - apply (reduce_slt t n nam); try assumption.
    + intros e f He Hf H1. apply (sub_eq t n e f He Hf). apply nam_eq; assumption.
    + intros e f He Hf H1. apply (Hstar e f He Hf). apply nam_lt; assumption.
    + intros k Hk. unfold red. replace (k <? m) with true by lia. reflexivity.
  - intros k Hk. unfold red. rewrite Z.ltb_irrefl. replace (k <? m) with true by lia.
    pose proof (lms_spec t n k ltac:(lia)) as [HL _]. pose proof (nam_range _ HL). lia.
Qed.

(** [star] enumerates n and the S* positions in increasing suffix order *)
Record star_seq (star : Z -> Z) : Prop := {
  ss_0 : star 0 = n;
  ss_L : forall i, 1 <= i <= m -> LMS (star i) = true;
  ss_lt : forall i j, 0 <= i -> i < j -> j <= m -> slt (star i) (star j) = true;
  ss_all : forall e, LMS e = true -> exists i, 1 <= i <= m /\ star i = e }.

Theorem branch_with_ok {A} (cont : arr Z -> res A) W T1 Q : In W [32; 40; 48; 56; 64] ->
  m + 2 < 2 ^ (W - 1) -> c_sa_max co' < 2 ^ (W - 1) ->
  pa_wf T1 -> pa_bits T1 = bitsT1 -> pa_len T1 = m + 2 ->
  pa_val E T1 0 = u + 1 -> pa_val E T1 (m + 1) = 0 ->
  (forall e, LMS e = true -> pa_val E T1 (1 + cnt LMS 0 e) = nam e) ->
  (forall SA star, star_seq star -> (forall i, 0 <= i <= m -> av SA i = Some (ptr (star i) - c_bwp_base co')) ->
     wp (cont SA) Q) ->
  wp (branch_with cont E W Sv T1 co') Q.
Proof.
  intros HW HmW HsW Hwf Hbits Hlen H0 Hm1 Hnam Hind.
  assert (HWr : 32 <= W <= 64) by (cbn in HW; lia).
  unfold branch_with. rewrite (so_ht _ _ _ _ _ _ _ _ _ _ _ _ _ _ _ Hso).
  rewrite (so_num _ _ _ _ _ _ _ _ _ _ _ _ _ _ _ Hso), (so_uniq _ _ _ _ _ _ _ _ _ _ _ _ _ _ _ Hso).
  rewrite (so_u _ _ _ _ _ _ _ _ _ _ _ _ _ _ _ Hso), (ex_num _ _ _ _ _ Hex).
  pose proof u_le_m as Hum. pose proof (LMS_half t n ltac:(lia)) as Hhalf. pose proof (cnt_nonneg LMS 0 n) as Hm0.
  assert (E1 : u64 (m + 2) = m + 2) by (unfold u64; apply wrap_small; lia). rewrite E1.
  assert (E2 : u64 (m + 1) = m + 1) by (unfold u64; apply wrap_small; lia). rewrite E2.
  assert (E3 : u64 (u + 2) = u + 2) by (unfold u64; apply wrap_small; lia). rewrite E3.
  set (base := c_bwp_base co') in *.
  assert (HT1 : forall j, 0 <= j <= m -> pa_val E T1 (j + 1) = red j).
  { intros j Hj. unfold red. destruct (Z.ltb_spec j m).
    - destruct (lms_spec t n j ltac:(lia)) as [HL Hc]. rewrite <- (Hnam _ HL). f_equal. lia.
    - replace j with m by lia. assumption. }
  assert (Hrr : forall j, 0 <= j <= m -> 0 <= red j <= u).
  { intros j Hj. unfold red. destruct (Z.ltb_spec j m); [|lia]. destruct (lms_spec t n j ltac:(lia)) as [HL _].
    pose proof (nam_range _ HL). lia. }
  eapply wp_bind_mono.
  { apply (sais_ok E W ltac:(lia) ltac:(lia) DEPTH (mkst (anew (m + 2)) (anew 0)) (TPack (pa_arr T1) (pa_bits T1)) red (m + 1) (u + 2) 0);
      try lia.
    - assert (2 ^ (W - 1) <= 2 ^ Z.of_nat DEPTH); [|lia]. apply Z.pow_le_mono_r; [lia|]. cbn. lia.
    - intros i Hi. specialize (Hrr i ltac:(lia)). lia.
    - assert (2 ^ (W - 1) <= 2 ^ (lw W - 1)); [|lia]. apply Z.pow_le_mono_r; [lia|]. unfold lw. destruct (Z.eqb_spec W 32); lia.
    - cbn [mem]. rewrite alen_new. lia.
    - intros i Hi. cbn [chr]. rewrite Hbits.
      assert (Z.log2 (u + 1) < W - 1) by (apply Z.log2_lt_pow2; lia).
      destruct (Z.eqb_spec (bitsT1) W) as [Hq|_]; [unfold bitsT1 in Hq; lia|]. rewrite <- Hbits. fold (pa_get E T1 (i + 1)). rewrite (proj1 (pa_get_ok E T1 (i + 1) Hwf ltac:(lia))).
      rewrite HT1 by lia. reflexivity. }
  cbn beta. intros s [[Hal _] Hrk]. cbn [mem] in Hal. rewrite alen_new in Hal. cbn [ga] in Hrk.
  pose proof (suf_indord red (m + 1)) as IO. set (rk' := rk (m + 1) (Text.slt red (m + 1))) in *.
  (* inverse of the rank *)
  set (sidx := fun i => match av (mem s) i with Some v => v | None => 0 end).
  assert (Hsi : forall i, 0 <= i <= m -> 0 <= sidx i <= m /\ rk' (sidx i) = i /\ av (mem s) i = Some (sidx i)).
  { intros i Hi. destruct (rk_surj red (m + 1) _ _ IO i ltac:(lia)) as (j & Hj & Hr). fold rk' in Hr.
    specialize (Hrk j Hj). rewrite Hr in Hrk. unfold sidx. rewrite Hrk. split; [lia|]. split; [assumption|reflexivity]. }
  (* add one *)
  eapply wp_bind_mono.
  { apply (wp_for_up (fun k SA => alen SA = m + 2 /\ (forall i, 0 <= i < k -> av SA i = Some (sidx i + 1)) /\
      (forall i, k <= i <= m -> av SA i = Some (sidx i)))); [lia| |].
    - split; [assumption|]. split; [intros; lia|]. intros i Hi. apply Hsi. lia.
    - intros i SA Hi (Hl & Hlo & Hhi). rewrite (aget_ok _ _ _ (Hhi i ltac:(lia))). cbn [bind].
      destruct (Hsi i ltac:(lia)) as (Hs1 & _). rewrite fits_ok by lia. cbn [bind].
      rewrite aset_ok by lia. cbn [wp]. split; [rewrite alen_upd; assumption|]. split.
      + intros j Hj. rewrite av_upd by lia. destruct (Z.eqb_spec j i) as [->|]; [reflexivity|]. apply Hlo. lia.
      + intros j Hj. rewrite av_upd_other by lia. apply Hhi. lia. }
  cbn beta. intros SA1 (Hl1 & HSA1 & _).
  set (star := fun i => lms (sidx i)).
  eapply wp_bind_mono.
  { apply (wp_for_up (fun k SA => alen SA = m + 2 /\ (forall i, 0 <= i < k -> av SA i = Some (ptr (star i) - base)) /\
      (forall i, k <= i <= m -> av SA i = Some (sidx i + 1)))); [lia| |].
    - split; [assumption|]. split; [intros; lia|]. intros i Hi. apply HSA1. lia.
    - intros i SA Hi (Hl & Hlo & Hhi). rewrite (aget_ok _ _ _ (Hhi i ltac:(lia))). cbn [bind].
      destruct (Hsi i ltac:(lia)) as (Hs1 & _). replace (sidx i + 1 - 1) with (sidx i) by lia.
      rewrite (proj1 (pa_get_ok E T1 (sidx i) Hwf ltac:(lia))). cbn [bind].
      assert (Hp : exists q l, av Sv (pa_val E T1 (sidx i)) = Some q /\ get_length E buf q = Ok l /\
          get_first_character_pointer E buf q = Ok (ptr (star i) - l + 1)).
      { unfold star. destruct (Z.eq_dec (sidx i) 0) as [Hs0|Hs0].
        - rewrite Hs0, H0. exists pos, (he + 1). pose proof he_spec as (Hh1 & _ & Hh2).
          split; [apply (so_SvH _ _ _ _ _ _ _ _ _ _ _ _ _ _ _ Hso)|].
          pose proof (so_hlen _ _ _ _ _ _ _ _ _ _ _ _ _ _ _ Hso) as Hlf.
          split; [apply get_length_ok; [lia|assumption]|]. rewrite (get_first_ok _ _ _ _ Hlf). rewrite lms0.
          rewrite ptr_head by assumption. unfold hptr. f_equal. lia.
        - destruct (lms_spec t n (sidx i - 1) ltac:(lia)) as [HL Hc]. set (e := lms (sidx i - 1)) in *.
          pose proof (Hnam e HL) as Hne. replace (1 + cnt LMS 0 e) with (sidx i) in Hne by lia. rewrite Hne.
          pose proof (nam_range e HL) as Hnr. exists (qrec e), (zln (sub e)).
          pose proof (rec_recd e HL) as Hr. pose proof (sub_len_LMS t n e HL) as [Hsl Hsl2].
          split. { pose proof (so_Sv _ _ _ _ _ _ _ _ _ _ _ _ _ _ _ Hso (nam e - 1) ltac:(lia)) as Hsv.
            rewrite nam_rec in Hsv by assumption. cbn [fst] in Hsv. rewrite <- Hsv. f_equal. lia. }
          split; [apply get_length_ok; [lia|apply (rc_lenf _ _ _ _ _ Hr)]|].
          rewrite (get_first_ok _ _ _ _ (rc_lenf _ _ _ _ _ Hr)).
          pose proof (lms_next t n (sidx i - 1) ltac:(lia)) as Hnx. fold e in Hnx. replace (sidx i - 1 + 1) with (sidx i) in Hnx by lia.
          rewrite (ptr_piece e (lms (sidx i)) HL).
          { f_equal. lia. }
          destruct (Z.eq_dec (sidx i) m) as [Hsm|].
          + rewrite lms_out by lia. lia.
          + destruct (lms_spec t n (sidx i) ltac:(lia)) as [_ Hc2]. lia. }
      destruct Hp as (q & l & Hq & Hgl & Hfc). rewrite (aget_ok _ _ _ Hq). cbn [bind]. rewrite Hgl. cbn [bind].
      rewrite Hfc. cbn [bind].
      assert (Hst : 0 <= star i <= n).
      { unfold star. destruct (Z.eq_dec (sidx i) m) as [Hsm|]; [rewrite lms_out by lia; lia|].
        destruct (lms_spec t n (sidx i) ltac:(lia)) as [HL _]. pose proof (LMS_bound t n _ HL). lia. }
      pose proof (ptr_range (star i) Hst) as Hpr.
      pose proof (so_base _ _ _ _ _ _ _ _ _ _ _ _ _ _ _ Hso) as Hbase. fold base in Hbase.
      pose proof (so_samax _ _ _ _ _ _ _ _ _ _ _ _ _ _ _ Hso) as Hsm.
      replace (ptr (star i) - l + 1 + l - 1 - base) with (ptr (star i) - base) by lia.
      rewrite fits_ok by lia. cbn [bind].
      rewrite aset_ok by lia. cbn [wp]. split; [rewrite alen_upd; assumption|]. split.
      + intros j Hj. rewrite av_upd by lia. destruct (Z.eqb_spec j i) as [->|]; [reflexivity|]. apply Hlo. lia.
      + intros j Hj. rewrite av_upd_other by lia. apply Hhi. lia. }
  cbn beta. intros SA2 (Hl2 & HSA2 & _).
  apply (Hind SA2 star); [|intros i Hi; apply HSA2; lia].
  assert (Hlt : forall i j, 0 <= i <= m -> 0 <= j <= m -> i < j -> slt (star i) (star j) = true).
  { intros i j Hi Hj Hij. destruct (Hsi i Hi) as (A1 & A2 & _). destruct (Hsi j Hj) as (B1 & B2 & _).
    unfold star. rewrite <- red_slt by lia. apply (rk_lt red (m + 1) _ _ IO); try lia. fold rk'. lia. }
  assert (Hs0 : sidx 0 = m).
  { destruct (Hsi 0 ltac:(lia)) as (A1 & A2 & _). destruct (Z.eq_dec (sidx 0) m) as [|Hne]; [assumption|].
    assert (Hlt0 : Text.slt red (m + 1) m (sidx 0) = true).
    { rewrite red_slt by lia. rewrite (lms_out t n m) by lia. apply slt_n_l.
      destruct (lms_spec t n (sidx 0) ltac:(lia)) as [HL _]. pose proof (LMS_bound t n _ HL). lia. }
    apply (rk_lt red (m + 1) _ _ IO) in Hlt0; try lia. fold rk' in Hlt0.
    pose proof (rk_range red (m + 1) _ _ IO m ltac:(lia)) as Hr. fold rk' in Hr. lia. }
  constructor.
  - unfold star. rewrite Hs0. apply lms_out. lia.
  - intros i Hi. unfold star. destruct (Hsi i ltac:(lia)) as (A1 & A2 & _). apply lms_spec.
    split; [lia|]. destruct (Z.eq_dec (sidx i) m) as [Hsm|]; [|lia].
    destruct (Hsi 0 ltac:(lia)) as (_ & B2 & _). rewrite Hs0, <- Hsm in B2. lia.
  - intros i j Hi Hij Hj. apply Hlt; lia.
  - intros e He. pose proof (LMS_bound t n e He). pose proof (cnt_nonneg LMS 0 e).
    pose proof (cnt_lt_hi LMS 0 e n ltac:(lia) He) as Hc.
    pose proof (rk_range red (m + 1) _ _ IO (cnt LMS 0 e) ltac:(lia)) as Hr. fold rk' in Hr.
    exists (rk' (cnt LMS 0 e)). specialize (Hrk (cnt LMS 0 e) ltac:(lia)).
    assert (Hse : sidx (rk' (cnt LMS 0 e)) = cnt LMS 0 e) by (unfold sidx; rewrite Hrk; reflexivity).
    split.
    + split; [|lia]. destruct (Z.eq_dec (rk' (cnt LMS 0 e)) 0) as [Hr0|]; [|lia]. rewrite Hr0 in Hse. lia.
    + unfold star. rewrite Hse. apply sel_cnt; [lia|assumption].
Qed.
Theorem branch_ok W T1 Q : In W [32; 40; 48; 56; 64] ->
  m + 2 < 2 ^ (W - 1) -> c_sa_max co' < 2 ^ (W - 1) ->
  pa_wf T1 -> pa_bits T1 = bitsT1 -> pa_len T1 = m + 2 ->
  pa_val E T1 0 = u + 1 -> pa_val E T1 (m + 1) = 0 ->
  (forall e, LMS e = true -> pa_val E T1 (1 + cnt LMS 0 e) = nam e) ->
  (forall SA star, star_seq star -> (forall i, 0 <= i <= m -> av SA i = Some (ptr (star i) - c_bwp_base co')) ->
     wp (induce_bwt E SA co') Q) ->
  wp (bwt_branch E W Sv T1 co') Q.
Proof. exact (branch_with_ok (fun SA => induce_bwt E SA co') W T1 Q). Qed.
End Create.
