(** The number of steps of a whole bwt_string call (M_Cost.v): every part but the walks along the hash chains is linear in the
    length of the text (plus the number of buckets); the walks are at most quadratic. *)
From Verif Require Import Base Spec BlockSpec Count Text Keys M_PackedArray M_Queue M_HashTable M_Cells M_Sais M_Split M_Induce M_Flbwt M_SaisCost M_Cost SortSpec
  P_PackedArray P_Bytes P_Cells P_HashTable P_HashTable2 Sums P_Insert P_Buffer P_Extract P_Sort P_Names P_Create P_Spec P_Lists P_SplitBranch P_Bridge P_Blocks P_Flbwt
  P_SaisCost P_SaisLinear P_Cost P_CostInduce P_CostBranch P_CostHash P_CostSort.
From Coq Require Import ZifyBool.
Open Scope Z_scope.

(** the steps outside the hash chains *)
Definition linear_part (hts n : Z) : Z := 564 * n + 2058 * hts + 23140.
(** the steps of walking the hash chains *)
Definition chain_part (hts n : Z) : Z := 13 * n * (55 * n + 1024 * hts + 284).

Section Is.
Context (pw : Z) (E : env) (srt : sorter) (hts : Z) (T : arr Z) (t : Z -> Z) (n : Z).
Context (Hpw : 0 <= pw).
Context (Hsrt : std_sort srt).
Context (st : sort_time) (Kst : Z) (Hst : sort_bound st n Kst).
Context (Hts : 1 <= hts <= 2 ^ 48) (Hn : 3 <= n <= 2 ^ 58).
Context (HT : forall i, 0 <= i <= n -> av T i = Some (t i)).
Context (Hb : forall i, 0 <= i < n -> 0 <= t i < 256) (Hz : t n = 0).
Notation LMS := (LMS t n).
Context (Hxt : wp (extract_LMS_strings E hts T n) (extracted E hts t n)).
Context (Hfh : fresh_ok E (nx t n 0 + 1)).

Lemma cens_wpc {A} (m : cres A) m' (P : A -> Prop) (Q : A -> Z -> Prop) : drop m = m' -> wp m' P -> cens m Q -> wpc m (fun a c => P a /\ Q a c).
Proof. intros <- Hw Hc. destruct m as [[a c]|e]; cbn in *; [|assumption]. split; [assumption|]. apply Hc. reflexivity. Qed.

(** given bounds for the chains walked while the table is filled and while the shortened string is made *)
Theorem bwt_is_cost_any Kx Kc b :
  cens (extract_steps pw E hts T n) (fun _ c => c <= 1600 + 4 * hts + 57 * n + Kx) ->
  (forall co h own role ch en, c_ht co = Some h -> 0 <= alen (ht_buf h) <= buf_bound hts n + n + 280 -> hinv E h own role ch en ->
     has_strings t n h ch 0 -> HTSIZE h = hts -> cens (create_steps pw E T n co) (fun _ c => c <= 10 + 57 * n + Kc)) ->
  cb (linear_part hts n + Kst + (Kx + Kc)) (bwt_is_steps pw st E srt hts T n b).
Proof.
  intros Hcx Hcc.
  pose (B := buf_bound hts n). assert (HB : 0 <= B) by (unfold B, buf_bound; lia).
  unfold bwt_is_steps.
  apply (cb_wpc _ (fun _ c => c <= linear_part hts n + Kst + (Kx + Kc))).
  - eapply wpc_bind.
    { eapply (cens_wpc _ _ _ _ (d_extract pw E hts T n)); [exact Hxt|exact Hcx]. }
    cbn beta. intros co c1 [Hex Hc1].
    eapply wpc_bind.
    { eapply (cens_wpc _ _ _ _ (d_sort E srt st T co)); [apply (sort_ok E srt hts T t n Hsrt Hts Hn HT Hb (zb _ Hz) Hfh co Hex)|].
      eapply (cens_and _ _ (fun x _ => exists h', c_ht (snd x) = Some h' /\ 0 <= alen (ht_buf h') <= B + n + 280));
        [apply cens_cb, (c_sort E hts srt T t n Hts Hn st Kst Hst co Hex)|].
      destruct (ex_ht _ _ _ _ _ Hex) as (h & own & role & ch & en & Xht & HI & _ & _ & _ & Hnb & Hlen & _).
      pose proof (hi_nb _ _ _ _ _ _ HI). pose proof (hi_buf _ _ _ _ _ _ HI). pose proof (he_range t n Hn).
      eapply cens_mono; [eapply cens_drop; [apply d_sort|apply (sort_buffer E srt T co h (nx t n 0) Xht (ex_head _ _ _ _ _ Hex)); lia]|].
      cbn beta. intros x _ (h' & A1 & A2 & _).
      exists h'. split; [exact A1|]. fold B in Hlen. lia. }
    cbn beta. intros [Sv co'] c2 [(h & own & role & ch & en & ol & pos & mn & Hso) [Hc2 (h' & Hh' & Hl')]]. cbn [snd] in Hh'.
    eapply wpc_bind.
    { eapply (cens_wpc _ _ _ _ (d_create pw E T n co')); [eapply (create_ok E hts T t n); eassumption|].
      pose proof (so_ht _ _ _ _ _ _ _ _ _ _ _ _ _ _ _ Hso) as Hh2. replace h' with h in * by congruence.
      exact (Hcc co' h own role ch en Hh2 Hl' (so_inv _ _ _ _ _ _ _ _ _ _ _ _ _ _ _ Hso) (so_str _ _ _ _ _ _ _ _ _ _ _ _ _ _ _ Hso) (so_hts _ _ _ _ _ _ _ _ _ _ _ _ _ _ _ Hso)). }
    cbn beta. intros T1 c3 [(Hwf & Hbits & Hlen & HT0 & HTl & HTn) Hc3].
    eapply (wpc_bind _ _ (fun _ c => c <= 1)); [destruct b; cbn; lia|]. intros T' c4 Hc4. cbn zeta.
    pose proof (so_max _ _ _ _ _ _ _ _ _ _ _ _ _ _ _ Hso) as Hmax.
    pose proof (so_samax _ _ _ _ _ _ _ _ _ _ _ _ _ _ _ Hso) as Hsm.
    pose proof (so_mn _ _ _ _ _ _ _ _ _ _ _ _ _ _ _ Hso) as Hmn.
    pose proof (so_pos _ _ _ _ _ _ _ _ _ _ _ _ _ _ _ Hso) as Hpos.
    pose proof (LMS_cnt_bound t n Hn 0 ltac:(lia)) as Hm.
    pose proof (cnt_nonneg LMS 0 n) as Hm0.
    assert (Hnum : c_num co' = cnt LMS 0 n).
    { rewrite (so_num _ _ _ _ _ _ _ _ _ _ _ _ _ _ _ Hso). apply (ex_num _ _ _ _ _ Hex). }
    rewrite Hnum. unfold u64. rewrite (wrap_small 64) by lia.
    set (v := if c_sa_max co' <? cnt LMS 0 n + 2 then cnt LMS 0 n + 2 else c_sa_max co').
    assert (Hv : cnt LMS 0 n + 2 <= v /\ c_sa_max co' <= v) by (unfold v; destruct (Z.ltb_spec (c_sa_max co') (cnt LMS 0 n + 2)); lia).
    assert (Hv63 : v < 2 ^ 63) by (unfold v; destruct (Z.ltb_spec (c_sa_max co') (cnt LMS 0 n + 2)); lia).
    rewrite position_of_msb_ok by lia.
    eapply (wpc_bind _ _ (fun x c => x = Z.log2 v + 1 /\ c = 1)); [cbn [tick bind wpc]; split; reflexivity|]. intros bits c5 [-> ->].
    destruct (sa_width_some v ltac:(lia)) as [W HW]. rewrite HW.
    destruct (sa_width_ok v _ W ltac:(lia) eq_refl HW) as [HWin HWv].
    eapply wpc_bind.
    { eapply wpc_lift; [apply d_branch_of| |eapply (branch_cost E hts t n Hn Hb Hz co co' Sv h own role ch en ol pos mn Hex Hso W T1); try eassumption; lia].
      rewrite branch_of_eq. eapply (branch_ok E hts t n Hn (star_slt t n Hb Hz) co co' Sv h own role ch en ol pos mn Hex Hso W T1); try assumption; try lia.
      intros SA star Hss HSA. eapply induce_after_sort; eassumption. }
    cbn beta. intros r c6 [_ Hc6]. cbn [wpc cret].
    unfold linear_part. fold B in Hc2. assert (HBv : B = 512 * hts + 27 * n) by reflexivity. lia.
  - cbn beta. intros a c Hc. exact Hc.
Qed.
Theorem bwt_is_cost b : cb (linear_part hts n + Kst + pw * chain_part hts n) (bwt_is_steps pw st E srt hts T n b).
Proof.
  pose (B := buf_bound hts n). assert (HB : 0 <= B) by (unfold B, buf_bound; lia).
  eapply cb_le.
  - apply (bwt_is_cost_any ((gst pw B + kst pw B - 56) * n) ((gst pw (B + n + 280) + kst pw (B + n + 280) - 56) * n)).
    + eapply cens_mono; [apply c_extract; lia|]. cbn beta. intros _ c Hc. fold B in Hc. lia.
    + intros co h own role ch en Hh Hl _ _ _. fold B in Hl. eapply cens_mono; [apply (c_create pw E hts n Hpw ltac:(lia) T co h (B + n + 280) Hh Hl)|].
      cbn beta. intros _ c Hc. lia.
  - assert (H1 : (gst pw B + kst pw B - 56) * n + (gst pw (B + n + 280) + kst pw (B + n + 280) - 56) * n = pw * chain_part hts n); [|lia].
    unfold chain_part, gst, kst, B, buf_bound. ring.
Qed.
End Is.

(** * List level *)
Theorem bwt_string_time_list pw st K E srt hts T l b : 0 <= pw -> std_sort srt -> sort_bound st (zl l) K -> 1 <= hts <= 2 ^ 48 -> Forall is_byte l -> 3 <= zl l <= 2 ^ 58 ->
  holds T (l ++ [0]) -> fresh_good E hts l ->
  exists r steps, bwt_string_steps pw st hts E srt (Some T) (zl l) b = Ok ((if b then None else Some T, Some r), steps) /\
    bwt_string_gen hts E srt (Some T) (zl l) b = Ok (if b then None else Some T, Some r) /\
    is_BWT l (av (r_BWT r)) (r_last r) /\
    steps <= linear_part hts (zl l) + K + pw * chain_part hts (zl l).
Proof.
  intros Hp Hs HK Hts Hl Hn HT Hf.
  destruct (bwt_string_list E srt hts T l b Hs Hts Hl Hn HT Hf) as (r & Hr & Hrl & HB).
  pose proof (d_string pw st hts E srt (Some T) (zl l) b) as Hd. rewrite Hr in Hd.
  destruct (bwt_string_steps pw st hts E srt (Some T) (zl l) b) as [[x c]|e] eqn:Ec; cbn [drop] in Hd; [|discriminate].
  injection Hd as Hd. exists r, c. split; [rewrite Hd; reflexivity|]. split; [exact Hr|]. split; [exact HB|].
  unfold bwt_string_steps in Ec. destruct (Z.leb_spec (zl l) 0); [lia|].
  exact (bwt_is_cost pw E srt hts T (tl_ l) (zl l) Hp Hs st K HK Hts Hn (holds_tl T l HT) (tl_byte l Hl) (tl_n l)
    (extract_fresh E hts T l Hts Hl Hn HT Hf) (fresh_good_head E hts l Hf) b x c Ec).
Qed.

(** without the time of std::sort *)
Theorem bwt_string_steps_list pw E srt hts T l b : 0 <= pw -> std_sort srt -> 1 <= hts <= 2 ^ 48 -> Forall is_byte l -> 3 <= zl l <= 2 ^ 58 ->
  holds T (l ++ [0]) -> fresh_good E hts l ->
  exists r steps, bwt_string_steps pw untimed hts E srt (Some T) (zl l) b = Ok ((if b then None else Some T, Some r), steps) /\
    bwt_string_gen hts E srt (Some T) (zl l) b = Ok (if b then None else Some T, Some r) /\
    is_BWT l (av (r_BWT r)) (r_last r) /\
    steps <= linear_part hts (zl l) + pw * chain_part hts (zl l).
Proof.
  intros Hp Hs Hts Hl Hn HT Hf.
  destruct (bwt_string_time_list pw untimed 0 E srt hts T l b Hp Hs (untimed_bound _) Hts Hl Hn HT Hf) as (r & c & A & B & C & D).
  exists r, c. repeat (split; [assumption|]). lia.
Qed.
