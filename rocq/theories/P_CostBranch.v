(** The number of steps of a branch of bwt_is (suffix sorting of the reduced text, the two loops over the
    suffix array, induce_bwt). *)
From Verif Require Import Base Spec Count Text Induced M_PackedArray M_Queue M_HashTable M_Cells M_Sais M_Split M_Induce M_Flbwt M_SaisCost M_Cost
  P_PackedArray P_Cells P_HashTable P_Extract Keys P_InduceBase Sums P_Induce1 P_Induce2 P_Sort P_Create P_Split P_SplitBranch P_Sais P_SaisCost P_SaisLinear P_Cost P_CostInduce.
From Coq Require Import ZifyBool.
Open Scope Z_scope.

Lemma cbassoc {A B C} (mm : cres A) (f : A -> cres B) (g : B -> cres C) : cbind mm (fun x => cbind (f x) g) = cbind (cbind mm f) g.
Proof.
  destruct mm as [[a c]|]; cbn [cbind bind]; [|reflexivity]. destruct (f a) as [[b d]|]; cbn [cbind bind]; [|reflexivity].
  destruct (g b) as [[x e]|]; cbn [cbind bind]; [|reflexivity]. rewrite Z.add_assoc. reflexivity.
Qed.
Lemma cbind_ext {A B} (m : cres A) (f g : A -> cres B) : (forall a, f a = g a) -> cbind m f = cbind m g.
Proof. intros H. destruct m as [[a c]|]; cbn [cbind bind]; [rewrite H|]; reflexivity. Qed.

Lemma cb_tok {A B} K (a : A) (f : A -> cres B) : cb K (f a) -> cb (1 + K) (cbind (tick (Ok a)) f).
Proof. intros H b c. cbn [tick bind cbind]. destruct (f a) as [[b' c']|e] eqn:Ef; [|discriminate]. intros Hq. specialize (H b' c' eq_refl). apply ok_snd in Hq. lia. Qed.

(** * Split cells take one step more per array *)
Lemma cb_alloc {A B R} j K (a : A) (b : B) (f : A -> cres R) (g : B -> cres R) : crel eq (g b) (f a) ->
  cb K (cbind (tick (Ok a)) f) -> cb (K + (j - 1)) (cbind (cscale j (tick (Ok b))) g).
Proof.
  intros Hc Hk r c H. unfold crel, rrel in Hc. cbn [cscale tick bind cbind] in *.
  destruct (g b) as [[r1 c1]|e]; [|discriminate]. destruct (f a) as [[r2 c2]|e] eqn:Ef; [|destruct Hc]. cbn [fst snd] in Hc. destruct Hc as [-> ->].
  assert (H1 : j * 1 + c2 = c) by (injection H; auto). specialize (Hk r2 (1 + c2) eq_refl). lia.
Qed.
Lemma crel_refl {A} (m : cres A) : crel eq m m.
Proof. destruct m as [[a c]|e]; cbn; auto. Qed.
Lemma cfill_ext E buf base num r1 r2 Q : (forall i, r1 i = r2 i) -> fill_steps E buf base num r1 Q = fill_steps E buf base num r2 Q.
Proof.
  intros H. unfold fill_steps, cfor_down. generalize (Z.to_nat (num - 0 + 1)) as c. intros c. generalize num as i. revert Q.
  induction c as [|c IH]; intros Q i; cbn [cford_n]; [reflexivity|]. apply cbind_ext. intros _. rewrite H. apply cbind_ext. intros. apply IH.
Qed.
Lemma cinduce_ext E r1 r2 co : (forall i, r1 i = r2 i) -> induce_steps E r1 co = induce_steps E r2 co.
Proof.
  intros H. unfold induce_steps. destruct (c_ht co) as [h|]; [|reflexivity]. cbn zeta. apply cbind_ext. intros Q.
  rewrite (cfill_ext E _ _ _ r1 r2) by assumption. reflexivity.
Qed.
Lemma branch2_cost E uw Sv T1 co K : 1 <= uw <= 32 -> cb K (branch_steps E (32 + uw) Sv T1 co) -> cb (K + 1) (branch2_steps E uw Sv T1 co).
Proof.
  intros Hu. unfold branch2_steps, branch_steps. destruct (c_ht co) as [h|]; [|intros _ ? ? ?; discriminate]. cbn zeta.
  replace (K + 1) with (K + (2 - 1)) by lia. apply cb_alloc. cbv iota beta.
  apply (crel_bind (srel2 uw)).
  { apply q_2part; [exact Hu|]. split; cbn; apply crel2_new. }
  intros s s' [Hm _].
  apply (crel_bind (fun x a => crel2 uw (fst x) (snd x) a)).
  { apply crel_for_up; [|exact Hm]. intros i [L U] a Ha. cbn [fst snd] in Ha.
    apply crel_eqb; [apply crel_tick; rewrite (crel2_get uw _ _ _ _ Hu Ha); apply rrel_refl|]. intros v. apply crel_tick. apply rrel_fits. intros Hv. apply crel2_set; assumption. }
  intros [L U] a Ha. cbn [fst snd] in Ha.
  apply (crel_bind (fun x a => crel2 uw (fst x) (snd x) a)).
  { apply crel_for_up; [|exact Ha]. clear L U a Ha. intros i [L U] a Ha. cbn [fst snd] in Ha.
    apply crel_eqb; [apply crel_tick; rewrite (crel2_get uw _ _ _ _ Hu Ha); apply rrel_refl|]. intros p.
    do 4 (apply crel_eqb; [apply crel_refl|]; intros ?). apply crel_tick. apply rrel_fits. intros Hv. apply crel2_set; assumption. }
  intros [L' U'] a' Ha'. cbn [fst snd] in Ha'.
  rewrite (cinduce_ext E (get_2part L' U') (aget a')); [apply crel_refl|]. intros i. apply (crel2_get uw); assumption.
Qed.
Lemma branch3_cost E Sv T1 co K : cb K (branch_steps E 56 Sv T1 co) -> cb (K + 2) (branch3_steps E Sv T1 co).
Proof.
  unfold branch3_steps, branch_steps. destruct (c_ht co) as [h|]; [|intros _ ? ? ?; discriminate]. cbn zeta.
  replace (K + 2) with (K + (3 - 1)) by lia. apply cb_alloc. cbv iota beta.
  apply (crel_bind srel3).
  { apply q_3part. split; cbn; apply crel3_new. }
  intros s s' [Hm _].
  apply (crel_bind (fun x a => crel3 (fst (fst x)) (snd (fst x)) (snd x) a)).
  { apply crel_for_up; [|exact Hm]. intros i [[L M] U] a Ha. cbn [fst snd] in Ha.
    apply crel_eqb; [apply crel_tick; rewrite (crel3_get _ _ _ _ _ Ha); apply rrel_refl|]. intros v. apply crel_tick. apply rrel_fits. intros Hv. apply crel3_set; assumption. }
  intros [[L M] U] a Ha. cbn [fst snd] in Ha.
  apply (crel_bind (fun x a => crel3 (fst (fst x)) (snd (fst x)) (snd x) a)).
  { apply crel_for_up; [|exact Ha]. clear L M U a Ha. intros i [[L M] U] a Ha. cbn [fst snd] in Ha.
    apply crel_eqb; [apply crel_tick; rewrite (crel3_get _ _ _ _ _ Ha); apply rrel_refl|]. intros p.
    do 4 (apply crel_eqb; [apply crel_refl|]; intros ?). apply crel_tick. apply rrel_fits. intros Hv. apply crel3_set; assumption. }
  intros [[L' M'] U'] a' Ha'. cbn [fst snd] in Ha'.
  rewrite (cinduce_ext E (get_3part L' M' U') (aget a')); [apply crel_refl|]. intros i. apply crel3_get; assumption.
Qed.
Lemma branch_of_cost E W Sv T1 co K : cb K (branch_steps E W Sv T1 co) -> cb (K + 2) (branch_of_steps E W Sv T1 co).
Proof.
  intros H. unfold branch_of_steps.
  destruct (Z.eqb_spec W 40) as [->|]; [apply (cb_le (K + 1)); [apply (branch2_cost E 8); [lia|assumption]|lia]|].
  destruct (Z.eqb_spec W 48) as [->|]; [apply (cb_le (K + 1)); [apply (branch2_cost E 16); [lia|assumption]|lia]|].
  destruct (Z.eqb_spec W 56) as [->|]; [apply branch3_cost; assumption|]. apply (cb_le K); [assumption|lia].
Qed.

(** * Whole cells *)
(** everything before induce_bwt *)
Definition prep_steps (E : env) (W : Z) (Sv : arr Z) (T1 : packed) (co : container) : cres (arr Z) :=
  match c_ht co with
  | None => Err NullDeref
  | Some h =>
    let total := u64 (c_num co + 2) in
    let T1_length := u64 (c_num co + 1) in
    let k := u64 (c_uniq co + 2) in
    SA <~ tick (Ok (anew total)) ;;
    s <~ csais E W (ops1 W) DEPTH (mkst SA (anew 0)) (TPack (pa_arr T1) (pa_bits T1)) 0 T1_length k ;;
    SA <~ cfor_up 0 (c_num co + 1) (fun i SA => v <~ tick (aget SA i) ;; tick (_ <- fits W (v + 1) ;; aset SA i (v + 1))) (mem s) ;;
    cfor_up 0 (c_num co + 1) (fun i SA =>
        p <~ tick (aget SA i) ;;
        name <~ tick (pa_get E T1 (p - 1)) ;;
        q <~ tick (aget Sv name) ;;
        l <~ tick (get_length E (ht_buf h) q) ;;
        fc <~ tick (get_first_character_pointer E (ht_buf h) q) ;;
        tick (_ <- fits W (fc + l - 1 - c_bwp_base co) ;; aset SA i (fc + l - 1 - c_bwp_base co))) SA
  end.
Lemma branch_prep E W Sv T1 co : branch_steps E W Sv T1 co = cbind (prep_steps E W Sv T1 co) (fun SA => induce_steps E (aget SA) co).
Proof.
  unfold branch_steps, prep_steps. destruct (c_ht co) as [h|]; [|reflexivity]. cbn zeta.
  rewrite <- cbassoc. apply cbind_ext. intros SA. rewrite <- cbassoc. apply cbind_ext. intros s. rewrite <- cbassoc. apply cbind_ext. intros SA'.
  reflexivity.
Qed.
Lemma dr_bret {A} (m : cres A) m' : drop m = m' -> drop m = bind m' Ok.
Proof. intros ->. destruct m'; reflexivity. Qed.
Lemma d_prep E W Sv T1 co : drop (prep_steps E W Sv T1 co) = branch_with Ok E W Sv T1 co.
Proof.
  unfold prep_steps, branch_with. destruct (c_ht co) as [h|]; [|reflexivity]. cbn zeta. apply dr_skip.
  apply dr_bind; [apply dp_sais|intros s]. apply dr_bind; [rdr|intros SA].
  apply dr_bret. rdr.
Qed.

Section Branch.
Context (E : env) (hts : Z) (t : Z -> Z) (n : Z).
Context (Hn : 3 <= n <= 2 ^ 58).
Context (Hb : forall i, 0 <= i < n -> 0 <= t i < 256) (Hz : t n = 0).
Notation LMS := (LMS t n).
Notation m := (cnt LMS 0 n).
Context (co co' : container) (Sv : arr Z) (h : htable) (own role : Z -> Z) (ch : Z -> list (Z * list Z)) (en : Z -> Z)
    (ol : list (Z * list Z)) (pos mn : Z).
Context (Hex : extracted E hts t n co).
Context (Hso : sorted_st E hts t n co co' Sv h own role ch en ol pos mn).
Notation u := (zln ol).
Lemma prep_cost W T1 : In W [32; 40; 48; 56; 64] ->
  m + 2 < 2 ^ (W - 1) -> pa_wf T1 -> pa_bits T1 = bitsT1 ol -> pa_len T1 = m + 2 ->
  pa_val E T1 (m + 1) = 0 ->
  (forall e, LMS e = true -> pa_val E T1 (1 + cnt LMS 0 e) = nam t n ol e) ->
  cb (300 * n + 300) (prep_steps E W Sv T1 co').
Proof.
  intros HW HmW Hwf Hbits Hlen Hm1 Hnam.
  assert (HWr : 32 <= W <= 64) by (cbn in HW; lia).
  unfold prep_steps. rewrite (so_ht _ _ _ _ _ _ _ _ _ _ _ _ _ _ _ Hso).
  rewrite (so_num _ _ _ _ _ _ _ _ _ _ _ _ _ _ _ Hso), (so_uniq _ _ _ _ _ _ _ _ _ _ _ _ _ _ _ Hso).
  rewrite (so_u _ _ _ _ _ _ _ _ _ _ _ _ _ _ _ Hso), (ex_num _ _ _ _ _ Hex).
  assert (Hum : u <= m) by (eapply u_le_m; eassumption). pose proof (LMS_half t n ltac:(lia)) as Hhalf. pose proof (cnt_nonneg LMS 0 n) as Hm0.
  assert (E1 : u64 (m + 2) = m + 2) by (unfold u64; apply wrap_small; lia). rewrite E1.
  assert (E2 : u64 (m + 1) = m + 1) by (unfold u64; apply wrap_small; lia). rewrite E2.
  assert (E3 : u64 (u + 2) = u + 2) by (unfold u64; apply wrap_small; lia). rewrite E3.
  set (rd := red t n ol).
  assert (HT1 : forall j, 0 <= j <= m -> pa_val E T1 (j + 1) = rd j).
  { intros j Hj. unfold rd, red. destruct (Z.ltb_spec j m).
    - destruct (lms_spec t n j ltac:(lia)) as [HL Hc]. rewrite <- (Hnam _ HL). f_equal. lia.
    - replace j with m by lia. assumption. }
  assert (Hrr : forall j, 0 <= j <= m -> 0 <= rd j <= u).
  { intros j Hj. unfold rd, red. destruct (Z.ltb_spec j m); [|lia]. destruct (lms_spec t n j ltac:(lia)) as [HL _].
    assert (1 <= nam t n ol (sel LMS 0 n j) <= u) by (eapply nam_range; eassumption). lia. }
  cbn zeta. eapply cb_le.
  { apply cb_tok. eapply cb_bind; [|intros s; eapply cb_bind; [|intros SA1]].
    - apply (sais_linear E W ltac:(lia) ltac:(lia) DEPTH (mkst (anew (m + 2)) (anew 0)) (TPack (pa_arr T1) (pa_bits T1)) rd (m + 1) (u + 2) 0); try lia.
      + assert (2 ^ (W - 1) <= 2 ^ Z.of_nat DEPTH); [|lia]. apply Z.pow_le_mono_r; [lia|]. cbn. lia.
      + intros i Hi. specialize (Hrr i ltac:(lia)). lia.
      + assert (2 ^ (W - 1) <= 2 ^ (lw W - 1)); [|lia]. apply Z.pow_le_mono_r; [lia|]. unfold lw. destruct (Z.eqb_spec W 32); lia.
      + cbn [mem]. rewrite alen_new. lia.
      + intros i Hi. cbn [chr]. rewrite Hbits.
        assert (Z.log2 (u + 1) < W - 1) by (apply Z.log2_lt_pow2; lia).
        destruct (Z.eqb_spec (bitsT1 ol) W) as [Hq|_]; [unfold bitsT1 in Hq; lia|]. rewrite <- Hbits. fold (pa_get E T1 (i + 1)). rewrite (proj1 (pa_get_ok E T1 (i + 1) Hwf ltac:(lia))).
        rewrite HT1 by lia. reflexivity.
    - apply (cb_for_up 2); [lia|intros; cbs].
    - apply (cb_for_up 6); [lia|intros; cbs]. }
  lia.
Qed.
Lemma cinduce_after_sort SA star : star_seq t n star ->
  (forall i, 0 <= i <= m -> av SA i = Some (ptr t n ol pos (star i) - c_bwp_base co')) ->
  cb (24 * n + 20000) (induce_steps E (aget SA) co').
Proof.
  intros Hss HSA.
  pose proof (so_max _ _ _ _ _ _ _ _ _ _ _ _ _ _ _ Hso) as Hmax.
  pose proof (so_mn _ _ _ _ _ _ _ _ _ _ _ _ _ _ _ Hso) as Hmn.
  pose proof (so_pos _ _ _ _ _ _ _ _ _ _ _ _ _ _ _ Hso) as Hpos.
  assert (Hnum : c_num co' = cnt LMS 0 n).
  { rewrite (so_num _ _ _ _ _ _ _ _ _ _ _ _ _ _ _ Hso). apply (ex_num _ _ _ _ _ Hex). }
  set (w := Z.log2 (pos + hsize t n - mn + 2) + 1).
  assert (HP : ptrs E (ht_buf h) t n (ptr t n ol pos) (mn - 1) (c_lastptr co') w).
  { constructor.
    - intros x Hx. eapply ptr_chr; try eassumption. lia.
    - intros x Hx. eapply ptr_prev; eassumption.
    - intros x Hx Hl. apply ptr_pred; assumption.
    - intros x Hx Hl. eapply ptr_sent; eassumption.
    - intros x Hx. eapply ptr_lastptr; eassumption.
    - intros x Hx Hl. eapply ptr_dead; eassumption.
    - intros x Hx. destruct (ptr_range E hts t n Hn co co' Sv h own role ch en ol pos mn Hso x Hx) as [H1 H2].
      split; [lia|]. assert (pos + hsize t n - mn + 2 < 2 ^ w) by (unfold w; apply Z.log2_spec; lia). lia.
    - unfold w. destruct (ptr_range E hts t n Hn co co' Sv h own role ch en ol pos mn Hso 0 ltac:(lia)) as [H1 H2].
      pose proof (Z.log2_nonneg (pos + hsize t n - mn + 2)).
      assert (Z.log2 (pos + hsize t n - mn + 2) < 63) by (apply Z.log2_lt_pow2; lia). lia. }
  eapply (cinduce E (ht_buf h) t n (ptr t n ol pos) (mn - 1) (c_lastptr co') w ltac:(lia) Hb HP (c_M co') (c_NL co') (c_C co')).
  - rewrite (so_M _ _ _ _ _ _ _ _ _ _ _ _ _ _ _ Hso). apply (ex_M _ _ _ _ _ Hex).
  - rewrite (so_NL _ _ _ _ _ _ _ _ _ _ _ _ _ _ _ Hso). apply (ex_NL _ _ _ _ _ Hex).
  - rewrite (so_C _ _ _ _ _ _ _ _ _ _ _ _ _ _ _ Hso). apply (ex_C _ _ _ _ _ Hex).
  - destruct Hss. constructor; eassumption.
  - apply (so_ht _ _ _ _ _ _ _ _ _ _ _ _ _ _ _ Hso).
  - reflexivity.
  - apply (so_base _ _ _ _ _ _ _ _ _ _ _ _ _ _ _ Hso).
  - apply (so_width _ _ _ _ _ _ _ _ _ _ _ _ _ _ _ Hso).
  - reflexivity.
  - exact Hnum.
  - rewrite (so_n _ _ _ _ _ _ _ _ _ _ _ _ _ _ _ Hso). apply (ex_n _ _ _ _ _ Hex).
  - reflexivity.
  - reflexivity.
  - reflexivity.
  - rewrite (so_base _ _ _ _ _ _ _ _ _ _ _ _ _ _ _ Hso) in HSA. exact HSA.
Qed.
Lemma branch_cost W T1 : In W [32; 40; 48; 56; 64] ->
  m + 2 < 2 ^ (W - 1) -> c_sa_max co' < 2 ^ (W - 1) ->
  pa_wf T1 -> pa_bits T1 = bitsT1 ol -> pa_len T1 = m + 2 ->
  pa_val E T1 0 = u + 1 -> pa_val E T1 (m + 1) = 0 ->
  (forall e, LMS e = true -> pa_val E T1 (1 + cnt LMS 0 e) = nam t n ol e) ->
  cb (324 * n + 20302) (branch_of_steps E W Sv T1 co').
Proof.
  intros HW HmW HsW Hwf Hbits Hlen H0 Hm1 Hnam. apply (cb_le (324 * n + 20300 + 2)); [|lia]. apply branch_of_cost. rewrite branch_prep.
  pose proof (prep_cost W T1 HW HmW Hwf Hbits Hlen Hm1 Hnam) as Hpc.
  assert (Hpw : wp (branch_with Ok E W Sv T1 co') (fun SA => exists star, star_seq t n star /\
      forall i, 0 <= i <= m -> av SA i = Some (ptr t n ol pos (star i) - c_bwp_base co'))).
  { eapply (branch_with_ok E hts t n Hn (P_Names.star_slt t n Hb Hz) co co' Sv h own role ch en ol pos mn Hex Hso Ok W T1); try assumption.
    intros SA star Hss HSA. cbn [wp]. exists star. split; assumption. }
  rewrite <- d_prep in Hpw. intros r c H. destruct (prep_steps E W Sv T1 co') as [[SA c1]|e]; cbn [drop bind wp] in Hpw; [|contradiction].
  destruct Hpw as (star & Hss & HSA). specialize (Hpc SA c1 eq_refl).
  cbn [cbind bind] in H. pose proof (cinduce_after_sort SA star Hss HSA) as Hi.
  destruct (induce_steps E (aget SA) co') as [[r' c2]|e]; [|discriminate]. specialize (Hi r' c2 eq_refl). apply ok_snd in H. lia.
Qed.
End Branch.
