(** PackedArray::set_value with a value that has more bits than an element: what it does to
    every element of the array. *)
From Verif Require Import Base M_PackedArray P_PackedArray Histories.
Open Scope Z_scope.

Lemma pa_set_wide E p i v :
  let d := pa_bits p in
  wfw (pa_arr p) -> 1 <= d <= 64 -> 0 <= i -> (i * d + d - 1) / 64 < alen (pa_arr p) -> i * d + d <= 2 ^ 64 ->
  0 <= v < 2 ^ 64 ->
  exists p', pa_set E p i v = Ok p' /\ pa_bits p' = d /\ pa_len p' = pa_len p /\
    alen (pa_arr p') = alen (pa_arr p) /\ wfw (pa_arr p') /\
    forall g, 0 <= g -> bitat E (pa_arr p') g =
       if (i * d <=? g) && (g <? i * d + d) then Z.testbit v (d - 1 - (g - i * d))
       else bitat E (pa_arr p) g || ((g <? i * d) && (g / 64 =? i * d / 64) && Z.testbit v (d - 1 - (g - i * d))).
Proof.
  intros d Hwf Hd Hi Hlen Hov Hv. unfold pa_set. fold d.
  replace (d * i) with (i * d) by lia.
  assert (Hu : u64 (i * d) = i * d) by (apply wrap_small; nia). rewrite Hu.
  set (g0 := i * d) in *. assert (Hg0 : 0 <= g0) by (unfold g0; nia).
  set (ai := g0 / 64) in *. set (bi := 63 - g0 mod 64) in *.
  assert (Hbi : 0 <= bi <= 63) by (unfold bi; lia).
  assert (Hg : g0 = 64 * ai + (63 - bi)) by (unfold ai, bi; lia).
  assert (Hai : 0 <= ai) by (unfold ai; lia).
  set (a := pa_arr p) in *.
  pose proof (wv_range E a ai Hwf) as Hw.
  destruct (Z.leb_spec d (bi + 1)) as [Hle|Hgt].
  - rewrite rdw_ok by lia. cbn [bind]. rewrite aset_ok by lia. cbn [bind].
    eexists; split; [reflexivity|]. cbn [pa_bits pa_len pa_arr].
    rewrite !bit_mask_ones by lia. rewrite shl64_ok by lia.
    set (m := Z.land (Z.ones (bi + 1)) (not64 (Z.ones (bi + 1 - d)))).
    pose proof (ones_range (bi + 1) ltac:(lia)) as Ho1.
    pose proof (ones_range (bi + 1 - d) ltac:(lia)) as Ho2.
    assert (Hm : 0 <= m < 2 ^ 64) by (apply land_lt64; [lia | unfold not64; lia]).
    assert (Hmb : forall k, 0 <= k < 64 -> Z.testbit m k = (k <? bi + 1) && negb (k <? bi + 1 - d)).
    { intros k Hk. unfold m. rewrite Z.land_spec, not64_bits, !Z.testbit_ones_nonneg by lia. reflexivity. }
    do 3 (split; [rewrite ?alen_upd; reflexivity|]). split.
    + apply wfw_upd; [assumption|lia|]. apply lor_lt64; [apply land_lt64; [lia | unfold not64; lia] | apply wrap_range; lia].
    + intros g Hgg. rewrite bitat_upd by lia.
      destruct (Z.eqb_spec (g / 64) ai) as [Hq|Hq].
      * rewrite Z.lor_spec, Z.land_spec, not64_bits, Hmb, u64_bits, Z.shiftl_spec by lia.
        destruct ((g0 <=? g) && (g <? g0 + d)) eqn:Hin.
        -- replace ((63 - g mod 64 <? bi + 1) && negb (63 - g mod 64 <? bi + 1 - d)) with true by lia.
           rewrite andb_false_r. cbn [orb]. replace (63 - g mod 64 <? 64) with true by lia.
           cbn [andb]. f_equal. lia.
        -- replace ((63 - g mod 64 <? bi + 1) && negb (63 - g mod 64 <? bi + 1 - d)) with false by lia.
           rewrite andb_true_r.
           replace (63 - g mod 64 <? 64) with true by lia.
           replace (63 - g mod 64 - (bi + 1 - d)) with (d - 1 - (g - g0)) by lia. cbn [andb].
           f_equal; [unfold bitat; rewrite Hq; reflexivity|].
           destruct (Z.ltb_spec g g0); cbn [andb]; [reflexivity|]. apply Z.testbit_neg_r. lia.
      * destruct ((g0 <=? g) && (g <? g0 + d)) eqn:Hin; [exfalso; lia|].
        rewrite andb_false_r. cbn [andb]. rewrite orb_false_r. reflexivity.
  - rewrite rdw_ok by lia. cbn [bind]. rewrite aset_ok by lia. cbn [bind].
    rewrite rdw_ok by (rewrite alen_upd; lia). cbn [bind]. rewrite aset_ok by (rewrite alen_upd; lia). cbn [bind].
    eexists; split; [reflexivity|]. cbn [pa_bits pa_len pa_arr].
    rewrite !bit_mask_ones by lia. rewrite shr64_ok, !shl64_ok by lia.
    rewrite wv_upd by lia. replace (ai + 1 =? ai) with false by lia.
    pose proof (ones_range (bi + 1) ltac:(lia)) as Ho1.
    pose proof (wv_range E a (ai + 1) Hwf) as Hw2.
    set (m2 := u64 (Z.shiftl ones64 (64 - (d - (bi + 1))))).
    assert (Hm2 : 0 <= m2 < 2 ^ 64) by (apply wrap_range; lia).
    assert (Hm2b : forall k, 0 <= k < 64 -> Z.testbit m2 k = (64 - (d - (bi + 1)) <=? k)).
    { intros k Hk. unfold m2. rewrite u64_bits, Z.shiftl_spec by lia. rewrite ones64_eq.
      destruct (Z.leb_spec (64 - (d - (bi + 1))) k).
      - rewrite Z.testbit_ones_nonneg by lia. lia.
      - rewrite Z.testbit_neg_r by lia. apply andb_false_r. }
    assert (Hs : 0 <= Z.shiftr v (d - (bi + 1)) < 2 ^ 64).
    { rewrite Z.shiftr_div_pow2 by lia. assert (0 < 2 ^ (d - (bi + 1))) by (apply Z.pow_pos_nonneg; lia).
      split; [apply Z.div_pos; lia|]. apply Z.div_lt_upper_bound; nia. }
    do 3 (split; [rewrite ?alen_upd; reflexivity|]). split.
    + apply wfw_upd; [apply wfw_upd; [assumption|lia|] |rewrite alen_upd; lia|].
      apply lor_lt64; [apply land_lt64; [lia | unfold not64; lia] | lia].
      apply lor_lt64; [apply land_lt64; [lia | unfold not64; lia] | apply wrap_range; lia].
    + intros g Hgg. rewrite bitat_upd by (rewrite alen_upd; lia). rewrite bitat_upd by lia.
      destruct (Z.eqb_spec (g / 64) (ai + 1)) as [Hq|Hq].
      * rewrite Z.lor_spec, Z.land_spec, not64_bits, Hm2b, u64_bits, Z.shiftl_spec by lia.
        destruct ((g0 <=? g) && (g <? g0 + d)) eqn:Hin.
        -- replace (64 - (d - (bi + 1)) <=? 63 - g mod 64) with true by lia.
           rewrite andb_false_r. cbn [orb]. replace (63 - g mod 64 <? 64) with true by lia.
           cbn [andb]. f_equal. lia.
        -- replace (64 - (d - (bi + 1)) <=? 63 - g mod 64) with false by lia.
           rewrite (Z.testbit_neg_r v) by lia. rewrite andb_false_r, orb_false_r, andb_true_r.
           replace (g <? g0) with false by lia. cbn [andb]. rewrite orb_false_r.
           unfold bitat. rewrite Hq. reflexivity.
      * destruct (Z.eqb_spec (g / 64) ai) as [Hq2|Hq2].
        -- rewrite Z.lor_spec, Z.land_spec, not64_bits, Z.testbit_ones_nonneg, Z.shiftr_spec by lia.
           destruct ((g0 <=? g) && (g <? g0 + d)) eqn:Hin.
           ++ replace (63 - g mod 64 <? bi + 1) with true by lia. rewrite andb_false_r. cbn [orb].
              f_equal. lia.
           ++ replace (63 - g mod 64 <? bi + 1) with false by lia. rewrite andb_true_r.
              replace (g <? g0) with true by lia. cbn [andb].
              f_equal; [unfold bitat; rewrite Hq2; reflexivity|]. f_equal. lia.
        -- destruct ((g0 <=? g) && (g <? g0 + d)) eqn:Hin; [exfalso; lia|].
           rewrite andb_false_r. cbn [andb]. rewrite orb_false_r. reflexivity.
Qed.


Lemma wide_wf E p i v : pa_wf p -> 0 <= i < pa_len p -> 0 <= v < 2 ^ 64 ->
  exists p', pa_set E p i v = Ok p' /\ pa_wf p' /\ pa_bits p' = pa_bits p /\ pa_len p' = pa_len p.
Proof.
  intros Hwf Hi Hv. pose proof (idx_bound p i Hwf Hi) as Hb. destruct Hwf as [H1 H2 H3 H4 H5].
  destruct (pa_set_wide E p i v) as (p' & Hs & Hbits & Hlen & Halen & Hw & _); try lia; try assumption.
  exists p'. split; [assumption|]. split; [|auto].
  constructor; rewrite ?Hbits, ?Hlen, ?Halen; auto.
Qed.

Lemma wide_run E len b : forall h p, pa_wf p -> pa_bits p = b -> pa_len p = len ->
  Forall (fun '(i, v) => 0 <= i < len /\ 0 <= v < 2 ^ 64) h ->
  exists q, run_sets E p h = Ok q /\ pa_wf q /\ pa_bits q = b /\ pa_len q = len.
Proof.
  induction h as [|[i v] h IH]; intros p Hwf Hb Hl Hh; cbn [run_sets].
  - exists p. auto.
  - apply Forall_cons_iff in Hh. destruct Hh as [[Hi Hv] Hh']. subst len b.
    destruct (wide_wf E p i v Hwf Hi Hv) as (p' & A1 & A2 & A3 & A4). rewrite A1. cbn [bind].
    apply IH; auto; congruence.
Qed.

Lemma wide_val E p i v : pa_wf p -> 0 <= i < pa_len p -> 0 <= v < 2 ^ 64 ->
  exists p', pa_set E p i v = Ok p' /\
    pa_get E p' i = Ok (v mod 2 ^ pa_bits p) /\
    (forall j, i < j < pa_len p -> pa_get E p' j = pa_get E p j) /\
    forall j, 0 <= j < i -> exists x y, pa_get E p j = Ok x /\ pa_get E p' j = Ok y /\
      0 <= y < 2 ^ pa_bits p /\
      forall t, 0 <= t < pa_bits p -> Z.testbit y t =
        Z.testbit x t || (((j * pa_bits p + (pa_bits p - 1 - t)) / 64 =? i * pa_bits p / 64) && Z.testbit v ((i - j) * pa_bits p + t)).
Proof.
  intros Hwf Hi Hv. pose proof (idx_bound p i Hwf Hi) as Hb.
  destruct (wide_wf E p i v Hwf Hi Hv) as (p' & Hs & Hwf' & Hbits & Hlen).
  pose proof Hwf as [H1 H2 H3 H4 H5]. pose proof Hwf' as [H1' H2' H3' H4' H5'].
  destruct (pa_set_wide E p i v) as (p'' & Hs2 & _ & _ & _ & _ & Hbit); try lia; try assumption.
  assert (p'' = p') by congruence. subst p''.
  exists p'. split; [assumption|]. unfold pa_get. rewrite Hbits in *. rewrite Hlen in *.
  set (d := pa_bits p) in *. split; [|split].
  - destruct (get2_spec E (pa_arr p') i d) as (w & Hg & Hr & Hbw); try lia; try assumption.
    rewrite Hg. f_equal. apply Z.bits_inj'. intros k Hk. destruct (Z_lt_ge_dec k d).
    + rewrite Hbw, Hbit by lia.
      replace ((i * d <=? i * d + d - 1 - k) && (i * d + d - 1 - k <? i * d + d)) with true by lia.
      rewrite Z.mod_pow2_bits_low by lia. f_equal. lia.
    + rewrite Z.mod_pow2_bits_high by lia. apply (testbit_high _ d); lia.
  - intros j Hj. assert (Hbj : i * d + d <= j * d /\ j * d + d <= pa_len p * d) by nia.
    destruct (get2_spec E (pa_arr p') j d) as (w & Hg & Hr & Hbw); try lia; try assumption.
    destruct (get2_spec E (pa_arr p) j d) as (u & Hg2 & Hr2 & Hbu); try lia; try assumption.
    rewrite Hg, Hg2. f_equal. apply Z.bits_inj'. intros k Hk. destruct (Z_lt_ge_dec k d).
    + rewrite Hbw, Hbu, Hbit by lia.
      replace ((i * d <=? j * d + d - 1 - k) && (j * d + d - 1 - k <? i * d + d)) with false by lia.
      replace (j * d + d - 1 - k <? i * d) with false by lia. cbn [andb]. apply orb_false_r.
    + rewrite !(testbit_high _ d) by lia. reflexivity.
  - intros j Hj. assert (Hbj : 0 <= j * d /\ j * d + d <= i * d) by nia.
    destruct (get2_spec E (pa_arr p') j d) as (w & Hg & Hr & Hbw); try lia; try assumption.
    destruct (get2_spec E (pa_arr p) j d) as (u & Hg2 & Hr2 & Hbu); try lia; try assumption.
    exists u, w. split; [assumption|]. split; [assumption|]. split; [assumption|].
    intros t Ht. rewrite Hbw, Hbu, Hbit by lia.
    replace ((i * d <=? j * d + d - 1 - t) && (j * d + d - 1 - t <? i * d + d)) with false by lia.
    replace (j * d + d - 1 - t <? i * d) with true by lia. cbn [andb].
    replace (j * d + (d - 1 - t)) with (j * d + d - 1 - t) by lia.
    replace (d - 1 - (j * d + d - 1 - t - i * d)) with ((i - j) * d + t) by lia. reflexivity.
Qed.

Lemma wide_history E len b h i v : 1 <= b <= 64 -> 0 <= len -> len * b < 2 ^ 64 ->
  Forall (fun '(i, v) => 0 <= i < len /\ 0 <= v < 2 ^ 64) h -> 0 <= i < len -> 0 <= v < 2 ^ 64 ->
  exists p p', run_sets E (pa_new len b) h = Ok p /\ pa_set E p i v = Ok p' /\
    pa_get E p' i = Ok (v mod 2 ^ b) /\
    (forall j, i < j < len -> pa_get E p' j = pa_get E p j) /\
    forall j, 0 <= j < i -> exists x y, pa_get E p j = Ok x /\ pa_get E p' j = Ok y /\ 0 <= y < 2 ^ b /\
      forall t, 0 <= t < b -> Z.testbit y t =
        Z.testbit x t || (((j * b + (b - 1 - t)) / 64 =? i * b / 64) && Z.testbit v ((i - j) * b + t)).
Proof.
  intros Hb Hl Ho Hh Hi Hv.
  destruct (wide_run E len b h (pa_new len b) (pa_new_wf len b Hb Hl Ho) eq_refl eq_refl Hh) as (p & A1 & A2 & A3 & A4).
  subst len b. destruct (wide_val E p i v A2 Hi Hv) as (p' & B). exists p, p'. split; assumption.
Qed.
