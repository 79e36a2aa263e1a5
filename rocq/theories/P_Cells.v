(** Proofs about M_Cells: the split cells behave as cells of signed 40/48/56-bit integers. *)
From Verif Require Import Base M_Cells.
From Coq Require Import ZifyBool.
Open Scope Z_scope.

Lemma shiftr_range v a b : 0 <= a -> 0 <= b -> - 2 ^ (a + b) <= v < 2 ^ (a + b) -> - 2 ^ b <= Z.shiftr v a < 2 ^ b.
Proof.
  intros Ha Hb H. rewrite Z.shiftr_div_pow2 by lia. rewrite Z.pow_add_r in H by lia.
  assert (0 < 2 ^ a) by (apply Z.pow_pos_nonneg; lia).
  split; [apply Z.div_le_lower_bound | apply Z.div_lt_upper_bound]; lia.
Qed.

Lemma lor_split v k : 0 <= k -> Z.lor (Z.shiftl (Z.shiftr v k) k) (Z.land v (Z.ones k)) = v.
Proof.
  intros Hk. apply Z.bits_inj'. intros i Hi.
  rewrite Z.lor_spec, Z.land_spec, Z.shiftl_spec, Z.testbit_ones_nonneg by lia.
  destruct (Z.ltb_spec i k).
  - rewrite Z.testbit_neg_r by lia. rewrite andb_true_r. reflexivity.
  - rewrite Z.shiftr_spec by lia. rewrite andb_false_r, orb_false_r. f_equal; lia.
Qed.

Lemma ones32 : 4294967295 = Z.ones 32.
Proof. reflexivity. Qed.

Lemma land_ones_range v k : 0 <= k -> 0 <= Z.land v (Z.ones k) < 2 ^ k.
Proof. intros H. rewrite Z.land_ones by lia. apply Z.mod_pos_bound. apply Z.pow_pos_nonneg; lia. Qed.

Lemma shiftl_shiftr_range v k m : 0 <= k -> k <= m -> - 2 ^ m <= v < 2 ^ m -> - 2 ^ m <= Z.shiftl (Z.shiftr v k) k < 2 ^ m.
Proof.
  intros Hk Hm Hv. rewrite Z.shiftl_mul_pow2, Z.shiftr_div_pow2 by lia.
  assert (0 < 2 ^ k) by (apply Z.pow_pos_nonneg; lia).
  replace (2 ^ m) with (2 ^ k * 2 ^ (m - k)) in * by (rewrite <- Z.pow_add_r by lia; f_equal; lia).
  set (p := 2 ^ k) in *. set (r := 2 ^ (m - k)) in *.
  assert (-r <= v / p) by (apply Z.div_le_lower_bound; lia).
  assert (v / p < r) by (apply Z.div_lt_upper_bound; lia). nia.
Qed.

(** 40-bit (uw = 8) and 48-bit (uw = 16) cells *)
Theorem cells2_ok uw L U i v :
  1 <= uw <= 32 -> 0 <= i < alen L -> 0 <= i < alen U -> - 2 ^ (31 + uw) <= v < 2 ^ (31 + uw) ->
  exists L' U', set_2part uw L U i v = Ok (L', U') /\
    alen L' = alen L /\ alen U' = alen U /\
    get_2part L' U' i = Ok v /\
    forall j, j <> i -> get_2part L' U' j = get_2part L U j.
Proof.
  intros Huw HL HU Hv. unfold set_2part. rewrite !aset_ok by lia. cbn [bind].
  do 2 eexists. split; [reflexivity|]. rewrite !alen_upd. split; [reflexivity|]. split; [reflexivity|].
  rewrite ones32. split.
  - unfold get_2part. rewrite !aget_upd_same by lia. cbn [bind]. f_equal.
    rewrite (swrap_small uw); [|lia|].
    2: { apply (shiftr_range v 32 (uw - 1)); try lia. replace (32 + (uw - 1)) with (31 + uw) by lia. lia. }
    rewrite wrap_small by (apply land_ones_range; lia).
    rewrite swrap_small; [|lia|].
    2: { apply shiftl_shiftr_range; try lia. assert (2 ^ (31 + uw) <= 2 ^ (64 - 1)) by (apply Z.pow_le_mono_r; lia). lia. }
    apply lor_split; lia.
  - intros j Hj. unfold get_2part. rewrite !aget_upd_other by lia. reflexivity.
Qed.

(** 56-bit cells *)
Theorem cells3_ok L M U i v :
  0 <= i < alen L -> 0 <= i < alen M -> 0 <= i < alen U -> - 2 ^ 55 <= v < 2 ^ 55 ->
  exists L' M' U', set_3part L M U i v = Ok (L', M', U') /\
    alen L' = alen L /\ alen M' = alen M /\ alen U' = alen U /\
    get_3part L' M' U' i = Ok v /\
    forall j, j <> i -> get_3part L' M' U' j = get_3part L M U j.
Proof.
  intros HL HM HU Hv. unfold set_3part. rewrite !aset_ok by lia. cbn [bind].
  do 3 eexists. split; [reflexivity|]. rewrite !alen_upd. do 3 (split; [reflexivity|]).
  rewrite ones32. split.
  - unfold get_3part. rewrite !aget_upd_same by lia. cbn [bind]. f_equal.
    rewrite (swrap_small 8); [|lia|].
    2: { apply (shiftr_range v 48 7); lia. }
    rewrite (wrap_small 32) by (apply land_ones_range; lia).
    assert (Hm : wrap 16 (Z.shiftr v 32) = Z.land (Z.shiftr v 32) (Z.ones 16)).
    { rewrite Z.land_ones by lia. reflexivity. }
    rewrite Hm. pose proof (land_ones_range (Z.shiftr v 32) 16 ltac:(lia)) as Hmr.
    rewrite (swrap_small 64 (Z.shiftl (Z.land _ _) _)); [|lia|].
    2: { rewrite Z.shiftl_mul_pow2 by lia. lia. }
    rewrite (swrap_small 64); [|lia|].
    2: { apply (shiftl_shiftr_range v 48 63); lia. }
    transitivity (Z.lor (Z.shiftl (Z.shiftr v 32) 32) (Z.land v (Z.ones 32))); [|apply lor_split; lia].
    f_equal.
    transitivity (Z.shiftl (Z.lor (Z.shiftl (Z.shiftr (Z.shiftr v 32) 16) 16) (Z.land (Z.shiftr v 32) (Z.ones 16))) 32);
      [|f_equal; apply lor_split; lia].
    rewrite Z.shiftl_lor, Z.shiftl_shiftl, Z.shiftr_shiftr by lia. reflexivity.
  - intros j Hj. unfold get_3part. rewrite !aget_upd_other by lia. reflexivity.
Qed.
