(** The worst case of bwt_string: a quadratic number of steps along the hash chains is reached. *)
From Verif Require Import Base Spec Count Text Keys M_PackedArray M_Queue M_HashTable M_Cells M_Sais M_Split M_Induce M_Flbwt M_SaisCost M_Cost SortSpec
  P_PackedArray P_Bytes P_HashTable P_HashTable2 P_Extract P_Sort P_Names P_Create P_Spec P_Lists P_Bridge P_Flbwt
  P_SaisCost P_SaisLinear P_Cost P_CostHash P_CostNN P_CostLower P_CostText.
From Coq Require Import ZifyBool.
Open Scope Z_scope.

Theorem bwt_string_quadratic hts u : 1 <= hts <= 2 ^ 48 -> 1 <= u <= 2 ^ 53 -> u * hts <= 2 ^ 90 ->
  exists l, Forall is_byte l /\ zl l = 31 * u + 1 /\
    forall E srt T b, std_sort srt -> holds T (l ++ [0]) ->
      exists r steps, bwt_string_steps 1 untimed hts E srt (Some T) (zl l) b = Ok ((if b then None else Some T, Some r), steps) /\
        u * (u - 1) <= 2 * steps.
Proof.
  intros Hts Hu Huh. destruct (colliding_words hts u ltac:(lia) ltac:(lia) ltac:(lia)) as (hv & ws & Hnd & Hl & Hw & Hhash).
  set (l := bad_text ws). exists l.
  pose proof (bad_len ws Hw) as Hn. fold l in Hn. rewrite Hl in Hn.
  split; [exact (bad_bytes ws Hw)|]. split; [exact Hn|]. intros E srt T b Hs HT.
  assert (Hfr : forall e, LMS (tl_ l) (zl l) e = true -> fresh_ok E (zl (sub (tl_ l) (zl l) e))).
  { intros e He. left. pose proof (bad_sub_len ws Hw e He) as H32. fold l in H32. rewrite H32. discriminate. }
  assert (Hfh : fresh_ok E (nx (tl_ l) (zl l) 0 + 1)).
  { left. pose proof (bad_head ws Hw ltac:(lia)) as H1. fold l in H1. rewrite H1. discriminate. }
  assert (Hn' : 3 <= zl l <= 2 ^ 58) by lia.
  destruct (wp_inv _ _ (bwt_is_ok E srt hts T (tl_ l) (zl l) Hs Hts Hn' (holds_tl T l HT) (tl_byte l (bad_bytes ws Hw)) (tl_n_byte l) (P_Names.star_slt (tl_ l) (zl l) (tl_byte l (bad_bytes ws Hw)) (tl_n l)) Hfr Hfh b)) as (x & Hx & r & -> & Hr).
  assert (Hg : bwt_string_gen hts E srt (Some T) (zl l) b = Ok (if b then None else Some T, Some r)).
  { unfold bwt_string_gen. destruct (Z.leb_spec (zl l) 0); [lia|exact Hx]. }
  pose proof (d_string 1 untimed hts E srt (Some T) (zl l) b) as Hd. rewrite Hg in Hd.
  destruct (bwt_string_steps 1 untimed hts E srt (Some T) (zl l) b) as [[y c]|e] eqn:Ec; cbn [drop] in Hd; [|discriminate].
  injection Hd as Hd. exists r, c. split; [rewrite Hd; reflexivity|].
  unfold bwt_string_steps in Ec. destruct (Z.leb_spec (zl l) 0); [lia|].
  pose proof (is_ge 1 E hts T (tl_ l) (zl l) ltac:(lia) Hts Hn' (holds_tl T l HT) (tl_byte l (bad_bytes ws Hw)) (tl_n l) Hfr hv
    (fun e e' => bad_inj ws Hw e e' Hnd)) as Hge.
  assert (Hh : forall e, LMS (tl_ l) (zl l) e = true -> hash_of hts (sub (tl_ l) (zl l) e) = hv).
  { intros e He. destruct (bad_LMS_inv ws Hw e He) as (k & Hk & ->). pose proof (bad_sub ws Hw k Hk) as Hsb. fold l in Hsb. rewrite Hsb.
    apply Hhash, nth_In. lia. }
  specialize (Hge Hh srt b y c Ec). cbn beta in Hge.
  pose proof (bad_cnt ws Hw) as Hc. fold l in Hc. rewrite Hl in Hc. set (m := cnt (LMS (tl_ l) (zl l)) 0 (zl l)) in *.
  assert (u * (u - 1) <= m * (m - 1)) by (apply Z.mul_le_mono_nonneg; lia). lia.
Qed.

Theorem bwt_string_not_linear K : 0 <= K <= 2 ^ 46 ->
  exists l, Forall is_byte l /\ 3 <= zl l <= 2 ^ 58 /\
    forall E srt T b, std_sort srt -> holds T (l ++ [0]) ->
      exists r steps, bwt_string_steps 1 untimed 67777 E srt (Some T) (zl l) b = Ok ((if b then None else Some T, Some r), steps) /\
        bwt_string E srt (Some T) (zl l) b = Ok (if b then None else Some T, Some r) /\
        K * zl l < steps.
Proof.
  intros HK. destruct (bwt_string_quadratic 67777 (64 * K + 66) ltac:(lia) ltac:(lia) ltac:(lia)) as (l & Hb & Hl & H).
  exists l. split; [exact Hb|]. split; [lia|]. intros E srt T b Hs HT. destruct (H E srt T b Hs HT) as (r & c & Hc & Hge).
  exists r, c. split; [exact Hc|]. split.
  - pose proof (d_string 1 untimed 67777 E srt (Some T) (zl l) b) as Hd. rewrite Hc in Hd. cbn [drop] in Hd. symmetry. exact Hd.
  - rewrite Hl. assert (K * (31 * (64 * K + 66) + 1) * 2 + 1 <= (64 * K + 66) * (64 * K + 66 - 1)); [|lia].
    assert (H0 : 0 <= K * K) by (apply Z.mul_nonneg_nonneg; lia).
    replace (K * (31 * (64 * K + 66) + 1) * 2 + 1) with (3968 * (K * K) + 4094 * K + 1) by ring.
    replace ((64 * K + 66) * (64 * K + 66 - 1)) with (4096 * (K * K) + 8384 * K + 4290) by ring. lia.
Qed.
