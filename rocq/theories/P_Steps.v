(** The step bounds of P_SaisLinear.v in terms of lists, for the five representations. *)
From Verif Require Import Base M_PackedArray M_Sais M_Split M_SaisCost Text P_Sais P_Split P_Bridge P_SaisCost P_SaisLinear P_Props3.
Open Scope Z_scope.

Lemma drop_ok {A} (m : cres A) a : drop m = Ok a -> exists c, m = Ok (a, c).
Proof. destruct m as [[b c]|e]; cbn; [|discriminate]. intros [= ->]. eauto. Qed.

Lemma steps_list E W l k fs p sa0 tmp0 fuel :
  1 <= W <= 64 -> (1 <= length l)%nat -> Forall (fun c => 0 <= c < k) l -> Z.of_nat (length l) < 2 ^ (W - 1) -> k <= 2 ^ (W - 1) ->
  0 <= fs -> Z.of_nat (length l) + fs <= alen sa0 -> Z.of_nat (length l) < 2 ^ Z.of_nat fuel -> pa_bits p <> W ->
  (forall i, 0 <= i < Z.of_nat (length l) -> pa_get E p (i + 1) = Ok (nth (Z.to_nat i) l 0)) ->
  exists s steps, csais E W (ops1 W) fuel (mkst sa0 tmp0) (TPack (pa_arr p) (pa_bits p)) fs (Z.of_nat (length l)) k = Ok (s, steps) /\
    sais E W fuel (mkst sa0 tmp0) (TPack (pa_arr p) (pa_bits p)) fs (Z.of_nat (length l)) k = Ok s /\
    steps <= 214 * Z.of_nat (length l) + 30 * k.
Proof.
  intros HW Hl Hk Hn HkW Hfs Hsa Hfuel Hcs Hp.
  destruct (sais_list E W l k fs p sa0 tmp0 fuel HW Hl Hk Hn HkW Hfs Hsa Hfuel Hcs Hp) as (s & _ & Hs & _).
  destruct (drop_ok (csais E W (ops1 W) fuel (mkst sa0 tmp0) (TPack (pa_arr p) (pa_bits p)) fs (Z.of_nat (length l)) k) s) as [c Hc].
  { etransitivity; [apply dp_sais|exact Hs]. }
  exists s, c. split; [exact Hc|]. split; [exact Hs|].
  assert (Hk0 : 1 <= k).
  { destruct l as [|x l]; cbn [length] in *; [lia|]. inversion Hk; subst. lia. }
  assert (HkL : k <= 2 ^ (lw W - 1)).
  { assert (2 ^ (W - 1) <= 2 ^ (lw W - 1)); [|lia]. apply Z.pow_le_mono_r; [lia|]. unfold lw. destruct (Z.eqb_spec W 32); lia. }
  refine (sais_linear E W (proj1 HW) (proj2 HW) fuel (mkst sa0 tmp0) (TPack (pa_arr p) (pa_bits p)) (tl_ l) (Z.of_nat (length l)) k fs
    Hfuel ltac:(lia) Hk0 Hn Hfs _ HkL I Hsa _ s c Hc).
  - intros i Hi. rewrite Forall_forall in Hk. apply Hk. apply nth_In. lia.
  - intros i Hi. cbn [chr]. destruct (Z.eqb_spec (pa_bits p) W); [contradiction|]. apply Hp. assumption.
Qed.

Lemma steps_2part E uw l k fs p fuel :
  1 <= uw <= 31 -> (1 <= length l)%nat -> Forall (fun c => 0 <= c < k) l -> Z.of_nat (length l) < 2 ^ (31 + uw) -> k <= 2 ^ (31 + uw) ->
  0 <= fs -> Z.of_nat (length l) < 2 ^ Z.of_nat fuel -> pa_bits p <> 32 + uw ->
  (forall i, 0 <= i < Z.of_nat (length l) -> pa_get E p (i + 1) = Ok (nth (Z.to_nat i) l 0)) ->
  let s0 := mkst2 (anew (Z.of_nat (length l) + fs)) (anew (Z.of_nat (length l) + fs)) (anew 0) (anew 0) in
  exists s steps, csais E (32 + uw) (ops2 uw) fuel s0 (TPack (pa_arr p) (pa_bits p)) fs (Z.of_nat (length l)) k = Ok (s, steps) /\
    ssais E (32 + uw) (ops2 uw) fuel s0 (TPack (pa_arr p) (pa_bits p)) fs (Z.of_nat (length l)) k = Ok s /\
    steps <= 214 * Z.of_nat (length l) + 30 * k.
Proof.
  intros Hu Hl Hk Hn HkW Hfs Hfuel Hcs Hp. cbn zeta. set (N := Z.of_nat (length l) + fs).
  destruct (steps_list E (32 + uw) l k fs p (anew N) (anew 0) fuel) as (s1 & c & H1 & _ & Hb);
    try assumption; try lia; try (replace (32 + uw - 1) with (31 + uw) by lia; assumption); try (rewrite alen_new; lia).
  pose proof (q_2part E uw ltac:(lia) fuel (mkst2 (anew N) (anew N) (anew 0) (anew 0)) (mkst (anew N) (anew 0)) (TPack (pa_arr p) (pa_bits p)) fs (Z.of_nat (length l)) k) as Hq.
  specialize (Hq ltac:(split; cbn; apply crel2_new)). rewrite H1 in Hq. unfold crel, rrel in Hq.
  pose proof (ds_sais E (32 + uw) (ops2 uw) ltac:(lia) fuel (mkst2 (anew N) (anew N) (anew 0) (anew 0)) (TPack (pa_arr p) (pa_bits p)) fs (Z.of_nat (length l)) k) as Hd.
  destruct (csais E (32 + uw) (ops2 uw) _ _ _ _ _ _) as [[s c']|e]; [|destruct Hq]. cbn [fst snd] in Hq. destruct Hq as [_ ->].
  exists s, c. split; [reflexivity|]. split; [symmetry; exact Hd|exact Hb].
Qed.

Lemma steps_3part E l k fs p fuel :
  (1 <= length l)%nat -> Forall (fun c => 0 <= c < k) l -> Z.of_nat (length l) < 2 ^ 55 -> k <= 2 ^ 55 ->
  0 <= fs -> Z.of_nat (length l) < 2 ^ Z.of_nat fuel -> pa_bits p <> 56 ->
  (forall i, 0 <= i < Z.of_nat (length l) -> pa_get E p (i + 1) = Ok (nth (Z.to_nat i) l 0)) ->
  let s0 := mkst3 (anew (Z.of_nat (length l) + fs)) (anew (Z.of_nat (length l) + fs)) (anew (Z.of_nat (length l) + fs)) (anew 0) (anew 0) (anew 0) in
  exists s steps, sais_56bit_steps E fuel s0 (TPack (pa_arr p) (pa_bits p)) fs (Z.of_nat (length l)) k = Ok (s, steps) /\
    sais_56bit E fuel s0 (TPack (pa_arr p) (pa_bits p)) fs (Z.of_nat (length l)) k = Ok s /\
    steps <= 214 * Z.of_nat (length l) + 30 * k.
Proof.
  intros Hl Hk Hn HkW Hfs Hfuel Hcs Hp. cbn zeta. set (N := Z.of_nat (length l) + fs).
  destruct (steps_list E 56 l k fs p (anew N) (anew 0) fuel) as (s1 & c & H1 & _ & Hb);
    try assumption; try lia; try (rewrite alen_new; lia).
  pose proof (q_3part E fuel (mkst3 (anew N) (anew N) (anew N) (anew 0) (anew 0) (anew 0)) (mkst (anew N) (anew 0)) (TPack (pa_arr p) (pa_bits p)) fs (Z.of_nat (length l)) k) as Hq.
  specialize (Hq ltac:(split; cbn; apply crel3_new)). rewrite H1 in Hq. unfold crel, rrel in Hq.
  pose proof (ds_sais E 56 ops3 ltac:(lia) fuel (mkst3 (anew N) (anew N) (anew N) (anew 0) (anew 0) (anew 0)) (TPack (pa_arr p) (pa_bits p)) fs (Z.of_nat (length l)) k) as Hd.
  unfold sais_56bit_steps, sais_56bit. destruct (csais E 56 ops3 _ _ _ _ _ _) as [[s c']|e]; [|destruct Hq]. cbn [fst snd] in Hq. destruct Hq as [_ ->].
  exists s, c. split; [reflexivity|]. split; [symmetry; exact Hd|exact Hb].
Qed.
