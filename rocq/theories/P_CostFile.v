(** The number of steps of bwt_file. *)
From Verif Require Import Base M_PackedArray M_Queue M_HashTable M_Cells M_Sais M_Split M_Induce M_Flbwt M_File M_SaisCost M_Cost SortSpec
  Spec BlockSpec Histories P_Bytes P_Spec Count P_Sort P_Bridge P_Lists P_Sorter P_Blocks P_Flbwt P_File P_Props P_SaisCost P_Cost P_CostSort P_CostFlbwt.
Open Scope Z_scope.

Lemma d_file pw st hts E srt f : fst (bwt_file_steps pw st hts E srt f) = bwt_file_gen hts E srt f.
Proof.
  unfold bwt_file_steps, bwt_file_gen. destruct (negb (in_open f)); [reflexivity|]. destruct (negb (malloc_ok f)); [reflexivity|].
  destruct (fread _ _ _) as [[T k]|]; [|reflexivity]. destruct (k <=? 0); [reflexivity|]. destruct (aset T _ 0) as [T'|]; [|reflexivity].
  rewrite <- (d_string pw st hts E srt (Some T') (u64 (in_tell f)) true).
  destruct (bwt_string_steps pw st hts E srt (Some T') (u64 (in_tell f)) true) as [[[t B] s]|e]; cbv beta iota delta [drop bind]; [|reflexivity].
  destruct (negb (out_open f)); [reflexivity|]. destruct (write_result _ _ B); reflexivity.
Qed.

Lemma write_steps_le n l B : n = zl l -> n < 2 ^ 63 -> is_BWT l (av (r_BWT B)) (r_last B) -> write_steps n (Some B) <= n + 24.
Proof.
  intros -> Hn [HB _]. unfold write_steps. assert (Hr : 0 <= r_last B <= zl l).
  { rewrite HB, row_of_rowi. pose proof (rowi_bound l 0 ltac:(lia)). lia. }
  destruct (r_last B =? 0); [lia|]. destruct (r_last B =? zl l); [lia|]. unfold u64. rewrite wrap_small by lia. lia.
Qed.

Theorem bwt_file_time_list pw st K hts E srt f : 0 <= pw -> std_sort srt -> sort_bound st (zl (in_data f)) K -> 1 <= hts <= 2 ^ 48 -> Forall is_byte (in_data f) ->
  3 <= zl (in_data f) <= 2 ^ 58 -> fresh_good E hts (in_data f) ->
  in_open f = true -> in_tell f = zl (in_data f) -> malloc_ok f = true -> out_open f = true ->
  exists steps, bwt_file_steps pw st hts E srt f = ((Ok tt, Some (cut (out_limit f) (file_output (in_data f)))), steps) /\
    steps <= linear_part hts (zl (in_data f)) + K + 2 * zl (in_data f) + 50 + pw * chain_part hts (zl (in_data f)).
Proof.
  intros Hp Hs HK Hts Hb Hn Hf H1 H2 H3 H4.
  pose proof (bwt_file_ok hts E srt f Hs Hts Hb Hn Hf H1 H2 H3 H4) as Hok. rewrite <- (d_file pw st) in Hok.
  destruct (bwt_file_steps pw st hts E srt f) as [o steps] eqn:Es. cbn [fst] in Hok. subst o. exists steps. split; [reflexivity|].
  unfold bwt_file_steps in Es. rewrite H1, H3, H4, H2 in Es. cbn [negb] in Es.
  set (l := in_data f) in *. replace (u64 (zl l)) with (zl l) in Es by (unfold u64; rewrite wrap_small by lia; reflexivity).
  destruct (fread_ok (zl l) l eq_refl ltac:(lia)) as (T & HT & Hl & Hat). rewrite HT in Es.
  destruct (Z.leb_spec (zl l) 0); [lia|]. rewrite aset_ok in Es by lia.
  assert (HH : holds (aupd T (zl l) 0) (l ++ [0])).
  { intros i Hi. rewrite app_length in Hi. cbn [length] in Hi. rewrite av_upd by lia.
    destruct (Z.eqb_spec (Z.of_nat i) (zl l)) as [He|He].
    - replace i with (length l) by lia. rewrite app_nth2, Nat.sub_diag by lia. reflexivity.
    - rewrite app_nth1 by lia. specialize (Hat (Z.of_nat i) ltac:(lia)). rewrite Nat2Z.id in Hat. exact Hat. }
  destruct (bwt_string_time_list pw st K E srt hts _ l true Hp Hs HK Hts Hb Hn HH Hf) as (r & c & Hr & _ & HB & Hc). rewrite Hr in Es.
  destruct (write_result (out_limit f) (zl l) (Some r)) as [out|]; [|discriminate Es].
  apply (f_equal snd) in Es; cbv beta iota delta [snd] in Es; rewrite <- Es; clear Es. pose proof (write_steps_le (zl l) l r eq_refl ltac:(lia) HB) as Hw. lia.
Qed.

Theorem bwt_file_steps_list pw hts E srt f : 0 <= pw -> std_sort srt -> 1 <= hts <= 2 ^ 48 -> Forall is_byte (in_data f) ->
  3 <= zl (in_data f) <= 2 ^ 58 -> fresh_good E hts (in_data f) ->
  in_open f = true -> in_tell f = zl (in_data f) -> malloc_ok f = true -> out_open f = true ->
  exists steps, bwt_file_steps pw untimed hts E srt f = ((Ok tt, Some (cut (out_limit f) (file_output (in_data f)))), steps) /\
    steps <= linear_part hts (zl (in_data f)) + 2 * zl (in_data f) + 50 + pw * chain_part hts (zl (in_data f)).
Proof.
  intros Hp Hs Hts Hb Hn Hf H1 H2 H3 H4.
  destruct (bwt_file_time_list pw untimed 0 hts E srt f Hp Hs (untimed_bound _) Hts Hb Hn Hf H1 H2 H3 H4) as (c & A & B). exists c. split; [exact A|lia].
Qed.

(** one comparison of two stored strings *)
Lemma comparison_records_steps E b q1 s1 q2 s2 : (forall i c, bget E b i = Ok c -> is_byte c) ->
  read_record E b q1 = Ok s1 -> read_record E b q2 = Ok s2 ->
  exists steps, LMS_comparison_steps E b q1 q2 = Ok (star_lt s1 s2, steps) /\ steps <= 3 * Z.min (zl s1) (zl s2) + 5.
Proof.
  intros Hby H1 H2. pose proof (comparison_records E b q1 s1 q2 s2 Hby H1 H2) as Hc.
  destruct (read_inv E b q1 s1 Hby H1) as (p1 & A1 & _). destruct (read_inv E b q2 s2 Hby H2) as (p2 & B1 & _).
  exact (comparison_steps E b q1 q2 (zl s1) (zl s2) _ Hc A1 B1 ltac:(lia) ltac:(lia)).
Qed.
