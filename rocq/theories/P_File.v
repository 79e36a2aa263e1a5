(** bwt_file. *)
From Verif Require Import Base M_HashTable M_Induce M_Flbwt M_File Spec BlockSpec Count P_Sort P_Bridge P_Spec P_Lists P_Blocks P_Flbwt.
From Coq Require Import ZifyBool.
Open Scope Z_scope.

Lemma rank_bytes_be64 v : 0 <= v < 2 ^ 64 -> rank_bytes v = be64 v.
Proof.
  intros Hv. unfold rank_bytes, be64. cbn [map].
  assert (Hm : forall k, 0 <= k <= 7 -> u8 (Z.shiftr (Z.land (255 * 256 ^ k) v) (8 * k)) = (v / 256 ^ k) mod 256).
  { intros k Hk. assert (Hp : 256 ^ k = 2 ^ (8 * k)) by (rewrite Z.pow_mul_r by lia; reflexivity).
    rewrite Z.shiftr_land. rewrite !Z.shiftr_div_pow2 by lia. rewrite <- Hp.
    rewrite Z.div_mul by lia. rewrite Z.land_comm. change 255 with (Z.ones 8). rewrite Z.land_ones by lia.
    unfold u8, wrap. apply Z.mod_small. change 256 with (2 ^ 8). apply Z.mod_pos_bound. reflexivity. }
  pose proof (Hm 7) as H7. pose proof (Hm 6) as H6. pose proof (Hm 5) as H5. pose proof (Hm 4) as H4.
  pose proof (Hm 3) as H3. pose proof (Hm 2) as H2. pose proof (Hm 1) as H1. pose proof (Hm 0) as H0.
  rewrite <- H7, <- H6, <- H5, <- H4, <- H3, <- H2, <- H1, <- H0 by lia.
  change (255 * 256 ^ 7) with 18374686479671623680. change (255 * 256 ^ 6) with 71776119061217280.
  change (255 * 256 ^ 5) with 280375465082880. change (255 * 256 ^ 4) with 1095216660480.
  change (255 * 256 ^ 3) with 4278190080. change (255 * 256 ^ 2) with 16711680. change (255 * 256 ^ 1) with 65280.
  change (255 * 256 ^ 0) with 255. rewrite (Z.shiftr_0_r (Z.land 255 v)) || change (8 * 0) with 0. 
  reflexivity.
Qed.

Definition cut (lim : option nat) (l : list Z) : list Z := match lim with None => l | Some k => firstn k l end.
Lemma cut_app lim a b : cut lim (cut lim a ++ b) = cut lim (a ++ b).
Proof.
  destruct lim as [k|]; [|reflexivity]. cbn [cut]. rewrite !firstn_app, firstn_firstn, Nat.min_id. f_equal.
  rewrite firstn_length. destruct (Nat.le_gt_cases k (length a)) as [H|H].
  - rewrite Nat.min_l by assumption. replace (k - k)%nat with O by lia. replace (k - length a)%nat with O by lia. reflexivity.
  - rewrite Nat.min_r by lia. reflexivity.
Qed.
Lemma fwrite_ok lim out a off l : P_HashTable2.at_list a off l -> fwrite lim out a off (Z.of_nat (length l)) = Ok (cut lim (out ++ l)).
Proof. intros H. unfold fwrite. rewrite (aslice_ok a off l H). cbn [bind]. destruct lim; reflexivity. Qed.

Lemma rows_at T a last : is_BWT T (av a) last ->
  last = Z.of_nat (rowi T 0) /\
  P_HashTable2.at_list a 0 (firstn (rowi T 0) (somes (bwt_rows_of T))) /\
  P_HashTable2.at_list a (last + 1) (skipn (rowi T 0) (somes (bwt_rows_of T))) /\
  length (somes (bwt_rows_of T)) = length T.
Proof.
  intros H. pose proof H as [Hl _]. rewrite row_of_rowi in Hl. split; [exact Hl|].
  pose proof (rowi_bound T 0 ltac:(lia)) as Hb.
  pose proof (Permutation_length (bwt_bytes_perm T)) as Hlen.
  pose proof (B_split T) as HB. pose proof (B_nth T) as Hn.
  set (B := bwt_rows_of T) in *. set (r := rowi T 0) in *. set (s := somes B) in *.
  assert (Hf : length (firstn r s) = r) by (rewrite firstn_length; lia).
  assert (Hs : length (skipn r s) = (length T - r)%nat) by (rewrite skipn_length; lia).
  assert (Hrow : forall k, 0 <= k <= Z.of_nat (length T) -> k <> last -> av a k = nth (Z.to_nat k) B None).
  { intros k Hk Hne. replace k with (Z.of_nat (Z.to_nat k)) at 1 by lia. rewrite (is_BWT_row T _ _ H) by lia. symmetry. apply Hn. lia. }
  assert (Hsome : forall l k, (k < length l)%nat -> nth k (map Some l) None = Some (nth k l 0)).
  { intros l k Hk. rewrite (nth_indep _ None (Some 0)) by (rewrite map_length; assumption). apply (map_nth Some). }
  split; [|split; [|assumption]].
  - intros k Hk. rewrite Hf in Hk. rewrite Hrow by lia. rewrite HB. rewrite app_nth1 by (rewrite map_length; lia).
    replace (0 + k) with k by lia. apply Hsome. lia.
  - intros k Hk. rewrite Hs in Hk. rewrite Hrow by lia. rewrite HB. rewrite app_nth2 by (rewrite map_length; lia).
    rewrite map_length, Hf. replace (Z.to_nat (last + 1 + k) - r)%nat with (S (Z.to_nat k)) by lia.
    cbn [app nth]. apply Hsome. lia.
Qed.

Lemma write_result_ok lim T r : Z.of_nat (length T) < 2 ^ 63 -> is_BWT T (av (r_BWT r)) (r_last r) ->
  write_result lim (Z.of_nat (length T)) (Some r) = Ok (cut lim (file_output T)).
Proof.
  intros Hn H. unfold write_result. destruct (rows_at T _ _ H) as (Hl & H1 & H2 & Hlen).
  pose proof (rowi_bound T 0 ltac:(lia)) as Hb.
  destruct (ablit_ok (rank_bytes (r_last r)) (anew 8) 0) as (a & Ha & _ & Hat & _); [lia|rewrite alen_new; cbn; lia|].
  rewrite Ha. cbn [bind].
  pose proof (fwrite_ok lim [] a 0 _ Hat) as Hw. change (Z.of_nat (length (rank_bytes (r_last r)))) with 8 in Hw.
  rewrite Hw. cbn [bind app]. rewrite rank_bytes_be64 by lia. unfold file_output. rewrite row_of_rowi, <- Hl.
  set (s := somes (bwt_rows_of T)) in *. set (b := be64 (r_last r)).
  destruct (Z.eqb_spec (r_last r) 0) as [H0|H0].
  - replace (rowi T 0) with O in H2 by lia. rewrite H0 in H2. cbn [skipn] in H2.
    rewrite <- Hlen. rewrite (fwrite_ok lim _ _ 1 s H2). rewrite cut_app. reflexivity.
  - destruct (Z.eqb_spec (r_last r) (Z.of_nat (length T))) as [HN|HN].
    + replace (rowi T 0) with (length s) in H1 by lia. rewrite firstn_all in H1.
      rewrite <- Hlen. rewrite (fwrite_ok lim _ _ 0 s H1). rewrite cut_app. reflexivity.
    + pose proof (fwrite_ok lim (cut lim b) _ _ _ H1) as W1. rewrite firstn_length in W1.
      replace (Z.of_nat (Nat.min (rowi T 0) (length s))) with (r_last r) in W1 by lia. rewrite W1. cbn [bind].
      pose proof (fwrite_ok lim (cut lim (cut lim b ++ firstn (rowi T 0) s)) _ _ _ H2) as W2. rewrite skipn_length in W2.
      unfold u64. rewrite wrap_small by lia.
      replace (Z.of_nat (length s - rowi T 0)) with (Z.of_nat (length T) - r_last r) in W2 by lia. rewrite W2.
      rewrite (cut_app lim b), cut_app, <- app_assoc, firstn_skipn. reflexivity.
Qed.

(** the whole file is read into a fresh block *)
Lemma fread_ok n data : n = Z.of_nat (length data) -> n < 2 ^ 63 ->
  exists T, fread (anew (u64 (n + 1))) n data = Ok (T, n) /\ alen T = n + 1 /\ P_HashTable2.at_list T 0 data.
Proof.
  intros Hn Hb. unfold fread. replace (Z.to_nat (Z.min n (Z.of_nat (length data)))) with (length data) by lia.
  rewrite firstn_all. unfold u64. rewrite wrap_small by lia.
  destruct (ablit_ok data (anew (n + 1)) 0) as (T & HT & Hl & Hat & _); [lia|rewrite alen_new; lia|].
  exists T. rewrite HT. cbn [bind]. split; [do 2 f_equal; lia|]. split; [rewrite Hl; apply alen_new|exact Hat].
Qed.

(** everything goes well (up to the capacity of the output device) *)
Theorem bwt_file_ok hts E srt f : std_sort srt -> 1 <= hts <= 2 ^ 48 -> Forall is_byte (in_data f) ->
  3 <= zl (in_data f) <= 2 ^ 58 -> fresh_good E hts (in_data f) ->
  in_open f = true -> in_tell f = zl (in_data f) -> malloc_ok f = true -> out_open f = true ->
  bwt_file_gen hts E srt f = (Ok tt, Some (cut (out_limit f) (file_output (in_data f)))).
Proof.
  intros Hs Hts Hb Hn Hf H1 H2 H3 H4. unfold bwt_file_gen. rewrite H1, H3, H4. cbn [negb]. rewrite H2.
  set (l := in_data f) in *. replace (u64 (zl l)) with (zl l) by (unfold u64; rewrite wrap_small by lia; reflexivity).
  destruct (fread_ok (zl l) l eq_refl ltac:(lia)) as (T & HT & Hl & Hat). rewrite HT.
  destruct (Z.leb_spec (zl l) 0); [lia|]. rewrite aset_ok by lia.
  assert (HH : holds (aupd T (zl l) 0) (l ++ [0])).
  { intros i Hi. rewrite app_length in Hi. cbn [length] in Hi. rewrite av_upd by lia.
    destruct (Z.eqb_spec (Z.of_nat i) (zl l)) as [He|He].
    - replace i with (length l) by lia. rewrite app_nth2, Nat.sub_diag by lia. reflexivity.
    - rewrite app_nth1 by lia. specialize (Hat (Z.of_nat i) ltac:(lia)). rewrite Nat2Z.id in Hat. exact Hat. }
  destruct (bwt_string_list E srt hts _ l true Hs Hts Hb Hn HH Hf) as (r & Hr & _ & HB). rewrite Hr.
  rewrite (write_result_ok (out_limit f) l r) by (assumption || lia). reflexivity.
Qed.
