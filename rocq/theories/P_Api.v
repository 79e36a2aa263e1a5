(** The stages of bwt_string, stated with lists. *)
From Verif Require Import Base M_PackedArray M_HashTable M_Sais M_Induce M_Flbwt Spec BlockSpec Count Text Induced Keys P_PackedArray
  P_Bytes P_HashTable P_HashTable2 P_Extract P_Sort P_Names P_Create P_InduceBase P_Induce1 P_Induce2 P_Bridge P_Spec P_Lists P_Blocks P_Flbwt
  Histories P_HTHistory.
From Coq Require Import ZifyBool.
Open Scope Z_scope.

Lemma count_filter {A} (f g : A -> bool) l : count f (filter g l) = count (fun x => g x && f x) l.
Proof.
  induction l as [|x l IH]; [reflexivity|]. cbn [filter]. rewrite (count_cons (fun x => g x && f x)), <- IH.
  destruct (g x); cbn [andb]; [rewrite count_cons|]; reflexivity.
Qed.

Section Api.
Context (E : env) (srt : sorter) (hts : Z) (T : arr Z) (l : list Z).
Context (Hsrt : std_sort srt) (Hts : 1 <= hts <= 2 ^ 48) (Hby : Forall is_byte l) (Hn : 3 <= zl l <= 2 ^ 58).
Context (HT : holds T (l ++ [0])) (Hf : fresh_good E hts l).
Notation t := (tl_ l).
Notation n := (zl l).
Notation LMS := (LMS t n).
Notation sub := (P_Extract.sub t n).

Let HTt := holds_tl T l HT.
Let Hb := tl_byte l Hby.
Let Hz := tl_n l.

Lemma lms_pos i : In i (lms_positions l) <-> (i < length l)%nat /\ LMS (Z.of_nat i) = true.
Proof. unfold lms_positions. rewrite filter_In, in_seq, LMS_list. cbn [Nat.add]. split; intros [H1 H2]; (split; [lia|exact H2]). Qed.

Lemma lms_count : cnt LMS 0 n = zl (lms_positions l).
Proof.
  rewrite cnt_count. unfold count, lms_positions. f_equal. f_equal. apply filter_ext. intros i. apply LMS_list.
Qed.

Lemma stars_iff s : In s (distinct_stars l) <-> exists e, 0 <= e < n /\ LMS e = true /\ s = sub e.
Proof.
  unfold distinct_stars. rewrite nodup_In, in_map_iff. split.
  - intros (i & <- & Hi). pose proof Hi as Hi'. apply lms_pos in Hi as [H1 H2]. exists (Z.of_nat i).
    split; [lia|]. split; [exact H2|]. symmetry. apply sub_list, Hi'.
  - intros (e & He & HL & ->). destruct (LMS_to_list l e HL) as (_ & He2 & Hin). exists (Z.to_nat e). split; [|exact Hin].
    rewrite He2 at 2. symmetry. apply sub_list, Hin.
Qed.
Lemma distinct_NoDup : NoDup (distinct_stars l).
Proof. apply NoDup_nodup. Qed.

Lemma same_set_perm {A} (l1 l2 : list A) : NoDup l1 -> NoDup l2 -> (forall x, In x l1 <-> In x l2) -> Permutation l1 l2.
Proof. intros. apply NoDup_Permutation; assumption. Qed.

(** ** extract_LMS_strings *)
Record extract_spec (co : container) : Prop := {
  es_M : forall c, 0 <= c < 256 -> av (c_M co) (c + 1) = Some (Z.of_nat (count (fun x => x =? c) l));
  es_NL : forall c, 0 <= c < 256 -> av (c_NL co) (c + 1) =
     Some (Z.of_nat (count (fun i => (nth i l 0 =? c) && negb (is_S l i)) (seq 0 (length l))));
  es_C : forall c, 0 <= c < 256 -> av (c_C co) (c + 1) = Some (Z.of_nat (count (fun i => nth i l 0 =? c) (lms_positions l)));
  es_0 : av (c_M co) 0 = Some 1 /\ av (c_C co) 0 = Some 1;
  es_num : c_num co = zl (lms_positions l);
  es_uniq : c_uniq co = Z.of_nat (length (distinct_stars l));
  es_n : c_n co = n;
  es_head : c_head_end co = Some (Z.of_nat (next_lms l 0));
  es_ht : exists h qs recs, c_ht co = Some h /\ ht_walk E h (c_uniq co) = Ok qs /\
    Forall2 (fun q s => read_record E (ht_buf h) q = Ok s) qs recs /\ NoDup recs /\
    (forall s, In s recs <-> In s (distinct_stars l)) /\
    alen (ht_buf h) <= 531 * c_num co + n }.

Lemma extract_wp : wp (extract_LMS_strings E hts T n) (extracted E hts t n).
Proof. exact (extract_fresh E hts T l Hts Hby Hn HT Hf). Qed.

Lemma strings_stars h ch : has_strings t n h ch 0 -> forall s, strings_of (HTSIZE h) ch s <-> In s (distinct_stars l).
Proof. intros H s. unfold strings_of. rewrite (H s). symmetry. apply stars_iff. Qed.

Lemma extracted_spec co : extracted E hts t n co -> extract_spec co.
Proof.
  intros Hex. pose proof Hex as [[HM1 HM2] [HN1 HN2] [HC1 HC2] H4 H5 H6 H7 (h & own & role & ch & en & K1 & K2 & K3 & K4 & K5 & K6 & K7 & K8)].
  pose proof (strings_stars h ch K3) as Hstr. 
  assert (Hperm : Permutation (map snd (allrec ch hts)) (distinct_stars l)).
  { apply NoDup_Permutation.
    - rewrite <- K4. eapply allrec_NoDup_str; exact K2.
    - apply distinct_NoDup.
    - intros s. rewrite <- Hstr, <- (recs_strings h ch s), K4. reflexivity. }
  assert (Hu : c_uniq co = Z.of_nat (length (distinct_stars l))).
  { rewrite K8. f_equal. rewrite <- (map_length snd). apply Permutation_length, Hperm. }
  constructor.
  - intros c Hc. rewrite HM2 by lia. unfold fM. replace (c + 1 =? 0) with false by lia. replace (-1 + 1) with 0 by lia.
    rewrite cnt_count. do 2 f_equal. rewrite (seq_map_nth l) at 2. rewrite count_map. apply count_ext. intros i _.
    unfold tl_. rewrite Nat2Z.id. f_equal. lia.
  - intros c Hc. rewrite HN2 by lia. unfold fNL. replace (-1 + 1) with 0 by lia. rewrite cnt_count. do 2 f_equal.
    apply count_ext. intros i Hi. apply in_seq in Hi. rewrite isS_list by lia. unfold tl_. rewrite Nat2Z.id. replace (c + 1 - 1) with c by lia. reflexivity.
  - intros c Hc. rewrite HC2 by lia. unfold fC. replace (c + 1 =? 0) with false by lia. replace (-1 + 2) with 1 by lia.
    assert (Hc0 : cnt (fun x => LMS x && (t x =? c + 1 - 1)) 1 n = cnt (fun x => LMS x && (t x =? c)) 0 n).
    { rewrite (cnt_cons _ 0) by lia. rewrite (LMS0 t n). cbn [andb]. replace (c + 1 - 1) with c by lia. reflexivity. }
    rewrite Hc0, cnt_count. unfold lms_positions. rewrite count_filter. do 2 f_equal. apply count_ext. intros i Hi.
    rewrite LMS_list. unfold tl_. rewrite Nat2Z.id. reflexivity.
  - split; [rewrite HM2 by lia; reflexivity|rewrite HC2 by lia; reflexivity].
  - rewrite H4. apply lms_count.
  - exact Hu.
  - exact H6.
  - rewrite H7. change 0 with (Z.of_nat 0) at 1. rewrite nx_list. reflexivity.
  - exists h, (map fst (allrec ch hts)), (map snd (allrec ch hts)). split; [exact K1|].
    split. { rewrite <- K4 at 1. apply (walk_ok E h own role ch en K2). rewrite K4. lia. }
    split. { rewrite <- K4. apply (walk_read E h own role ch en K2). }
    split. { rewrite <- K4. eapply allrec_NoDup_str; exact K2. }
    split. { intros s. split; intros H; eapply Permutation_in; try exact H; [|apply Permutation_sym]; exact Hperm. }
    rewrite H4. lia.
Qed.

Theorem extract_list : exists co, extract_LMS_strings E hts T n = Ok co /\ extract_spec co.
Proof. destruct (wp_inv _ _ extract_wp) as (co & H1 & H2). exists co. split; [exact H1|apply extracted_spec, H2]. Qed.

(** ** sort_LMS_strings *)
Record sort_spec (co : container) (Sv : arr Z) (co' : container) : Prop := {
  ss_same : c_M co' = c_M co /\ c_NL co' = c_NL co /\ c_C co' = c_C co /\ c_num co' = c_num co /\ c_uniq co' = c_uniq co /\ c_n co' = c_n co;
  ss_recs : exists h ol, c_ht co' = Some h /\
    Permutation ol (distinct_stars l) /\ StronglySorted (fun a b => star_lt a b = true) ol /\
    (forall k, (k < length ol)%nat -> exists q, av Sv (Z.of_nat k + 1) = Some q /\
       read_record E (ht_buf h) q = Ok (nth k ol []) /\ get_name E h (ht_buf h) q = Ok (Z.of_nat k + 1)) /\
    (exists q, av Sv (Z.of_nat (length ol) + 1) = Some q /\ read_record E (ht_buf h) q = Ok (head_string l)) }.

Lemma star_count (ol : list (list Z)) : StronglySorted (fun a b => star_lt a b = true) ol ->
  forall k, (k < length ol)%nat -> count (fun x => star_lt x (nth k ol [])) ol = k.
Proof.
  induction 1 as [|a ol Hs IH Ha]; intros k Hk; [cbn in Hk; lia|]. rewrite Forall_forall in Ha. rewrite count_cons.
  destruct k as [|k]; cbn [nth].
  - rewrite star_lt_irr. cbn [Nat.add]. rewrite (count_ext _ (fun _ => false)).
    + clear. induction ol; [reflexivity|]. rewrite count_cons. exact IHol.
    + intros x Hx. specialize (Ha x Hx). destruct (star_lt x a) eqn:Hx2; [|reflexivity].
      pose proof (star_lt_trans _ _ _ Ha Hx2) as H. rewrite star_lt_irr in H. discriminate.
  - cbn [length] in Hk. rewrite (Ha (nth k ol [])) by (apply nth_In; lia). rewrite IH by lia. reflexivity.
Qed.

Section Sorted.
Context (co co' : container) (Sv : arr Z) (h : htable) (own role : Z -> Z) (ch : Z -> list (Z * list Z)) (en : Z -> Z)
    (ol : list (Z * list Z)) (pos mn : Z).
Context (Hex : extracted E hts t n co).
Context (Hso : sorted_st E hts t n co co' Sv h own role ch en ol pos mn).

Lemma ol_perm : Permutation (map snd ol) (distinct_stars l).
Proof.
  apply NoDup_Permutation.
  - apply (Permutation_NoDup (l := map snd (allrec ch hts))).
    + apply Permutation_map, Permutation_sym, (so_perm _ _ _ _ _ _ _ _ _ _ _ _ _ _ _ Hso).
    + rewrite <- (so_hts _ _ _ _ _ _ _ _ _ _ _ _ _ _ _ Hso). eapply allrec_NoDup_str. apply (so_inv _ _ _ _ _ _ _ _ _ _ _ _ _ _ _ Hso).
  - apply distinct_NoDup.
  - intros s. rewrite <- (strings_stars h ch (so_str _ _ _ _ _ _ _ _ _ _ _ _ _ _ _ Hso)), <- recs_strings.
    rewrite (so_hts _ _ _ _ _ _ _ _ _ _ _ _ _ _ _ Hso).
    pose proof (Permutation_map snd (so_perm _ _ _ _ _ _ _ _ _ _ _ _ _ _ _ Hso)) as HP.
    split; intros H; eapply Permutation_in; try exact H; [|apply Permutation_sym]; exact HP.
Qed.
Lemma ol_sorted : StronglySorted (fun a b => star_lt a b = true) (map snd ol).
Proof.
  pose proof (so_sorted _ _ _ _ _ _ _ _ _ _ _ _ _ _ _ Hso) as H. clear - H. induction H as [|a ol Hs IH Ha]; cbn [map]; constructor; [exact IH|].
  rewrite Forall_forall in *. intros x Hx. apply in_map_iff in Hx as (y & <- & Hy). apply Ha, Hy.
Qed.
Lemma u_half : zln ol <= n / 2 /\ zln ol = Z.of_nat (length (distinct_stars l)).
Proof.
  pose proof (u_le_m E hts t n co co' Sv h own role ch en ol pos mn Hex Hso) as H. pose proof (LMS_half t n ltac:(lia)) as H2.
  split; [apply Z.div_le_lower_bound; lia|]. f_equal. rewrite <- (map_length snd). apply Permutation_length, ol_perm.
Qed.

Lemma name_list i : In i (lms_positions l) -> nam t n ol (Z.of_nat i) = star_name l (star_sub l i).
Proof.
  intros Hi. apply lms_pos in Hi as Hi2. destruct Hi2 as [_ HL]. unfold nam, star_name. f_equal. rewrite (sub_list l i Hi).
  pose proof (sub_ol E hts t n co co' Sv h own role ch en ol pos mn Hso (Z.of_nat i) HL) as Hin. rewrite (sub_list l i Hi) in Hin.
  destruct (posn_in _ _ Hin) as [H1 H2]. set (k := posn (star_sub l i) ol) in *.
  rewrite <- (count_perm _ _ _ ol_perm). unfold onth in H2.
  assert (Hk : nth (Z.to_nat k) (map snd ol) [] = star_sub l i) by (change (@nil Z) with (snd (0, @nil Z)); rewrite map_nth; exact H2).
  clearbody k; rewrite <- Hk. rewrite star_count; [lia|apply ol_sorted|rewrite map_length; lia].
Qed.

Lemma head_list : map t (zseq 0 (nx t n 0 + 1)) = head_string l.
Proof.
  change 0 with (Z.of_nat 0) at 2. rewrite nx_list. pose proof (next_lms_le l 0 ltac:(lia)) as H.
  unfold head_string, zseq. change 0 with (Z.of_nat 0) at 2. rewrite map_app_nth by lia. cbn [skipn]. f_equal. lia.
Qed.
Lemma sorted_spec : sort_spec co Sv co'.
Proof.
  pose proof Hso as HS. destruct HS.
  constructor; [repeat split; assumption|].
  exists h, (map snd ol). split; [assumption|]. split; [apply ol_perm|]. split; [apply ol_sorted|].
  pose proof u_half as [Hu _]. pose proof (name_bytes_ok n ltac:(lia)) as [Hnb1 Hnb2].
  split.
  - intros k Hk. rewrite map_length in Hk. exists (fst (onth ol (Z.of_nat k))).
    split; [apply so_Sv; lia|].
    pose proof (onth_in ol (Z.of_nat k) ltac:(lia)) as Hin.
    specialize (so_names (Z.of_nat k) ltac:(lia)). unfold noff in so_names.
    assert (Hnk : nth k (map snd ol) [] = snd (onth ol (Z.of_nat k))).
    { change (@nil Z) with (snd (0, @nil Z)). rewrite map_nth. unfold onth. rewrite Nat2Z.id. reflexivity. }
    rewrite Hnk. destruct (onth ol (Z.of_nat k)) as [q s]. cbn [fst snd] in *.
    assert (Hic : exists hv, inch h ch hv q s).
    { apply allrec_inch. rewrite so_hts. eapply Permutation_in; [exact so_perm|exact Hin]. }
    destruct Hic as (hv & Hic). pose proof (inch_rec E h own role ch en so_inv hv q s Hic) as (_ & _ & _ & Hr & _).
    pose proof (rc_len _ _ _ _ _ Hr) as Hl.
    split; [eapply read_record_ok; exact Hr|].
    apply (get_name_ok E h (ht_buf h) q (zln s)); rewrite ?so_nb; try lia; [apply (rc_lenf _ _ _ _ _ Hr)|exact so_names].
  - exists pos. split; [rewrite map_length; exact so_SvH|].
    pose proof (he_range t n Hn) as Hhe.
    assert (Hhl : zln (head_string l) = nx t n 0 + 1) by (rewrite <- head_list, map_length, zseq_length; lia).
    apply read_record_fields; rewrite Hhl; [lia|exact so_hlen|]. intros i Hi. rewrite so_hstr by lia. f_equal.
    rewrite <- head_list. rewrite (nth_indep _ 0 (t 0)) by (rewrite map_length, zseq_length; lia).
    rewrite map_nth. unfold zseq. rewrite zseq_n_nth by lia. f_equal. lia.
Qed.

(** ** positions of the suffix array entries *)
Lemma prev_list x : (x <= length l)%nat ->
  match prev_lms l x with
  | None => forall e, LMS e = true -> Z.of_nat x <= e
  | Some y => In y (lms_positions l) /\ (y < x)%nat /\ forall e, LMS e = true -> Z.of_nat y < e -> Z.of_nat x <= e
  end.
Proof.
  intros Hx. unfold prev_lms.
  assert (Hsort : StronglySorted lt (lms_positions l)).
  { unfold lms_positions. apply ss_filter. clear. generalize (length l) as k, O as a. induction k as [|k IH]; intros a; cbn [seq]; constructor; [apply IH|].
    apply Forall_forall. intros y Hy. apply in_seq in Hy. lia. }
  assert (Hg : forall L, StronglySorted lt L ->
    match find (fun y => (y <? x)%nat) (rev L) with
    | None => forall y, In y L -> (x <= y)%nat
    | Some y => In y L /\ (y < x)%nat /\ forall z, In z L -> (y < z)%nat -> (x <= z)%nat
    end).
  { induction 1 as [|a L Hs IH Ha]; [cbn; tauto|]. cbn [rev]. rewrite Forall_forall in Ha.
    assert (Hfa : forall (f : nat -> bool) A B, find f (A ++ B) = match find f A with Some y => Some y | None => find f B end).
    { intros f A B. induction A as [|z A IHA]; [reflexivity|]. cbn [app find]. destruct (f z); [reflexivity|exact IHA]. }
    rewrite Hfa. destruct (find (fun y => (y <? x)%nat) (rev L)) as [y|].
    - destruct IH as (H1 & H2 & H3). split; [right; exact H1|]. split; [exact H2|]. intros z [<-|Hz0] Hyz; [specialize (Ha y H1); lia|apply H3; assumption].
    - cbn [find]. destruct (Nat.ltb_spec a x) as [Hax|Hax].
      + split; [left; reflexivity|]. split; [exact Hax|]. intros z [<-|Hz0] Hyz; [lia|apply IH, Hz0].
      + intros y [<-|Hy]; [exact Hax|apply IH, Hy]. }
  specialize (Hg _ Hsort). destruct (find _ _) as [y|].
  - destruct Hg as (H1 & H2 & H3). split; [exact H1|]. split; [exact H2|]. intros e He Hye. destruct (LMS_to_list l e He) as (_ & He2 & Hin).
    specialize (H3 _ Hin). lia.
  - intros e He. destruct (LMS_to_list l e He) as (_ & He2 & Hin). specialize (Hg _ Hin). lia.
Qed.

Lemma nx_none i z : i <= n -> i <= z < nx t n i -> LMS z = true -> False.
Proof.
  intros Hi Hzz HL. destruct (nx_spec t n i Hi) as (_ & _ & A3).
  pose proof (cnt_pos LMS z i (nx t n i) Hzz HL). lia.
Qed.

(** the record of the piece ending at x *)
Lemma rec_ptr x : (x = length l \/ In x (lms_positions l)) ->
  exists q len fc, av Sv (name_before l x) = Some q /\ get_length E (ht_buf h) q = Ok len /\
    get_first_character_pointer E (ht_buf h) q = Ok fc /\ fc + len - 1 = ptr t n ol pos (Z.of_nat x).
Proof.
  intros Hx. assert (Hxl : (x <= length l)%nat) by (destruct Hx as [->|Hx]; [lia|apply lms_pos in Hx; lia]).
  pose proof (prev_list x Hxl) as Hp. unfold name_before.
  pose proof u_half as [_ Hu].
  pose proof (he_spec t n Hn) as (Hh1 & Hh0 & Hh2).
  destruct (prev_lms l x) as [y|].
  - destruct Hp as (Hy & Hyx & Hnone). rewrite <- (name_list y Hy). apply lms_pos in Hy as Hy2. destruct Hy2 as [_ HL]. set (e := Z.of_nat y) in *.
    pose proof (nam_range E hts t n co co' Sv h own role ch en ol pos mn Hso e HL) as Hnr.
    pose proof (rec_recd E hts t n co co' Sv h own role ch en ol pos mn Hso e HL) as Hr.
    pose proof (sub_len_LMS t n e HL) as [Hsl Hsl2].
    assert (Hnx : nx t n (e + 1) = Z.of_nat x).
    { destruct (nx_spec t n (e + 1) ltac:(lia)) as (A1 & A2 & A3).
      destruct A2 as [A2|A2].
      - destruct Hx as [->|Hx]; [lia|]. apply lms_pos in Hx as [Hxl2 HxL].
        assert (~ e + 1 <= Z.of_nat x < nx t n (e + 1)); [|lia]. intros Hc. exact (nx_none (e + 1) _ ltac:(lia) Hc HxL).
      - pose proof (Hnone _ A2 ltac:(lia)) as Hle. destruct (Z.eq_dec (nx t n (e + 1)) (Z.of_nat x)) as [|Hne]; [assumption|].
        destruct Hx as [->|Hx]; [lia|]. apply lms_pos in Hx as [Hxl2 HxL]. exfalso. exact (nx_none (e + 1) (Z.of_nat x) ltac:(lia) ltac:(lia) HxL). }
    exists (qrec t n ol e), (zln (sub e)), (qrec t n ol e + 1 + lenlen (zln (sub e)) + 1).
    split. { pose proof (so_Sv _ _ _ _ _ _ _ _ _ _ _ _ _ _ _ Hso (nam t n ol e - 1) ltac:(lia)) as Hsv.
      rewrite (nam_rec E hts t n co co' Sv h own role ch en ol pos mn Hso) in Hsv by assumption. cbn [fst] in Hsv. rewrite <- Hsv. f_equal. lia. }
    split; [apply get_length_ok; [lia|apply (rc_lenf _ _ _ _ _ Hr)]|].
    split; [apply (get_first_ok _ _ _ _ (rc_lenf _ _ _ _ _ Hr))|].
    rewrite (ptr_piece t n ol pos e (Z.of_nat x) HL).
    { lia. }
    rewrite (cnt_split LMS (e + 1) (Z.of_nat x)) by lia. rewrite cnt_snoc, HL by lia.
    rewrite (cnt_false LMS (e + 1) (Z.of_nat x)); [lia|]. intros z Hz2. destruct (LMS z) eqn:HLz; [|reflexivity].
    pose proof (Hnone z HLz ltac:(lia)). lia.
  - exists pos, (nx t n 0 + 1), (pos + 1 + lenlen (nx t n 0 + 1) + 1).
    split; [rewrite <- Hu; apply (so_SvH _ _ _ _ _ _ _ _ _ _ _ _ _ _ _ Hso)|].
    pose proof (so_hlen _ _ _ _ _ _ _ _ _ _ _ _ _ _ _ Hso) as Hlf.
    split; [apply get_length_ok; [lia|assumption]|]. split; [apply (get_first_ok _ _ _ _ Hlf)|].
    assert (Hc : cnt LMS 0 (Z.of_nat x) = 0).
    { apply cnt_false. intros z Hz2. destruct (LMS z) eqn:HLz; [|reflexivity]. specialize (Hp z HLz). lia. }
    rewrite ptr_head by exact Hc. unfold hptr.
    assert (Hhx : nx t n 0 = Z.of_nat x); [|lia].
    destruct (nx_spec t n 0 ltac:(lia)) as (A1 & A2 & A3).
    destruct A2 as [A2|A2].
    + destruct Hx as [->|Hx]; [lia|]. apply lms_pos in Hx as [Hxl2 HxL].
      assert (~ 0 <= Z.of_nat x < nx t n 0); [|lia]. intros Hc2. exact (nx_none 0 _ ltac:(lia) Hc2 HxL).
    + pose proof (Hp _ A2) as Hle. destruct Hx as [->|Hx]; [lia|]. apply lms_pos in Hx as [Hxl2 HxL].
      assert (~ 0 <= Z.of_nat x < nx t n 0); [|lia]. intros Hc2. exact (nx_none 0 _ ltac:(lia) Hc2 HxL).
Qed.
End Sorted.

Lemma sort_wp co : extracted E hts t n co -> wp (sort_LMS_strings E srt T co) (fun '(Sv, co') => exists h own role ch en ol pos mn,
    sorted_st E hts t n co co' Sv h own role ch en ol pos mn).
Proof. intros Hex. apply (sort_ok E srt hts T t n Hsrt Hts Hn HTt Hb (zb _ Hz)); [apply (fresh_good_head E hts l Hf)|exact Hex]. Qed.

Theorem sort_list co : extract_LMS_strings E hts T n = Ok co ->
  exists Sv co', sort_LMS_strings E srt T co = Ok (Sv, co') /\ sort_spec co Sv co'.
Proof.
  intros Hco. pose proof extract_wp as Hw. rewrite Hco in Hw. cbn [wp] in Hw.
  destruct (wp_inv _ _ (sort_wp co Hw)) as ([Sv co'] & H1 & h & own & role & ch & en & ol & pos & mn & Hso).
  exists Sv, co'. split; [exact H1|eapply sorted_spec; eassumption].
Qed.

(** ** create_shortened_string *)
Theorem create_list co Sv co' : extract_LMS_strings E hts T n = Ok co -> sort_LMS_strings E srt T co = Ok (Sv, co') ->
  exists T1, create_shortened_string E T n co' = Ok T1 /\
    pa_len T1 = zl (lms_positions l) + 2 /\
    pa_get E T1 0 = Ok (Z.of_nat (length (distinct_stars l)) + 1) /\
    (forall k, (k < length (lms_positions l))%nat ->
       pa_get E T1 (Z.of_nat k + 1) = Ok (star_name l (star_sub l (nth k (lms_positions l) O)))) /\
    pa_get E T1 (zl (lms_positions l) + 1) = Ok 0.
Proof.
  intros Hco Hs. pose proof extract_wp as Hw. rewrite Hco in Hw. cbn [wp] in Hw.
  pose proof (sort_wp co Hw) as Hsw. rewrite Hs in Hsw. cbn [wp] in Hsw. destruct Hsw as (h & own & role & ch & en & ol & pos & mn & Hso).
  destruct (wp_inv _ _ (create_ok E hts T t n Hn HTt co co' Sv h own role ch en ol pos mn Hw Hso)) as (T1 & H1 & Hwf & Hbits & Hlen & HT0 & HTl & HTn).
  exists T1. split; [exact H1|]. rewrite lms_count in *. split; [exact Hlen|].
  pose proof (u_half co co' Sv h own role ch en ol pos mn Hw Hso) as [_ Hu].
  split; [rewrite (proj1 (pa_get_ok E T1 0 Hwf ltac:(lia))), HT0, Hu; reflexivity|].
  split; [|rewrite (proj1 (pa_get_ok E T1 (zl (lms_positions l) + 1) Hwf ltac:(lia))), HTl; reflexivity].
  intros k Hk. set (i := nth k (lms_positions l) O). assert (Hin : In i (lms_positions l)) by (apply nth_In; exact Hk).
  rewrite <- (name_list co co' Sv h own role ch en ol pos mn Hso i Hin). apply lms_pos in Hin as Hin2. destruct Hin2 as [Hil HL].
  rewrite <- (HTn _ HL).
  rewrite (proj1 (pa_get_ok E T1 (Z.of_nat k + 1) Hwf ltac:(lia))). f_equal. f_equal.
  (* number of S* positions before the k-th *)
  assert (Hsort : StronglySorted lt (lms_positions l)).
  { unfold lms_positions. apply ss_filter. clear. generalize (length l) as c, O as a. induction c as [|c IH]; intros a; cbn [seq]; constructor; [apply IH|].
    apply Forall_forall. intros y Hy. apply in_seq in Hy. lia. }
  assert (Hg : forall L, StronglySorted lt L -> forall j, (j < length L)%nat -> count (fun y => (y <? nth j L O)%nat) L = j).
  { induction 1 as [|a L HsL IH Ha]; intros j Hj; [cbn in Hj; lia|]. rewrite Forall_forall in Ha. rewrite count_cons. destruct j as [|j]; cbn [nth].
    - rewrite Nat.ltb_irrefl. cbn [Nat.add]. rewrite (count_ext _ (fun _ => false)).
      + clear. induction L; [reflexivity|]. rewrite count_cons. exact IHL.
      + intros y Hy. specialize (Ha y Hy). apply Nat.ltb_ge. lia.
    - cbn [length] in Hj. assert (Hal : (a < nth j L O)%nat) by (apply Ha, nth_In; lia).
      apply Nat.ltb_lt in Hal. rewrite Hal. rewrite IH by lia. reflexivity. }
  specialize (Hg _ Hsort k Hk). fold i in Hg. rewrite <- Hg at 1. unfold lms_positions. rewrite count_filter.
  rewrite cnt_count. rewrite Z.add_comm. f_equal. f_equal.
  assert (Hsq : seq 0 (length l) = seq 0 i ++ seq i (length l - i)) by (change (seq i) with (seq (0 + i)); rewrite <- seq_app; f_equal; lia).
  rewrite Hsq, count_app.
  rewrite (count_ext _ (fun y => LMS (Z.of_nat y)) (seq 0 i)).
  - rewrite (count_ext _ (fun _ => false) (seq i (length l - i))).
    + assert (Hzc : forall L : list nat, count (fun _ => false) L = O) by (intros L; induction L; [reflexivity|rewrite count_cons; exact IHL]).
      rewrite Hzc, Nat.add_0_r. reflexivity.
    + intros y Hy. apply in_seq in Hy. replace (y <? i)%nat with false by (symmetry; apply Nat.ltb_ge; lia). apply andb_false_r.
  - intros y Hy. apply in_seq in Hy. replace (y <? i)%nat with true by (symmetry; apply Nat.ltb_lt; lia). rewrite andb_true_r, LMS_list. reflexivity.
Qed.

(** ** induce_bwt *)
Theorem induce_list co Sv co' h SA order : extract_LMS_strings E hts T n = Ok co -> sort_LMS_strings E srt T co = Ok (Sv, co') ->
  c_ht co' = Some h ->
  Permutation order (lms_positions l) -> StronglySorted (fun i j => lexlt (suffix l i) (suffix l j) = true) order ->
  (forall i, (i <= length order)%nat -> exists q len fc, av Sv (name_before l (nth i (length l :: order) O)) = Some q /\
     get_length E (ht_buf h) q = Ok len /\ get_first_character_pointer E (ht_buf h) q = Ok fc /\
     av SA (Z.of_nat i) = Some (fc + len - 1 - c_bwp_base co')) ->
  exists r, induce_bwt E SA co' = Ok r /\ alen (r_BWT r) = n + 1 /\ is_BWT l (av (r_BWT r)) (r_last r).
Proof.
  intros Hco Hs Hh Hperm Hsort HSA. pose proof extract_wp as Hw. rewrite Hco in Hw. cbn [wp] in Hw.
  pose proof (sort_wp co Hw) as Hsw. rewrite Hs in Hsw. cbn [wp] in Hsw. destruct Hsw as (h' & own & role & ch & en & ol & pos & mn & Hso).
  assert (h' = h) as -> by (pose proof (so_ht _ _ _ _ _ _ _ _ _ _ _ _ _ _ _ Hso); congruence).
  set (star := fun i => Z.of_nat (nth (Z.to_nat i) (length l :: order) O)).
  assert (Hol : length order = length (lms_positions l)) by (apply Permutation_length, Hperm).
  assert (Hin : forall i, (i < length order)%nat -> In (nth i order O) (lms_positions l)).
  { intros i Hi. eapply Permutation_in; [exact Hperm|]. apply nth_In, Hi. }
  assert (Hss : star_seq t n star).
  { constructor.
    - reflexivity.
    - intros i Hi. rewrite lms_count in Hi. unfold star. replace (Z.to_nat i) with (S (Z.to_nat i - 1)) by lia. cbn [nth]. apply lms_pos, Hin. lia.
    - intros i j Hi Hij Hj. rewrite lms_count in Hj. unfold star. replace (Z.to_nat j) with (S (Z.to_nat j - 1)) by lia. cbn [nth].
      pose proof (Hin (Z.to_nat j - 1)%nat ltac:(lia)) as Hj2. apply lms_pos in Hj2 as [Hj2 _].
      destruct (Z.eq_dec i 0) as [->|Hi0].
      + cbn [Z.to_nat nth]. apply slt_n_l. lia.
      + replace (Z.to_nat i) with (S (Z.to_nat i - 1)) by lia. cbn [nth].
        pose proof (Hin (Z.to_nat i - 1)%nat ltac:(lia)) as Hi2. apply lms_pos in Hi2 as [Hi2 _].
        rewrite slt_list by lia. rewrite !Nat2Z.id. apply (ss_nth _ O order Hsort). lia.
    - intros e He. destruct (LMS_to_list l e He) as (_ & He2 & Hine). apply (Permutation_in _ (Permutation_sym Hperm)) in Hine.
      apply (In_nth _ _ O) in Hine as (k & Hk & Hke). exists (Z.of_nat (S k)). rewrite lms_count. split; [lia|].
      unfold star. rewrite Nat2Z.id. cbn [nth]. lia. }
  assert (Hind : wp (induce_bwt E SA co') (bwt_rows t n)); [apply (induce_after_sort E hts t n Hn Hb co co' Sv h own role ch en ol pos mn SA star Hw Hso Hss)|].
  { intros i Hi. rewrite lms_count in Hi. destruct (HSA (Z.to_nat i) ltac:(lia)) as (q & len & fc & A1 & A2 & A3 & A4).
    rewrite Z2Nat.id in A4 by lia. set (x := nth (Z.to_nat i) (length l :: order) O) in *.
    destruct (rec_ptr co co' Sv h own role ch en ol pos mn Hw Hso x) as (q' & len' & fc' & B1 & B2 & B3 & B4).
    { unfold x. destruct (Z.to_nat i) as [|k] eqn:Ek; [left; reflexivity|right]. cbn [nth]. apply Hin. lia. }
    assert (q' = q) as -> by congruence. assert (len' = len) as -> by congruence. assert (fc' = fc) as -> by congruence.
    rewrite A4, B4. reflexivity. }
  destruct (wp_inv _ _ Hind) as (r & Hr & Hrows). exists r. split; [exact Hr|]. destruct Hrows as [H1 H2 H3 H4]. split; [assumption|]. split.
  - rewrite H4. change 0 with (Z.of_nat 0). apply rk_row. lia.
  - intros i Hi. destruct (Nat.eq_dec i (length l)) as [->|Hne].
    + rewrite row_n, H2. unfold tl_. do 2 f_equal. lia.
    + rewrite <- rk_row by lia. rewrite H3 by lia. unfold tl_. do 2 f_equal. lia.
Qed.
(** ** the element width *)
Theorem width_list co Sv co' h : extract_LMS_strings E hts T n = Ok co -> sort_LMS_strings E srt T co = Ok (Sv, co') ->
  c_ht co' = Some h ->
  exists bits W, position_of_msb (Z.max (c_sa_max co') (c_num co' + 2)) = Ok bits /\ sa_width bits = Some W /\
    In W [32; 40; 48; 56; 64] /\ c_num co' + 2 < 2 ^ (W - 1) /\ c_sa_max co' < 2 ^ (W - 1) /\
    forall x q len fc, (x = length l \/ In x (lms_positions l)) -> av Sv (name_before l x) = Some q ->
      get_length E (ht_buf h) q = Ok len -> get_first_character_pointer E (ht_buf h) q = Ok fc ->
      0 < fc + len - 1 - c_bwp_base co' < 2 ^ (W - 1).
Proof.
  intros Hco Hs Hh. pose proof extract_wp as Hw. rewrite Hco in Hw. cbn [wp] in Hw.
  pose proof (sort_wp co Hw) as Hsw. rewrite Hs in Hsw. cbn [wp] in Hsw. destruct Hsw as (h' & own & role & ch & en & ol & pos & mn & Hso).
  assert (h' = h) as -> by (pose proof (so_ht _ _ _ _ _ _ _ _ _ _ _ _ _ _ _ Hso); congruence).
  pose proof (so_max _ _ _ _ _ _ _ _ _ _ _ _ _ _ _ Hso) as Hmax.
  pose proof (so_samax _ _ _ _ _ _ _ _ _ _ _ _ _ _ _ Hso) as Hsm.
  pose proof (so_mn _ _ _ _ _ _ _ _ _ _ _ _ _ _ _ Hso) as Hmn.
  pose proof (so_base _ _ _ _ _ _ _ _ _ _ _ _ _ _ _ Hso) as Hbase.
  pose proof (LMS_cnt_bound t n Hn 0 ltac:(lia)) as Hm. pose proof (cnt_nonneg LMS 0 n) as Hm0.
  assert (Hnum : c_num co' = cnt LMS 0 n).
  { rewrite (so_num _ _ _ _ _ _ _ _ _ _ _ _ _ _ _ Hso). apply (ex_num _ _ _ _ _ Hw). }
  set (v := Z.max (c_sa_max co') (c_num co' + 2)).
  assert (Hv : c_num co' + 2 <= v /\ c_sa_max co' <= v /\ v < 2 ^ 63) by lia.
  destruct (sa_width_some v ltac:(lia)) as [W HW].
  destruct (sa_width_ok v _ W ltac:(lia) eq_refl HW) as [HWin HWv].
  exists (Z.log2 v + 1), W. split; [apply position_of_msb_ok; lia|]. split; [assumption|]. split; [assumption|]. split; [lia|]. split; [lia|].
  intros x q len fc Hx A1 A2 A3.
  destruct (rec_ptr co co' Sv h own role ch en ol pos mn Hw Hso x Hx) as (q' & len' & fc' & B1 & B2 & B3 & B4).
  assert (q' = q) as -> by congruence. assert (len' = len) as -> by congruence. assert (fc' = fc) as -> by congruence.
  assert (Hxl : (x <= length l)%nat) by (destruct Hx as [->|Hx]; [lia|apply lms_pos in Hx; lia]).
  pose proof (ptr_range E hts t n Hn co co' Sv h own role ch en ol pos mn Hso (Z.of_nat x) ltac:(lia)) as Hpr. lia.
Qed.

(** ** every sufficient width gives the same transform *)
Theorem branch_list co Sv co' T1 W : extract_LMS_strings E hts T n = Ok co -> sort_LMS_strings E srt T co = Ok (Sv, co') ->
  create_shortened_string E T n co' = Ok T1 ->
  In W [32; 40; 48; 56; 64] -> c_num co' + 2 < 2 ^ (W - 1) -> c_sa_max co' < 2 ^ (W - 1) ->
  exists r, bwt_branch E W Sv T1 co' = Ok r /\ alen (r_BWT r) = n + 1 /\ is_BWT l (av (r_BWT r)) (r_last r).
Proof.
  intros Hco Hs Hc HW H1 H2. pose proof extract_wp as Hw. rewrite Hco in Hw. cbn [wp] in Hw.
  pose proof (sort_wp co Hw) as Hsw. rewrite Hs in Hsw. cbn [wp] in Hsw. destruct Hsw as (h & own & role & ch & en & ol & pos & mn & Hso).
  pose proof (create_ok E hts T t n Hn HTt co co' Sv h own role ch en ol pos mn Hw Hso) as Hcw. rewrite Hc in Hcw. cbn [wp] in Hcw.
  destruct Hcw as (Hwf & Hbits & Hlen & HT0 & HTl & HTn).
  assert (Hnum : c_num co' = cnt LMS 0 n).
  { rewrite (so_num _ _ _ _ _ _ _ _ _ _ _ _ _ _ _ Hso). apply (ex_num _ _ _ _ _ Hw). }
  assert (Hbr : wp (bwt_branch E W Sv T1 co') (bwt_rows t n)).
  { eapply (branch_ok E hts t n Hn (star_slt t n Hb Hz) co co' Sv h own role ch en ol pos mn Hw Hso W T1); try assumption; try lia.
    intros SA star Hss HSA. eapply induce_after_sort; eassumption. }
  destruct (wp_inv _ _ Hbr) as (r & Hr & Hrows). exists r. split; [exact Hr|].
  destruct Hrows as [R1 R2 R3 R4]. split; [assumption|]. split.
  - rewrite R4. change 0 with (Z.of_nat 0). apply rk_row. lia.
  - intros i Hi. destruct (Nat.eq_dec i (length l)) as [->|Hne].
    + rewrite row_n, R2. unfold tl_. do 2 f_equal. lia.
    + rewrite <- rk_row by lia. rewrite R3 by lia. unfold tl_. do 2 f_equal. lia.
Qed.
End Api.
