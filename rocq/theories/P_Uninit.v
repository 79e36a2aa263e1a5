(** Uninitialised bytes of the string buffer.  A run in which some of them are indeterminate (reading
    one is the error [Uninit]) agrees with the run in which they have a value, up to the first read of
    an indeterminate byte. *)
From Verif Require Import Base M_PackedArray M_Queue M_HashTable M_Cells M_Sais M_Split M_Induce M_Flbwt M_File Spec
  Count Text Induced Keys P_PackedArray P_Bytes P_HashTable P_HashTable2 P_Insert P_Extract P_Sort P_Names P_Create P_InduceBase P_Lists P_Spec P_Flbwt P_Sorter P_Bridge P_File P_Props.
From Coq Require Import ZifyBool.
Open Scope Z_scope.

Section Uninit.
Context (fb fb' : Z -> option Z) (fw : Z -> Z) (bs : Z -> Z -> Z) (Hfb : forall i, fb i = None \/ fb i = fb' i).
Let E := mkenv fb fw bs.
Let E' := mkenv fb' fw bs.

Definition um {A} (m m' : res A) : Prop := m = Err Uninit \/ m = m'.
Lemma um_refl {A} (m : res A) : um m m.
Proof. right. reflexivity. Qed.
Lemma um_bind {A B} (m m' : res A) (f f' : A -> res B) : um m m' -> (forall a, um (f a) (f' a)) -> um (bind m f) (bind m' f').
Proof.
  intros [->| ->] H'; [left; reflexivity|]. destruct m' as [a|e]; [apply H'|right; reflexivity].
Qed.
Lemma um_for_up {S} lo hi (b b' : Z -> S -> res S) s : (forall i s, um (b i s) (b' i s)) -> um (for_up lo hi b s) (for_up lo hi b' s).
Proof.
  intros H. unfold for_up. generalize (Z.to_nat (hi - lo)) as c. intros c. revert lo s.
  induction c as [|c IH]; intros i s; cbn; [apply um_refl|]. apply um_bind; [apply H|]. intros x. apply IH.
Qed.
Lemma um_for_down {S} lo hi (b b' : Z -> S -> res S) s : (forall i s, um (b i s) (b' i s)) -> um (for_down hi lo b s) (for_down hi lo b' s).
Proof.
  intros H. unfold for_down. generalize (Z.to_nat (hi - lo + 1)) as c. intros c. revert hi s.
  induction c as [|c IH]; intros i s; cbn; [apply um_refl|]. apply um_bind; [apply H|]. intros x. apply IH.
Qed.
Lemma um_loop {S R} fuel (f f' : S -> res (S + R)) s : (forall s, um (f s) (f' s)) -> um (loop fuel f s) (loop fuel f' s).
Proof.
  intros H. revert s. induction fuel as [|n IH]; intros s; cbn; [apply um_refl|]. apply um_bind; [apply H|].
  intros [x|x]; [apply IH|apply um_refl].
Qed.
Lemma um_bget b i : um (bget E b i) (bget E' b i).
Proof.
  unfold bget. destruct (inb b i); [|apply um_refl]. destruct (av b i); [apply um_refl|]. cbn [fresh_byte E E'].
  destruct (Hfb i) as [->| ->]; [left; reflexivity|apply um_refl].
Qed.
Ltac ustep := cbv beta zeta; match goal with
  | |- um ?m ?m => apply um_refl
  | |- um (bget E _ _) _ => apply um_bget
  | |- um (pa_set E ?a ?b ?c) _ => exact (um_refl (pa_set E a b c))
  | |- um (pa_get E ?a ?b) _ => exact (um_refl (pa_get E a b))
  | |- um (q_add E ?a ?b ?c ?d) _ => exact (um_refl (q_add E a b c d))
  | |- um (q_addl E ?a ?b ?c ?d) _ => exact (um_refl (q_addl E a b c d))
  | |- um (q_pop E ?a ?b ?c) _ => exact (um_refl (q_pop E a b c))
  | |- um (sais E ?a ?b ?c ?d ?e ?f ?g) _ => exact (um_refl (sais E a b c d e f g))
  | |- um (ssais E ?a ?b ?c ?d ?e ?f ?g ?h) _ => exact (um_refl (ssais E a b c d e f g h))
  | |- um (bind _ _) (bind _ _) => apply um_bind; [|intros ?]
  | |- um (for_up _ _ _ _) _ => apply um_for_up; intros ? ?
  | |- um (for_down _ _ _ _) _ => apply um_for_down; intros ? ?
  | |- um (loop _ _ _) _ => apply um_loop; intros ?
  | |- um (match ?x with _ => _ end) (match ?x with _ => _ end) => destruct x
  end.
Lemma um_get_length b p : um (get_length E b p) (get_length E' b p).
Proof. unfold get_length. repeat ustep. Qed.
Lemma um_set_length b p m : um (set_length E b p m) (set_length E' b p m).
Proof. unfold set_length, set_length_fuel. repeat ustep. Qed.
Lemma um_info h b p m : um (string_info_length E h b p m) (string_info_length E' h b p m).
Proof. unfold string_info_length. repeat ustep. Qed.
Lemma um_get_pointer b p : um (get_pointer E b p) (get_pointer E' b p).
Proof. unfold get_pointer. repeat ustep. Qed.
Lemma um_get_name h b p : um (get_name E h b p) (get_name E' h b p).
Proof. unfold get_name. repeat (first [apply um_get_length | ustep]). Qed.
Lemma um_set_name h b p v : um (set_name E h b p v) (set_name E' h b p v).
Proof. unfold set_name. repeat (first [apply um_get_length | ustep]). Qed.
Lemma um_first b p : um (get_first_character_pointer E b p) (get_first_character_pointer E' b p).
Proof. unfold get_first_character_pointer. repeat ustep. Qed.
Lemma um_same b T m p q l : um (same_string E b T m p q l) (same_string E' b T m p q l).
Proof. unfold same_string. repeat ustep. Qed.
Lemma um_scan h T m p q : um (scan_chain E h T m p q) (scan_chain E' h T m p q).
Proof. unfold scan_chain. repeat (first [apply um_get_length | apply um_get_pointer | apply um_info | apply um_same | ustep]). Qed.
Lemma um_record h T m p l b r : um (write_record E h T m p l b r) (write_record E' h T m p l b r).
Proof. unfold write_record. repeat (first [apply um_set_length | ustep]). Qed.
Lemma um_insert h T m p : um (insert_string E h T m p) (insert_string E' h T m p).
Proof. unfold insert_string. repeat (first [apply um_scan | apply um_record | ustep]). Qed.
Lemma um_find h T m p : um (find_name E h T m p) (find_name E' h T m p).
Proof. unfold find_name. repeat (first [apply um_scan | apply um_get_name | ustep]). Qed.
Lemma um_extract hts T n : um (extract_LMS_strings E hts T n) (extract_LMS_strings E' hts T n).
Proof. unfold extract_LMS_strings, extract_step. repeat (first [apply um_insert | ustep]). Qed.
Lemma um_cmp b x y : um (LMS_comparison E b x y) (LMS_comparison E' b x y).
Proof. unfold LMS_comparison. repeat (first [apply um_get_length | apply um_first | ustep]). Qed.
Lemma um_collect h p s j : um (collect_chain E h p s j) (collect_chain E' h p s j).
Proof. unfold collect_chain. repeat (first [apply um_get_length | apply um_get_pointer | apply um_info | ustep]). Qed.
Context (srt : sorter) (Hsrt : comparison_sort srt).
Lemma um_sort T co : um (sort_LMS_strings E srt T co) (sort_LMS_strings E' srt T co).
Proof using Hfb Hsrt.
  unfold sort_LMS_strings. destruct (c_ht co) as [h|]; [|apply um_refl]. destruct (c_head_end co) as [he|]; [|apply um_refl].
  ustep. apply um_refl. ustep.
  { repeat (first [apply um_collect | ustep]). }
  destruct a0 as [s j]. ustep. apply um_refl.
  set (b := ht_buf _). set (l := a0). cbv zeta.
  destruct (forallb (fun x => forallb (fun y => is_ok (LMS_comparison E b x y)) l) l) eqn:H; cbn [negb]; [|left; reflexivity].
  assert (He : forall x y, In x l -> In y l -> LMS_comparison E b x y = LMS_comparison E' b x y /\ is_ok (LMS_comparison E b x y) = true).
  { intros x y Hx Hy. rewrite forallb_forall in H. specialize (H x Hx). rewrite forallb_forall in H. specialize (H y Hy). split; [|exact H].
    destruct (um_cmp b x y) as [Hq|Hq]; [rewrite Hq in H; discriminate|exact Hq]. }
  assert (H' : forallb (fun x => forallb (fun y => is_ok (LMS_comparison E' b x y)) l) l = true).
  { apply forallb_forall. intros x Hx. apply forallb_forall. intros y Hy. destruct (He x y Hx Hy) as [<- Ho]. exact Ho. }
  rewrite H'. cbn [negb].
  assert (Hs : srt (fun x y => ok_true (LMS_comparison E b x y)) l = srt (fun x y => ok_true (LMS_comparison E' b x y)) l).
  { apply Hsrt. intros x y Hx Hy. rewrite (proj1 (He x y Hx Hy)). reflexivity. }
  rewrite Hs. repeat (first [apply um_set_name | apply um_set_length | apply um_get_length | apply um_first | ustep]).
Qed.
Lemma um_create T n co : um (create_shortened_string E T n co) (create_shortened_string E' T n co).
Proof. unfold create_shortened_string. repeat (first [apply um_find | ustep]). Qed.
Lemma um_rd rd co : um (induce_bwt_rd E rd co) (induce_bwt_rd E' rd co).
Proof.
  unfold induce_bwt_rd, fill_lms, induce_first, induce_pass1, induce_step1, induce_pass2, induce_step2. repeat ustep.
Qed.
Lemma um_branch W s t c : um (bwt_branch_of E W s t c) (bwt_branch_of E' W s t c).
Proof.
  unfold bwt_branch_of. repeat match goal with |- context [if ?x then _ else _] => destruct x end;
    unfold bwt_branch, bwt_branch2, bwt_branch3, induce_bwt; repeat (first [apply um_rd | apply um_get_length | apply um_first | ustep]).
Qed.
Lemma um_string hts T n b : um (bwt_string_gen hts E srt T n b) (bwt_string_gen hts E' srt T n b).
Proof using Hfb Hsrt.
  unfold bwt_string_gen, bwt_is. repeat (first [apply um_extract | apply um_sort | apply um_create | apply um_branch | ustep]).
Qed.
End Uninit.

(** ** A head string whose length is a multiple of 256 *)
Lemma for_up_uninit (g : Z -> res Z) (f : Z -> Z -> Z) : forall k lo x,
  (forall i, lo <= i < lo + Z.of_nat k -> g i = Err Uninit \/ exists c, g i = Ok c) ->
  (exists i, lo <= i < lo + Z.of_nat k /\ g i = Err Uninit) ->
  for_up lo (lo + Z.of_nat k) (fun i x => c <- g i ;; Ok (f x c)) x = Err Uninit.
Proof.
  induction k as [|k IH]; intros lo x H (i & Hi & He); [lia|].
  unfold for_up. replace (Z.to_nat (lo + Z.of_nat (S k) - lo)) with (S k) by lia. cbn [for_n]. destruct (H lo ltac:(lia)) as [Hl|[c Hl]]; rewrite Hl; cbn [bind]; [reflexivity|].
  specialize (IH (lo + 1) (f x c)). unfold for_up in IH. replace (Z.to_nat (lo + 1 + Z.of_nat k - (lo + 1))) with k in IH by lia. apply IH.
  - intros j Hj. apply H. lia.
  - exists i. split; [|exact He]. destruct (Z.eq_dec i lo) as [->|]; [congruence|lia].
Qed.
Section Head.
Context (E : env) (srt : sorter) (hts : Z) (T : arr Z) (t : Z -> Z) (n : Z).
Context (Hsrt : std_sort srt).
Context (Hts : 1 <= hts <= 2 ^ 48) (Hn : 3 <= n <= 2 ^ 58).
Context (HT : forall i, 0 <= i <= n -> av T i = Some (t i)).
Context (Hb : forall i, 0 <= i < n -> 0 <= t i < 256) (Hz : t n = 0).
Notation LMS := (LMS t n).
Notation he := (nx t n 0).
Context (Hmul : (he + 1) mod 256 = 0).
Notation hsize := (hsize t n).

Lemma sort_head_uninit co : (forall h, c_ht co = Some h -> forall i, alen (ht_buf h) <= i -> fresh_byte E i = None) ->
  extracted E hts t n co -> sort_LMS_strings E srt T co = Err Uninit.
Proof.
  intros Hno [XM XNL XC Xnum Xub Xn Xhead (h & own & role & ch & en & Xht & HI & Hstr & Hhts & Hhb & Hnb & Hlen & Hu)].
  specialize (Hno h Xht). unfold buf_bound in Hlen. unfold sort_LMS_strings. rewrite Xht, Xhead.
  pose proof (he_range t n Hn) as Hhe. pose proof (name_bytes_ok n ltac:(lia)) as [Hnb8 Hnb2].
  pose proof (LMS_half t n ltac:(lia)) as Hhalf. pose proof (cnt_nonneg LMS 0 n) as Hcn.
  set (u := c_uniq co) in *. set (pos := alen (ht_buf h)) in *.
  assert (Hu0 : 0 <= u) by (rewrite Hu; lia).
  assert (E1 : u64 (u + 2) = u + 2) by (unfold u64; apply wrap_small; lia). rewrite E1.
  assert (E2 : u64 (he + 1) = he + 1) by (unfold u64; apply wrap_small; lia). rewrite E2.
  rewrite calculate_lenlen_ok by lia. cbn [bind].
  pose proof (lenlen_le8 (he + 1) ltac:(lia)) as Hll. set (ll := lenlen (he + 1)) in *.
  pose proof (hi_buf _ _ _ _ _ _ HI) as Hbuf. fold pos in Hbuf.
  rewrite Hnb. set (nb := name_bytes n) in *.
  set (sp := 1 + 1 + ll + (he + 1) + nb + (1 + 1 + 1 + 1 + nb)).
  assert (Hsp : sp = hsize + 4 + nb) by (unfold hsize, rsize, sp; fold ll nb; lia).
  assert (Hhs : hsize = 2 + ll + (he + 1) + nb) by (unfold hsize, rsize; fold ll nb; lia).
  assert (E3 : u64 (pos + sp) = pos + sp) by (unfold u64; apply wrap_small; lia). rewrite E3.
  set (b1 := brealloc (ht_buf h) (pos + sp)). set (h1 := with_buf h b1).
  assert (Hb1l : alen b1 = pos + sp) by apply alen_realloc.
  assert (HI1 : hinv E h1 (fun i => if i <? pos then own i else -1) role ch en).
  { apply (hinv_extend E h own role ch en HI b1).
    - rewrite Hb1l. fold pos. lia.
    - apply bclean_realloc; [fold pos; lia|]. apply (hi_clean _ _ _ _ _ _ HI).
    - intros i Hi. apply bget_realloc_old; [fold pos; lia|assumption]. }
  set (own1 := fun i => if i <? pos then own i else -1) in *.
  set (recs := allrec ch hts) in *.
  assert (Hh1s : HTSIZE h1 = hts) by exact Hhts.
  (* collect *)
  pose proof (collect_all_ok E h1 own1 role ch en HI1 (anew (u + 2)) ltac:(lia)) as Hca.
  rewrite Hh1s, alen_new in Hca. fold recs in Hca. specialize (Hca ltac:(lia)).
  destruct (wp_inv _ _ Hca) as ([s1 j] & Hcb & -> & Hs1l & Hs1 & _). rewrite Hh1s, Hcb. cbn [bind].
  replace (1 + zln recs - 1) with (zln recs) by lia.
  rewrite <- (map_length fst recs) at 1. rewrite (aslice_ok s1 1 (map fst recs) Hs1). cbn [bind].
  (* the records *)
  assert (Hrec : forall a, In a recs -> exists hv, inch h1 ch hv (fst a) (snd a)).
  { intros [q x] Ha. apply (allrec_inch h1 ch q x). rewrite Hh1s. exact Ha. }
  assert (Hcmp : forall a b, In a recs -> In b recs -> LMS_comparison E b1 (fst a) (fst b) = Ok (star_lt (snd a) (snd b))).
  { intros a b Ha Hb'. destruct (Hrec a Ha) as (hv & Hia). destruct (Hrec b Hb') as (hv' & Hib).
    apply (LMS_comparison_ok E (NAME_BYTES h1) b1).
    - apply (inch_rec E h1 own1 role ch en HI1 hv _ _ Hia).
    - apply (inch_rec E h1 own1 role ch en HI1 hv' _ _ Hib). }
  change (ht_buf h1) with b1.
  assert (Hall : forallb (fun x => forallb (fun y => is_ok (LMS_comparison E b1 x y)) (map fst recs)) (map fst recs) = true).
  { apply forallb_forall. intros x Hx. apply forallb_forall. intros y Hy.
    apply in_map_iff in Hx as (a & <- & Ha). apply in_map_iff in Hy as (b & <- & Hb'). rewrite Hcmp by assumption. reflexivity. }
  rewrite Hall. cbn [negb].
  pose proof (allrec_NoDup_str E h1 own1 role ch en HI1) as HndS. rewrite Hh1s in HndS. fold recs in HndS.
  pose proof (allrec_NoDup_pos E h1 own1 role ch en HI1) as HndP. rewrite Hh1s in HndP. fold recs in HndP.
  destruct (sorted_recs srt (fun x y => ok_true (LMS_comparison E b1 x y)) recs Hsrt HndS) as (ol & Hol1 & Hol2 & Hol3).
  { intros a b Ha Hb'. rewrite Hcmp by assumption. reflexivity. }
  rewrite Hol1.
  assert (Hoz : zln ol = zln recs) by (rewrite (Permutation_length Hol2); reflexivity).
  destruct (ablit_ok (map fst ol) s1 1) as (s2 & Hs2 & Hs2l & Hs2a & _); [lia|rewrite map_length; lia|].
  rewrite Hs2. cbn [bind].
  assert (HolIn : forall q x, In (q, x) ol -> exists hv, inch h1 ch hv q x).
  { intros q x Hin. apply (Hrec (q, x)). apply (Permutation_in _ Hol2 Hin). }
  assert (HolNd : NoDup (map fst ol)).
  { apply (Permutation_NoDup (l := map fst recs)); [|assumption]. apply Permutation_map, Permutation_sym, Hol2. }
  (* names *)
  rewrite <- Hoz.
  destruct (wp_inv _ _ (name_loop_ok E h1 own1 role ch en HI1 s2 ol Hs2a HolIn HolNd)) as (h2 & Hnl & b2 & -> & HI2 & Hb2l & Hen2 & Hfr2).
  rewrite Hnl. cbn [bind].
  change (ht_buf h1) with b1 in *. change (NAME_BYTES h1) with (NAME_BYTES h) in *. rewrite Hnb in *. fold nb in Hen2.
  change (ht_buf (with_buf h1 b2)) with b2.
  assert (Hfresh : forall i, pos <= i < pos + sp -> bget E b2 i = match fresh_byte E i with Some v => Ok (u8 v) | None => Err Uninit end).
  { intros i Hi. rewrite Hfr2; [|unfold own1; replace (i <? pos) with false by lia; reflexivity].
    unfold b1. apply bget_realloc_new; [apply (hi_clean _ _ _ _ _ _ HI)|fold pos; lia|fold pos; lia]. }
  assert (Hs2u : alen s2 = u + 2) by lia.
  rewrite aset_ok by lia. cbn [bind].

  assert (Hll2 : 2 <= ll).
  { pose proof (lenlen_spec (he + 1) ltac:(lia)) as (A1 & _ & A2). fold ll in A1, A2. destruct (Z_le_gt_dec 2 ll); [assumption|].
    assert (Hl1 : ll = 1) by lia. rewrite Hl1 in A2. change (256 ^ 1) with 256 in A2. rewrite Z.mod_small in Hmul by lia. lia. }
  destruct (set_length_fuel_exact 10 E b2 pos (he + 1)) as (b3 & Hb3 & Hf3 & Hc3 & Hg3 & Hd3); try lia.
  unfold set_length at 1. rewrite Hb3. cbn [bind]. unfold set_name, get_length. rewrite Hg3. cbn [bind]. fold ll in Hd3 |- *.
  replace (ll =? 0) with false by lia.
  assert (Hx : forall j, 0 <= j < ll -> bget E b3 (pos + 1 + j) = Err Uninit \/ exists c, bget E b3 (pos + 1 + j) = Ok c).
  { intros j Hj. destruct (Hd3 j Hj) as [[_ H]|(_ & _ & H)]; [right; eexists; exact H|left].
    rewrite H, Hfresh, Hno by (fold pos; lia). reflexivity. }
  assert (Hy : bget E b3 (pos + 1 + (ll - 1)) = Err Uninit).
  { destruct (Hd3 (ll - 1) ltac:(lia)) as [[H _]|(_ & _ & H)].
    - exfalso. apply H. replace (ll - (ll - 1)) with 1 by lia. exact Hmul.
    - rewrite H, Hfresh, Hno by (fold pos; lia). reflexivity. }
  destruct (Hx 0 ltac:(lia)) as [H0|[c0 H0]]; rewrite Z.add_0_r in H0; rewrite H0; cbn [bind]; [reflexivity|].
  replace ll with (1 + Z.of_nat (Z.to_nat (ll - 1))) by lia.
  rewrite (for_up_uninit (fun i => bget E b3 (pos + 1 + i)) (fun x c => Z.lor (u64 (Z.shiftl x 8)) c)); [reflexivity| |].
  - intros i Hi. apply Hx. lia.
  - exists (ll - 1). split; [lia|exact Hy].
Qed.
End Head.

Lemma ins_ext c c' x l : (forall y, In y l -> c x y = c' x y /\ c y x = c' y x) -> ins c x l = ins c' x l.
Proof.
  induction l as [|y l IH]; intros H; [reflexivity|]. cbn [ins]. destruct (H y (or_introl eq_refl)) as [H1 H2].
  rewrite ?H1, ?H2, IH by (intros z Hz; apply H; right; exact Hz). reflexivity.
Qed.
Lemma isort_comparison : comparison_sort isort.
Proof.
  intros c c' l H. induction l as [|x l IH]; [reflexivity|]. cbn [isort fold_right] in *. fold (isort c l) (isort c' l).
  rewrite IH by (intros y z Hy Hz; apply H; right; assumption). apply ins_ext. intros y Hy.
  apply (Permutation_in _ (isort_perm c' l)) in Hy. split; apply H; cbn; auto.
Qed.

Section Final.
Context (hts : Z) (srt : sorter) (fw : Z -> Z) (bs : Z -> Z -> Z) (T : arr Z) (l : list Z) (b : bool).
Context (Hs : std_sort srt) (Hts : 1 <= hts <= 2 ^ 48) (Hb : Forall is_byte l) (Hn : 3 <= zl l <= 2 ^ 58) (HT : holds T (l ++ [0])).
Theorem uninit_dichotomy : comparison_sort srt ->
  bwt_string_gen hts (mkenv (fun _ => None) fw bs) srt (Some T) (zl l) b = Err Uninit \/
  exists r, (alen (r_BWT r) = zl l + 1 /\ is_BWT l (av (r_BWT r)) (r_last r)) /\
    forall fb, bwt_string_gen hts (mkenv fb fw bs) srt (Some T) (zl l) b = Ok (if b then None else Some T, Some r).
Proof using Hs Hts Hb Hn HT.
  intros Hc.
  destruct (bwt_string_list (mkenv (fun _ => Some 0) fw bs) srt hts T l b Hs Hts Hb Hn HT (or_introl (fun _ => eq_refl))) as (r & Hr & H1 & H2).
  destruct (um_string (fun _ => None) (fun _ => Some 0) fw bs ltac:(auto) srt Hc hts (Some T) (zl l) b) as [H|H]; [left; exact H|].
  right. exists r. split; [split; assumption|]. intros fb.
  destruct (um_string (fun _ => None) fb fw bs ltac:(auto) srt Hc hts (Some T) (zl l) b) as [H'|H']; congruence.
Qed.
Theorem head_uninit : (forall i, In i (lms_positions l) -> Z.of_nat (length (star_sub l i)) mod 256 <> 0) -> Z.of_nat (next_lms l 0 + 1) mod 256 = 0 ->
  bwt_string_gen hts (mkenv (fun _ => None) fw bs) srt (Some T) (zl l) b = Err Uninit.
Proof using Hs Hts Hb Hn HT.
  intros Hst Hh. unfold bwt_string_gen. destruct (Z.leb_spec (zl l) 0); [lia|]. unfold bwt_is.
  set (E := mkenv (fun _ => None) fw bs).
  assert (HTt : forall i, 0 <= i <= zl l -> av T i = Some (tl_ l i)) by exact (holds_tl T l HT).
  assert (Hbt : forall i, 0 <= i < zl l -> 0 <= tl_ l i < 256) by exact (tl_byte l Hb).
  assert (Hz : tl_ l (zl l) = 0) by exact (tl_n l).
  assert (Hfs : forall e, LMS (tl_ l) (zl l) e = true -> fresh_ok E (zl (sub (tl_ l) (zl l) e))).
  { intros e He. left. destruct (LMS_to_list l e He) as (_ & He2 & Hin). rewrite He2, sub_list by assumption. apply Hst, Hin. }
  destruct (wp_inv _ _ (extract_ok E hts T (tl_ l) (zl l) Hts Hn HTt Hbt (zb _ Hz) Hfs)) as (co & Hco & Hex).
  rewrite Hco. cbn [bind].
  rewrite (sort_head_uninit E srt hts T (tl_ l) (zl l) Hs Hts Hn); [reflexivity| |intros; reflexivity|exact Hex].
  change 0 with (Z.of_nat 0) at 1. rewrite nx_list. replace (Z.of_nat (next_lms l 0) + 1) with (Z.of_nat (next_lms l 0 + 1)) by lia. exact Hh.
Qed.
End Final.

(** ** the same for bwt_file *)
Section File.
Context (hts : Z) (srt : sorter) (fw : Z -> Z) (bs : Z -> Z -> Z) (Hc : comparison_sort srt).
Lemma um_file fb fb' f : (forall i, fb i = None \/ fb i = fb' i) ->
  bwt_file_gen hts (mkenv fb fw bs) srt f = (Err Uninit, None) \/ bwt_file_gen hts (mkenv fb fw bs) srt f = bwt_file_gen hts (mkenv fb' fw bs) srt f.
Proof using Hc.
  intros Hfb. unfold bwt_file_gen. destruct (in_open f); cbn [negb]; [|right; reflexivity]. destruct (malloc_ok f); cbn [negb]; [|right; reflexivity].
  destruct (fread _ _ _) as [[T k]|]; [|right; reflexivity]. destruct (k <=? 0); [right; reflexivity|]. destruct (aset T _ 0) as [T'|]; [|right; reflexivity].
  destruct (um_string fb fb' fw bs Hfb srt Hc hts (Some T') (u64 (in_tell f)) true) as [H|H]; rewrite H; [left|right]; reflexivity.
Qed.
Theorem file_dichotomy f : std_sort srt -> 1 <= hts <= 2 ^ 48 -> Forall is_byte (in_data f) -> 3 <= zl (in_data f) <= 2 ^ 58 ->
  in_open f = true -> in_tell f = zl (in_data f) -> malloc_ok f = true -> out_open f = true -> out_limit f = None ->
  bwt_file_gen hts (mkenv (fun _ => None) fw bs) srt f = (Err Uninit, None) \/
  forall fb, bwt_file_gen hts (mkenv fb fw bs) srt f = (Ok tt, Some (file_output (in_data f))).
Proof using Hc.
  intros H1 H2 H3 H4 H5 H6 H7 H8 H9.
  destruct (um_file (fun _ => None) (fun _ => Some 0) f (fun _ => or_introl eq_refl)) as [H|H]; [left; exact H|].
  right. intros fb. destruct (um_file (fun _ => None) fb f (fun _ => or_introl eq_refl)) as [H'|H'].
  - rewrite H' in H. rewrite (file_ok hts _ srt f) in H; [discriminate|try assumption..]. left. reflexivity.
  - rewrite <- H', H. apply file_ok; try assumption. left. reflexivity.
Qed.
Theorem file_head_uninit f : std_sort srt -> 1 <= hts <= 2 ^ 48 -> Forall is_byte (in_data f) -> 3 <= zl (in_data f) <= 2 ^ 58 ->
  in_open f = true -> in_tell f = zl (in_data f) -> malloc_ok f = true ->
  (forall i, In i (lms_positions (in_data f)) -> Z.of_nat (length (star_sub (in_data f) i)) mod 256 <> 0) ->
  Z.of_nat (next_lms (in_data f) 0 + 1) mod 256 = 0 ->
  bwt_file_gen hts (mkenv (fun _ => None) fw bs) srt f = (Err Uninit, None).
Proof using.
  intros H1 H2 H3 H4 H5 H6 H7 H8 H9. set (E := mkenv (fun _ => None) fw bs).
  unfold bwt_file_gen. rewrite H5, H7, H6. cbn [negb].
  set (l := in_data f) in *. replace (u64 (zl l)) with (zl l) by (unfold u64; rewrite wrap_small by lia; reflexivity).
  destruct (fread_ok (zl l) l eq_refl ltac:(lia)) as (T & HT & Hl & Hat). rewrite HT.
  destruct (Z.leb_spec (zl l) 0); [lia|]. rewrite aset_ok by lia.
  assert (HH : holds (aupd T (zl l) 0) (l ++ [0])).
  { intros i Hi. rewrite app_length in Hi. cbn [length] in Hi. rewrite av_upd by lia.
    destruct (Z.eqb_spec (Z.of_nat i) (zl l)) as [He|He].
    - replace i with (length l) by lia. rewrite app_nth2, Nat.sub_diag by lia. reflexivity.
    - rewrite app_nth1 by lia. specialize (Hat (Z.of_nat i) ltac:(lia)). rewrite Nat2Z.id in Hat. exact Hat. }
  unfold E. rewrite (head_uninit hts srt fw bs _ l true H1 H2 H3 H4 HH H8 H9). reflexivity.
Qed.
End File.
