(** The layout of the string buffer (BlockSpec) is what extract_LMS_strings computes; so it is enough that no record that begins
    a block has a length divisible by 256. *)
From Verif Require Import Base M_PackedArray M_HashTable M_Cells M_Sais M_Split M_Induce M_Flbwt Spec BlockSpec
  Count Text Keys P_PackedArray P_Bytes P_HashTable P_HashTable2 P_Insert P_Extract P_Spec P_Lists P_Bridge.
From Coq Require Import ZifyBool.
Open Scope Z_scope.

(** ** the layout of the blocks *)
Lemma bucket_hash hts s : bucket hts s = hash_of hts s.
Proof.
  unfold bucket, hash_of. f_equal. rewrite <- (Z.mod_0_l (2 ^ 64)) at 2 by lia. generalize 0 as a.
  induction s as [|c s IH]; intros a; cbn [fold_left]; [reflexivity|]. rewrite IH. f_equal. unfold u64, wrap.
  rewrite Z.add_mod_idemp_l by lia. rewrite <- (Z.add_mod_idemp_l (a mod 2 ^ 64 * 101)) by lia. rewrite Z.mul_mod_idemp_l by lia.
  rewrite Z.add_mod_idemp_l by lia. reflexivity.
Qed.
Lemma record_size n s : record_bytes n s = rsize (name_bytes n) (zln s).
Proof.
  unfold record_bytes, rsize, byte_len, lenlen, name_bytes.
  replace (Z.log2 (n / 2 + 1) + 1 + 7) with (Z.log2 (n / 2 + 1) + 1 * 8) by lia. rewrite Z.div_add by lia. lia.
Qed.
Lemma stored_fold hts n l : forall L x, In x (stored (fold_left (store hts n) l L)) <-> In x (stored L) \/ In x l.
Proof.
  induction l as [|y l IH]; intros L x; cbn [fold_left In]; [tauto|]. rewrite IH. unfold store, store_in.
  destruct (in_dec _ y (stored L)) as [Hi|Hi].
  - split; [tauto|]. intros [H|[->|H]]; auto.
  - cbv zeta. destruct (_ <? _); cbn [stored In]; tauto.
Qed.
Lemma firsts_fold B hts n l : forall L x, In x (firsts L) -> In x (firsts (fold_left (store_in B hts n) l L)).
Proof.
  induction l as [|y l IH]; intros L x Hx; cbn [fold_left]; [exact Hx|]. apply IH. unfold store_in.
  destruct (in_dec _ y (stored L)); [exact Hx|]. cbv zeta. destruct (_ <? _); cbn [firsts In]; tauto.
Qed.
(** a string that cannot share a block *)
Lemma firsts_large hts n l : 0 <= n -> forall L, (forall k, room L k <= 512) -> (forall x, In x (stored L) -> 512 <= zln x -> In x (firsts L)) ->
  forall x, In x l -> 512 <= zln x -> In x (firsts (fold_left (store hts n) l L)).
Proof.
  intros Hn. assert (Hrb : forall y, zln y < record_bytes n y).
  { intros y. unfold record_bytes, byte_len. pose proof (Z.div_pos (Z.log2 (zln y)) 8 (Z.log2_nonneg _) ltac:(lia)).
    pose proof (Z.div_pos (Z.log2 (n / 2 + 1)) 8 (Z.log2_nonneg _) ltac:(lia)). lia. }
  induction l as [|y l IH]; intros L HR HS x Hx Hl; [destruct Hx|]. cbn [fold_left].
  assert (Hst : (forall k, room (store hts n L y) k <= 512) /\ (forall x, In x (stored (store hts n L y)) -> 512 <= zln x -> In x (firsts (store hts n L y)))).
  { unfold store, store_in. destruct (in_dec _ y (stored L)) as [Hi|Hi]; [split; [exact HR|exact HS]|]. cbv zeta. pose proof (Hrb y) as Hy. pose proof (HR (bucket hts y)) as Hb.
    destruct (Z.ltb_spec (record_bytes n y + 12) (room L (bucket hts y))) as [Hlt|Hge]; cbn [room stored firsts]; split.
    - intros k. pose proof (HR k). destruct (k =? bucket hts y); lia.
    - intros z [->|Hz] Hzl; [lia|]. apply HS; assumption.
    - intros k. pose proof (HR k). destruct (k =? bucket hts y); lia.
    - intros z [->|Hz] Hzl; [left; reflexivity|right]. apply HS; assumption. }
  destruct Hst as [HR' HS']. destruct Hx as [->|Hx]; [|apply IH; assumption].
  apply firsts_fold. apply HS'; [|exact Hl]. unfold store, store_in. destruct (in_dec _ x (stored L)) as [Hi|Hi]; [exact Hi|]. cbv zeta. destruct (_ <? _); left; reflexivity.
Qed.

(** what insert_string does to rest *)
Lemma insert_rest E h T p s h' x : 0 <= HBSIZE h < 2 ^ 63 -> 0 <= NAME_BYTES h <= 8 -> (forall i, 0 <= cell (ht_rest h) i <= HBSIZE h) -> tseg T p s -> 1 <= zln s < 2 ^ 60 -> insert_string E h T (zln s) p = Ok (h', x) ->
  (x = 0 /\ h' = h) \/
  exists r1, av (ht_rest h) (hash_of (HTSIZE h) s) = Some r1 /\ x = 1 /\
    forall k, av (ht_rest h') k = if k =? hash_of (HTSIZE h) s
      then Some (if rsize (NAME_BYTES h) (zln s) + 12 <? r1 then r1 - rsize (NAME_BYTES h) (zln s) else HBSIZE h) else av (ht_rest h) k.
Proof.
  intros H1 H2 H4 Ht Hm Hins. unfold insert_string in Hins. rewrite (hash_ok h T p s Ht) in Hins. cbn [bind] in Hins.
  set (hv := hash_of (HTSIZE h) s) in *. binv Hins. binv Hins. destruct a0 as [q|q]; [injection Hins as <- <-; left; auto|right].
  rewrite calculate_lenlen_ok in Hins by lia. cbn [bind] in Hins. pose proof (lenlen_le8 (zln s) ltac:(lia)) as Hl.
  assert (Hsp : u64 (1 + 1 + lenlen (zln s) + zln s + NAME_BYTES h) = rsize (NAME_BYTES h) (zln s)).
  { unfold rsize, u64. rewrite wrap_small by lia. lia. }
  rewrite Hsp in Hins. assert (Hszb : 0 < rsize (NAME_BYTES h) (zln s) < 2 ^ 61) by (unfold rsize; lia). set (sz := rsize (NAME_BYTES h) (zln s)) in *. binv Hins. rename a0 into rest. pose proof (aget_inv _ _ _ B1) as Hr1.
  exists rest. split; [exact Hr1|]. pose proof (av_bounds _ _ _ Hr1) as Hb1.
  pose proof (H4 hv) as Hcv. unfold cell in Hcv. rewrite Hr1 in Hcv.
  rewrite !swrap_small in Hins by (change (2 ^ (64 - 1)) with (2 ^ 63); lia).
  assert (HD : forall h1 r, (b <- write_record E h1 T (zln s) p (lenlen (zln s)) (ht_buf h1) r ;; rest0 <- aget (ht_rest h1) hv ;;
      rest' <- aset (ht_rest h1) hv (u64 (rest0 - sz)) ;; Ok (mkht (HTSIZE h1) (HBSIZE h1) (NAME_BYTES h1) rest' (ht_head h1) b, 1)) = Ok (h', x) ->
    x = 1 /\ exists r0, av (ht_rest h1) hv = Some r0 /\ ht_rest h' = aupd (ht_rest h1) hv (u64 (r0 - sz))).
  { intros h1 r Hx. destruct (write_record E h1 T (zln s) p (lenlen (zln s)) (ht_buf h1) r) as [wb|] eqn:W1; cbn [bind] in Hx; [|discriminate].
    destruct (aget (ht_rest h1) hv) as [r0|] eqn:W2; cbn [bind] in Hx; [|discriminate].
    destruct (aset (ht_rest h1) hv (u64 (r0 - sz))) as [r2|] eqn:W3; cbn [bind] in Hx; [|discriminate].
    apply aset_inv in W3 as [_ ->]. injection Hx as <- <-. split; [reflexivity|]. exists r0. split; [exact (aget_inv _ _ _ W2)|reflexivity]. }
  assert (Hupd : forall (r0 : arr Z) v k, 0 <= hv < alen r0 -> av (aupd r0 hv v) k = if k =? hv then Some v else av r0 k).
  { intros r0 v k Hk. destruct (Z.eqb_spec k hv) as [->|]; [apply av_upd_same; lia|apply av_upd_other; lia]. }
  assert (Hu2 : u64 (HBSIZE h + sz) = HBSIZE h + sz) by (unfold u64; apply wrap_small; lia).
  destruct (Z.leb_spec (rest - 12) sz) as [Hle|Hgt].
  - replace (sz + 12 <? rest) with false by lia. rewrite Hu2 in Hins. destruct (aset (ht_rest h) hv (HBSIZE h + sz)) as [rr|] eqn:Hrr; cbn [bind] in Hins; [|discriminate].
    apply aset_inv in Hrr as [_ ->].
    assert (Hfin : forall h1 r, ht_rest h1 = aupd (ht_rest h) hv (HBSIZE h + sz) -> (b <- write_record E h1 T (zln s) p (lenlen (zln s)) (ht_buf h1) r ;; rest0 <- aget (ht_rest h1) hv ;;
      rest' <- aset (ht_rest h1) hv (u64 (rest0 - sz)) ;; Ok (mkht (HTSIZE h1) (HBSIZE h1) (NAME_BYTES h1) rest' (ht_head h1) b, 1)) = Ok (h', x) ->
      x = 1 /\ forall k, av (ht_rest h') k = if k =? hv then Some (HBSIZE h) else av (ht_rest h) k).
    { intros h1 r Hh1 Hx. destruct (HD h1 r Hx) as (-> & r0 & Hr0 & He). split; [reflexivity|]. intros k. rewrite He, Hh1 in *.
      rewrite Hupd, Z.eqb_refl in Hr0 by lia. assert (Hr00 : r0 = HBSIZE h + sz) by congruence. rewrite Hr00. rewrite !Hupd by (rewrite ?alen_upd; lia).
      replace (u64 (HBSIZE h + sz - sz)) with (HBSIZE h) by (unfold u64; rewrite wrap_small; lia). destruct (k =? hv); reflexivity. }
    destruct (q =? 0).
    + destruct (aset (ht_head h) hv _) as [hh|] eqn:Hhh; cbn [bind] in Hins; [|discriminate]. eapply Hfin; [|exact Hins]. reflexivity.
    + destruct (set_pointer _ q _) as [bb|] eqn:Hbb; cbn [bind] in Hins; [|discriminate]. eapply Hfin; [|exact Hins]. reflexivity.
  - replace (sz + 12 <? rest) with true by lia. cbn [bind] in Hins. destruct (HD h q Hins) as (-> & r0 & Hr0 & He). split; [reflexivity|].
    intros k. rewrite Hr1 in Hr0. injection Hr0 as <-. rewrite He, Hupd by lia. replace (u64 (rest - sz)) with (rest - sz) by (unfold u64; rewrite wrap_small; lia). reflexivity.
Qed.

Section Rooms.
Context (E : env) (hts : Z) (T : arr Z) (t : Z -> Z) (n : Z).
Context (Hts : 1 <= hts <= 2 ^ 48) (Hn : 3 <= n <= 2 ^ 58).
Context (HT : forall i, 0 <= i <= n -> av T i = Some (t i)).
Context (Hb : forall i, 0 <= i < n -> 0 <= t i < 256) (Hz : 0 <= t n < 256).
Notation LMS := (LMS t n).
Notation sub := (sub t n).

Definition stars (lo : Z) : list (list Z) := rev (map sub (filter LMS (zseq lo n))).
Definition lay (lo : Z) : layout := fold_left (store hts n) (stars lo) empty_layout.
Lemma zseq_head lo : lo < n -> zseq lo n = lo :: zseq (lo + 1) n.
Proof. intros H. unfold zseq. replace (Z.to_nat (n - lo)) with (S (Z.to_nat (n - (lo + 1)))) by lia. reflexivity. Qed.
Lemma stars_cons lo : lo < n -> LMS lo = true -> stars lo = stars (lo + 1) ++ [sub lo].
Proof. intros H HL. unfold stars. rewrite (zseq_head lo H). cbn [filter]. rewrite HL. reflexivity. Qed.
Lemma stars_skip lo : lo < n -> LMS lo = false -> stars lo = stars (lo + 1).
Proof. intros H HL. unfold stars. rewrite (zseq_head lo H). cbn [filter]. rewrite HL. reflexivity. Qed.
Lemma lay_cons lo : lo < n -> LMS lo = true -> lay lo = store hts n (lay (lo + 1)) (sub lo).
Proof. intros H HL. unfold lay. rewrite stars_cons, fold_left_app by assumption. reflexivity. Qed.
Lemma lay_skip lo : lo < n -> LMS lo = false -> lay lo = lay (lo + 1).
Proof. intros H HL. unfold lay. rewrite stars_skip by assumption. reflexivity. Qed.
Lemma firsts_mono lo x : lo <= n -> In x (firsts (lay lo)) -> forall d, 0 <= d -> In x (firsts (lay (lo - d))).
Proof.
  intros Hlo Hx d Hd. pattern d. apply natlike_ind; [rewrite Z.sub_0_r; exact Hx| |exact Hd]. intros k Hk IH.
  replace (lo - Z.succ k) with (lo - k - 1) by lia. destruct (LMS (lo - k - 1)) eqn:HL.
  - rewrite lay_cons by (lia || assumption). replace (lo - k - 1 + 1) with (lo - k) by lia. apply (firsts_fold 512 hts n [_] _ _ IH).
  - rewrite lay_skip by (lia || assumption). replace (lo - k - 1 + 1) with (lo - k) by lia. exact IH.
Qed.
Lemma stored_lay lo x : In x (stored (lay lo)) <-> exists e, lo <= e < n /\ LMS e = true /\ x = sub e.
Proof.
  unfold lay. rewrite stored_fold. cbn [stored In]. unfold stars. rewrite <- in_rev, in_map_iff. split.
  - intros [[]|(e & <- & He)]. apply filter_In in He as [He HL]. apply in_zseq in He. exists e. auto.
  - intros (e & He & HL & ->). right. exists e. split; [reflexivity|]. apply filter_In. split; [apply in_zseq; lia|exact HL].
Qed.

Lemma firsts_stored lo x : In x (firsts (lay lo)) -> In x (stored (lay lo)).
Proof.
  unfold lay. set (L0 := empty_layout). assert (H0 : forall y, In y (firsts L0) -> In y (stored L0)) by auto. revert H0. generalize L0.
  induction (stars lo) as [|y l IH]; intros L HL; cbn [fold_left]; [apply HL|]. apply IH. intros z Hz'. unfold store, store_in in *.
  destruct (in_dec _ y (stored L)); [apply HL, Hz'|]. cbv zeta in *. destruct (_ <? _); cbn [firsts stored In] in *; [right; apply HL, Hz'|].
  destruct Hz' as [<-|Hz']; [left; reflexivity|right; apply HL, Hz'].
Qed.

Definition rooms (i : Z) (h : htable) : Prop := forall k, 0 <= k < hts -> av (ht_rest h) k = Some (room (lay (i + 2)) k).

(** what one iteration does to the table *)
Lemma step_table i s s' : 0 <= i <= n - 2 -> xinv E hts t n i s -> extract_step E T i s = Ok s' ->
  (LMS (i + 1) = false /\ x_ht s' = x_ht s /\ x_uniq s' = x_uniq s) \/
  (LMS (i + 1) = true /\ exists r, insert_string E (x_ht s) T (zln (sub (i + 1))) (i + 1) = Ok (x_ht s', r) /\
    x_uniq s' = if r =? 0 then x_uniq s else u64 (x_uniq s + 1)).
Proof.
  intros Hi HX. destruct HX as [_ _ _ Hub _ Hprev Hp Hq Hhts Hhb Hnb _ _]. revert s'.
  match goal with |- forall s', _ -> ?P => change (ens (extract_step E T i s) (fun s' => P)) end.
  unfold extract_step. rewrite (aget_ok _ _ _ (HT i ltac:(lia))). cbn [bind].
  rewrite (aget_ok _ _ _ (HT (i + 1) ltac:(lia))). cbn [bind]. apply ens_skip. intros M _.
  pose proof (isS_step t n i ltac:(lia)) as Hst.
  assert (HLMS : LMS (i + 1) = isS t n (i + 1) && negb (isS t n i)).
  { unfold Text.LMS. replace (i + 1 - 1) with i by lia. lia. }
  destruct (Z.ltb_spec (t i) (t (i + 1))) as [Hlt|Hge].
  { apply ens_ok. left. cbn [x_ht x_uniq]. split; [|auto]. destruct (Z.eq_dec (i + 1) n) as [He|]; [rewrite He in Hlt; pose proof (Hb i ltac:(lia)); lia|]. rewrite HLMS. lia. }
  destruct (Z.ltb_spec (t (i + 1)) (t i)) as [Hlt|Hge2].
  2: { apply ens_skip. intros NL _. apply ens_ok. left. cbn [x_ht x_uniq]. split; [|auto]. rewrite HLMS. lia. }
  destruct (x_prevS s) eqn:Hps.
  2: { cbn [bind]. apply ens_skip. intros NL _. apply ens_ok. left. cbn [x_ht x_uniq]. split; [|auto]. rewrite HLMS. lia. }
  assert (HnL : LMS (i + 1) = true) by (rewrite HLMS; lia).
  pose proof (sub_len_LMS t n (i + 1) HnL) as [Hsl Hsl2]. replace (i + 1 + 1) with (i + 2) in Hsl by lia.
  assert (Hlen64 : u64 (x_q s - (i + 1) + 1) = zln (sub (i + 1))).
  { rewrite Hq, Hsl. unfold u64. rewrite wrap_small; lia. }
  eapply ens_bind with (P := fun '(ht, C, num, uniq, p, q) => exists r, insert_string E (x_ht s) T (zln (sub (i + 1))) (i + 1) = Ok (ht, r) /\
    uniq = if r =? 0 then x_uniq s else u64 (x_uniq s + 1)).
  2: { intros [[[[[ht C] num] uniq] p] q] _ Hm. apply ens_skip. intros NL _. apply ens_ok. right. split; [exact HnL|exact Hm]. }
  cbv zeta. apply ens_skip. intros C _. rewrite Hlen64.
  apply ens_skip. intros [h' r] Hins. apply ens_ok. exists r. split; [exact Hins|reflexivity].
Qed.

Context (Hgood : forall s, In s (firsts (lay 0)) -> fresh_ok E (zln s)).
Lemma next_ok i s : 0 <= i <= n - 2 -> xinv E hts t n i s -> rooms i (x_ht s) -> next_safe E t n i s.
Proof.
  intros Hi HX HR HL Hnew. pose proof (xi_hts _ _ _ _ _ _ HX) as Hhts. pose proof (xi_nb _ _ _ _ _ _ HX) as Hnb.
  pose proof (hash_range (HTSIZE (x_ht s)) (sub (i + 1)) ltac:(lia)) as Hhr. unfold fits_block. rewrite Hhts, Hnb in *.
  rewrite <- bucket_hash in *. rewrite <- record_size.
  destruct (Z_lt_ge_dec (record_bytes n (sub (i + 1)) + 12) (room (lay (i + 2)) (bucket hts (sub (i + 1))))) as [Hlt|Hge].
  - right. exists (room (lay (i + 2)) (bucket hts (sub (i + 1)))). split; [apply HR; lia|exact Hlt].
  - left. apply Hgood. replace 0 with (i + 1 - (i + 1)) by lia. apply firsts_mono; [lia| |lia].
    rewrite lay_cons by (lia || assumption). replace (i + 1 + 1) with (i + 2) by lia. unfold store, store_in.
    destruct (in_dec _ _ _) as [Hin|_]; [apply stored_lay in Hin as (e & He & HeL & Heq); destruct (Hnew e He HeL Heq)|].
    cbv zeta. destruct (Z.ltb_spec (record_bytes n (sub (i + 1)) + 12) (room (lay (i + 2)) (bucket hts (sub (i + 1))))); [lia|]. left. reflexivity.
Qed.
(** insertion of the next S* substring, with the layout *)
Lemma next_insert i s h' r : 0 <= i <= n - 2 -> xinv E hts t n i s -> xb hts n i s -> rooms i (x_ht s) -> LMS (i + 1) = true ->
  insert_string E (x_ht s) T (zln (sub (i + 1))) (i + 1) = Ok (h', r) ->
  (r = 0 /\ h' = x_ht s /\ In (sub (i + 1)) (stored (lay (i + 2)))) \/
  (r = 1 /\ ~ In (sub (i + 1)) (stored (lay (i + 2)))).
Proof.
  intros Hi HX HB HR HL Hins. pose proof (next_ok i s Hi HX HR) as Hsf.
  destruct HX as [_ _ _ Hub _ Hprev Hp Hq Hhts Hhb Hnb _ (own & role & ch & en & HI & Hstr & _)].
  pose proof (xb_bound hts n i s HB ltac:(lia) ltac:(lia)) as Hlen. unfold buf_bound in Hlen.
  pose proof (sub_len_LMS t n (i + 1) HL) as [Hsl Hsl2].
  pose proof (name_bytes_ok n ltac:(lia)) as [Hnb8 _]. pose proof (lenlen_le8 (zln (sub (i + 1))) ltac:(lia)) as Hll.
  pose proof (hash_range (HTSIZE (x_ht s)) (sub (i + 1)) ltac:(lia)) as Hhr.
  assert (Heq : In (sub (i + 1)) (map snd (ch (hash_of (HTSIZE (x_ht s)) (sub (i + 1))))) <-> In (sub (i + 1)) (stored (lay (i + 2)))).
  { rewrite stored_lay. split.
    - intros Hin. apply Hstr. exists (hash_of (HTSIZE (x_ht s)) (sub (i + 1))). split; assumption.
    - intros He. destruct (proj2 (Hstr (sub (i + 1))) He) as (k & Hk & Hin). pose proof Hin as Hin2.
      apply in_map_iff in Hin as ([q' s'] & Hs' & Hin'). cbn [snd] in Hs'. subst s'. rewrite (hi_hash _ _ _ _ _ _ HI k q' _ Hk Hin'). exact Hin2. }
  pose proof (insert_any E (x_ht s) own role ch en T (i + 1) (sub (i + 1)) HI ltac:(lia)
    (sub_tseg T t n HT _ HL) (sub_bytes t n Hn Hb Hz _ HL)) as HA.
  assert (Hc1 : ~ In (sub (i + 1)) (map snd (ch (hash_of (HTSIZE (x_ht s)) (sub (i + 1))))) -> fresh_ok E (zln (sub (i + 1))) \/ fits_block (x_ht s) (sub (i + 1))).
  { intros Hnin. apply (Hsf HL). intros e He HeL Hee. apply Hnin, Heq, stored_lay. exists e. auto. }
  specialize (HA Hc1 ltac:(unfold rsize; lia)). cbv zeta in HA. rewrite Hins in HA. cbn [wp] in HA. rewrite Heq in HA.
  destruct HA as [(A & B & C)|(A & B & _)]; auto.
Qed.
Lemma rooms_step i s s' : 0 <= i <= n - 2 -> xinv E hts t n i s -> xb hts n i s -> rooms i (x_ht s) -> extract_step E T i s = Ok s' -> rooms (i - 1) (x_ht s').
Proof.
  intros Hi HX HB HR Hs. unfold rooms. replace (i - 1 + 2) with (i + 1) by lia.
  destruct (step_table i s s' Hi HX Hs) as [(HL & -> & _)|(HL & r & Hins & _)].
  { rewrite lay_skip by (lia || assumption). replace (i + 1 + 1) with (i + 2) by lia. exact HR. }
  rewrite lay_cons by (lia || assumption). replace (i + 1 + 1) with (i + 2) by lia.
  pose proof (sub_len_LMS t n (i + 1) HL) as [Hsl Hsl2].
  pose proof (next_insert i s _ r Hi HX HB HR HL Hins) as HC.
  pose proof (xi_hts _ _ _ _ _ _ HX) as Hhts. pose proof (xi_nb _ _ _ _ _ _ HX) as Hnb.
  unfold store, store_in. destruct (in_dec _ _ _) as [Hin|Hin].
  { destruct HC as [(_ & -> & _)|[_ HC]]; [exact HR|contradiction]. }
  destruct HC as [(_ & _ & HC)|[-> _]]; [contradiction|].
  destruct (xb_ht _ _ _ _ HB) as [Hh1 Hh2 _ Hh4 _].
  destruct (insert_rest E (x_ht s) T (i + 1) (sub (i + 1)) (x_ht s') 1 ltac:(lia) ltac:(lia) ltac:(rewrite Hh1; exact Hh4) (sub_tseg T t n HT _ HL) ltac:(lia) Hins) as [[H _]|(r1 & Hr1 & _ & Hrest)]; [discriminate|].
  pose proof (hash_range (HTSIZE (x_ht s)) (sub (i + 1)) ltac:(lia)) as Hhr. rewrite Hhts, Hnb in *. rewrite <- bucket_hash in *. rewrite <- record_size in Hrest.
  rewrite HR in Hr1 by lia. injection Hr1 as <-. rewrite Hh1 in Hrest. cbv zeta. intros k Hk. rewrite Hrest.
  destruct (_ + 12 <? _); cbn [room]; destruct (k =? _); try reflexivity; apply HR; lia.
Qed.
Lemma rooms_init h : ht_new hts n = Ok h -> rooms (n - 2) h.
Proof.
  intros Hh. unfold ht_new, ht_new_hb in Hh. destruct (wp_inv _ _ (azeros_ok hts ltac:(lia))) as (z & Hz0 & Hz1 & Hz2). rewrite Hz0 in Hh. cbn [bind] in Hh.
  binv Hh. injection Hh as <-. intros k Hk. cbn [ht_rest]. rewrite Hz2 by lia. f_equal. replace (n - 2 + 2) with n by lia.
  unfold lay, stars, zseq. rewrite Z.sub_diag. reflexivity.
Qed.
Theorem extract_good : wp (extract_LMS_strings E hts T n) (extracted E hts t n).
Proof.
  apply (extract_any E hts T t n Hts Hn HT Hb Hz (fun i s => rooms i (x_ht s))).
  - intros h M3 C1 N1 Hh. exact (rooms_init h Hh).
  - intros i s s' Hi HX HB HJ Hs. exact (rooms_step i s s' Hi HX HB HJ Hs).
  - intros i s Hi HX HB HJ. exact (next_ok i s Hi HX HJ).
Qed.
End Rooms.

Lemma lay_list hts l : lay hts (tl_ l) (zl l) 0 = text_layout hts l.
Proof.
  unfold lay, text_layout. f_equal. unfold stars. f_equal. unfold lms_positions, zseq. rewrite Z.sub_0_r, Nat2Z.id.
  assert (Hf : forall m a, map (sub (tl_ l) (zl l)) (filter (LMS (tl_ l) (zl l)) (zseq_n m (Z.of_nat a))) = map (fun i => sub (tl_ l) (zl l) (Z.of_nat i)) (filter (is_LMS l) (seq a m))).
  { induction m as [|m IH]; intros a; [reflexivity|]. cbn [zseq_n seq filter]. rewrite LMS_list. replace (Z.of_nat a + 1) with (Z.of_nat (S a)) by lia.
    destruct (is_LMS l a); cbn [map]; rewrite IH; reflexivity. }
  pose proof (Hf (length l) O) as H0. change (Z.of_nat 0) with 0 in H0. rewrite H0. apply map_ext_in. intros i Hi. apply sub_list. exact Hi.
Qed.

Lemma long_unwritten hts l i : In i (lms_positions l) -> 512 <= Z.of_nat (length (star_sub l i)) -> Z.of_nat (length (star_sub l i)) mod 256 = 0 -> unwritten_length hts l.
Proof.
  intros Hi Hl Hm. right. exists (star_sub l i). split; [|exact Hm]. unfold text_layout. apply firsts_large; [lia|cbn; lia|intros x []| |exact Hl].
  rewrite <- in_rev. apply in_map. exact Hi.
Qed.
(** * fresh memory is zero, or the layout is good *)
Definition fresh_good (E : env) (hts : Z) (l : list Z) : Prop := (forall i, fresh_byte E i = Some 0) \/ ~ unwritten_length hts l.
Lemma fresh_good_firsts E hts l s : fresh_good E hts l -> In s (firsts (lay hts (tl_ l) (zl l) 0)) -> fresh_ok E (zln s).
Proof.
  intros [H|H] Hin; [right; exact H|left]. intros Hm. apply H. right. exists s. rewrite <- lay_list. split; assumption.
Qed.
Lemma fresh_good_head E hts l : fresh_good E hts l -> fresh_ok E (nx (tl_ l) (zl l) 0 + 1).
Proof.
  intros [H|H]; [right; exact H|left]. intros Hm. apply H. left. rewrite <- Hm. f_equal. change 0 with (Z.of_nat 0) at 1. rewrite nx_list. lia.
Qed.
(** the simple sufficient condition *)
Lemma firsts_in hts n l : forall L x, In x (firsts (fold_left (store hts n) l L)) -> In x (firsts L) \/ In x l.
Proof.
  induction l as [|y l IH]; intros L x Hx; cbn [fold_left] in Hx; [left; exact Hx|]. destruct (IH _ _ Hx) as [H|H]; [|right; right; exact H].
  unfold store, store_in in H. destruct (in_dec _ y (stored L)); [left; exact H|]. cbv zeta in H. destruct (_ <? _); cbn [firsts In] in H; [left; exact H|].
  destruct H as [->|H]; [right; left; reflexivity|left; exact H].
Qed.
Lemma safe_written hts l : safe_lengths l -> ~ unwritten_length hts l.
Proof.
  intros [H1 H2] [H|(s & Hs & Hm)]; [contradiction|]. unfold text_layout in Hs. apply firsts_in in Hs as [[]|Hs].
  rewrite <- in_rev in Hs. apply in_map_iff in Hs as (i & <- & Hi). exact (H1 i Hi Hm).
Qed.
