(** HashTable histories: insertions, traversal, naming and lookup. *)
From Verif Require Import Base M_PackedArray M_HashTable M_Flbwt Spec BlockSpec Count P_PackedArray P_Bytes P_HashTable P_HashTable2 P_Extract P_Sort Histories P_Insert P_Blocks.
From Coq Require Import ZifyBool.
Open Scope Z_scope.

Lemma string_at_tseg T p s : string_at T p s <-> tseg T p s.
Proof.
  unfold string_at, tseg. split; intros H i Hi.
  - specialize (H (Z.to_nat i) ltac:(lia)). rewrite Z2Nat.id in H by lia. exact H.
  - specialize (H (Z.of_nat i) ltac:(lia)). rewrite Nat2Z.id in H. exact H.
Qed.

(** reading a record *)
Lemma read_bytes E b p s :
  (forall i, 0 <= i < zln s -> bget E b (p + i) = Ok (nth (Z.to_nat i) s 0)) ->
  for_down (zln s - 1) 0 (fun i l => c <- bget E b (p + i) ;; Ok (c :: l)) [] = Ok s.
Proof.
  intros H. apply wp_eq.
  eapply wp_mono; [apply (wp_for_down (fun i l => l = skipn (Z.to_nat (i + 1)) s)); [lia| |]|].
  - rewrite skipn_all2 by lia. reflexivity.
  - intros i l Hi ->. rewrite H by lia. cbn [bind wp]. replace (i - 1 + 1) with i by lia.
    replace (Z.to_nat (i + 1)) with (S (Z.to_nat i)) by lia.
    assert (Hs : forall (k : nat) (x : list Z), (k < length x)%nat -> nth k x 0 :: skipn (S k) x = skipn k x).
    { induction k as [|k IH]; intros [|a x] Hk; cbn [length] in Hk; try lia; [reflexivity|]. cbn [nth]. apply (IH x). lia. }
    apply Hs. lia.
  - cbn beta. intros l ->. reflexivity.
Qed.
Lemma read_record_fields E b q s : 1 <= zln s < 2 ^ 60 -> lenf E b q (zln s) ->
  (forall i, 0 <= i < zln s -> bget E b (q + 2 + lenlen (zln s) + i) = Ok (nth (Z.to_nat i) s 0)) ->
  read_record E b q = Ok s.
Proof.
  intros Hl Hf Hs. unfold read_record. rewrite (get_length_ok E b q (zln s) ltac:(lia) Hf). cbn [bind].
  rewrite (get_first_ok _ _ _ _ Hf). cbn [bind]. apply read_bytes. intros i Hi. rewrite <- Hs by assumption. f_equal. lia.
Qed.
Lemma read_record_ok E nb b q s : recd E nb b q s -> read_record E b q = Ok s.
Proof.
  intros [H1 H2 H3 H4 H5 H6]. apply read_record_fields; [lia|assumption|assumption].
Qed.

(** the strings of the table *)
Definition strings_of (size : Z) (ch : Z -> list (Z * list Z)) (s : list Z) : Prop :=
  exists hv, 0 <= hv < size /\ In s (map snd (ch hv)).

(** a bound on the growth of the buffer *)
Definition growth (hb : Z) (s : list Z) : Z := hb + 18 + zln s.
Definition total_growth (hb : Z) (l : list (list Z)) : Z := fold_right (fun s a => growth hb s + a) 0 l.

Lemma total_growth_cons hb s l : total_growth hb (s :: l) = hb + 18 + zln s + total_growth hb l.
Proof. reflexivity. Qed.
Lemma total_growth_pos hb l : 0 <= hb -> 0 <= total_growth hb l.
Proof. intros H. induction l as [|x l IH]; [cbn; lia|]. rewrite total_growth_cons. lia. Qed.

Definition string_ok (s : list Z) : Prop := 3 <= zln s < 2 ^ 60 /\ Forall is_byte s.
(** the bytes left in the blocks are those of the layout *)
Definition roomy (n : Z) (h : htable) (L : layout) : Prop := NAME_BYTES h = name_bytes n /\
  forall k, 0 <= k < HTSIZE h -> av (ht_rest h) k = Some (room L k) /\ 0 <= room L k <= HBSIZE h.
Lemma roomy_cell n h L : roomy n h L -> alen (ht_rest h) = HTSIZE h -> 0 <= HBSIZE h -> forall i, 0 <= cell (ht_rest h) i <= HBSIZE h.
Proof.
  intros [_ H] Ha Hb i. unfold cell. destruct (av (ht_rest h) i) as [r|] eqn:Hr; [|lia]. pose proof (av_bounds _ _ _ Hr). destruct (H i ltac:(lia)). rewrite Hr in *. assert (r = room L i) by congruence. lia.
Qed.
Lemma record_bytes_pos n s : 0 <= n -> 0 < record_bytes n s.
Proof.
  intros Hn. unfold record_bytes, byte_len. pose proof (Z.div_pos (Z.log2 (zln s)) 8 (Z.log2_nonneg _) ltac:(lia)).
  pose proof (Z.div_pos (Z.log2 (n / 2 + 1)) 8 (Z.log2_nonneg _) ltac:(lia)). lia.
Qed.

Lemma inserts_ok E n : forall ops strs seen h own role ch en L, 0 <= n -> hinv E h own role ch en ->
  Forall2 op_string ops strs -> Forall string_ok strs -> roomy n h L -> (forall s, In s (stored L) <-> In s seen) ->
  (forall s, In s (firsts (fold_left (store_in (HBSIZE h) (HTSIZE h) n) strs L)) -> fresh_ok E (zln s)) ->
  (forall s, strings_of (HTSIZE h) ch s <-> In s seen) ->
  alen (ht_buf h) + total_growth (HBSIZE h) strs < 2 ^ 63 ->
  exists h' own' role' ch' en', ht_inserts E h ops = Ok (h', insert_flags seen strs) /\ hinv E h' own' role' ch' en' /\
    HTSIZE h' = HTSIZE h /\ HBSIZE h' = HBSIZE h /\ NAME_BYTES h' = NAME_BYTES h /\
    alen (ht_buf h') <= alen (ht_buf h) + total_growth (HBSIZE h) strs /\
    (forall s, strings_of (HTSIZE h) ch' s <-> In s seen \/ In s strs).
Proof.
  induction ops as [|[[T p] m] ops IH]; intros strs seen h own role ch en L Hn HI Hops Hstr HR HL Hgood Hseen Hsz;
    inversion Hops as [|? s ? strs' Hop Hops']; subst; cbn [ht_inserts insert_flags].
  - exists h, own, role, ch, en. do 5 (split; [first [assumption|reflexivity]|]). split; [cbn [total_growth fold_right]; lia|].
    intros x. rewrite Hseen. cbn [In]. tauto.
  - destruct Hop as [-> Hs]. apply string_at_tseg in Hs. inversion Hstr as [|? ? (Hl & Hb) Hstr']; subst. cbn [fold_left] in Hgood.
    rewrite total_growth_cons in Hsz.
    pose proof (hi_nb _ _ _ _ _ _ HI) as Hnb. pose proof (lenlen_le8 (zln s) ltac:(lia)) as Hll.
    pose proof (hi_hb _ _ _ _ _ _ HI) as Hhb.
    pose proof (total_growth_pos (HBSIZE h) strs' ltac:(lia)) as Hpos.
    assert (Hr : rsize (NAME_BYTES h) (zln s) <= 18 + zln s) by (unfold rsize; lia).
    pose proof (hash_range (HTSIZE h) s (hi_size _ _ _ _ _ _ HI)) as Hhv.
    set (hv := hash_of (HTSIZE h) s) in *.
    assert (Hmem : In s (map snd (ch hv)) <-> In s seen).
    { rewrite <- Hseen. split; [intros H; exists hv; auto|]. intros (hv' & Hhv' & Hin).
      pose proof Hin as Hin0. apply in_map_iff in Hin as ([q x'] & Heq & Hin). cbn [snd] in Heq. subst x'.
      pose proof (hi_hash _ _ _ _ _ _ HI hv' q s Hhv' Hin) as He. fold hv in He. rewrite He. assumption. }
    assert (Hf : ~ In s (map snd (ch hv)) -> fresh_ok E (zln s) \/ fits_block h s).
    { intros Hnin. assert (HnL : ~ In s (stored L)) by (rewrite HL, <- Hmem; exact Hnin).
      destruct HR as [HR1 HR2]. destruct (HR2 hv Hhv) as [HR3 _].
      destruct (Z_lt_ge_dec (record_bytes n s + 12) (room L hv)) as [Hlt|Hge].
      - right. exists (room L hv). rewrite HR1, <- record_size. split; assumption.
      - left. apply Hgood, firsts_fold. unfold store_in. destruct (in_dec _ s (stored L)) as [Hx|_]; [contradiction|]. cbv zeta. rewrite bucket_hash. fold hv.
        replace (record_bytes n s + 12 <? room L hv) with false by lia. left. reflexivity. }
    destruct (wp_inv _ _ (insert_any E h own role ch en T p s HI Hl Hs Hb Hf ltac:(lia))) as ([h1 x] & Hi & Hc). rewrite Hi. cbn [bind]. cbv zeta in Hc. fold hv in Hc.
    destruct Hc as [(Hin & -> & ->)|(Hnin & -> & E1 & E2 & E3 & Hal & r & own1 & role1 & en1 & Hr0 & HI1)].
    + destruct (IH strs' (s :: seen) h own role ch en L Hn HI Hops' Hstr' HR) as (h' & own' & role' & ch' & en' & H1 & H2 & H3 & H4 & H5 & H6 & H7).
      { intros x. rewrite HL. cbn [In]. rewrite Hmem in Hin. split; [tauto|]. intros [<-|H]; assumption. }
      { assert (Hst : store_in (HBSIZE h) (HTSIZE h) n L s = L).
        { unfold store_in. destruct (in_dec _ s (stored L)) as [_|Hx]; [reflexivity|]. destruct Hx. apply HL, Hmem, Hin. }
        rewrite Hst in Hgood. exact Hgood. }
      { intros x. rewrite Hseen. cbn [In]. rewrite Hmem in Hin. split; [tauto|]. intros [<-|H]; assumption. }
      { lia. }
      exists h', own', role', ch', en'. rewrite H1. cbn [bind].
      destruct (in_dec (list_eq_dec Z.eq_dec) s seen) as [_|Hnn]; [|tauto].
      do 5 (split; [first [assumption|reflexivity]|]). rewrite total_growth_cons.
      split; [lia|]. intros x. rewrite H7. cbn [In]. tauto.
    + destruct (IH strs' (s :: seen) h1 own1 role1 (upd_ch ch hv r s) en1 (store_in (HBSIZE h) (HTSIZE h) n L s) Hn HI1 Hops' Hstr') as (h' & own' & role' & ch' & en' & H1 & H2 & H3 & H4 & H5 & H6 & H7).
      { pose proof (hi_buf _ _ _ _ _ _ HI) as Hbuf. destruct (insert_rest E h T p s h1 1 ltac:(lia) ltac:(lia) (roomy_cell n h L HR (hi_rest _ _ _ _ _ _ HI) ltac:(lia)) Hs ltac:(lia) Hi) as [[Hx _]|(r1 & Hr1 & _ & Hrest)]; [discriminate|].
        destruct HR as [HR1 HR2]. split; [congruence|]. rewrite E1, E2. intros k Hk. rewrite Hrest. fold hv in Hr1 |- *. destruct (HR2 hv Hhv) as [HR3 HR4].
        assert (Hrr : r1 = room L hv) by congruence. rewrite Hrr, HR1, <- record_size. pose proof (record_bytes_pos n s Hn). pose proof (HR2 k Hk) as [HR5 HR6].
        unfold store_in. rewrite bucket_hash. fold hv. destruct (in_dec _ s (stored L)) as [Hx|_]; [destruct Hnin; apply Hmem, HL, Hx|]. cbv zeta.
        destruct (Z.ltb_spec (record_bytes n s + 12) (room L hv)); cbn [room]; destruct (Z.eqb_spec k hv); (split; [first [reflexivity|assumption]|lia]). }
      { intros x. unfold store_in. destruct (in_dec _ s (stored L)) as [Hx|_]; [destruct Hnin; apply Hmem, HL, Hx|]. cbv zeta. destruct (_ <? _); cbn [stored In]; rewrite HL; tauto. }
      { rewrite E1, E2. exact Hgood. }
      { intros x. rewrite E1. cbn [In]. rewrite <- Hseen. unfold strings_of. split.
        - intros (y & Hy & Hin). unfold upd_ch in Hin. destruct (y =? hv) eqn:Ey.
          + rewrite map_app, in_app_iff in Hin. cbn [map snd In] in Hin. destruct Hin as [Hin|[<-|[]]]; [right; eauto|left; reflexivity].
          + right. eauto.
        - intros [<-|(y & Hy & Hin)].
          + exists hv. split; [assumption|]. unfold upd_ch. rewrite Z.eqb_refl, map_app, in_app_iff. cbn. tauto.
          + exists y. split; [assumption|]. unfold upd_ch. destruct (y =? hv); [rewrite map_app, in_app_iff; tauto|assumption]. }
      { rewrite E2. lia. }
      exists h', own', role', ch', en'. rewrite H1. cbn [bind].
      destruct (in_dec (list_eq_dec Z.eq_dec) s seen) as [Hnn|_]; [tauto|].
      split; [reflexivity|]. split; [assumption|]. do 3 (split; [congruence|]). rewrite total_growth_cons.
      rewrite E2 in *. split; [lia|]. rewrite E1 in H7. intros x. rewrite H7. cbn [In]. tauto.
Qed.

Section Walk.
Context (E : env) (h : htable) (own role : Z -> Z) (ch : Z -> list (Z * list Z)) (en : Z -> Z).
Context (HI : hinv E h own role ch en).
Notation recs := (allrec ch (HTSIZE h)).
Lemma recs_strings s : In s (map snd recs) <-> strings_of (HTSIZE h) ch s.
Proof.
  split.
  - intros H. apply in_map_iff in H as ([q x] & He & Hin). cbn [snd] in He. subst x. apply in_allrec in Hin as (hv & Hhv & Hin).
    exists hv. split; [assumption|]. apply in_map_iff. exists (q, s). auto.
  - intros (hv & Hhv & Hin). apply in_map_iff in Hin as ([q x] & He & Hin). cbn [snd] in He. subst x.
    apply in_map_iff. exists (q, s). split; [reflexivity|]. apply in_allrec. eauto.
Qed.
Lemma walk_ok k : zln recs <= k -> ht_walk E h k = Ok (map fst recs).
Proof.
  intros Hk. pose proof (hi_size _ _ _ _ _ _ HI) as Hs. unfold ht_walk.
  pose proof (collect_all_ok E h own role ch en HI (anew (k + 1)) ltac:(lia)) as H.
  rewrite alen_new in H. destruct (wp_inv _ _ (H ltac:(lia))) as ([s j] & Hw & Hj & _ & Hat & _).
  rewrite Hw. cbn [bind]. rewrite Hj. replace (zln recs) with (zln (map fst recs)) by (rewrite map_length; reflexivity).
  apply aslice_ok, Hat.
Qed.
Lemma walk_read : Forall2 (fun q s => read_record E (ht_buf h) q = Ok s) (map fst recs) (map snd recs).
Proof.
  assert (Hg : forall l, (forall q s, In (q, s) l -> In (q, s) recs) ->
    Forall2 (fun q s => read_record E (ht_buf h) q = Ok s) (map fst l) (map snd l)).
  { induction l as [|[q s] l IH]; intros Hin; cbn [map fst snd]; constructor.
    - destruct (proj1 (allrec_inch h ch q s) (Hin q s (or_introl eq_refl))) as (hv & Hic).
      eapply read_record_ok. apply (inch_rec E h own role ch en HI hv q s Hic).
    - apply IH. intros q' s' H. apply Hin. right. exact H. }
  apply Hg. auto.
Qed.
End Walk.


(** naming *)
Section Naming.
Context (E : env) (own role : Z -> Z) (ch : Z -> list (Z * list Z)) (en : Z -> Z).
(** name of the record at q: the last one given *)
Fixpoint name_of (l : list (Z * Z)) (q : Z) (acc : option Z) : option Z :=
  match l with [] => acc | (q', x) :: l => name_of l q (if q' =? q then Some x else acc) end.

Lemma names_ok : forall l h, hinv E h own role ch en ->
  (forall q x, In (q, x) l -> 0 <= x < 256 ^ NAME_BYTES h /\ exists hv s, inch h ch hv q s) ->
  exists h', ht_names E h l = Ok h' /\ hinv E h' own role ch en /\ HTSIZE h' = HTSIZE h /\ NAME_BYTES h' = NAME_BYTES h /\
    (forall hv q s x acc, inch h ch hv q s ->
       (forall y, acc = Some y -> enc E (ht_buf h) (name_off q (zln s)) y (NAME_BYTES h)) ->
       name_of l q acc = Some x -> enc E (ht_buf h') (name_off q (zln s)) x (NAME_BYTES h)).
Proof.
  induction l as [|[q x] l IH]; intros h HI Hl; cbn [ht_names name_of].
  - exists h. do 4 (split; [first [assumption|reflexivity]|]). intros hv q s x acc _ H1 H2. apply H1, H2.
  - destruct (Hl q x (or_introl eq_refl)) as (Hx & hv & s & Hic).
    destruct (hinv_set_name E h own role ch en HI hv q s x Hic ltac:(lia)) as (b' & H1 & H2 & H3 & H4).
    rewrite H1. cbn [bind].
    destruct (IH (with_buf h b') H2) as (h' & G1 & G2 & G3 & G4 & G5).
    { intros q' x' Hin. exact (Hl q' x' (or_intror Hin)). }
    exists h'. split; [exact G1|]. split; [exact G2|]. split; [exact G3|]. split; [exact G4|].
    intros hv' q' s' x' acc Hic' Hacc Hname. apply (G5 hv' q' s' x' _ Hic' ) in Hname; [exact Hname|].
    change (NAME_BYTES (with_buf h b')) with (NAME_BYTES h). change (ht_buf (with_buf h b')) with b'.
    intros y Hy. destruct (Z.eqb_spec q q') as [<-|Hne].
    + inversion Hy; subst y. destruct (inch_pos_inj E h own role ch en HI hv q s hv' s' Hic Hic') as [_ <-]. exact H4.
    + eapply enc_frame; [apply (Hacc y Hy)|]. intros i Hi. apply (proj2 H3). intros Hi2.
      pose proof (inch_rec E h own role ch en HI hv q s Hic) as (A1 & A2 & A3 & A4 & A5).
      pose proof (inch_rec E h own role ch en HI hv' q' s' Hic') as (B1 & B2 & B3 & B4 & B5).
      pose proof (rc_len _ _ _ _ _ A4). pose proof (lenlen_le8 (zln s) ltac:(lia)).
      pose proof (rc_len _ _ _ _ _ B4). pose proof (lenlen_le8 (zln s') ltac:(lia)).
      assert (Hno : name_off q (zln s) + NAME_BYTES h = q + rsize (NAME_BYTES h) (zln s)) by (unfold name_off, rsize; lia).
      assert (Hno' : name_off q' (zln s') + NAME_BYTES h = q' + rsize (NAME_BYTES h) (zln s')) by (unfold name_off, rsize; lia).
      assert (q < name_off q (zln s)) by (unfold name_off; lia). assert (q' < name_off q' (zln s')) by (unfold name_off; lia).
      destruct (A5 i ltac:(lia)) as [_ R1]. destruct (B5 i ltac:(lia)) as [_ R2].
      replace (i <? name_off q (zln s)) with false in R1 by lia. replace (i <? name_off q' (zln s')) with false in R2 by lia.
      congruence.
Qed.
End Naming.


(** * The whole history *)
Lemma name_of_notin l q : forall acc, ~ In q (map fst l) -> name_of l q acc = acc.
Proof.
  induction l as [|[q' x] l IH]; intros acc H; [reflexivity|]. cbn [name_of]. cbn [map fst In] in H.
  destruct (Z.eqb_spec q' q) as [->|_]; [tauto|]. apply IH. tauto.
Qed.
Lemma combine_fst {A B} (l : list A) : forall l' : list B, length l = length l' -> map fst (combine l l') = l.
Proof. induction l as [|a l IH]; intros [|b l'] H; cbn in *; try lia; [reflexivity|]. f_equal. apply IH. lia. Qed.
Lemma name_of_nth qs : forall names, NoDup qs -> length names = length qs ->
  forall i acc, (i < length qs)%nat -> name_of (combine qs names) (nth i qs 0) acc = Some (nth i names 0).
Proof.
  induction qs as [|q qs IH]; intros [|x names] Hd Hl i acc Hi; cbn [length] in *; try lia.
  inversion Hd as [|? ? Hq Hd']; subst. cbn [combine name_of]. destruct i as [|i]; cbn [nth].
  - rewrite Z.eqb_refl. apply name_of_notin. rewrite combine_fst by lia. exact Hq.
  - apply IH; [assumption|lia|lia].
Qed.

Theorem ht_history E hb size n ops strs : 1 <= size -> 13 <= hb -> 0 <= n < 2 ^ 62 ->
  Forall2 op_string ops strs ->
  Forall (fun s => 3 <= Z.of_nat (length s) < 2 ^ 60 /\ Forall is_byte s) strs ->
  (forall i, fresh_byte E i = Some 0) \/
  (forall s, In s (firsts (fold_left (store_in hb size n) strs empty_layout)) -> Z.of_nat (length s) mod 256 <> 0) ->
  fold_right (fun s a => hb + 18 + Z.of_nat (length s) + a) 0 strs < 2 ^ 63 ->
  exists h0 h qs recs, ht_new_hb hb size n = Ok h0 /\
    ht_inserts E h0 ops = Ok (h, insert_flags [] strs) /\
    ht_walk E h (Z.of_nat (length (distinct strs))) = Ok qs /\
    Forall2 (fun q s => read_record E (ht_buf h) q = Ok s) qs recs /\
    Permutation recs (distinct strs) /\
    forall names, length names = length qs -> Forall (fun x => 0 <= x < 256 ^ NAME_BYTES h) names ->
      exists h', ht_names E h (combine qs names) = Ok h' /\
        (forall i T p, (i < length recs)%nat -> string_at T p (nth i recs []) ->
           find_name E h' T (Z.of_nat (length (nth i recs []))) p = Ok (nth i names 0)) /\
        (forall s T p, 3 <= Z.of_nat (length s) -> ~ In s strs -> string_at T p s ->
           find_name E h' T (Z.of_nat (length s)) p = Err RuntimeError).
Proof.
  intros Hs Hb Hn Hops Hstr Hfresh Hg.
  destruct (wp_inv _ _ (ht_new_ok E hb size n Hs Hb Hn)) as (h0 & H0 & A1 & A2 & A3 & A4 & HI0).
  destruct (inserts_ok E n ops strs [] h0 _ _ _ _ empty_layout ltac:(lia) HI0 Hops Hstr) as (h & own & role & ch & en & H1 & HI & B1 & B2 & B3 & B4 & B5).
  { unfold ht_new_hb in H0. destruct (wp_inv _ _ (azeros_ok size ltac:(lia))) as (z & Hz0 & Hz1 & Hz2). rewrite Hz0 in H0. cbn [bind] in H0.
    binv H0. injection H0 as <-. split; [exact A3|]. cbn [HTSIZE HBSIZE ht_rest room empty_layout] in *. intros k Hk. split; [apply Hz2; lia|lia]. }
  { intros s. reflexivity. }
  { rewrite A1, A2. intros s Hin. destruct Hfresh as [Hf|Hf]; [right; exact Hf|left; apply Hf, Hin]. }
  { intros s. unfold strings_of, no_ch. cbn [map In]. split; [intros (? & _ & []) | intros []]. }
  { rewrite A4, A2. exact Hg. }
  rewrite A1 in *.
  set (recs := allrec ch size). exists h0, h, (map fst recs), (map snd recs).
  split; [assumption|]. split; [assumption|].
  assert (Hperm : Permutation (map snd recs) (distinct strs)).
  { apply NoDup_Permutation; [unfold recs; rewrite <- B1; eapply allrec_NoDup_str; exact HI|apply NoDup_nodup|].
    intros s. unfold distinct. rewrite nodup_In. unfold recs. rewrite <- B1, (recs_strings h ch s), B1, B5. cbn [In]. tauto. }
  assert (Hlen : zln recs = Z.of_nat (length (distinct strs))).
  { rewrite <- (Permutation_length Hperm), map_length. reflexivity. }
  split. { unfold recs. rewrite <- B1. apply (walk_ok E h own role ch en HI). rewrite B1. fold recs. lia. }
  split. { unfold recs. rewrite <- B1. apply (walk_read E h own role ch en HI). }
  split; [exact Hperm|].
  intros names Hnl Hnames. rewrite map_length in Hnl.
  assert (Hqd : NoDup (map fst recs)).
  { unfold recs. rewrite <- B1. eapply allrec_NoDup_pos; exact HI. }
  destruct (names_ok E own role ch en (combine (map fst recs) names) h HI) as (h' & C1 & C2 & C3 & C4 & C5).
  { intros q x Hin. split; [rewrite Forall_forall in Hnames; apply Hnames; eapply in_combine_r; exact Hin|].
    apply in_combine_l in Hin. apply in_map_iff in Hin as ([q' s] & He & Hin). cbn [fst] in He. subst q'.
    destruct (proj1 (allrec_inch h ch q s)) as (hv & Hic); [rewrite B1; exact Hin|]. eauto. }
  exists h'. split; [exact C1|].
  assert (Hinch : forall hv q s, inch h' ch hv q s <-> inch h ch hv q s) by (intros; unfold inch; rewrite C3; tauto).
  split.
  - intros i T p Hi Hat. rewrite map_length in Hi. set (s := nth i (map snd recs) []) in *.
    set (q := nth i (map fst recs) 0).
    assert (Hin : In (q, s) recs).
    { replace (q, s) with (nth i recs (0, [])); [apply nth_In; exact Hi|].
      unfold q, s. change (@nil Z) with (snd (0, @nil Z)) at 2. change 0 with (fst (0, @nil Z)) at 2.
      rewrite !map_nth. destruct (nth i recs (0, [])); reflexivity. }
    destruct (proj1 (allrec_inch h ch q s)) as (hv & Hic); [rewrite B1; exact Hin|].
    pose proof (name_of_nth (map fst recs) names Hqd ltac:(rewrite map_length; lia) i None ltac:(rewrite map_length; lia)) as Hno. fold q in Hno.
    pose proof (inch_rec E h own role ch en HI hv q s Hic) as (_ & _ & _ & Hr & _). pose proof (rc_len _ _ _ _ _ Hr) as Hl.
    assert (Hsl : 3 <= zln s).
    { assert (Hin2 : In s strs).
      { assert (In s (map snd recs)) as Hx by (apply in_map_iff; exists (q, s); auto).
        eapply Permutation_in in Hx; [|exact Hperm]. unfold distinct in Hx. apply nodup_In in Hx. exact Hx. }
      rewrite Forall_forall in Hstr. apply Hstr, Hin2. }
    apply (find_name_ok E h' own role ch en C2 T p s hv q); [lia|apply string_at_tseg, Hat|apply Hinch, Hic| |].
    + rewrite C4. rewrite Forall_forall in Hnames. apply Hnames, nth_In. lia.
    + rewrite C4. apply (C5 hv q s _ None Hic); [discriminate|exact Hno].
  - intros s T p Hl Hni Hat. apply (find_name_absent E h' own role ch en C2 T p s Hl); [apply string_at_tseg, Hat|].
    intros hv q Hic. apply Hinch in Hic. apply Hni. destruct Hic as [Hhv Hin]. rewrite B1 in Hhv.
    apply (proj1 (B5 s)) in Hhv as Hx || idtac.
    assert (Hx : strings_of size ch s) by (exists hv; split; [exact Hhv|]; apply in_map_iff; exists (q, s); auto).
    apply B5 in Hx. destruct Hx as [[]|Hx]; exact Hx.
Qed.
