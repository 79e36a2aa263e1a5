(** The dictionary of C13 over memory that counts as unwritten until it is written: if a string that begins a block has a length divisible
    by 256, then inserting the strings and reading them back reads a byte that was never written. *)
From Verif Require Import Base M_PackedArray M_HashTable M_Cells M_Sais M_Split M_Induce M_Flbwt M_File Spec BlockSpec Histories
  Count Text Keys P_PackedArray P_Bytes P_HashTable P_HashTable2 P_Insert P_Extract P_Sort P_Lists P_Spec P_Blocks P_Flbwt P_Sorter P_Bridge P_File P_Props P_Uninit P_HTHistory P_Long.
From Coq Require Import ZifyBool Permutation.
Open Scope Z_scope.

Section Dict.
Context (fw : Z -> Z) (bs : Z -> Z -> Z).
Notation Es := (mkenv (fun _ => None) fw bs).
Notation E0 := (mkenv (fun _ => Some 0) fw bs).
Notation marks := (marks fw bs).
Lemma inserts_marks n : forall ops strs seen h own role ch en L, 0 <= n -> hinv E0 h own role ch en ->
  Forall2 op_string ops strs -> Forall string_ok strs -> roomy n h L -> (forall s, In s (stored L) <-> In s seen) ->
  (forall s, strings_of (HTSIZE h) ch s <-> In s seen) ->
  alen (ht_buf h) + total_growth (HBSIZE h) strs < 2 ^ 63 ->
  marks h ch (firsts L) -> (forall s, In s (firsts L) -> In s (stored L)) ->
  let L' := fold_left (store_in (HBSIZE h) (HTSIZE h) n) strs L in
  exists h' own' role' ch' en', ht_inserts E0 h ops = Ok (h', insert_flags seen strs) /\ hinv E0 h' own' role' ch' en' /\
    HTSIZE h' = HTSIZE h /\ marks h' ch' (firsts L') /\ (forall s, In s (firsts L') -> In s seen \/ In s strs) /\
    (forall s, strings_of (HTSIZE h) ch' s <-> In s seen \/ In s strs).
Proof.
  induction ops as [|[[T p] m] ops IH]; intros strs seen h own role ch en L Hn HI Hops Hstr HR HL Hseen Hsz HM HF;
    inversion Hops as [|? s ? strs' Hop Hops']; subst; cbn [ht_inserts insert_flags fold_left].
  - exists h, own, role, ch, en. split; [reflexivity|]. split; [exact HI|]. split; [reflexivity|]. split; [exact HM|]. split.
    + intros x Hx. left. apply HL, HF, Hx.
    + intros x. rewrite Hseen. cbn [In]. tauto.
  - destruct Hop as [-> Hs]. apply string_at_tseg in Hs. inversion Hstr as [|? ? (Hl & Hb) Hstr']; subst.
    rewrite total_growth_cons in Hsz.
    pose proof (hi_nb _ _ _ _ _ _ HI) as Hnb. pose proof (lenlen_le8 (zln s) ltac:(lia)) as Hll.
    pose proof (hi_hb _ _ _ _ _ _ HI) as Hhb.
    pose proof (total_growth_pos (HBSIZE h) strs' ltac:(lia)) as Hpos.
    assert (Hr : rsize (NAME_BYTES h) (zln s) <= 18 + zln s) by (unfold rsize; lia).
    pose proof (hash_range (HTSIZE h) s (hi_size _ _ _ _ _ _ HI)) as Hhv.
    set (hv := hash_of (HTSIZE h) s) in *.
    assert (Hmem : In s (map snd (ch hv)) <-> In s seen).
    { rewrite <- Hseen. split; [intros H; exists hv; auto|]. intros (hv' & Hhv' & Hin).
      pose proof Hin as Hin0. apply in_map_iff in Hin as ([q x'] & Heq & Hin). cbn [snd] in Heq. subst x'.
      pose proof (hi_hash _ _ _ _ _ _ HI hv' q s Hhv' Hin) as He. fold hv in He. rewrite He. assumption. }
    destruct (wp_inv _ _ (insert_any E0 h own role ch en T p s HI Hl Hs Hb (fun _ => or_introl (or_intror (fun _ => eq_refl))) ltac:(lia))) as ([h1 x] & Hi & Hc).
    cbv zeta in Hc. fold hv in Hc.
    destruct Hc as [(Hin & -> & ->)|(Hnin & -> & E1 & E2 & E3 & Hal & r & own1 & role1 & en1 & Hr0 & HI1)].
    + rewrite Hi. cbn [bind].
      assert (Hst : store_in (HBSIZE h) (HTSIZE h) n L s = L).
      { unfold store_in. destruct (in_dec _ s (stored L)) as [_|Hx]; [reflexivity|]. destruct Hx. apply HL, Hmem, Hin. }
      rewrite Hst.
      destruct (IH strs' (s :: seen) h own role ch en L Hn HI Hops' Hstr' HR) as (h' & own' & role' & ch' & en' & H1 & H2 & H3 & H4 & H5 & H6).
      { intros x. rewrite HL. cbn [In]. rewrite Hmem in Hin. split; [tauto|]. intros [<-|H]; assumption. }
      { intros x. rewrite Hseen. cbn [In]. rewrite Hmem in Hin. split; [tauto|]. intros [<-|H]; assumption. }
      { lia. }
      { exact HM. }
      { exact HF. }
      exists h', own', role', ch', en'. rewrite H1. cbn [bind].
      destruct (in_dec (list_eq_dec Z.eq_dec) s seen) as [_|Hnn]; [|tauto].
      split; [reflexivity|]. split; [exact H2|]. split; [exact H3|]. split; [exact H4|]. split.
      * intros x Hx. apply H5 in Hx. cbn [In] in *. tauto.
      * intros x. rewrite H6. cbn [In]. tauto.
    + assert (HnL : ~ In s (stored L)) by (rewrite HL, <- Hmem; exact Hnin).
      destruct (insert_marks fw bs h own role ch en T p s h1 1 (firsts L) (firsts (store_in (HBSIZE h) (HTSIZE h) n L s)) HI HM) as (own2 & role2 & ch2 & en2 & HI2 & HM2 & K & _ & Hch).
      { intros s0 Hs0. unfold store_in in Hs0. destruct (in_dec _ _ _); [left; exact Hs0|]. cbv zeta in Hs0.
        destruct (_ <? _); cbn [firsts In] in Hs0; [left; exact Hs0|]. destruct Hs0 as [<-|Hs0]; auto. }
      { intros _ Hin (r1 & Hr1 & Hlt). unfold store_in in Hin. destruct (in_dec _ _ _) as [|_]; [contradiction|]. cbv zeta in Hin.
        fold hv in Hr1. destruct HR as [HR1 HR2]. destruct (HR2 hv Hhv) as [HR3 _]. assert (r1 = room L hv) by congruence. subst r1.
        rewrite HR1, <- record_size in Hlt. rewrite bucket_hash in Hin. fold hv in Hin.
        destruct (Z.ltb_spec (record_bytes n s + 12) (room L hv)); [|lia]. cbn [firsts] in Hin. apply HnL, HF, Hin. }
      { intros Hin. contradiction. }
      { exact Hl. } { exact Hs. } { exact Hb. } { unfold growth in *. lia. } { exact Hi. }
      destruct Hch as [[Hx _]|[_ (r2 & ->)]]; [discriminate|]. fold hv in HI2, HM2.
      rewrite Hi. cbn [bind].
      destruct (IH strs' (s :: seen) h1 own2 role2 (upd_ch ch hv r2 s) en2 (store_in (HBSIZE h) (HTSIZE h) n L s) Hn HI2 Hops' Hstr') as (h' & own' & role' & ch' & en' & H1 & H2 & H3 & H4 & H5 & H6).
      { pose proof (hi_buf _ _ _ _ _ _ HI) as Hbuf. destruct (insert_rest E0 h T p s h1 1 ltac:(lia) ltac:(lia) (roomy_cell n h L HR (hi_rest _ _ _ _ _ _ HI) ltac:(lia)) Hs ltac:(lia) Hi) as [[Hx _]|(r1 & Hr1 & _ & Hrest)]; [discriminate|].
        destruct HR as [HR1 HR2]. split; [congruence|]. rewrite E1, E2. intros k Hk. rewrite Hrest. fold hv in Hr1 |- *. destruct (HR2 hv Hhv) as [HR3 HR4].
        assert (Hrr : r1 = room L hv) by congruence. rewrite Hrr, HR1, <- record_size. pose proof (record_bytes_pos n s Hn). pose proof (HR2 k Hk) as [HR5 HR6].
        unfold store_in. rewrite bucket_hash. fold hv. destruct (in_dec _ s (stored L)) as [Hx|_]; [contradiction|]. cbv zeta.
        destruct (Z.ltb_spec (record_bytes n s + 12) (room L hv)); cbn [room]; destruct (Z.eqb_spec k hv); (split; [first [reflexivity|assumption]|lia]). }
      { intros x. unfold store_in. destruct (in_dec _ s (stored L)) as [Hx|_]; [contradiction|]. cbv zeta. destruct (_ <? _); cbn [stored In]; rewrite HL; tauto. }
      { intros x. rewrite E1. cbn [In]. rewrite <- Hseen. unfold strings_of. split.
        - intros (y & Hy & Hin). unfold upd_ch in Hin. destruct (y =? hv) eqn:Ey.
          + rewrite map_app, in_app_iff in Hin. cbn [map snd In] in Hin. destruct Hin as [Hin|[<-|[]]]; [right; eauto|left; reflexivity].
          + right. eauto.
        - intros [<-|(y & Hy & Hin)].
          + exists hv. split; [assumption|]. unfold upd_ch. rewrite Z.eqb_refl, map_app, in_app_iff. cbn. tauto.
          + exists y. split; [assumption|]. unfold upd_ch. destruct (y =? hv); [rewrite map_app, in_app_iff; tauto|assumption]. }
      { rewrite E2. lia. }
      { exact HM2. }
      { intros x Hx. unfold store_in in Hx |- *. destruct (in_dec _ s (stored L)) as [Hy|_]; [contradiction|]. cbv zeta in Hx |- *.
        destruct (_ <? _); cbn [firsts stored In] in Hx |- *; [right; apply HF, Hx|]. destruct Hx as [<-|Hx]; [left; reflexivity|right; apply HF, Hx]. }
      rewrite E1, E2 in *. exists h', own', role', ch', en'. rewrite H1. cbn [bind].
      destruct (in_dec (list_eq_dec Z.eq_dec) s seen) as [Hnn|_]; [tauto|].
      split; [reflexivity|]. split; [exact H2|]. split; [exact H3|]. split; [exact H4|]. split.
      * intros x Hx. apply H5 in Hx. cbn [In] in *. tauto.
      * intros x. rewrite H6. cbn [In]. tauto.
Qed.

Lemma um_inserts : forall ops h, um (ht_inserts Es h ops) (ht_inserts E0 h ops).
Proof.
  induction ops as [|[[T p] m] ops IH]; intros h; cbn [ht_inserts]; [apply um_refl|].
  apply um_bind; [apply (um_insert _ _ fw bs (Hes))|]. intros [h1 r]. apply um_bind; [apply IH|]. intros [h2 rs]. apply um_refl.
Qed.
Lemma um_walk h k : um (ht_walk Es h k) (ht_walk E0 h k).
Proof.
  unfold ht_walk. apply um_bind; [|intros [s j]; apply um_refl].
  apply um_for_up. intros i [s j]. apply um_bind; [apply um_refl|]. intros p. apply (um_collect _ _ fw bs (Hes)).
Qed.

Theorem dict_unwritten hb size n ops strs : 1 <= size -> 13 <= hb -> 0 <= n < 2 ^ 62 ->
  Forall2 op_string ops strs ->
  Forall (fun s => 3 <= Z.of_nat (length s) < 2 ^ 60 /\ Forall is_byte s) strs ->
  (exists s, In s (firsts (fold_left (store_in hb size n) strs empty_layout)) /\ Z.of_nat (length s) mod 256 = 0) ->
  fold_right (fun s a => hb + 18 + Z.of_nat (length s) + a) 0 strs < 2 ^ 63 ->
  exists h0, ht_new_hb hb size n = Ok h0 /\
    (ht_inserts Es h0 ops = Err Uninit \/
     exists h, ht_inserts Es h0 ops = Ok (h, insert_flags [] strs) /\
      (ht_walk Es h (Z.of_nat (length (distinct strs))) = Err Uninit \/
       exists qs q, ht_walk Es h (Z.of_nat (length (distinct strs))) = Ok qs /\ In q qs /\ read_record Es (ht_buf h) q = Err Uninit)).
Proof.
  intros Hs Hb Hn Hops Hstr (sx & Hfx & Hlong) Hg.
  destruct (wp_inv _ _ (ht_new_ok E0 hb size n Hs Hb Hn)) as (h0 & H0 & A1 & A2 & A3 & A4 & HI0). exists h0. split; [exact H0|].
  destruct (inserts_marks n ops strs [] h0 _ _ _ _ empty_layout ltac:(lia) HI0 Hops Hstr) as (h & own & role & ch & en & H1 & HI & B1 & B2 & B3 & B4).
  { unfold ht_new_hb in H0. destruct (wp_inv _ _ (azeros_ok size ltac:(lia))) as (z & Hz0 & Hz1 & Hz2). rewrite Hz0 in H0. cbn [bind] in H0.
    binv H0. injection H0 as <-. split; [exact A3|]. cbn [HTSIZE HBSIZE ht_rest room empty_layout] in *. intros k Hk. split; [apply Hz2; lia|lia]. }
  { intros s. reflexivity. }
  { intros s. unfold strings_of, no_ch. cbn [map In]. split; [intros (? & _ & []) | intros []]. }
  { rewrite A4, A2. exact Hg. }
  { intros hv q s _ []. }
  { intros s []. }
  rewrite A1, A2 in *.
  destruct (um_inserts ops h0) as [H|H]; [left; exact H|right]. exists h. rewrite H. split; [exact H1|].
  destruct (um_walk h (Z.of_nat (length (distinct strs)))) as [Hw|Hw]; [left; exact Hw|right]. rewrite Hw.
  assert (Hlen : zln (allrec ch size) <= Z.of_nat (length (distinct strs))).
  { rewrite <- (map_length snd (allrec ch size)). apply inj_le. apply NoDup_incl_length; [rewrite <- B1; eapply allrec_NoDup_str; exact HI|].
    intros s Hin. rewrite <- B1 in Hin. apply (recs_strings h ch s) in Hin. rewrite B1 in Hin. apply B4 in Hin. unfold distinct. apply nodup_In. destruct Hin as [[]|Hin]; exact Hin. }
  exists (map fst (allrec ch size)).
  assert (Hsx : strings_of size ch sx) by (apply B4, B3, Hfx).
  destruct Hsx as (hv & Hhv & Hin). apply in_map_iff in Hin as ([q s] & He & Hin). cbn [snd] in He. subst s.
  exists q. split; [|split].
  - rewrite <- B1. apply (walk_ok E0 h own role ch en HI). rewrite B1. exact Hlen.
  - apply in_map_iff. exists (q, sx). split; [reflexivity|]. apply in_allrec. exists hv. auto.
  - assert (Hic : inch h ch hv q sx) by (unfold inch; rewrite B1; auto).
    destruct (inch_rec E0 h own role ch en HI hv q _ Hic) as (C1 & C2 & C3 & C4 & C5).
    unfold read_record. rewrite (length_uninit fw bs (ht_buf h) q sx (NAME_BYTES h) C4 Hlong); [reflexivity|]. exact (B2 hv q sx Hic Hfx Hlong).
Qed.
End Dict.

Theorem dict_exact : forall fw bs hb size n ops strs, let E := mkenv (fun _ => None) fw bs in
  1 <= size -> 13 <= hb -> 0 <= n < 2 ^ 62 ->
  Forall2 op_string ops strs ->
  Forall (fun s => 3 <= Z.of_nat (length s) < 2 ^ 60 /\ Forall is_byte s) strs ->
  fold_right (fun s a => hb + 18 + Z.of_nat (length s) + a) 0 strs < 2 ^ 63 ->
  exists h0, ht_new_hb hb size n = Ok h0 /\
    ((exists h flags qs recs, ht_inserts E h0 ops = Ok (h, flags) /\ ht_walk E h (Z.of_nat (length (distinct strs))) = Ok qs /\
        Forall2 (fun q s => read_record E (ht_buf h) q = Ok s) qs recs) <->
     (forall s, In s (firsts (fold_left (store_in hb size n) strs empty_layout)) -> Z.of_nat (length s) mod 256 <> 0)).
Proof.
  intros fw bs hb size n ops strs E Hs Hb Hn Hops Hstr Hg.
  destruct (wp_inv _ _ (ht_new_ok E hb size n Hs Hb Hn)) as (h0 & H0 & _). exists h0. split; [exact H0|]. split.
  - intros (h & fl & qs & recs & H1 & H2 & H3) s Hin Hm.
    destruct (dict_unwritten fw bs hb size n ops strs Hs Hb Hn Hops Hstr (ex_intro _ s (conj Hin Hm)) Hg) as (h0' & H0' & HX).
    assert (h0' = h0) by congruence. subst h0'. fold E in HX. destruct HX as [HX|(h' & HX & HY)]; [congruence|].
    assert (h' = h) by congruence. subst h'. destruct HY as [HY|(qs' & q & HY & Hq & HZ)]; [congruence|].
    assert (qs' = qs) by congruence. subst qs'. clear - H3 Hq HZ. induction H3 as [|x y l m Hxy H IH]; [destruct Hq|]. destruct Hq as [->|Hq]; [congruence|exact (IH Hq)].
  - intros Hc. destruct (ht_history E hb size n ops strs Hs Hb Hn Hops Hstr (or_intror Hc) Hg) as (h0' & h & qs & recs & H0' & H1 & H2 & H3 & _).
    assert (h0' = h0) by congruence. subst h0'. exists h, (insert_flags [] strs), qs, recs. auto.
Qed.
