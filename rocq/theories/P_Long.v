(** Which records begin a new block of the string buffer (BlockSpec).  If the length of such a record is a multiple of
    256, a byte of its length field is never written (set_length does not write trailing zero bytes), and
    sort_LMS_strings reads it; the length of every other record is read back. *)
From Verif Require Import Base M_PackedArray M_HashTable M_Cells M_Sais M_Split M_Induce M_Flbwt M_File Spec BlockSpec
  Count Text Keys P_PackedArray P_Bytes P_HashTable P_HashTable2 P_Insert P_Extract P_Sort P_Lists P_Spec P_Blocks P_Flbwt P_Sorter P_Bridge P_File P_Props P_Uninit.
From Coq Require Import ZifyBool.
Open Scope Z_scope.

(** what write_record leaves alone, whatever fresh memory holds *)
Lemma write_record_frame E h T p s b r : 3 <= zln s < 2 ^ 60 -> tseg T p s -> Forall is_byte s ->
  0 <= NAME_BYTES h -> 0 <= r -> r + rsize (NAME_BYTES h) (zln s) + 12 <= alen b ->
  wp (write_record E h T (zln s) p (lenlen (zln s)) b r) (fun b' =>
    bfr E r (r + rsize (NAME_BYTES h) (zln s) + 12) b b' /\
    (zln s mod 256 = 0 -> bget E b' (r + lenlen (zln s)) = bget E b (r + lenlen (zln s)))).
Proof.
  intros Hm Ht Hby Hnb Hr Hl. pose proof (lenlen_le8 (zln s) ltac:(lia)) as Hll. unfold rsize in *.
  set (m := zln s) in *. set (lb := lenlen m) in *. unfold write_record.
  destruct (set_length_fuel_exact 10 E b r m) as (b1 & H1 & Hf1 & Hc1 & Hg1 & Hd1); try lia.
  unfold set_length. rewrite H1. cbn [bind]. pose proof (proj1 Hf1) as Hl1. fold lb in Hf1, Hd1.
  pose proof (Ht 0 ltac:(lia)) as Ht0. rewrite Z.add_0_r in Ht0. rewrite (aget_ok _ _ _ Ht0). cbn [bind].
  rewrite bset_ok by lia. cbn [bind]. cbn zeta.
  set (b2 := aupd b1 (r + 1 + lb) (u8 (nth 0 s 0 + 1))).
  assert (Hl2 : alen b2 = alen b1) by apply alen_upd.
  assert (Hf2 : bfr E (r + 1 + lb) (r + 1 + lb + 1) b1 b2) by (apply bfr_upd; lia).
  eapply wp_bind_mono; [apply (copy_ok E T p s b2 (r + 1 + lb + 1)); try assumption; fold m; lia|].
  cbn beta. fold m. intros b3 (Hf3 & Hc3 & Hg3). pose proof (proj1 Hf3) as Hl3.
  eapply wp_mono; [apply (zeros_ok E b3 (r + 1 + lb + 1 + m + NAME_BYTES h) 12); lia|].
  cbn beta. intros b4 (Hf4 & Hc4 & Hg4). pose proof (proj1 Hf4) as Hl4.
  split.
  { eapply bfr_trans; [eapply bfr_mono; [exact Hf1|lia|lia]|]. eapply bfr_trans; [eapply bfr_mono; [exact Hf2|lia|lia]|].
    eapply bfr_trans; [eapply bfr_mono; [exact Hf3|lia|lia]|]. eapply bfr_mono; [exact Hf4|lia|lia]. }
  intros H0. rewrite (proj2 Hf4), (proj2 Hf3), (proj2 Hf2) by lia.
  destruct (Hd1 (lb - 1) ltac:(lia)) as [[H _]|(_ & _ & H)].
  - exfalso. apply H. replace (lb - (lb - 1)) with 1 by lia. exact H0.
  - replace (r + 1 + (lb - 1)) with (r + lb) in H by lia. exact H.
Qed.

Section Long.
Context (fw : Z -> Z) (bs : Z -> Z -> Z).
Notation Es := (mkenv (fun _ => None) fw bs).
Notation E0 := (mkenv (fun _ => Some 0) fw bs).
Lemma Hes : forall i : Z, (fun _ : Z => @None Z) i = None \/ (fun _ : Z => @None Z) i = (fun _ : Z => Some 0) i.
Proof. left. reflexivity. Qed.

(** the records of the strings in st with a length divisible by 256 have an unwritten length byte *)
Definition marks (h : htable) (ch : Z -> list (Z * list Z)) (st : list (list Z)) : Prop :=
  forall hv q s, inch h ch hv q s -> In s st -> zln s mod 256 = 0 -> bget Es (ht_buf h) (q + lenlen (zln s)) = Err Uninit.

Lemma insert_marks h own role ch en T p s h' x st st' :
  hinv E0 h own role ch en -> marks h ch st ->
  (forall s', In s' st' -> In s' st \/ s' = s) -> (~ In s (map snd (ch (hash_of (HTSIZE h) s))) -> In s st' -> ~ fits_block h s) ->
  (In s (map snd (ch (hash_of (HTSIZE h) s))) -> st' = st) ->
  3 <= zln s < 2 ^ 60 -> tseg T p s -> Forall is_byte s -> alen (ht_buf h) + HBSIZE h + rsize (NAME_BYTES h) (zln s) < 2 ^ 63 ->
  insert_string E0 h T (zln s) p = Ok (h', x) ->
  exists own' role' ch' en', hinv E0 h' own' role' ch' en' /\ marks h' ch' st' /\
    (forall hv q s', inch h ch hv q s' -> inch h' ch' hv q s') /\ (exists hv q, inch h' ch' hv q s) /\
    ((x = 0 /\ ch' = ch) \/ (x = 1 /\ exists r, ch' = upd_ch ch (hash_of (HTSIZE h) s) r s)).
Proof.
  intros HI HM Hst Hnew Hdup Hm Ht Hby Hbound Hins.
  pose proof (insert_exact E0 h own role ch en T p s HI Hm Ht Hby (fun _ => or_introl (or_intror (fun _ => eq_refl))) Hbound) as HX.
  cbv zeta in HX. rewrite Hins in HX. cbn [wp] in HX.
  pose proof (hash_range (HTSIZE h) s (hi_size _ _ _ _ _ _ HI)) as Hhv. set (hv := hash_of (HTSIZE h) s) in *.
  destruct HX as [(H1 & -> & ->)|(H1 & -> & Hs1 & Hs2 & Hs3 & Hlen & r & own' & role' & en' & Hr & HI' & b1 & Hw & Hpl)].
  { exists own, role, ch, en. split; [exact HI|]. split; [rewrite (Hdup H1); exact HM|]. split; [auto|]. split; [|left; auto].
    apply in_map_iff in H1 as ([q s'] & He & Hin). cbn in He. subst s'. exists hv, q. split; assumption. }
  exists own', role', (upd_ch ch hv r s), en'. split; [exact HI'|].
  assert (Hold : forall k q s', inch h ch k q s' -> inch h' (upd_ch ch hv r s) k q s').
  { intros k q s' [Hk Hin]. split; [rewrite Hs1; exact Hk|]. unfold upd_ch. destruct (k =? hv); [apply in_or_app; left|]; exact Hin. }
  assert (Hnewr : inch h' (upd_ch ch hv r s) hv r s).
  { split; [rewrite Hs1; exact Hhv|]. unfold upd_ch. rewrite Z.eqb_refl. apply in_or_app. right. left. reflexivity. }
  split; [|split; [exact Hold|split; [exists hv, r; exact Hnewr|right; split; [reflexivity|exists r; reflexivity]]]].
  pose proof (hi_nb _ _ _ _ _ _ HI) as Hnb. pose proof (hi_buf _ _ _ _ _ _ HI) as Hbuf. pose proof (hi_hb _ _ _ _ _ _ HI) as Hhb.
  set (sz := rsize (NAME_BYTES h) (zln s)) in *.
  pose proof (rsize_pos (NAME_BYTES h) (zln s) ltac:(lia) (proj1 Hm)) as Hsz. fold sz in Hsz.
  pose proof (lenlen_le8 (zln s) ltac:(lia)) as Hll.
  assert (Hszm : sz = 2 + lenlen (zln s) + zln s + NAME_BYTES h) by reflexivity.
  (* facts about the bucket *)
  assert (Hbk : forall r1, av (ht_rest h) hv = Some r1 -> (0 < r1 \/ av (ht_head h) hv <> Some 0) ->
    0 < en hv /\ 13 <= r1 /\ en hv + r1 - 1 <= alen (ht_buf h) /\ forall i, en hv <= i < en hv + r1 - 1 -> own i = hv).
  { intros r1 Hr1 Hx. destruct (hi_bucket _ _ _ _ _ _ HI hv Hhv) as [(A & B & C)|(hd & r2 & A1 & A2 & A3 & A4 & A5 & A6 & A7 & A8 & A9)].
    - exfalso. destruct Hx as [Hx|Hx]; [|contradiction]. rewrite B in Hr1. injection Hr1 as <-. lia.
    - rewrite A5 in Hr1. injection Hr1 as <-. auto. }
  (* the record has room *)
  assert (Hroom : 0 <= r /\ r + sz + 12 <= alen b1).
  { destruct Hpl as [(-> & -> & r1 & Hr1 & Hlt)|(-> & -> & _)]; [|lia].
    destruct (Hbk r1 Hr1 ltac:(lia)) as (A1 & A2 & A3 & A4). lia. }
  (* strict frame *)
  destruct (wp_inv _ _ (write_record_frame Es h T p s b1 r Hm Ht Hby ltac:(lia) ltac:(lia) ltac:(fold sz; lia))) as (b' & Hw' & Hf & Hlow).
  assert (Hb' : b' = ht_buf h').
  { destruct (um_record _ _ fw bs Hes h T (zln s) p (lenlen (zln s)) b1 r) as [Hu|Hu]; congruence. }
  subst b'. fold sz in Hf.
  assert (Hfr : forall i, 0 <= i < alen (ht_buf h) -> ~ (own i = hv /\ en hv <= i) -> bget Es (ht_buf h') i = bget Es (ht_buf h) i).
  { intros i Hi Hno. destruct Hpl as [(-> & -> & r1 & Hr1 & Hlt)|(-> & Hl1 & b2 & -> & Hb1)].
    - destruct (Hbk r1 Hr1 ltac:(lia)) as (A1 & A2 & A3 & A4). apply (proj2 Hf). intros Hin. apply Hno. split; [apply A4; lia|lia].
    - rewrite (proj2 Hf) by lia. rewrite <- (bget_realloc_old Es (ht_buf h) (alen (ht_buf h) + HBSIZE h + sz) i ltac:(lia) Hi).
      destruct Hb1 as [->|[Hh0 Hp]]; [reflexivity|].
      assert (Hx : exists r1, av (ht_rest h) hv = Some r1).
      { destruct (hi_bucket _ _ _ _ _ _ HI hv Hhv) as [(A & B & C)|(hd & r2 & A1 & A2 & A3 & A4 & A5 & _)]; eauto. }
      destruct Hx as [r1 Hr1]. destruct (Hbk r1 Hr1 ltac:(auto)) as (A1 & A2 & A3 & A4).
      destruct (set_pointer_ok Es (brealloc (ht_buf h) (alen (ht_buf h) + HBSIZE h + sz)) (en hv) (alen (ht_buf h) + 1)) as (b3 & Hp3 & Hf3 & _);
        [lia|rewrite alen_realloc; lia|lia|]. rewrite Hp in Hp3. injection Hp3 as <-.
      apply (proj2 Hf3). intros Hin. apply Hno. split; [apply A4; lia|lia]. }
  intros k q s' [Hk Hin] Hlg Hmod. unfold upd_ch in Hin.
  assert (Hcase : In (q, s') (ch k) \/ (q = r /\ s' = s)).
  { destruct (k =? hv); [|left; exact Hin]. apply in_app_or in Hin as [Hin|[Hin|[]]]; [left; exact Hin|]. injection Hin as <- <-. right. auto. }
  destruct Hcase as [Hc|[-> ->]].
  - assert (Hic : inch h ch k q s') by (split; [rewrite <- Hs1; exact Hk|exact Hc]).
    destruct (inch_rec E0 h own role ch en HI k q s' Hic) as (A1 & A2 & A3 & A4 & A5).
    pose proof (rc_len _ _ _ _ _ A4) as Hl'. pose proof (lenlen_le8 (zln s') ltac:(lia)) as Hll'. unfold rsize in A2, A3, A5.
    assert (Hold' : In s' st).
    { destruct (Hst s' Hlg) as [H|H]; [exact H|]. subst s'. exfalso. apply H1. fold hv. apply in_map_iff. exists (q, s). split; [reflexivity|].
      replace hv with k; [exact Hc|]. unfold hv. symmetry. apply (hi_hash _ _ _ _ _ _ HI k q s); [lia|exact Hc]. }
    rewrite Hfr; [apply (HM k q s' Hic); assumption|lia|].
    destruct (A5 (q + lenlen (zln s')) ltac:(lia)) as [Ho _]. rewrite Ho. intros [-> Hge]. lia.
  - rewrite (Hlow Hmod). destruct Hpl as [(-> & -> & r1 & Hr1 & Hlt)|(-> & Hl1 & b2 & -> & Hb1)].
    { destruct (Hnew H1 Hlg). exists r1. split; [exact Hr1|exact Hlt]. }
    assert (Hb2 : bget Es (brealloc (ht_buf h) (alen (ht_buf h) + HBSIZE h + sz)) (alen (ht_buf h) + 1 + lenlen (zln s)) = Err Uninit).
    { rewrite bget_realloc_new; [reflexivity|apply (hi_clean _ _ _ _ _ _ HI)|lia|lia]. }
    destruct Hb1 as [->|[Hh0 Hp]]; [exact Hb2|].
    assert (Hx : exists r1, av (ht_rest h) hv = Some r1).
    { destruct (hi_bucket _ _ _ _ _ _ HI hv Hhv) as [(A & B & C)|(hd & r2 & A1 & A2 & A3 & A4 & A5 & _)]; eauto. }
    destruct Hx as [r1 Hr1]. destruct (Hbk r1 Hr1 ltac:(auto)) as (A1 & A2 & A3 & A4).
    destruct (set_pointer_ok Es (brealloc (ht_buf h) (alen (ht_buf h) + HBSIZE h + sz)) (en hv) (alen (ht_buf h) + 1)) as (b3 & Hp3 & Hf3 & _);
      [lia|rewrite alen_realloc; lia|lia|]. rewrite Hp in Hp3. injection Hp3 as <-. rewrite (proj2 Hf3) by lia. exact Hb2.
Qed.

Section Text.
Context (hts : Z) (T : arr Z) (t : Z -> Z) (n : Z).
Context (Hts : 1 <= hts <= 2 ^ 48) (Hn : 3 <= n <= 2 ^ 58).
Context (HT : forall i, 0 <= i <= n -> av T i = Some (t i)).
Context (Hb : forall i, 0 <= i < n -> 0 <= t i < 256) (Hz : t n = 0).
Notation LMS := (LMS t n).
Notation sub := (sub t n).

Definition minv (i : Z) (h : htable) (uniq : Z) : Prop :=
  exists own role ch en, hinv E0 h own role ch en /\ marks h ch (firsts (lay hts t n (i + 2))) /\ uniq = zln (allrec ch hts) /\
    forall e, i + 2 <= e < n -> LMS e = true -> exists hv q, inch h ch hv q (sub e).

Lemma Hgood0 s : In s (firsts (lay hts t n 0)) -> fresh_ok E0 (zln s).
Proof. intros _. right. reflexivity. Qed.
Lemma Hfr0 e : LMS e = true -> fresh_ok E0 (zln (sub e)).
Proof. intros _. right. reflexivity. Qed.
Lemma step_minv i s s' : 0 <= i <= n - 2 -> xinv E0 hts t n i s -> xb hts n i s -> rooms hts t n i (x_ht s) -> minv i (x_ht s) (x_uniq s) ->
  extract_step E0 T i s = Ok s' -> minv (i - 1) (x_ht s') (x_uniq s').
Proof.
  intros Hi HX HB HR HM Hs. pose proof (xb_bound hts n i s HB ltac:(lia) ltac:(lia)) as Hlen. unfold buf_bound in Hlen.
  unfold minv. replace (i - 1 + 2) with (i + 1) by lia.
  destruct (step_table E0 hts T t n Hn HT Hb i s s' Hi HX Hs) as [(HL & -> & ->)|(HL & r & Hins & Hu)].
  { destruct HM as (own & role & ch & en & A & B & U & C). exists own, role, ch, en. split; [exact A|].
    rewrite lay_skip by (lia || assumption). replace (i + 1 + 1) with (i + 2) by lia. split; [exact B|]. split; [exact U|].
    intros e He HeL. apply C; [|exact HeL]. destruct (Z.eq_dec e (i + 1)) as [->|]; [congruence|lia]. }
  pose proof (next_insert E0 hts T t n Hts Hn HT Hb (zb _ Hz) Hgood0 i s _ r Hi HX HB HR HL Hins) as HC.
  destruct HX as [_ _ _ Hub _ Hprev Hp Hq Hhts Hhb Hnb _ _].
  pose proof (sub_len_LMS t n (i + 1) HL) as [Hsl Hsl2].
  destruct HM as (own & role & ch & en & A & B & U & D).
  pose proof (name_bytes_ok n ltac:(lia)) as [Hnb8 _]. pose proof (lenlen_le8 (zln (sub (i + 1))) ltac:(lia)) as Hll.
  pose proof (hash_range (HTSIZE (x_ht s)) (sub (i + 1)) ltac:(lia)) as Hhr.
  pose proof (insert_ok E0 (x_ht s) own role ch en T (i + 1) (sub (i + 1)) A ltac:(lia)
    (sub_tseg T t n HT _ HL) (sub_bytes t n Hn Hb (zb _ Hz) _ HL) (Hfr0 _ HL) ltac:(unfold rsize; lia)) as HA.
  cbv zeta in HA. rewrite Hins in HA. cbn [wp] in HA.
  rewrite lay_cons by (lia || assumption). replace (i + 1 + 1) with (i + 2) by lia.
  destruct (insert_marks (x_ht s) own role ch en T (i + 1) (sub (i + 1)) (x_ht s') r (firsts (lay hts t n (i + 2))) (firsts (store hts n (lay hts t n (i + 2)) (sub (i + 1)))) A B)
    as (own' & role' & ch' & en' & A' & B' & K & (hv & q & Hq') & Hch).
  - intros s0 Hs0. unfold store, store_in in Hs0. destruct (in_dec _ _ _); [left; exact Hs0|]. cbv zeta in Hs0.
    destruct (_ <? _); cbn [firsts In] in Hs0; [left; exact Hs0|]. destruct Hs0 as [<-|Hs0]; auto.
  - intros Hnin Hin (r1 & Hr1 & Hlt). unfold store, store_in in Hin.
    destruct HA as [(HA & _)|(_ & -> & _)]; [contradiction|]. destruct HC as [(HC & _)|[_ HC]]; [discriminate|].
    rewrite Hhts, Hnb in *. rewrite <- bucket_hash in *. rewrite <- record_size in Hlt. rewrite HR in Hr1 by lia. injection Hr1 as <-.
    destruct (in_dec _ _ _) as [Hi0|Hi0]; [contradiction|]. cbv zeta in Hin.
    destruct (Z.ltb_spec (record_bytes n (sub (i + 1)) + 12) (room (lay hts t n (i + 2)) (bucket hts (sub (i + 1))))); [|lia]. cbn [firsts] in Hin.
    apply Hi0. apply (firsts_stored hts t n). exact Hin.
  - intros Hin. destruct HA as [(_ & -> & _)|(HA & _)]; [|contradiction]. destruct HC as [(_ & _ & HC)|[HC _]]; [|discriminate].
    unfold store, store_in. destruct (in_dec _ _ _); [reflexivity|contradiction].
  - lia.
  - apply (sub_tseg T t n HT); assumption.
  - apply (sub_bytes t n Hn Hb (zb _ Hz)); assumption.
  - unfold rsize. lia.
  - exact Hins.
  - exists own', role', ch', en'. split; [exact A'|]. split; [exact B'|]. split.
    { pose proof (LMS_cnt_bound t n Hn (i + 2) ltac:(lia)) as Hcb. rewrite Hu. destruct Hch as [[-> ->]|[-> [r1 ->]]].
      - change (0 =? 0) with true. cbn iota. exact U.
      - change (1 =? 0) with false. cbn iota.
        rewrite allrec_upd_len, <- U by lia. unfold u64. rewrite wrap_small by (rewrite U in Hub |- *; lia). replace (_ <? hts) with true by lia. reflexivity. }
    intros e He HeL.
    destruct (Z.eq_dec e (i + 1)) as [->|]; [eauto|]. destruct (D e ltac:(lia) HeL) as (k & q' & Hk). eauto.
Qed.
Lemma extract_minv co : extract_LMS_strings E0 hts T n = Ok co -> exists h, c_ht co = Some h /\ minv (-1) h (c_uniq co).
Proof.
  revert co. change (ens (extract_LMS_strings E0 hts T n) (fun co => exists h, c_ht co = Some h /\ minv (-1) h (c_uniq co))).
  unfold extract_LMS_strings. apply ens_skip. intros co0 Hco. replace (n <=? 2) with false by lia.
  apply ens_skip. intros h Hh. apply ens_skip. intros M1 HM1. apply ens_skip. intros tn Htn. apply ens_skip. intros M3 HM3.
  apply ens_skip. intros N1 HN1. apply ens_skip. intros C1 HC1.
  pose proof (xinv_init E0 hts T t n Hts Hn HT Hb co0 h M1 M3 N1 C1 tn Hco Hh HM1 Htn HM3 HN1 HC1) as HX0.
  destruct (ht_new_xb hts n h M3 C1 N1 ltac:(lia) ltac:(lia) Hh) as [HB0 _].
  eapply ens_bind.
  { apply (ens_for_down (fun i s => xinv E0 hts t n i s /\ xb hts n i s /\ rooms hts t n i (x_ht s) /\ minv i (x_ht s) (x_uniq s))); [lia| |].
    - split; [exact HX0|]. split; [exact HB0|]. split; [exact (rooms_init hts t n Hts h Hh)|]. cbn [x_ht x_uniq].
      destruct (wp_inv _ _ (ht_new_ok E0 512 hts n ltac:(lia) ltac:(lia) ltac:(lia))) as (h0 & Hh0 & A1 & A2 & A3 & A4 & A5).
      change (ht_new_hb 512 hts n) with (ht_new hts n) in Hh0. replace h0 with h in * by congruence.
      exists (fun _ => -1), (fun _ => -1), no_ch, (fun _ => 0). split; [exact A5|]. split; [intros hv q s [_ []]|]. split; [|intros e He; lia].
      unfold allrec, no_ch. induction (zseq 0 hts); [reflexivity|assumption].
    - intros i s Hi (HX & HB & HR & HM). intros s' Hs'.
      pose proof (extract_step_ok E0 hts T t n Hts Hn HT Hb (zb _ Hz) Hfr0 i s ltac:(lia) (xb_bound hts n i s HB ltac:(lia) ltac:(lia)) HX) as Hw.
      rewrite Hs' in Hw. split; [exact Hw|]. split; [exact (extract_step_xb E0 hts T n i s ltac:(lia) ltac:(lia) HB s' Hs')|].
      split; [exact (rooms_step E0 hts T t n Hts Hn HT Hb (zb _ Hz) Hgood0 i s s' ltac:(lia) HX HB HR Hs')|].
      exact (step_minv i s s' ltac:(lia) HX HB HR HM Hs'). }
  cbn beta. intros s _ (_ & _ & _ & HM). apply ens_ok. cbn [c_ht c_uniq]. exists (x_ht s). split; [reflexivity|exact HM].
Qed.

Lemma length_uninit b q s nb : recd E0 nb b q s -> zln s mod 256 = 0 -> bget Es b (q + lenlen (zln s)) = Err Uninit -> get_length Es b q = Err Uninit.
Proof.
  intros [A1 A2 A3 A4 A5 A6] Hm Hu. pose proof (lenlen_le8 (zln s) ltac:(lia)) as Hll. unfold get_length.
  destruct A3 as [B1 B2].
  destruct (um_bget _ _ fw bs Hes b q) as [H|H]; rewrite H; cbn [bind]; [reflexivity|]. rewrite B1. cbn [bind].
  assert (Hll2 : 2 <= lenlen (zln s)).
  { pose proof (lenlen_spec (zln s) ltac:(lia)) as (C1 & _ & C2). destruct (Z_le_gt_dec 2 (lenlen (zln s))); [assumption|].
    assert (Hl1 : lenlen (zln s) = 1) by lia. rewrite Hl1 in C2. change (256 ^ 1) with 256 in C2. rewrite Z.mod_small in Hm by lia. lia. }
  replace (lenlen (zln s) =? 0) with false by lia.
  assert (Hx : forall j, 0 <= j < lenlen (zln s) -> bget Es b (q + 1 + j) = Err Uninit \/ exists c, bget Es b (q + 1 + j) = Ok c).
  { intros j Hj. destruct (um_bget _ _ fw bs Hes b (q + 1 + j)) as [H'|H']; rewrite H'; [left; reflexivity|right]. eexists. apply B2, Hj. }
  destruct (Hx 0 ltac:(lia)) as [H0|[c0 H0]]; rewrite Z.add_0_r in H0; rewrite H0; cbn [bind]; [reflexivity|].
  replace (lenlen (zln s)) with (1 + Z.of_nat (Z.to_nat (lenlen (zln s) - 1))) by lia.
  apply (for_up_uninit (fun i => bget Es b (q + 1 + i)) (fun x c => Z.lor (u64 (Z.shiftl x 8)) c)).
  - intros i Hi. apply Hx. lia.
  - exists (lenlen (zln s) - 1). split; [lia|]. replace (q + 1 + (lenlen (zln s) - 1)) with (q + lenlen (zln s)) by lia. exact Hu.
Qed.

Lemma sort_long_uninit srt co : extract_LMS_strings E0 hts T n = Ok co -> (exists s, In s (firsts (lay hts t n 0)) /\ zln s mod 256 = 0) ->
  sort_LMS_strings Es srt T co = Err Uninit.
Proof.
  intros Hco (sx & Hfx & Hlong).
  destruct (proj1 (stored_lay hts t n 0 sx) (firsts_stored hts t n 0 sx Hfx)) as (e & _ & HeL & ->).
  pose proof (extract_ok E0 hts T t n Hts Hn HT Hb (zb _ Hz) Hfr0) as Hex. rewrite Hco in Hex. cbn [wp] in Hex.
  destruct (extract_minv co Hco) as (h & Xht & own & role & ch & en & HI & HM & Hu & Hall).
  destruct Hex as [XM XNL XC Xnum Xub Xn Xhead (h' & own' & role' & ch' & en' & Xht' & _ & _ & Hhts & Hhb & Hnb & Hlen & _)].
  rewrite Xht in Xht'. injection Xht' as <-.
  pose proof (LMS_bound t n e HeL) as Heb. destruct (Hall e ltac:(lia) HeL) as (hv & q & Hic).
  unfold buf_bound in Hlen. unfold sort_LMS_strings. rewrite Xht, Xhead.
  pose proof (he_range t n Hn) as Hhe. pose proof (name_bytes_ok n ltac:(lia)) as [Hnb8 Hnb2].
  pose proof (LMS_half t n ltac:(lia)) as Hhalf. pose proof (cnt_nonneg LMS 0 n) as Hcn.
  set (he := nx t n 0) in *. set (u := c_uniq co) in *. set (pos := alen (ht_buf h)) in *.
  assert (E1 : u64 (u + 2) = u + 2) by (unfold u64; apply wrap_small; lia). rewrite E1.
  assert (E2 : u64 (he + 1) = he + 1) by (unfold u64; apply wrap_small; lia). rewrite E2.
  rewrite calculate_lenlen_ok by lia. cbn [bind].
  pose proof (lenlen_le8 (he + 1) ltac:(lia)) as Hll. set (ll := lenlen (he + 1)) in *.
  pose proof (hi_buf _ _ _ _ _ _ HI) as Hbuf. fold pos in Hbuf.
  rewrite Hnb. set (nb := name_bytes n) in *.
  set (sp := 1 + 1 + ll + (he + 1) + nb + (1 + 1 + 1 + 1 + nb)).
  assert (Hsp : 0 <= sp <= 2 ^ 59) by (unfold sp; lia).
  assert (E3 : u64 (pos + sp) = pos + sp) by (unfold u64; apply wrap_small; lia). rewrite E3.
  set (b1 := brealloc (ht_buf h) (pos + sp)). set (h1 := with_buf h b1).
  assert (Hb1l : alen b1 = pos + sp) by apply alen_realloc.
  assert (HI1 : hinv E0 h1 (fun i => if i <? pos then own i else -1) role ch en).
  { apply (hinv_extend E0 h own role ch en HI b1).
    - rewrite Hb1l. fold pos. lia.
    - apply bclean_realloc; [fold pos; lia|]. apply (hi_clean _ _ _ _ _ _ HI).
    - intros i Hi. apply bget_realloc_old; [fold pos; lia|assumption]. }
  set (own1 := fun i => if i <? pos then own i else -1) in *.
  assert (Hh1s : HTSIZE h1 = hts) by exact Hhts.
  pose proof (collect_all_ok E0 h1 own1 role ch en HI1 (anew (u + 2)) ltac:(lia)) as Hca.
  rewrite Hh1s, alen_new in Hca. specialize (Hca ltac:(lia)).
  destruct (wp_inv _ _ Hca) as ([s1 j] & Hcb & -> & Hs1l & Hs1 & _). rewrite Hh1s.
  assert (Hcs : um (for_up 0 hts (fun i '(s, j) => p <- aget (ht_head h1) i ;; collect_chain Es h1 p s j) (anew (u + 2), 1))
                   (for_up 0 hts (fun i '(s, j) => p <- aget (ht_head h1) i ;; collect_chain E0 h1 p s j) (anew (u + 2), 1))).
  { apply um_for_up. intros i [s j]. apply um_bind; [apply um_refl|]. intros p. apply (um_collect _ _ fw bs Hes). }
  destruct Hcs as [Hcs|Hcs]; rewrite Hcs; [reflexivity|]. rewrite Hcb. cbn [bind].
  replace (1 + zln (allrec ch hts) - 1) with (zln (allrec ch hts)) by lia.
  rewrite <- (map_length fst (allrec ch hts)) at 1. rewrite (aslice_ok s1 1 _ Hs1). cbn [bind].
  assert (Hic1 : inch h1 ch hv q (sub e)) by exact Hic.
  assert (Hqin : In q (map fst (allrec ch hts))).
  { apply in_map_iff. exists (q, sub e). split; [reflexivity|]. rewrite <- Hh1s. apply (allrec_inch h1 ch q (sub e)). exists hv. exact Hic1. }
  destruct (inch_rec E0 h1 own1 role ch en HI1 hv q _ Hic1) as (A1 & A2 & A3 & A4 & A5).
  destruct (inch_rec E0 h own role ch en HI hv q _ Hic) as (B1 & B2 & _ & B4 & _).
  pose proof (rc_len _ _ _ _ _ A4) as Hlq. pose proof (lenlen_le8 (zln (sub e)) ltac:(lia)) as Hllq. unfold rsize in B2. fold pos in B2.
  assert (Hg : get_length Es b1 q = Err Uninit).
  { apply (length_uninit b1 q (sub e) (NAME_BYTES h1) A4 Hlong). unfold b1. rewrite bget_realloc_old by (fold pos; lia). apply (HM hv q _ Hic); [|exact Hlong]. change (-1 + 2) with (0 + 1). rewrite <- lay_skip by (lia || reflexivity). exact Hfx. }
  match goal with |- context [forallb ?f ?l] => assert (Hfa : forallb f l = false) end.
  { apply not_true_iff_false. intros H. rewrite forallb_forall in H. specialize (H q Hqin). rewrite forallb_forall in H. specialize (H q Hqin).
    unfold LMS_comparison in H. change (ht_buf h1) with b1 in H. rewrite Hg in H. discriminate. }
  rewrite Hfa. reflexivity.
Qed.
End Text.

(** ** the head, whatever the S* substrings are *)
Section Env.
Context (E E' : env) (b : arr Z) (He : forall i, bget E' b i = bget E b i).
Lemma enc_env p v k : enc E b p v k -> enc E' b p v k.
Proof. intros H j Hj. rewrite He. apply H, Hj. Qed.
Lemma recd_env nb q s : recd E nb b q s -> recd E' nb b q s.
Proof.
  intros [H1 H2 [H3 H3'] H4 H5 H6]. constructor; try assumption.
  - split; [rewrite He; exact H3|apply enc_env; exact H3'].
  - rewrite He. exact H4.
  - intros i Hi. rewrite He. apply H5, Hi.
Qed.
Lemma seg_env nb own role hv q l e : seg E nb own role b hv q l e -> seg E' nb own role b hv q l e.
Proof.
  induction 1 as [q|q q' l e H H0 (P1 & P2 & P3) H2 H3 IH|q s l e H H0 H1 H2 IH].
  - constructor.
  - apply (seg_ptr _ _ _ _ _ _ q q'); try assumption. split; [rewrite He; exact P1|]. split; [rewrite He; exact P2|apply enc_env; exact P3].
  - apply seg_rec; try assumption. apply recd_env. exact H0.
Qed.
End Env.
Lemma hinv_env E E' h own role ch en : (forall i, bget E' (ht_buf h) i = bget E (ht_buf h) i) -> hinv E h own role ch en -> hinv E' h own role ch en.
Proof.
  intros He [H1 H2 H3 H4 H5 H6 H7 H8 H9 H10]. constructor; try assumption.
  intros hv Hhv. destruct (H8 hv Hhv) as [H|(hd & r & A1 & A2 & A3 & A4 & A5 & A6 & A7 & A8 & A9)]; [left; exact H|right].
  exists hd, r. split; [exact A1|]. split; [exact A2|]. split; [exact A3|]. split; [apply (seg_env E E' _ He); exact A4|].
  split; [exact A5|]. split; [exact A6|]. split; [exact A7|]. split; [exact A8|]. intros i Hi. rewrite He. apply A9, Hi.
Qed.

Section Fin.
Context (hts : Z) (srt : sorter) (T : arr Z) (l : list Z) (b : bool).
Context (Hs : std_sort srt) (Hc : comparison_sort srt) (Hts : 1 <= hts <= 2 ^ 48) (Hb : Forall is_byte l) (Hn : 3 <= zl l <= 2 ^ 58) (HT : holds T (l ++ [0])).
Theorem reads_unwritten : unwritten_length hts l -> bwt_string_gen hts Es srt (Some T) (zl l) b = Err Uninit.
Proof using Hs Hc Hts Hb Hn HT.
  intros Hcase. unfold bwt_string_gen. destruct (Z.leb_spec (zl l) 0); [lia|]. unfold bwt_is.
  assert (HTt : forall i, 0 <= i <= zl l -> av T i = Some (tl_ l i)) by exact (holds_tl T l HT).
  assert (Hbt : forall i, 0 <= i < zl l -> 0 <= tl_ l i < 256) by exact (tl_byte l Hb).
  assert (Hz : tl_ l (zl l) = 0) by exact (tl_n l).
  destruct (wp_inv _ _ (extract_ok E0 hts T (tl_ l) (zl l) Hts Hn HTt Hbt (zb _ Hz) (Hfr0 (tl_ l) (zl l)))) as (co & Hco & Hex).
  destruct (um_extract _ _ fw bs Hes hts T (zl l)) as [H0|H0]; rewrite H0; [reflexivity|]. rewrite Hco. cbn [bind].
  enough (sort_LMS_strings Es srt T co = Err Uninit) as -> by reflexivity.
  destruct Hcase as [Hh|(s & Hi & Hm)].
  - destruct (ex_ht _ _ _ _ _ Hex) as (h & own & role & ch & en & Xht & HI & HR).
    set (Eh := mkenv (fun i => if i <? alen (ht_buf h) then Some 0 else None) fw bs).
    assert (Hex' : extracted Eh hts (tl_ l) (zl l) co).
    { destruct Hex as [X1 X2 X3 X4 X5 X6 X7 _]. constructor; try assumption. exists h, own, role, ch, en. split; [exact Xht|]. split; [|exact HR].
      apply (hinv_env E0 Eh); [|exact HI]. intros j. unfold bget, inb. destruct ((0 <=? j) && (j <? alen (ht_buf h))) eqn:Hj; [|reflexivity].
      destruct (av (ht_buf h) j); [reflexivity|]. cbn [fresh_byte Eh]. replace (j <? alen (ht_buf h)) with true by lia. reflexivity. }
    destruct (um_sort (fun _ => None) (fun i => if i <? alen (ht_buf h) then Some 0 else None) fw bs ltac:(left; reflexivity) srt Hc T co) as [H1|H1]; [exact H1|].
    rewrite H1. apply (sort_head_uninit Eh srt hts T (tl_ l) (zl l) Hs Hts Hn); [| |exact Hex'].
    + change 0 with (Z.of_nat 0) at 1. rewrite nx_list. replace (Z.of_nat (next_lms l 0) + 1) with (Z.of_nat (next_lms l 0 + 1)) by lia. exact Hh.
    + intros h' Xht'. rewrite Xht in Xht'. injection Xht' as <-. intros j Hj. cbn [fresh_byte Eh]. replace (j <? alen (ht_buf h)) with false by lia. reflexivity.
  - apply (sort_long_uninit hts T (tl_ l) (zl l) Hts Hn HTt Hbt Hz srt co Hco). exists s. rewrite lay_list. split; assumption.
Qed.
Theorem good_layout E : ~ unwritten_length hts l -> exists r, bwt_string_gen hts E srt (Some T) (zl l) b = Ok (if b then None else Some T, Some r) /\
    alen (r_BWT r) = zl l + 1 /\ is_BWT l (av (r_BWT r)) (r_last r).
Proof using Hs Hts Hb Hn HT.
  intros Hno.
  assert (Hg : forall s, In s (firsts (lay hts (tl_ l) (zl l) 0)) -> fresh_ok E (zln s)).
  { intros s Hin. left. intros Hm. apply Hno. right. exists s. rewrite <- lay_list. split; assumption. }
  assert (Hh : fresh_ok E (nx (tl_ l) (zl l) 0 + 1)).
  { left. intros Hm. apply Hno. left. rewrite <- Hm. f_equal. change 0 with (Z.of_nat 0) at 1. rewrite nx_list. lia. }
  apply string_from; try assumption. exact (extract_good E hts T (tl_ l) (zl l) Hts Hn (holds_tl T l HT) (tl_byte l Hb) (tl_n_byte l) Hg).
Qed.
End Fin.
Theorem file_unwritten hts srt f : std_sort srt -> comparison_sort srt -> 1 <= hts <= 2 ^ 48 -> Forall is_byte (in_data f) -> 3 <= zl (in_data f) <= 2 ^ 58 ->
  in_open f = true -> in_tell f = zl (in_data f) -> malloc_ok f = true ->
  unwritten_length hts (in_data f) ->
  bwt_file_gen hts Es srt f = (Err Uninit, None).
Proof using.
  intros H1 Hc H2 H3 H4 H5 H6 H7 H8.
  unfold bwt_file_gen. rewrite H5, H7, H6. cbn [negb].
  set (l := in_data f) in *. replace (u64 (zl l)) with (zl l) by (unfold u64; rewrite wrap_small by lia; reflexivity).
  destruct (fread_ok (zl l) l eq_refl ltac:(lia)) as (T & HT & Hl & Hat). rewrite HT.
  destruct (Z.leb_spec (zl l) 0); [lia|]. rewrite aset_ok by lia.
  assert (HH : holds (aupd T (zl l) 0) (l ++ [0])).
  { intros i Hi. rewrite app_length in Hi. cbn [length] in Hi. rewrite av_upd by lia.
    destruct (Z.eqb_spec (Z.of_nat i) (zl l)) as [He|He].
    - replace i with (length l) by lia. rewrite app_nth2, Nat.sub_diag by lia. reflexivity.
    - rewrite app_nth1 by lia. specialize (Hat (Z.of_nat i) ltac:(lia)). rewrite Nat2Z.id in Hat. exact Hat. }
  rewrite (reads_unwritten hts srt _ l true H1 Hc H2 H3 H4 HH H8). reflexivity.
Qed.
Theorem file_good hts srt f fb : std_sort srt -> comparison_sort srt -> 1 <= hts <= 2 ^ 48 -> Forall is_byte (in_data f) -> 3 <= zl (in_data f) <= 2 ^ 58 ->
  in_open f = true -> in_tell f = zl (in_data f) -> malloc_ok f = true -> out_open f = true -> out_limit f = None ->
  ~ unwritten_length hts (in_data f) ->
  bwt_file_gen hts (mkenv fb fw bs) srt f = (Ok tt, Some (file_output (in_data f))).
Proof using.
  intros H1 Hc H2 H3 H4 H5 H6 H7 H8 H9 Hno.
  destruct (file_dichotomy hts srt fw bs Hc f H1 H2 H3 H4 H5 H6 H7 H8 H9) as [H|H]; [exfalso|apply H].
  unfold bwt_file_gen in H. rewrite H5, H7, H6 in H. cbn [negb] in H.
  set (l := in_data f) in *. replace (u64 (zl l)) with (zl l) in H by (unfold u64; rewrite wrap_small by lia; reflexivity).
  destruct (fread_ok (zl l) l eq_refl ltac:(lia)) as (T & HT & Hl & Hat). rewrite HT in H.
  destruct (Z.leb_spec (zl l) 0); [lia|]. rewrite aset_ok in H by lia.
  assert (HH : holds (aupd T (zl l) 0) (l ++ [0])).
  { intros i Hi. rewrite app_length in Hi. cbn [length] in Hi. rewrite av_upd by lia.
    destruct (Z.eqb_spec (Z.of_nat i) (zl l)) as [He|He].
    - replace i with (length l) by lia. rewrite app_nth2, Nat.sub_diag by lia. reflexivity.
    - rewrite app_nth1 by lia. specialize (Hat (Z.of_nat i) ltac:(lia)). rewrite Nat2Z.id in Hat. exact Hat. }
  destruct (good_layout hts srt _ l true H1 H2 H3 H4 HH Es Hno) as (r & Hr & _). rewrite Hr, H8 in H. cbn [negb] in H.
  destruct (write_result _ _ _); discriminate.
Qed.
End Long.
