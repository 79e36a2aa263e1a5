(** Any history of calls when memory may be exhausted (C52). *)
From Verif Require Import Base M_PackedArray M_Queue M_HashTable M_Induce M_Flbwt M_File M_Heap M_HeapProg Client
  Spec Histories Pool P_Bridge P_Lists P_Size P_Heap P_HeapSim P_HeapInduce P_HeapProg P_Oom P_OomProg P_Client.
From Coq Require Import FMapPositive Permutation.
Open Scope Z_scope.

(** * Blocks that are alive, next to blocks that may have been lost *)
Record lives (h0 : heap) (L : list (addr * (kind * Z))) (h : heap) : Prop := {
  li_nd : NoDup (addrs L);
  li_live : forall a k, In (a, k) L -> hfind a h = Some (OOther k);
  li_new : forall a, In a (addrs L) -> hfind a h0 = None;
  li_keeps : keeps h0 h }.
Lemma lives_perm h0 L M h : lives h0 L h -> Permutation L M -> lives h0 M h.
Proof.
  intros [H1 H2 H3 H4] HP. constructor; [| | |exact H4].
  - eapply Permutation_NoDup; [apply Permutation_map, HP|exact H1].
  - intros a k Hi. apply H2. eapply Permutation_in; [apply Permutation_sym, HP|exact Hi].
  - intros a Hi. apply H3. eapply Permutation_in; [apply Permutation_sym, Permutation_map, HP|exact Hi].
Qed.
Lemma keeps_trans h0 h1 h2 : keeps h0 h1 -> keeps h1 h2 -> keeps h0 h2.
Proof. intros H H' a o Ha. apply H', H, Ha. Qed.
Lemma lives_keeps h0 L h h' : lives h0 L h -> keeps h h' -> lives h0 L h'.
Proof. intros [H1 H2 H3 H4] HK. constructor; [exact H1|intros a k Hi; apply HK, H2, Hi|exact H3|eapply keeps_trans; eassumption]. Qed.
Lemma lives_add h0 L h a k : lives h0 L h -> hfind a h = None -> lives h0 ((a, k) :: L) (hadd a (OOther k) h).
Proof.
  intros [H1 H2 H3 H4] Ha.
  assert (Hn : ~ In a (addrs L)). { intros Hi. apply in_map_iff in Hi as ([b k'] & Hb & Hi). cbn in Hb. subst b. rewrite (H2 a k' Hi) in Ha. discriminate. }
  constructor.
  - constructor; assumption.
  - intros b k' [Hi|Hi]; [injection Hi as -> ->; apply hgss|]. rewrite hgso; [apply H2, Hi|]. intros ->. apply Hn. apply in_map_iff. exists (a, k'). auto.
  - intros b [<-|Hi]; [|apply H3, Hi]. cbn [fst]. destruct (hfind a h0) as [o|] eqn:Ho; [|reflexivity]. rewrite (H4 a o Ho) in Ha. discriminate.
  - intros b o Hb. rewrite hgso; [apply H4, Hb|]. intros ->. rewrite (H4 a o Hb) in Ha. discriminate.
Qed.
Lemma lives_remove h0 L h a k : lives h0 ((a, k) :: L) h -> hfree (fst k) h (Some a) = Ok (hremove a h) /\ lives h0 L (hremove a h).
Proof.
  intros [H1 H2 H3 H4]. cbn in H1. inversion H1 as [|? ? Hn Hr]; subst. split.
  - unfold hfree. rewrite (H2 a k (or_introl eq_refl)). cbn [kind_of]. replace (kind_eqb (fst k) (fst k)) with true by (destruct (fst k); reflexivity). reflexivity.
  - constructor; [exact Hr| | |].
    + intros b k' Hi. rewrite hgro; [apply H2; right; exact Hi|]. intros ->. apply Hn. apply in_map_iff. exists (a, k'). auto.
    + intros b Hi. apply H3. right. exact Hi.
    + intros b o Hb. rewrite hgro; [apply H4, Hb|]. intros ->. rewrite (H3 a (or_introl eq_refl)) in Hb. discriminate.
Qed.
Lemma lives_plus h0 L h M h' : lives h0 L h -> heap_plus h M h' -> lives h0 (M ++ L) h'.
Proof.
  intros [H1 H2 H3 H4] (P1 & P2 & P3).
  assert (Hnew : forall a, In a (addrs M) -> hfind a h = None).
  { intros a Hi. apply in_map_iff in Hi as ([b k] & Hb & Hi). cbn in Hb. subst b. apply (P2 a k Hi). }
  assert (HLM : forall a k, In (a, k) L -> ~ In a (addrs M)).
  { intros a k Hi Hm. specialize (Hnew a Hm). rewrite (H2 a k Hi) in Hnew. discriminate. }
  constructor.
  - unfold addrs in *. rewrite map_app. clear - P1 H1 HLM.
    assert (Hd : forall a, In a (map fst M) -> ~ In a (map fst L)).
    { intros a Hm Hl. apply in_map_iff in Hl as ([b k] & Hb & Hi). cbn in Hb. subst b. exact (HLM a k Hi Hm). }
    clear HLM. induction (map fst M) as [|x l IH]; [exact H1|]. cbn. inversion P1; subst. constructor.
    + rewrite in_app_iff. intros [Hi|Hi]; [contradiction|apply (Hd x); [left; reflexivity|exact Hi]].
    + apply IH; [assumption|]. intros a Ha. apply Hd. right. exact Ha.
  - intros a k Hi. apply in_app_iff in Hi as [Hi|Hi]; [apply (P2 a k Hi)|]. rewrite P3; [apply H2, Hi|apply (HLM a k Hi)].
  - intros a Hi. unfold addrs in Hi. rewrite map_app, in_app_iff in Hi. destruct Hi as [Hi|Hi]; [|apply H3, Hi].
    destruct (hfind a h0) as [o|] eqn:Ho; [|reflexivity]. specialize (Hnew a Hi). rewrite (H4 a o Ho) in Hnew. discriminate.
  - intros a o Ha. rewrite P3; [apply H4, Ha|]. intros Hi. specialize (Hnew a Hi). rewrite (H4 a o Ha) in Hnew. discriminate.
Qed.
Lemma keeps_tick h : keeps h (htick h).
Proof. intros a o Ha. rewrite hgtick. exact Ha. Qed.

Definition mem_err {A} (m : res A) : Prop := m = Err BadAlloc \/ m = Err NullDeref.
Section ClientOom.
Context (al : allocator) (Hal : fresh_alloc al) (sh : list (Z * (addr * list Z))) (h0 : heap).
Let keys := map fst sh.
Context (Hsh : Forall (fun x => exists kd, hfind (fst (snd x)) h0 = Some (OOther (kd, zl (snd (snd x)) + 1))) sh).
Let F : Prop := oom_possible al (None, h0).
Record oinv (h : heap) (v : cvars) (s : cstate) : Prop := {
  oi_t : Forall2 tmatch (s_texts s) (v_texts v);
  oi_r : Forall2 rmatch (s_results s) (v_results v);
  oi_v : Forall (fun x => valid_text (snd x)) (s_texts s);
  oi_o : exists P, v_texts v = P ++ sh /\ Forall (fun x => ~ In (fst x) keys) P /\ lives h0 (map tblk P ++ flat_map rblk (v_results v)) h }.
Lemma oom_mono b h : oom_possible al (b, h) -> keeps h0 h -> F.
Proof. intros (h' & sz & H1 & H2 & _) HK. exists h', sz. split; [exact H1|]. split; [|exact I]. cbn in *. eapply keeps_trans; eassumption. Qed.
Lemma lookup_app2 {A} i (l1 l2 : list (Z * A)) : lookup i (l1 ++ l2) = match lookup i l1 with Some x => Some x | None => lookup i l2 end.
Proof. induction l1 as [|[j x] l1 IH]; [reflexivity|]. cbn. destruct (i =? j); [reflexivity|exact IH]. Qed.
Lemma drop_app2 {A} i (l1 l2 : list (Z * A)) x : lookup i l1 = Some x -> drop_key i (l1 ++ l2) = drop_key i l1 ++ l2.
Proof. induction l1 as [|[j y] l1 IH]; [discriminate|]. cbn. destruct (i =? j); [reflexivity|]. intros H. cbn. rewrite (IH H). reflexivity. Qed.
Lemma exec_oom h v s op s' o : oinv h v s -> cstep s op s' o -> leaves keys op ->
  (exists h' v' o', client_exec al h v op = Ok (h', v', o') /\ oinv h' v' s' /\ (o' = o \/ (F /\ same_or_thrown o o'))) \/
  (F /\ mem_err (client_exec al h v op)).
Proof.
  intros [Ht Hr Hv (P & HP & HK & HO)] Hstep Hl.
  assert (Hpriv : forall i x, lookup i (v_texts v) = Some x -> ~ In i keys -> lookup i P = Some x /\ drop_key i (v_texts v) = drop_key i P ++ sh /\
    Forall (fun x => ~ In (fst x) keys) (drop_key i P) /\ lives h0 ((fst x, (KMalloc, zl (snd x) + 1)) :: map tblk (drop_key i P) ++ flat_map rblk (v_results v)) h).
  { intros i x Hi Hn. rewrite HP, lookup_app2 in Hi. destruct (lookup i P) as [y|] eqn:Hy.
    - injection Hi as ->. split; [reflexivity|]. split; [rewrite HP; apply (drop_app2 _ _ _ _ Hy)|]. split.
      + rewrite Forall_forall in *. intros z Hz. apply HK. eapply drop_incl, Hz.
      + eapply lives_perm; [exact HO|]. apply (Permutation_app_tail _ (Permutation_map tblk (drop_perm _ _ _ Hy))).
    - exfalso. apply Hn. apply lookup_in in Hi. apply in_map_iff. exists (i, x). auto. }
  destruct Hstep as [s i l Hi Hvl|s i j b E srt l Hi Hj Hs Hf|s i Hi|s j Hj|s E srt f Hs Hf Hd Htell]; cbn [client_exec leaves] in *.
  - unfold hmalloc. destruct (al h (osize (OOther (KMalloc, zl l + 1)))) as [a|] eqn:Ha.
    + left. cbn [deref bind]. eexists _, _, _. split; [reflexivity|]. split; [|left; reflexivity]. constructor; cbn [s_texts s_results s_lost v_texts v_results].
      * constructor; [split; reflexivity|exact Ht].
      * exact Hr.
      * constructor; assumption.
      * exists ((i, (a, l)) :: P). split; [rewrite HP; reflexivity|]. split; [constructor; assumption|]. apply (lives_add h0 _ h a (KMalloc, zl l + 1) HO). apply (Hal _ _ _ Ha).
    + right. split; [|right; reflexivity]. exists h, (osize (OOther (KMalloc, zl l + 1))). split; [exact Ha|]. split; [exact (li_keeps _ _ _ HO)|exact I].
  - destruct (lookup2 tmatch tkey i _ _ l Ht Hi) as ([p l'] & Hp & He). destruct He as [_ He]. cbn in He. subst l'. rewrite Hp.
    assert (Hvt : valid_text l). { rewrite Forall_forall in Hv. apply (Hv (i, l)). apply lookup_in, Hi. } destruct Hvt as [Hb Hn].
    assert (Hfp : exists kd, hfind p h = Some (OOther (kd, zl l + 1)) /\ (b = true -> kd = KMalloc) /\ (b = true -> lives h0 (map tblk (drop_key i P) ++ flat_map rblk (v_results v)) (hremove p h))).
    { destruct b.
      - destruct (Hpriv i (p, l) Hp (Hl eq_refl)) as (_ & _ & _ & HO1). exists KMalloc. split; [exact (li_live _ _ _ HO1 p _ (or_introl eq_refl))|]. split; [auto|]. intros _. apply (lives_remove _ _ _ _ _ HO1).
      - assert (Hx : exists kd, hfind p h = Some (OOther (kd, zl l + 1))).
        { pose proof Hp as Hp'. rewrite HP, lookup_app2 in Hp'. destruct (lookup i P) as [y|] eqn:Hy.
          - injection Hp' as ->. exists KMalloc. apply (li_live _ _ _ HO). apply in_app_iff. left. apply in_map_iff. exists (i, (p, l)). split; [reflexivity|apply lookup_in, Hy].
          - rewrite Forall_forall in Hsh. destruct (Hsh _ (lookup_in _ _ _ Hp')) as (kd & Hkd). exists kd. apply (li_keeps _ _ _ HO). exact Hkd. }
        destruct Hx as (kd & Hx). exists kd. split; [exact Hx|]. split; discriminate. }
    destruct Hfp as (kd & Hfp & Hkd & HOb).
    assert (HKb : keeps h0 (if b then hremove p h else h)) by (destruct b; [exact (li_keeps _ _ _ (HOb eq_refl))|exact (li_keeps _ _ _ HO)]).
    destruct (string_oom al Hal E srt 67777 (of_list (l ++ [0])) l b h p kd (zl l + 1)) as [(r & aR & aB & h' & -> & (R1 & R2) & Hh)|[HF [-> | ->]]];
      try assumption; try lia; [apply of_list_holds|apply of_list_len| | |].
    + cbn [bind]. left. eexists _, _, _. split; [reflexivity|]. split; [|left; reflexivity]. constructor; cbn [s_texts s_results s_lost v_texts v_results].
      * destruct b; [apply (drop2 tmatch tkey), Ht|exact Ht].
      * constructor; [|exact Hr]. split; [|exact I]. split; [reflexivity|]. split; [exact R1|exact R2].
      * destruct b; [|exact Hv]. rewrite Forall_forall in *. intros x Hx. apply Hv. eapply drop_incl, Hx.
      * destruct b.
        -- destruct (Hpriv i (p, l) Hp (Hl eq_refl)) as (_ & H1 & H2 & _). exists (drop_key i P). split; [exact H1|]. split; [exact H2|].
           cbn [flat_map rblk snd]. rewrite R1. eapply lives_perm; [apply (lives_plus _ _ _ _ _ (HOb eq_refl) Hh)|].
           exact (Permutation_app_swap_app [(aR, (KMalloc, 16)); (aB, (KNewArray, zl l + 1))] (map tblk (drop_key i P)) (flat_map rblk (v_results v))).
        -- exists P. split; [exact HP|]. split; [exact HK|]. cbn [flat_map rblk snd]. rewrite R1. eapply lives_perm; [apply (lives_plus _ _ _ _ _ HO Hh)|].
           exact (Permutation_app_swap_app [(aR, (KMalloc, 16)); (aB, (KNewArray, zl l + 1))] (map tblk P) (flat_map rblk (v_results v))).
    + right. cbn [bind]. split; [eapply oom_mono; eassumption|left; reflexivity].
    + right. cbn [bind]. split; [eapply oom_mono; eassumption|right; reflexivity].
  - left. destruct (lookup i (s_texts s)) as [l|] eqn:Hli; [|congruence].
    destruct (lookup2 tmatch tkey i _ _ l Ht Hli) as ([p l'] & Hp & He). destruct He as [_ He]. cbn in He. subst l'. rewrite Hp.
    destruct (Hpriv i (p, l) Hp Hl) as (_ & H1 & H2 & HO1). destruct (lives_remove _ _ _ _ _ HO1) as [Hfr HO2]. cbn [fst] in Hfr, HO2. rewrite Hfr. cbn [bind].
    eexists _, _, _. split; [reflexivity|]. split; [|left; reflexivity]. constructor; cbn [s_texts s_results s_lost v_texts v_results].
    + apply (drop2 tmatch tkey), Ht.
    + exact Hr.
    + rewrite Forall_forall in *. intros x Hx. apply Hv. eapply drop_incl, Hx.
    + exists (drop_key i P). split; [exact H1|]. split; [exact H2|exact HO2].
  - left. destruct (lookup j (s_results s)) as [l|] eqn:Hlj; [|congruence].
    destruct (lookup2 rmatch rkey j _ _ l Hr Hlj) as ([[r pR] pB] & Hp & Hm). rewrite Hp. destruct Hm as [_ Hm]. cbn [snd] in Hm.
    destruct pR as [aR|], pB as [aB|]; try contradiction. pose proof (drop_perm _ _ _ Hp) as Hperm.
    assert (HO1 : lives h0 ((aB, (KNewArray, alen (r_BWT r))) :: (aR, (KMalloc, 16)) :: map tblk P ++ flat_map rblk (drop_key j (v_results v))) h).
    { eapply lives_perm; [exact HO|]. etransitivity; [apply Permutation_app_head, (Permutation_flat_map rblk Hperm)|].
      cbn [flat_map rblk snd app]. rewrite <- !Permutation_middle. apply perm_swap. }
    destruct (lives_remove _ _ _ _ _ HO1) as [F2 O2]. cbn [fst] in F2. rewrite F2. cbn [bind].
    destruct (lives_remove _ _ _ _ _ O2) as [F3 O3]. cbn [fst] in F3. rewrite F3. cbn [bind].
    eexists _, _, _. split; [reflexivity|]. split; [|left; reflexivity]. constructor; cbn [s_texts s_results s_lost v_texts v_results].
    + exact Ht.
    + apply (drop2 rmatch rkey), Hr.
    + exact Hv.
    + exists P. split; [exact HP|]. split; [exact HK|exact O3].
  - set (B := (None, h) : bound).
    destruct (h_file_ok (continue al B) B (continue_fresh al B Hal) (continue_room al B) E srt 67777 f h Hs ltac:(lia)) as (h' & L & G & HPl & _); try assumption.
    { destruct Hd as [->|[Hb _]]; [constructor|exact Hb]. }
    { destruct Hd as [->|[_ Hn]]; [left; reflexivity|right; exact Hn]. }
    { split; [apply keeps_refl|exact I]. }
    rewrite (file_result_ok E srt f Hs Hf Hd Htell) in G.
    assert (HKr : forall sz a o, continue al B h sz = Some a -> keeps h h -> keeps h (hremove a (htick (hadd a o h)))).
    { intros sz a o Ha _ b o' Hb'. pose proof (continue_fresh al B Hal _ _ _ Ha) as Hfr. assert (b <> a) by congruence. rewrite hgro, hgtick, hgso by assumption. exact Hb'. }
    destruct (oom_bwt_file al (continue al B) _ (continue_ref al B) Hal (keeps h) (continue_keeps al _ h) (fun h' H => keeps_trans _ _ _ H (keeps_tick h')) 67777 E srt h f HKr (keeps_refl h) _ G) as [H|[HF H]].
    + left. rewrite H. cbn [bind]. rewrite <- surjective_pairing. eexists _, _, _. split; [reflexivity|]. split; [|left; reflexivity]. constructor; cbn [s_texts s_results s_lost v_texts v_results]; [exact Ht|exact Hr|exact Hv|].
      exists P. split; [exact HP|]. split; [exact HK|]. pose proof (lives_plus _ _ _ _ _ HO HPl) as HL. destruct HL as [L1 L2 L3 L4].
      constructor; [apply (li_nd _ _ _ HO)| |apply (li_new _ _ _ HO)|exact L4]. intros a k Hi. apply L2. apply in_app_iff. right. exact Hi.
    + assert (HF' : F) by (eapply oom_mono; [exact HF|exact (li_keeps _ _ _ HO)]).
      assert (Hth : forall h' r, keeps h h' -> In (Some r) [Some (Err InvalidArgument, None); Some (Err RuntimeError, None); Some (Err BadAlloc, Some [])] ->
        exists h'' v' o', Ok (h', v, Some r) = Ok (h'', v', o') /\ oinv h'' v' (mkcs (s_texts s) (s_results s) (file_lost f ++ s_lost s)) /\ (o' = Some (file_result f) \/ (F /\ same_or_thrown (Some (file_result f)) o'))).
      { intros h1 r Hk Hi. eexists _, _, _. split; [reflexivity|]. split; [|right; split; [exact HF'|right; split; [discriminate|exact Hi]]].
        constructor; cbn [s_texts s_results s_lost v_texts v_results]; [exact Ht|exact Hr|exact Hv|]. exists P. split; [exact HP|]. split; [exact HK|]. eapply lives_keeps; eassumption. }
      destruct H as [->|[->|[(h1 & e & -> & He & Hk)|(h1 & -> & Hk)]]]; cbn [bind].
      * right. split; [exact HF'|left; reflexivity].
      * right. split; [exact HF'|right; reflexivity].
      * left. apply Hth; [exact Hk|]. destruct He as [-> | ->]; cbn; auto.
      * left. apply Hth; [exact Hk|]. cbn; auto.
Qed.
Lemma run_oom ops : forall h v s s' r, oinv h v s -> csteps s ops s' r -> Forall (leaves keys) ops ->
  (exists h' v' r', client_run al h v ops = Ok (h', v', r') /\ oinv h' v' s' /\ (r' = r \/ (F /\ Forall2 same_or_thrown r r'))) \/
  (F /\ mem_err (client_run al h v ops)).
Proof.
  induction ops as [|op ops IH]; intros h v s s' r HI Hs Hl; inversion Hs; subst.
  - left. exists h, v, []. split; [reflexivity|]. split; [exact HI|left; reflexivity].
  - inversion Hl; subst. cbn [client_run].
    destruct (exec_oom h v s op _ _ HI ltac:(eassumption) ltac:(assumption)) as [(h1 & v1 & o1 & -> & I1 & D1)|[HF [-> | ->]]]; cbn [bind].
    2:{ right. split; [exact HF|left; reflexivity]. }
    2:{ right. split; [exact HF|right; reflexivity]. }
    destruct (IH h1 v1 _ _ _ I1 ltac:(eassumption) ltac:(assumption)) as [(h2 & v2 & r2 & -> & I2 & D2)|[HF [-> | ->]]]; cbn [bind].
    2:{ right. split; [exact HF|left; reflexivity]. }
    2:{ right. split; [exact HF|right; reflexivity]. }
    left. exists h2, v2, (o1 :: r2). split; [reflexivity|]. split; [exact I2|].
    destruct D1 as [->|[HF D1]], D2 as [->|[HF' D2]].
    + left. reflexivity.
    + right. split; [exact HF'|]. constructor; [left; reflexivity|exact D2].
    + right. split; [exact HF|]. constructor; [exact D1|]. clear. induction r0; constructor; [left; reflexivity|assumption].
    + right. split; [exact HF|]. constructor; assumption.
Qed.
Lemma oinv_start : Forall (fun x => valid_text (snd (snd x))) sh -> oinv h0 (mkcv sh []) (shared_start sh).
Proof.
  intros Hval. constructor; unfold shared_start; cbn [s_texts s_results s_lost v_texts v_results].
  - clear Hsh Hval F keys. induction sh as [|x l IH]; cbn; constructor; [split; reflexivity|exact IH].
  - constructor.
  - apply Forall_map. exact Hval.
  - exists []. split; [reflexivity|]. split; [constructor|]. constructor; [constructor|intros a k []|intros a []|apply keeps_refl].
Qed.
Lemma oinv_alive h v s : oinv h v s -> Forall (fun x => hfind (fst (snd x)) h = Some (OOther (KMalloc, zl (snd (snd x)) + 1))) sh -> variables_alive h v.
Proof.
  intros [Ht Hr Hv (P & HP & _ & HO)] Hm. split.
  - rewrite HP. apply Forall_app. split.
    + apply Forall_forall. intros [i [p l]] Hi. apply (li_live _ _ _ HO). apply in_app_iff. left. apply in_map_iff. exists (i, (p, l)). split; [reflexivity|exact Hi].
    + rewrite Forall_forall in *. intros [i [p l]] Hi. apply (Hm (i, (p, l)) Hi).
  - apply Forall_forall. intros [j [[r pR] pB]] Hi.
    assert (Hx : match pR, pB with Some _, Some _ => True | _, _ => False end).
    { clear - Hr Hi. induction Hr as [|x y a b [_ H] _ IH]; [destruct Hi|]. destruct Hi as [->|Hi]; [|apply IH, Hi]. cbn in H. destruct pR, pB; auto. }
    destruct pR as [a|], pB as [b|]; try contradiction. exists a, b. split; [reflexivity|]. split; [reflexivity|].
    assert (Hin : forall c k, In (c, k) (rblk (j, (r, Some a, Some b))) -> hfind c h = Some (OOther k)).
    { intros c k Hc. apply (li_live _ _ _ HO). apply in_app_iff. right. apply in_flat_map. exists (j, (r, Some a, Some b)). auto. }
    split; apply Hin; cbn; auto.
Qed.
End ClientOom.
Lemma rmatch_holds r1 r2 : Forall2 rmatch r1 r2 -> Forall2 holds_transform r1 r2.
Proof. induction 1 as [|x y a b [H _] _ IH]; constructor; assumption. Qed.
Theorem client_oom al h0 ops s obs : fresh_alloc al -> csteps (mkcs [] [] []) ops s obs ->
  (exists h v obs', client_run al h0 (mkcv [] []) ops = Ok (h, v, obs') /\ keeps h0 h /\ variables_alive h v /\
    Forall2 holds_transform (s_results s) (v_results v) /\
    (obs' = obs \/ (exists h sz, al h sz = None /\ keeps h0 h) /\ Forall2 same_or_thrown obs obs')) \/
  ((exists h sz, al h sz = None /\ keeps h0 h) /\
   (client_run al h0 (mkcv [] []) ops = Err BadAlloc \/ client_run al h0 (mkcv [] []) ops = Err NullDeref)).
Proof.
  intros Hal Hs. destruct (run_oom al Hal [] h0 (Forall_nil _) ops h0 (mkcv [] []) (mkcs [] [] []) s obs) as [(h & v & o & H1 & HI & H2)|[HF H]].
  - apply (oinv_start [] h0). constructor.
  - exact Hs.
  - apply Forall_forall. intros op _. destruct op; cbn; auto.
  - left. exists h, v, o. split; [exact H1|]. split; [destruct HI as [_ _ _ (P & _ & _ & HO)]; apply (li_keeps _ _ _ HO)|].
    split; [apply (oinv_alive _ _ _ _ _ HI); constructor|]. split; [apply rmatch_holds, (oi_r _ _ _ _ _ HI)|].
    destruct H2 as [H2|[HF H2]]; [left; exact H2|right]. split; [apply oom_request_any, HF|exact H2].
  - right. split; [apply oom_request_any, HF|exact H].
Qed.
