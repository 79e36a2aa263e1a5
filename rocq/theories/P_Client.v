(** Any history of calls: results, heap, leaks (C50). *)
From Verif Require Import Base M_PackedArray M_Queue M_HashTable M_Induce M_Flbwt M_File M_Heap M_HeapProg Client
  Spec BlockSpec Histories Pool P_Bridge P_Spec P_Lists P_Blocks P_Flbwt P_Size P_Heap P_HeapSim P_HeapInduce P_HeapProg P_File P_Props P_Props2 P_Api P_OomProg.
From Coq Require Import FMapPositive Permutation ZifyBool.
Open Scope Z_scope.

Lemma fold_find (l : list Z) : forall s (m : PositiveMap.t Z) i, 0 <= s -> 0 <= i ->
  PositiveMap.find (key i) (snd (fold_left (fun '(j, m) x => (j + 1, PositiveMap.add (key j) x m)) l (s, m))) =
  if (s <=? i) && (i <? s + zl l) then Some (nth (Z.to_nat (i - s)) l 0) else PositiveMap.find (key i) m.
Proof.
  induction l as [|x l IH]; intros s m i Hs Hi; cbn [fold_left length].
  - destruct (Z.leb_spec s i), (Z.ltb_spec i (s + Z.of_nat 0)); cbn [andb snd]; try reflexivity; lia.
  - rewrite IH by lia. destruct (Z.leb_spec (s + 1) i), (Z.ltb_spec i (s + 1 + zl l)), (Z.leb_spec s i), (Z.ltb_spec i (s + Z.of_nat (S (length l)))); cbn [andb]; try lia.
    + replace (Z.to_nat (i - s)) with (S (Z.to_nat (i - (s + 1)))) by lia. reflexivity.
    + apply PositiveMap.gso. unfold key. lia.
    + replace i with s by lia. rewrite Z.sub_diag. apply PositiveMap.gss.
    + apply PositiveMap.gso. unfold key. lia.
Qed.
Lemma of_list_holds l : holds (of_list l) l.
Proof.
  intros i Hi. Transparent av. unfold av, inb, of_list. cbn [alen adata]. rewrite fold_find by lia.
  replace (0 <=? Z.of_nat i) with true by lia. replace (Z.of_nat i <? zl l) with true by lia.
  replace (Z.of_nat i <? 0 + zl l) with true by lia. cbn [andb]. rewrite Z.sub_0_r, Nat2Z.id. reflexivity. Opaque av.
Qed.
Lemma of_list_len l : alen (of_list (l ++ [0])) <= zl l + 1.
Proof. change (alen (of_list (l ++ [0]))) with (Z.of_nat (length (l ++ [0]))). rewrite app_length. cbn [length]. lia. Qed.

Section Keys.
Context {A B : Type} (R : Z * A -> Z * B -> Prop) (HR : forall x y, R x y -> fst x = fst y).
Lemma lookup2 i l l' x : Forall2 R l l' -> lookup i l = Some x -> exists y, lookup i l' = Some y /\ R (i, x) (i, y).
Proof.
  induction 1 as [|[j a] [k b] l l' H1 H2 IH]; [discriminate|]. pose proof (HR _ _ H1) as He. cbn in He. subst k. cbn.
  destruct (Z.eqb_spec i j) as [->|Hn]; [|exact IH]. intros Hx. inversion Hx; subst. exists b. auto.
Qed.
Lemma drop2 i l l' : Forall2 R l l' -> Forall2 R (drop_key i l) (drop_key i l').
Proof.
  induction 1 as [|[j a] [k b] l l' H1 H2 IH]; [constructor|]. pose proof (HR _ _ H1) as He. cbn in He. subst k. cbn.
  destruct (i =? j); [exact H2|]. constructor; assumption.
Qed.
End Keys.
Lemma drop_perm {A} i (l : list (Z * A)) x : lookup i l = Some x -> Permutation l ((i, x) :: drop_key i l).
Proof.
  induction l as [|[j a] l IH]; [discriminate|]. cbn. destruct (Z.eqb_spec i j) as [->|Hn].
  - intros H. inversion H; subst. reflexivity.
  - intros H. rewrite (IH H) at 1. apply perm_swap.
Qed.
Lemma lookup_in {A} i (l : list (Z * A)) x : lookup i l = Some x -> In (i, x) l.
Proof. intros H. eapply Permutation_in; [apply Permutation_sym, (drop_perm _ _ _ H)|left; reflexivity]. Qed.
Lemma drop_incl {A} i (l : list (Z * A)) : incl (drop_key i l) l.
Proof.
  induction l as [|[j a] l IH]; [intros x []|]. cbn. destruct (i =? j); [intros x; right; assumption|].
  intros x [<-|Hx]; [left; reflexivity|right; apply IH, Hx].
Qed.

Definition tblk (x : Z * (addr * list Z)) : addr * (kind * Z) := (fst (snd x), (KMalloc, zl (snd (snd x)) + 1)).
Definition rblk (x : Z * (bwt_result * pointer * pointer)) : list (addr * (kind * Z)) :=
  match snd x with
  | (r, Some a, Some b) => [(a, (KMalloc, 16)); (b, (KNewArray, alen (r_BWT r)))]
  | _ => []
  end.
Definition tmatch (x : Z * list Z) (y : Z * (addr * list Z)) : Prop := fst x = fst y /\ snd x = snd (snd y).
Definition rmatch (x : Z * list Z) (y : Z * (bwt_result * pointer * pointer)) : Prop :=
  holds_transform x y /\ match snd y with (_, Some _, Some _) => True | _ => False end.
Lemma tkey x y : tmatch x y -> fst x = fst y. Proof. intros [H _]. exact H. Qed.
Lemma rkey x y : rmatch x y -> fst x = fst y.
Proof. destruct x as [j l], y as [k [[r a] b]]. intros [(H & _) _]. exact H. Qed.
Definition vblk (v : cvars) (lost : list (addr * (kind * Z))) := map tblk (v_texts v) ++ flat_map rblk (v_results v) ++ lost.
Record inv (h0 h : heap) (v : cvars) (s : cstate) : Prop := {
  in_t : Forall2 tmatch (s_texts s) (v_texts v);
  in_r : Forall2 rmatch (s_results s) (v_results v);
  in_v : Forall (fun x => valid_text (snd x)) (s_texts s);
  in_o : exists lost, map snd lost = s_lost s /\ own h0 (vblk v lost) h }.

Lemma plus_own h0 L h : heap_plus h0 L h -> own h0 L h.
Proof.
  intros (H1 & H2 & H3). constructor; [exact H1| |intros a k Hi; apply (H2 a k Hi)|exact H3].
  intros a Ha. apply in_map_iff in Ha as ([x k] & He & Hi). cbn in He. subst x. apply (H2 a k Hi).
Qed.
Lemma file_leak_lost f : file_leak f = file_lost f.
Proof. unfold file_leak, file_lost. destruct (in_open f), (malloc_ok f); reflexivity. Qed.
Lemma file_result_ok E srt f : std_sort srt -> fresh_good E 67777 (in_data f) -> in_data f = [] \/ valid_text (in_data f) -> in_tell f = zl (in_data f) ->
  bwt_file_gen 67777 E srt f = file_result f.
Proof.
  intros Hs Hf Hd Ht. unfold file_result. destruct (in_open f) eqn:H1; [|apply file_null; exact H1]. cbn [negb].
  destruct (malloc_ok f) eqn:H2; [|apply file_nomem; assumption]. cbn [negb].
  destruct (in_data f) as [|x l] eqn:Hl; [apply file_empty; auto|]. rewrite <- Hl in *. destruct Hd as [Hd|[Hb Hn]]; [congruence|].
  destruct (out_open f) eqn:H3; [rewrite (bwt_file_ok 67777 E srt f) by (assumption || lia); reflexivity|].
  apply file_noout; assumption || lia.
Qed.

Section Client.
Context (al : allocator) (Hal : fresh_alloc al) (Hnf : never_fails al).
Let B : bound := (None, no_heap).
Let Hroom : room al B := room_none al no_heap Hnf.

Lemma exec_ok h0 h v s op s' o : inv h0 h v s -> cstep s op s' o ->
  exists h' v', client_exec al h v op = Ok (h', v', o) /\ inv h0 h' v' s'.
Proof.
  intros [Ht Hr Hv (lost & Hlost & HO)] Hstep. destruct Hstep as [s i l Hi Hl|s i j b E srt l Hi Hj Hs Hf|s i Hi|s j Hj|s E srt f Hs Hf Hd Htell]; cbn [client_exec].
  - destruct (alloc_ok al B Hal Hroom h (OOther (KMalloc, zl l + 1)) (within_none _ _)) as (a & _ & Ha & _ & -> & _). cbn [deref bind].
    eexists _, _. split; [reflexivity|]. constructor; cbn [s_texts s_results s_lost v_texts v_results].
    + constructor; [split; reflexivity|exact Ht].
    + exact Hr.
    + constructor; [exact Hl|exact Hv].
    + exists lost. split; [exact Hlost|]. apply (own_add h0 _ h a (KMalloc, zl l + 1) HO Ha).
  - destruct (lookup2 tmatch tkey i _ _ l Ht Hi) as ([p l'] & Hp & He). destruct He as [_ He]. cbn in He. subst l'. rewrite Hp.
    assert (Hvt : valid_text l). { rewrite Forall_forall in Hv. apply (Hv (i, l)). apply lookup_in, Hi. } destruct Hvt as [Hb Hn].
    pose proof (drop_perm _ _ _ Hp) as Hperm.
    assert (HO1 : own h0 ((p, (KMalloc, zl l + 1)) :: map tblk (drop_key i (v_texts v)) ++ flat_map rblk (v_results v) ++ lost) h).
    { eapply own_perm; [exact HO|]. apply (Permutation_app_tail _ (Permutation_map tblk Hperm)). }
    pose proof (own_live _ _ _ HO1 p _ (or_introl eq_refl)) as Hfp.
    destruct (h_string_ok al B Hal Hroom E srt 67777 (of_list (l ++ [0])) l b h p KMalloc (zl l + 1)) as (r & aR & aB & h' & -> & (R1 & R2) & Hh);
      try assumption; try lia; [apply of_list_holds|reflexivity|apply of_list_len|apply within_none|]. cbn [bind].
    eexists _, _. split; [reflexivity|]. apply plus_own in Hh. constructor; cbn [s_texts s_results s_lost v_texts v_results].
    + destruct b; [apply (drop2 tmatch tkey), Ht|exact Ht].
    + constructor; [|exact Hr]. split; [|exact I]. split; [reflexivity|]. split; [exact R1|exact R2].
    + destruct b; [|exact Hv]. rewrite Forall_forall in *. intros x Hx. apply Hv. eapply drop_incl, Hx.
    + exists lost. split; [exact Hlost|]. unfold vblk. cbn [v_texts v_results flat_map rblk snd]. rewrite R1. destruct b.
      * destruct (own_free _ _ _ _ _ HO1) as (h2 & F2 & O2). cbn [fst] in F2. unfold hfree in F2. rewrite Hfp in F2. cbn in F2. inversion F2; subst h2.
        eapply own_perm; [eapply own_app; [exact O2|exact Hh]|].
        exact (Permutation_app_swap_app [(aR, (KMalloc, 16)); (aB, (KNewArray, zl l + 1))] (map tblk (drop_key i (v_texts v))) (flat_map rblk (v_results v) ++ lost)).
      * eapply own_perm; [eapply own_app; [exact HO|exact Hh]|]. exact (Permutation_app_swap_app [(aR, (KMalloc, 16)); (aB, (KNewArray, zl l + 1))] (map tblk (v_texts v)) (flat_map rblk (v_results v) ++ lost)).
  - destruct (lookup i (s_texts s)) as [l|] eqn:Hl; [|congruence].
    destruct (lookup2 tmatch tkey i _ _ l Ht Hl) as ([p l'] & Hp & He). destruct He as [_ He]. cbn in He. subst l'. rewrite Hp.
    pose proof (drop_perm _ _ _ Hp) as Hperm.
    assert (HO1 : own h0 ((p, (KMalloc, zl l + 1)) :: map tblk (drop_key i (v_texts v)) ++ flat_map rblk (v_results v) ++ lost) h).
    { eapply own_perm; [exact HO|]. apply (Permutation_app_tail _ (Permutation_map tblk Hperm)). }
    destruct (own_free _ _ _ _ _ HO1) as (h2 & F2 & O2). cbn [fst] in F2. rewrite F2. cbn [bind].
    eexists _, _. split; [reflexivity|]. constructor; cbn [s_texts s_results s_lost v_texts v_results].
    + apply (drop2 tmatch tkey), Ht.
    + exact Hr.
    + rewrite Forall_forall in *. intros x Hx. apply Hv. eapply drop_incl, Hx.
    + exists lost. split; [exact Hlost|exact O2].
  - destruct (lookup j (s_results s)) as [l|] eqn:Hl; [|congruence].
    destruct (lookup2 rmatch rkey j _ _ l Hr Hl) as ([[r pR] pB] & Hp & Hm). rewrite Hp. destruct Hm as [_ Hm]. cbn [snd] in Hm.
    destruct pR as [aR|], pB as [aB|]; try contradiction. pose proof (drop_perm _ _ _ Hp) as Hperm.
    assert (HO1 : own h0 ((aB, (KNewArray, alen (r_BWT r))) :: (aR, (KMalloc, 16)) :: map tblk (v_texts v) ++ flat_map rblk (drop_key j (v_results v)) ++ lost) h).
    { eapply own_perm; [exact HO|]. unfold vblk. etransitivity; [apply Permutation_app_head, Permutation_app_tail, (Permutation_flat_map rblk Hperm)|].
      cbn [flat_map rblk snd app]. rewrite <- !Permutation_middle. apply perm_swap. }
    destruct (own_free _ _ _ _ _ HO1) as (h2 & F2 & O2). cbn [fst] in F2. rewrite F2. cbn [bind].
    destruct (own_free _ _ _ _ _ O2) as (h3 & F3 & O3). cbn [fst] in F3. rewrite F3. cbn [bind].
    eexists _, _. split; [reflexivity|]. constructor; cbn [s_texts s_results s_lost v_texts v_results].
    + exact Ht.
    + apply (drop2 rmatch rkey), Hr.
    + exact Hv.
    + exists lost. split; [exact Hlost|exact O3].
  - destruct (h_file_ok al B Hal Hroom E srt 67777 f h Hs ltac:(lia)) as (h' & L & -> & HP & HL); try assumption.
    { destruct Hd as [->|[Hb _]]; [constructor|exact Hb]. }
    { destruct Hd as [->|[_ Hn]]; [left; reflexivity|right; exact Hn]. }
    { apply within_none. }
    cbn [bind]. rewrite (file_result_ok E srt f Hs Hf Hd Htell). rewrite <- surjective_pairing.
    eexists _, _. split; [reflexivity|]. constructor; cbn [s_texts s_results s_lost v_texts v_results]; [exact Ht|exact Hr|exact Hv|].
    exists (L ++ lost). split; [rewrite map_app, HL, Hlost, file_leak_lost; reflexivity|].
    eapply own_perm; [eapply own_app; [exact HO|apply plus_own, HP]|]. unfold vblk. rewrite !app_assoc. apply Permutation_app_tail.
    rewrite <- !app_assoc. rewrite Permutation_app_comm. rewrite <- app_assoc. reflexivity.
Qed.
Lemma run_ok h0 ops : forall h v s s' r, inv h0 h v s -> csteps s ops s' r ->
  exists h' v', client_run al h v ops = Ok (h', v', r) /\ inv h0 h' v' s'.
Proof.
  induction ops as [|op ops IH]; intros h v s s' r HI Hs; inversion Hs; subst.
  - exists h, v. split; [reflexivity|exact HI].
  - destruct (exec_ok h0 h v s op _ _ HI ltac:(eassumption)) as (h1 & v1 & F1 & I1).
    destruct (IH h1 v1 _ _ _ I1 ltac:(eassumption)) as (h2 & v2 & F2 & I2).
    exists h2, v2. split; [cbn [client_run]; rewrite F1; cbn [bind]; rewrite F2; reflexivity|exact I2].
Qed.
Theorem client_ok h0 ops s r : csteps (mkcs [] [] []) ops s r ->
  exists h v, client_run al h0 (mkcv [] []) ops = Ok (h, v, r) /\
    Forall2 holds_transform (s_results s) (v_results v) /\
    exists L, heap_plus h0 L h /\ Permutation (map snd L) (text_blocks s ++ result_blocks s ++ s_lost s).
Proof.
  intros Hs. destruct (run_ok h0 ops h0 (mkcv [] []) (mkcs [] [] []) s r) as (h & v & F & [Ht Hr Hv (lost & Hlost & HO)]); [|exact Hs|].
  { constructor; cbn; [constructor|constructor|constructor|]. exists []. split; [reflexivity|]. apply own_nil. intros a. reflexivity. }
  exists h, v. split; [exact F|]. split; [clear - Hr; induction Hr as [|x y a b [H _] _ IH]; constructor; assumption|].
  exists (vblk v lost). split; [apply own_plus, HO|]. unfold vblk, text_blocks, result_blocks. rewrite !map_app, Hlost.
  replace (map snd (map tblk (v_texts v))) with (map (fun x : Z * list Z => (KMalloc, zl (snd x) + 1)) (s_texts s)).
  2:{ clear - Ht. induction Ht as [|x y l l' [_ H] _ IH]; [reflexivity|]. cbn. rewrite IH. unfold tblk. cbn. rewrite H. reflexivity. }
  replace (map snd (flat_map rblk (v_results v))) with (flat_map (fun x : Z * list Z => [(KMalloc, 16); (KNewArray, zl (snd x) + 1)]) (s_results s)).
  2:{ clear - Hr. induction Hr as [|x y l l' [H1 H2] _ IH]; [reflexivity|]. destruct x as [j t], y as [k [[rr pR] pB]]. cbn in H2.
      destruct pR, pB; try contradiction. destruct H1 as (_ & Ha & _). cbn [flat_map]. rewrite map_app, <- IH. cbn [rblk snd map app]. rewrite Ha. reflexivity. }
  reflexivity.
Qed.
End Client.
Corollary client_clean al h0 ops s r : fresh_alloc al -> never_fails al -> csteps (mkcs [] [] []) ops s r ->
  s_texts s = [] -> s_results s = [] -> s_lost s = [] ->
  exists h v, client_run al h0 (mkcv [] []) ops = Ok (h, v, r) /\ same_heap h h0.
Proof.
  intros Hal Hnf Hs H1 H2 H3. destruct (client_ok al Hal Hnf h0 ops s r Hs) as (h & v & F & _ & L & HP & Hp).
  unfold text_blocks, result_blocks in Hp. rewrite H1, H2, H3 in Hp. cbn in Hp. apply Permutation_sym, Permutation_nil in Hp.
  destruct L; [|discriminate]. exists h, v. split; [exact F|]. apply plus_nil, HP.
Qed.
