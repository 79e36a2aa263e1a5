(** Clients of the library in several threads (C51, C52). *)
From Verif Require Import Base M_PackedArray M_Queue M_HashTable M_Induce M_Flbwt M_File M_Heap M_HeapProg Client
  Spec Histories Pool Threads P_Bridge P_Lists P_Size P_Heap P_HeapSim P_HeapInduce P_HeapProg P_OomProg P_Client P_ClientOom P_Reify P_Thread.
From Coq Require Import FMapPositive Permutation.
Open Scope Z_scope.

(** * Every client program is a tree *)
Definition pc {O} (x : cvars * O) (h : heap) : heap * cvars * O := (h, fst x, snd x).
Lemma f_client_exec v op : reif pc (fun al h => client_exec al h v op).
Proof.
  destruct op as [i l|i j b E srt|i|j|E srt f]; cbn [client_exec].
  - apply reif_malloc. intros p. apply reif_pure. intros a. exact (reif_ret pc (_, _)).
  - destruct (lookup i (v_texts v)) as [[p l]|]; [|apply reif_err]. apply (reif_bind _ pr); [apply f_bwt_string|].
    intros [r|]; [|apply reif_err]. exact (reif_ret pc (_, _)).
  - destruct (lookup i (v_texts v)) as [[p l]|]; [|apply reif_err].
    apply (reif_bind _ ph _ (fun _ h => Ok (h, mkcv (drop_key i (v_texts v)) (v_results v), None))); [apply reif_free|].
    intros []. exact (reif_ret pc (_, _)).
  - destruct (lookup j (v_results v)) as [[[r pR] pB]|]; [|apply reif_err].
    apply (reif_bind _ ph _ (fun _ h => h <- hfree KMalloc h pR ;; Ok (h, mkcv (v_texts v) (drop_key j (v_results v)), None))); [apply reif_free|].
    intros []. apply (reif_bind _ ph _ (fun _ h => Ok (h, mkcv (v_texts v) (drop_key j (v_results v)), None))); [apply reif_free|].
    intros []. exact (reif_ret pc (_, _)).
  - apply (reif_bind _ pf _ (fun _ '(h, e, out) => Ok (h, v, Some (e, out)))); [apply f_bwt_file|]. intros [e out]. exact (reif_ret pc (_, _)).
Qed.
Lemma f_client_run ops : forall v, reif pc (fun al h => client_run al h v ops).
Proof.
  induction ops as [|op ops IH]; intros v; cbn [client_run]; [exact (reif_ret pc (_, _))|].
  apply (reif_bind _ pc _ (fun al '(h, v, o) => '(h, v, r) <- client_run al h v ops ;; Ok (h, v, o :: r))); [apply f_client_exec|].
  intros [v1 o]. cbn [pc fst snd]. apply (reif_bind _ pc _ (fun al '(h, v, r) => Ok (h, v, o :: r))); [apply IH|].
  intros [v2 r]. exact (reif_ret pc (v2, o :: r)).
Qed.
Theorem client_tree v ops : exists t, represents t (fun al h => client_thread al h v ops) /\ always_ends t.
Proof.
  apply reif_both. unfold client_thread. apply (reif_bind _ pc _ (fun al '(h, v, o) => Ok (v, o, h))); [apply f_client_run|].
  intros [v1 o]. exact (reif_ret pr (_, _)).
Qed.

Lemma F2_length {X Y} (R : X -> Y -> Prop) l m : Forall2 R l m -> length l = length m.
Proof. induction 1; cbn; congruence. Qed.
Lemma combine_fst {X Y} (l : list X) (m : list Y) : length l = length m -> map fst (combine l m) = l.
Proof. revert m. induction l as [|x l IH]; intros [|y m] H; try discriminate; [reflexivity|]. cbn. rewrite IH by (cbn in H; lia). reflexivity. Qed.
Lemma combine_snd {X Y} (l : list X) (m : list Y) : length l = length m -> map snd (combine l m) = m.
Proof. revert m. induction l as [|x l IH]; intros [|y m] H; try discriminate; [reflexivity|]. cbn. rewrite IH by (cbn in H; lia). reflexivity. Qed.
Lemma combine_in {X Y} (R : X -> Y -> Prop) l m x y : Forall2 R l m -> In (x, y) (combine l m) -> R x y /\ In y m.
Proof.
  induction 1 as [|a b l m H _ IH]; [intros []|]. intros [Hi|Hi]; [injection Hi as -> ->; split; [exact H|left; reflexivity]|].
  destruct (IH Hi). split; [assumption|right; assumption].
Qed.

(** * One thread on its part of the heap *)
Section Shared.
Context (sh : list (Z * (addr * list Z))).
Let keys := map fst sh.
Let adr (x : Z * (addr * list Z)) : addr := fst (snd x).
Let shared (a : addr) : Prop := In a (map adr sh).
Context (Hnd : NoDup (map adr sh)) (Hval : Forall (fun x => valid_text (snd (snd x))) sh).
Definition hsh : heap := fold_right (fun x h => hadd (fst (snd x)) (OOther (KMalloc, zl (snd (snd x)) + 1)) h) hempty sh.
Lemma tblk_addrs l : addrs (map tblk l) = map adr l.
Proof. unfold addrs. rewrite map_map. reflexivity. Qed.
Lemma hsh_own : own hempty (map tblk sh) hsh.
Proof.
  unfold hsh. clear Hval shared keys. induction sh as [|x l IH]; cbn [fold_right map].
  - apply own_nil. intros a. reflexivity.
  - inversion Hnd as [|? ? Hn Hr]; subst. specialize (IH Hr). unfold tblk at 1. apply own_add; [exact IH|].
    rewrite (own_rest _ _ _ IH); [apply hgempty|]. rewrite tblk_addrs. exact Hn.
Qed.
Definition shape (v : cvars) : Prop := exists P, v_texts v = P ++ sh /\ Forall (fun x => ~ In (fst x) keys) P.
Lemma lookup_app {A} i (l1 l2 : list (Z * A)) : lookup i (l1 ++ l2) = match lookup i l1 with Some x => Some x | None => lookup i l2 end.
Proof. induction l1 as [|[j x] l1 IH]; [reflexivity|]. cbn. destruct (i =? j); [reflexivity|exact IH]. Qed.
Lemma lookup_keys {A} i (l : list (Z * A)) x : lookup i l = Some x -> In i (map fst l).
Proof. intros H. apply lookup_in in H. apply in_map_iff. exists (i, x). auto. Qed.
Lemma drop_app {A} i (l1 l2 : list (Z * A)) x : lookup i l1 = Some x -> drop_key i (l1 ++ l2) = drop_key i l1 ++ l2.
Proof. induction l1 as [|[j y] l1 IH]; [discriminate|]. cbn. destruct (i =? j); [reflexivity|]. intros H. cbn. rewrite (IH H). reflexivity. Qed.
Lemma shape_drop v i x r : shape v -> lookup i (v_texts v) = Some x -> ~ In i keys -> shape (mkcv (drop_key i (v_texts v)) r).
Proof.
  intros (P & HP & HF) Hl Hi. rewrite HP, lookup_app in Hl. destruct (lookup i P) as [y|] eqn:Hy.
  - exists (drop_key i P). cbn [v_texts]. rewrite HP. split; [apply (drop_app _ _ _ _ Hy)|]. rewrite Forall_forall in *. intros z Hz. apply HF. eapply drop_incl, Hz.
  - exfalso. apply Hi. eapply lookup_keys, Hl.
Qed.
Lemma exec_shape al h v op h' v' o : client_exec al h v op = Ok (h', v', o) -> leaves keys op -> shape v -> shape v'.
Proof.
  intros He Hl Hs. destruct op as [i l|i j b E srt|i|j|E srt f]; cbn [client_exec leaves] in *.
  - destruct (hmalloc _ _ _) as [p h1]. destruct p as [p|]; cbn [deref bind] in He; [|discriminate]. injection He as <- <- <-.
    destruct Hs as (P & HP & HF). exists ((i, (p, l)) :: P). cbn [v_texts]. rewrite HP. split; [reflexivity|]. constructor; assumption.
  - destruct (lookup i (v_texts v)) as [[p l]|] eqn:Hp; [|discriminate]. destruct (h_bwt_string _ _ _ _ _ _ _ _ _) as [[[r|] h1]|e]; cbn [bind] in He; try discriminate.
    injection He as <- <- <-. destruct b; [apply (shape_drop _ _ _ _ Hs Hp), Hl; reflexivity|exact Hs].
  - destruct (lookup i (v_texts v)) as [[p l]|] eqn:Hp; [|discriminate]. destruct (hfree _ _ _) as [h1|e]; cbn [bind] in He; [|discriminate].
    injection He as <- <- <-. apply (shape_drop _ _ _ _ Hs Hp), Hl.
  - destruct (lookup j (v_results v)) as [[[r pR] pB]|]; [|discriminate]. destruct (hfree _ _ _) as [h1|e]; cbn [bind] in He; [|discriminate].
    destruct (hfree _ _ _) as [h2|e]; cbn [bind] in He; [|discriminate]. injection He as <- <- <-. exact Hs.
  - destruct (h_bwt_file _ _ _ _ _ _) as [[[h1 e] out]|e]; cbn [bind] in He; [|discriminate]. injection He as <- <- <-. exact Hs.
Qed.
Lemma run_shape al ops : forall h v h' v' o, client_run al h v ops = Ok (h', v', o) -> Forall (leaves keys) ops -> shape v -> shape v'.
Proof.
  induction ops as [|op ops IH]; intros h v h' v' o He Hl Hs; cbn [client_run] in He.
  - injection He as <- <- <-. exact Hs.
  - inversion Hl; subst. destruct (client_exec al h v op) as [[[h1 v1] o1]|e] eqn:F1; cbn [bind] in He; [|discriminate].
    destruct (client_run al h1 v1 ops) as [[[h2 v2] o2]|e] eqn:F2; cbn [bind] in He; [|discriminate]. injection He as <- <- <-.
    eapply IH; [exact F2|assumption|]. eapply exec_shape; eassumption.
Qed.
Let start : cstate := shared_start sh.
Definition prog := (list cop * cstate * list cobs)%type.
Definition okprog (p : prog) : Prop := let '(ops, s, obs) := p in csteps start ops s obs /\ Forall (leaves keys) ops.
Definition Qof (p : prog) : cvars * list cobs -> heap -> Prop :=
  fun x h => let '(ops, s, obs) := p in snd x = obs /\ inv hempty h (fst x) s /\ shape (fst x).
Definition Qoom (p : prog) : cvars * list cobs -> heap -> Prop :=
  fun x h => let '(ops, s, obs) := p in Forall2 same_or_thrown obs (snd x) /\ oinv sh hsh h (fst x) s.
(** the shared texts again, as blocks of another kind *)
Definition hshv : heap := fold_right (fun x h => hadd (fst (snd x)) (OOther (KNewArray, zl (snd (snd x)) + 1)) h) hempty sh.
Lemma shv_find x : In x sh -> hfind (adr x) hshv = Some (OOther (KNewArray, zl (snd (snd x)) + 1)).
Proof.
  unfold hshv. clear Hval shared keys. induction sh as [|y l IH]; intros Hi; [destruct Hi|]. cbn [fold_right]. inversion Hnd as [|? ? Hn Hr]; subst.
  destruct Hi as [->|Hi]; [apply hgss|]. rewrite hgso; [apply IH; assumption|]. intros He. apply Hn. change (fst (snd y)) with (adr y) in He. rewrite <- He. apply in_map, Hi.
Qed.
Lemma shv_none (a : addr) : ~ shared a -> hfind a hshv = None.
Proof.
  unfold hshv, shared. clear Hval shared keys Hnd. induction sh as [|y l IH]; intros Hi; [apply hgempty|]. cbn [fold_right].
  rewrite hgso; [apply IH; intros Hc; apply Hi; right; exact Hc|]. intros ->. apply Hi. left. reflexivity.
Qed.
Lemma hsh_in x : In x sh -> hfind (adr x) hsh = Some (OOther (KMalloc, zl (snd (snd x)) + 1)).
Proof. intros Hx. apply (own_live _ _ _ hsh_own). apply in_map_iff. exists x. split; [reflexivity|exact Hx]. Qed.
Lemma hsh_none (a : addr) : ~ shared a -> hfind a hsh = None.
Proof. intros Ha. rewrite (own_rest _ _ _ hsh_own); [apply hgempty|]. rewrite tblk_addrs. exact Ha. Qed.
Lemma thread_safe t ops s obs : okprog (ops, s, obs) -> represents t (fun al h => client_thread al h (mkcv sh []) ops) -> safe false hsh t (Qof (ops, s, obs)).
Proof.
  intros [Hc Hl] Ht al Hf Hn. specialize (Hn eq_refl). destruct (run_ok al Hf Hn hempty ops hsh (mkcv sh []) start s obs) as (h & v & F & HI); [|exact Hc|].
  - constructor; unfold start, shared_start; cbn [s_texts s_results s_lost v_texts v_results].
    + clear Hnd Hval shared keys Hl Hc Ht. induction sh as [|x l IH]; cbn; constructor; [split; reflexivity|exact IH].
    + constructor.
    + apply Forall_map. exact Hval.
    + exists []. split; [reflexivity|]. unfold vblk. cbn [v_texts v_results flat_map]. rewrite !app_nil_r. apply hsh_own.
  - exists (Ok (v, obs, h)). split; [|split; [reflexivity|]; split; [exact HI|]].
    + specialize (Ht al hsh). cbv beta in Ht. unfold client_thread in Ht. rewrite F in Ht. cbn [bind] in Ht. apply Ht. discriminate.
    + eapply run_shape; [exact F|exact Hl|]. exists []. split; [reflexivity|constructor].
Qed.
Lemma refl_thrown r : Forall2 same_or_thrown r r.
Proof. induction r; constructor; [left; reflexivity|assumption]. Qed.
Lemma thread_oom hb t ops s obs : Forall (fun x => exists kd, hfind (fst (snd x)) hb = Some (OOther (kd, zl (snd (snd x)) + 1))) sh ->
  okprog (ops, s, obs) -> represents t (fun al h => client_thread al h (mkcv sh []) ops) ->
  safe true hb t (fun x h => Forall2 same_or_thrown obs (snd x) /\ oinv sh hb h (fst x) s).
Proof.
  intros Hb [Hc Hl] Ht al Hf _. specialize (Ht al hb). cbv beta in Ht. unfold client_thread in Ht.
  destruct (run_oom al Hf sh hb Hb ops hb (mkcv sh []) start s obs (oinv_start sh hb Hval) Hc Hl) as [(h & v & r & F & HI & Hr)|[_ [F | F]]]; rewrite F in Ht; cbn [bind] in Ht.
  - exists (Ok (v, r, h)). split; [apply Ht; discriminate|]. split; [|exact HI]. cbn [snd]. destruct Hr as [->|[_ Hr]]; [apply refl_thrown|exact Hr].
  - exists (Err BadAlloc). split; [apply Ht; discriminate|]. split; [reflexivity|left; reflexivity].
  - exists (Err NullDeref). split; [apply Ht; discriminate|]. split; [reflexivity|right; reflexivity].
Qed.
(** what a thread owns at its end *)
Let claims (s : cstate) : list (kind * Z) := thread_blocks keys s.
Record owns (h : heap) (L : list (addr * (kind * Z))) (s : cstate) : Prop := {
  ow_nd : NoDup (addrs L);
  ow_live : forall a k, In (a, k) L -> hfind a h = Some (OOther k) /\ ~ shared a;
  ow_rest : forall a, ~ In a (addrs L) -> ~ shared a -> hfind a h = None;
  ow_sh : forall a, shared a -> hfind a h <> None;
  ow_perm : Permutation (map snd L) (claims s) }.
Lemma filter_none {A} (f : A -> bool) l : Forall (fun x => f x = false) l -> filter f l = [].
Proof. induction 1 as [|x l H _ IH]; [reflexivity|]. cbn. rewrite H. exact IH. Qed.
Lemma filter_all {A} (f : A -> bool) l : Forall (fun x => f x = true) l -> filter f l = l.
Proof. induction 1 as [|x l H _ IH]; [reflexivity|]. cbn. rewrite H, IH. reflexivity. Qed.
Lemma texts_of s v : Forall2 tmatch s v -> s = map (fun x => (fst x, snd (snd x))) v.
Proof. induction 1 as [|[i l] [j [p l']] s v [H1 H2] _ IH]; [reflexivity|]. cbn in *. subst. reflexivity. Qed.
Lemma end_owns h v s : inv hempty h v s -> shape v -> exists L, owns h L s.
Proof.
  intros [Ht Hr Hv (lost & Hlost & HO)] (P & HP & HF).
  exists (map tblk P ++ flat_map rblk (v_results v) ++ lost).
  assert (HO' : own hempty ((map tblk P ++ flat_map rblk (v_results v) ++ lost) ++ map tblk sh) h).
  { eapply own_perm; [exact HO|]. unfold vblk. rewrite HP, map_app. rewrite <- !app_assoc. apply Permutation_app_head.
    rewrite (app_assoc _ lost). apply Permutation_app_comm. }
  set (L := map tblk P ++ flat_map rblk (v_results v) ++ lost) in *.
  pose proof (own_nd _ _ _ HO') as Hn. unfold addrs in Hn. rewrite map_app in Hn.
  assert (Hsh : map fst (map tblk sh) = map adr sh) by apply tblk_addrs. rewrite Hsh in Hn.
  assert (Hdis : forall a, In a (addrs L) -> ~ shared a).
  { intros a Ha Hs. revert Hn Ha Hs. unfold shared. fold (addrs L). clear. generalize (addrs L) (map adr sh). clear. intros l m Hn Ha Hb.
    induction l as [|x l IH]; [destruct Ha|]. cbn in Hn. inversion Hn as [|? ? H1 H2]; subst. destruct Ha as [->|Ha]; [apply H1, in_app_iff; auto|auto]. }
  constructor.
  - revert Hn. fold (addrs L). generalize (addrs L) (map adr sh). clear. intros l m Hn. induction l as [|x l IH]; [constructor|]. cbn in Hn. inversion Hn; subst. constructor; [rewrite in_app_iff in *; tauto|auto].
  - intros a k Hi. split; [apply (own_live _ _ _ HO'), in_app_iff; left; exact Hi|]. apply Hdis. apply in_map_iff. exists (a, k). auto.
  - intros a Ha Hs. rewrite (own_rest _ _ _ HO'); [apply hgempty|]. unfold addrs. rewrite map_app, Hsh, in_app_iff. intros [H|H]; auto.
  - intros a Hs. apply in_map_iff in Hs as (x & <- & Hx). rewrite (own_live _ _ _ HO' (adr x) (KMalloc, zl (snd (snd x)) + 1)); [discriminate|].
    apply in_app_iff. right. apply in_map_iff. exists x. split; [reflexivity|exact Hx].
  - unfold claims, thread_blocks, L. rewrite !map_app, Hlost.
    replace (map snd (map tblk P)) with (text_blocks (private_texts keys s)).
    2:{ unfold text_blocks, private_texts. cbn [s_texts]. rewrite (texts_of _ _ Ht), HP, map_app, filter_app.
        rewrite filter_all, filter_none, app_nil_r.
        - rewrite !map_map. reflexivity.
        - apply Forall_map. apply Forall_forall. intros x Hx. cbn [fst].
          replace (existsb (Z.eqb (fst x)) keys) with true; [reflexivity|]. symmetry. apply existsb_exists. exists (fst x). split; [apply in_map, Hx|apply Z.eqb_refl].
        - apply Forall_map. revert HF. apply Forall_impl. intros x Hx. cbn [fst]. destruct (existsb _ _) eqn:He; [|reflexivity].
          exfalso. apply Hx. apply existsb_exists in He as (y & Hy & Heq). apply Z.eqb_eq in Heq. congruence. }
    replace (map snd (flat_map rblk (v_results v))) with (result_blocks s); [reflexivity|]. unfold result_blocks.
    clear - Hr. induction Hr as [|x y l l' [H1 H2] _ IH]; [reflexivity|]. destruct x as [j t], y as [k [[rr pR] pB]]. cbn in H2.
    destruct pR, pB; try contradiction. destruct H1 as (_ & Ha & _). cbn [flat_map]. rewrite map_app, <- IH. cbn [rblk snd map app]. rewrite Ha. reflexivity.
Qed.

(** * The pool *)
Context (h0 : heap) (Hsh0 : Forall (fun x => hfind (fst (snd x)) h0 = Some (OOther (KMalloc, zl (snd (snd x)) + 1))) sh).
Lemma hsh_find (a : addr) : hfind a hsh <> None -> shared a.
Proof.
  intros Ha. destruct (in_dec Pos.eq_dec a (map adr sh)) as [Hi|Hi]; [exact Hi|]. exfalso. apply Ha.
  rewrite (own_rest _ _ _ hsh_own); [apply hgempty|]. rewrite tblk_addrs. exact Hi.
Qed.
Lemma hsh_sub (a : addr) o : hfind a hsh = Some o -> hfind a h0 = Some o.
Proof.
  intros Ha. assert (Hs : shared a) by (apply hsh_find; congruence). apply in_map_iff in Hs as (x & <- & Hx).
  rewrite (own_live _ _ _ hsh_own (adr x) (KMalloc, zl (snd (snd x)) + 1)) in Ha by (apply in_map_iff; exists x; split; [reflexivity|exact Hx]).
  rewrite Forall_forall in Hsh0. rewrite <- Ha. exact (Hsh0 x Hx).
Qed.
Context (progs : list prog) (trees : list (tree (cvars * list cobs))).
Context (Hp : Forall okprog progs) (Ht : Forall2 (fun t p => represents t (fun al h => client_thread al h (mkcv sh []) (fst (fst p)))) trees progs).
Definition entries : list (@entry (cvars * list cobs)) := map (fun tp => mkentry (fst tp) hsh hshv true (Qof (snd tp)) (Qoom (snd tp))) (combine trees progs).
Lemma entries_t : map e_t entries = trees.
Proof. unfold entries. rewrite map_map. exact (combine_fst _ _ (F2_length _ _ _ Ht)). Qed.
Lemma entries_Q : map e_Q entries = map Qof progs.
Proof. unfold entries. rewrite map_map. rewrite <- (combine_snd _ _ (F2_length _ _ _ Ht)) at 2. rewrite map_map. reflexivity. Qed.
Lemma entries_Qo : map e_Qo entries = map Qoom progs.
Proof. unfold entries. rewrite map_map. rewrite <- (combine_snd _ _ (F2_length _ _ _ Ht)) at 2. rewrite map_map. reflexivity. Qed.
Lemma entries_in x : In x entries -> e_h x = hsh /\ e_ok x = true /\ good shared x.
Proof.
  unfold entries. intros Hx. apply in_map_iff in Hx as ([t p] & <- & Hi). cbn [fst snd e_h e_ok]. split; [reflexivity|]. split; [reflexivity|].
  assert (H : okprog p /\ represents t (fun al h => client_thread al h (mkcv sh []) (fst (fst p)))).
  { destruct (combine_in _ _ _ _ _ Ht Hi) as [H1 H2]. rewrite Forall_forall in Hp. split; [apply Hp, H2|exact H1]. }
  destruct H as [H1 H2]. destruct p as [[ops s] obs]. constructor; cbn [e_t e_h e_v e_ok e_Q e_Qo].
  - intros _. apply thread_safe; assumption.
  - apply (thread_oom hsh t ops s obs); try assumption. apply Forall_forall. intros x Hx. exists KMalloc. apply hsh_in, Hx.
  - intros al Hf Hb. destruct (thread_oom hshv t ops s obs) with (al := al) as (r & Hr & HQ); try assumption.
    + apply Forall_forall. intros x Hx. exists KNewArray. apply shv_find, Hx.
    + exists r. split; [exact Hr|]. destruct r as [[? ?]|e]; [exact I|exact HQ].
  - intros a Ha. rewrite shv_none, hsh_none by exact Ha. reflexivity.
  - intros a Ha. apply in_map_iff in Ha as (x & <- & Hx). eexists _, _. split; [apply hsh_in, Hx|]. split; [apply shv_find, Hx|]. discriminate.
Qed.
Lemma entries_ginv : ginv h0 shared h0 entries.
Proof.
  assert (He : forall i x, nth_error entries i = Some x -> e_h x = hsh /\ e_ok x = true /\ good shared x).
  { intros i x Hx. apply entries_in. eapply nth_error_In, Hx. }
  constructor.
  - intros i x Hx. apply (He i x Hx).
  - intros i x Hx a o Ha. destruct (He i x Hx) as (Hh & _). rewrite Hh in Ha. apply hsh_sub, Ha.
  - intros i x j y Hx Hy _ a Ha _. destruct (He i x Hx) as (Hh & _). rewrite Hh in Ha. apply hsh_find, Ha.
  - intros a Ha. split; [reflexivity|]. apply in_map_iff in Ha as (x & <- & Hx). rewrite Forall_forall in Hsh0. eexists. apply (Hsh0 x Hx).
  - reflexivity.
  - intros i x Hx a Ha Hn. destruct (He i x Hx) as (Hh & _). rewrite Hh in Ha. destruct (Hn (hsh_find a Ha)).
Qed.
Lemma nodup_concat {B} (Ls : list (list B)) : (forall L, In L Ls -> NoDup L) ->
  (forall i j L M b, nth_error Ls i = Some L -> nth_error Ls j = Some M -> i <> j -> In b L -> In b M -> False) -> NoDup (concat Ls).
Proof.
  induction Ls as [|L Ls IH]; intros H1 H2; cbn; [constructor|].
  assert (Hr : NoDup (concat Ls)).
  { apply IH; [intros M HM; apply H1; right; exact HM|]. intros i j M N b Hi Hj Hn. apply (H2 (S i) (S j) M N b Hi Hj). congruence. }
  assert (Hd : forall b, In b L -> In b (concat Ls) -> False).
  { intros b Hb Hc. apply in_concat in Hc as (M & HM & Hbm). apply In_nth_error in HM as (n & Hn). apply (H2 0%nat (S n) L M b eq_refl Hn); [discriminate|assumption|assumption]. }
  specialize (H1 L (or_introl eq_refl)). clear - H1 Hr Hd. induction H1 as [|x L Hx HL IHL]; [exact Hr|]. cbn. constructor.
  - intros Hi. apply in_app_iff in Hi as [Hi|Hi]; [exact (Hx Hi)|apply (Hd x); [left; reflexivity|exact Hi]].
  - apply IHL. intros b Hb. apply Hd. right. exact Hb.
Qed.
Lemma choose {X P Y} (R : X -> P -> Y -> Prop) l ps : Forall2 (fun x p => exists y, R x p y) l ps ->
  exists ys, length ys = length l /\ forall i x p, nth_error l i = Some x -> nth_error ps i = Some p -> exists y, nth_error ys i = Some y /\ R x p y.
Proof.
  induction 1 as [|x p l ps (y & Hy) _ (ys & Hl & IH)]; [exists []; split; [reflexivity|]; intros [|i]; discriminate|].
  exists (y :: ys). split; [cbn; rewrite Hl; reflexivity|]. intros [|i] x' p' Hx' Hp'; cbn in *; [|apply IH; assumption].
  injection Hx' as <-. injection Hp' as <-. exists y. auto.
Qed.
Lemma map_nth {B C} (f : B -> C) l i y : nth_error (map f l) i = Some y -> exists x, nth_error l i = Some x /\ y = f x.
Proof. intros Hy. rewrite nth_error_map in Hy. destruct (nth_error l i) as [x|]; [|discriminate]. injection Hy as <-. eauto. Qed.
Lemma steps_run (c c' : heap * list (tree (cvars * list cobs))) : pool_steps c c' -> pool_run_oom c [] c'.
Proof. induction 1; [constructor|]. eapply run_step; eassumption. Qed.
Lemma shared_dec a : shared a \/ ~ shared a.
Proof. destruct (in_dec Pos.eq_dec a (map adr sh)); [left|right]; assumption. Qed.
Section Failing.
Context (fs : list nat) (H : heap) (ts : list (tree (cvars * list cobs))) (Hrun : pool_run_oom (h0, trees) fs (H, ts)).
Lemma reach_oom : exists l, ts = map e_t l /\ map e_Q l = map Qof progs /\ map e_Qo l = map Qoom progs /\
  (forall i x, nth_error l i = Some x -> ~ In i fs -> e_ok x = true) /\ ginv h0 shared H l.
Proof.
  destruct (ginv_run h0 shared _ _ _ Hrun entries) as (l & H1 & H2 & H3 & H4 & H5); [symmetry; apply entries_t|apply entries_ginv|].
  exists l. cbn [fst snd] in *. rewrite entries_Q in H2. rewrite entries_Qo in H3. do 3 (split; [assumption|]). split; [|assumption].
  intros i x Hx Hi. assert (Hlen : length l = length entries) by (rewrite <- (map_length e_Q l), H2, <- entries_Q; apply map_length).
  destruct (nth_error entries i) as [y|] eqn:Hy.
  - apply (H4 i y x Hy Hx); [|exact Hi]. apply (entries_in y). eapply nth_error_In, Hy.
  - exfalso. apply nth_error_None in Hy. apply (Nat.lt_irrefl i). eapply Nat.lt_le_trans; [|exact Hy]. rewrite <- Hlen. apply nth_error_Some. rewrite Hx. discriminate.
Qed.
Theorem oom_keeps : keeps h0 H.
Proof. destruct reach_oom as (l & _ & _ & _ & _ & G). apply (ginv_keeps h0 shared H l shared_dec G). Qed.
Theorem oom_progress i t : nth_error ts i = Some t ->
  finished t \/ (exists h' t', thread_step H t h' t') \/ (In i fs /\ (t = TErr BadAlloc \/ t = TErr NullDeref)).
Proof.
  intros Hi. destruct reach_oom as (l & -> & _ & _ & Hok & G). apply map_nth in Hi as (x & Hx & ->).
  destruct (ginv_go _ _ _ _ _ _ G Hx) as [(v & Hv)|[(e & He)|Hgo]].
  - left. exists v. exact Hv.
  - right. right. destruct (ginv_err _ _ _ _ _ _ _ G Hx He) as [Hf Hm]. split.
    + destruct (in_dec Nat.eq_dec i fs) as [Hin|Hn]; [exact Hin|]. rewrite (Hok i x Hx Hn) in Hf. discriminate.
    + rewrite He. destruct Hm as [-> | ->]; auto.
  - right. left. exact Hgo.
Qed.
Theorem oom_result i v o ops s obs : nth_error ts i = Some (TRet (v, o)) -> nth_error progs i = Some (ops, s, obs) ->
  variables_alive H v /\ Forall2 holds_transform (s_results s) (v_results v) /\ (o = obs \/ In i fs /\ Forall2 same_or_thrown obs o).
Proof.
  intros Hi Hpi. destruct reach_oom as (l & -> & HQ & HQo & Hok & G). apply map_nth in Hi as (x & Hx & Ex).
  assert (Hq : e_Q x = Qof (ops, s, obs)).
  { apply (f_equal (fun z => nth_error z i)) in HQ. rewrite !nth_error_map, Hx, Hpi in HQ. cbn in HQ. congruence. }
  assert (Hqo : e_Qo x = Qoom (ops, s, obs)).
  { apply (f_equal (fun z => nth_error z i)) in HQo. rewrite !nth_error_map, Hx, Hpi in HQo. cbn in HQo. congruence. }
  destruct (ginv_end _ _ _ _ _ _ _ G Hx (eq_sym Ex)) as [He Ho]. rewrite Hq in He. rewrite Hqo in Ho. destruct Ho as [Ho HI]. cbn [fst snd] in Ho, HI.
  split; [|split].
  - pose proof (g_sub _ _ _ _ G i x Hx) as Hsub.
    assert (Ha : variables_alive (e_h x) v).
    { apply (oinv_alive _ _ _ _ _ HI). apply Forall_forall. intros y Hy. destruct HI as [_ _ _ (P & _ & _ & HO)]. apply (li_keeps _ _ _ HO). apply hsh_in, Hy. }
    destruct Ha as [A1 A2]. split.
    + revert A1. apply Forall_impl. intros [j [p k]] Hj. apply Hsub, Hj.
    + revert A2. apply Forall_impl. intros [j [[r pR] pB]] (a & b & -> & -> & B1 & B2). exists a, b. do 2 (split; [reflexivity|]). split; apply Hsub; assumption.
  - apply rmatch_holds, (oi_r _ _ _ _ _ HI).
  - destruct (in_dec Nat.eq_dec i fs) as [Hin|Hn]; [right; auto|]. left. apply (He (Hok i x Hx Hn)).
Qed.
End Failing.
Section Reach.
Context (H : heap) (ts : list (tree (cvars * list cobs))) (Hsteps : pool_steps (h0, trees) (H, ts)).
Lemma reach : exists l, ts = map e_t l /\ map e_Q l = map Qof progs /\ (forall i x, nth_error l i = Some x -> e_ok x = true) /\ ginv h0 shared H l.
Proof.
  destruct (reach_oom [] H ts (steps_run _ _ Hsteps)) as (l & H1 & H2 & _ & H4 & H5). exists l. do 2 (split; [assumption|]). split; [|assumption].
  intros i x Hx. apply (H4 i x Hx). intros [].
Qed.
Theorem pool_progress i t : nth_error ts i = Some t -> (exists x, t = TRet x) \/ (exists h' t', thread_step H t h' t').
Proof. intros Hi. destruct (oom_progress [] H ts (steps_run _ _ Hsteps) i t Hi) as [Hf|[Hg|[[] _]]]; [left; exact Hf|right; exact Hg]. Qed.
Theorem pool_result i v o ops s obs : nth_error ts i = Some (TRet (v, o)) -> nth_error progs i = Some (ops, s, obs) ->
  o = obs /\ Forall2 holds_transform (s_results s) (v_results v).
Proof.
  intros Hi Hpi. destruct (oom_result [] H ts (steps_run _ _ Hsteps) i v o ops s obs Hi Hpi) as (_ & H1 & [H2|[[] _]]). auto.
Qed.
Theorem pool_heap : Forall (fun t => exists x, t = TRet x) ts ->
  exists L, heap_plus h0 L H /\ Permutation (map snd L) (flat_map (fun p => claims (snd (fst p))) progs).
Proof.
  intros Hend. destruct reach as (l & -> & HQ & Hok & G).
  assert (H2 : Forall2 (fun x p => exists L, owns (e_h x) L (snd (fst p))) l progs).
  { assert (Hx : forall x p, In x l -> e_Q x = Qof p -> exists L, owns (e_h x) L (snd (fst p))).
    { intros x p Hx Hq. apply In_nth_error in Hx as (i & Hi). rewrite Forall_forall in Hend.
      destruct (Hend (e_t x)) as (v & Hv); [apply in_map, (nth_error_In _ _ Hi)|]. pose proof (proj1 (ginv_end _ _ _ _ _ _ _ G Hi Hv) (Hok i x Hi)) as He. rewrite Hq in He.
      destruct p as [[ops s] obs]. destruct He as (_ & HI & Hs). exact (end_owns _ _ _ HI Hs). }
    clear - HQ Hx. revert progs HQ Hx. induction l as [|x l IH]; intros [|p ps] HQ Hx; try discriminate; [constructor|].
    cbn in HQ. injection HQ as Hq HQ. constructor; [apply Hx; [left; reflexivity|exact Hq]|]. apply IH; [exact HQ|]. intros y q Hy. apply Hx. right. exact Hy. }
  destruct (choose (fun x p L => owns (e_h x) L (snd (fst p))) _ _ H2) as (Ls & Hlen & HLs).
  pose proof (F2_length _ _ _ H2) as Hlen2.
  assert (Hget : forall i L, nth_error Ls i = Some L -> exists x p, nth_error l i = Some x /\ nth_error progs i = Some p /\ owns (e_h x) L (snd (fst p))).
  { intros i L Hi. assert (Hlt : (i < length Ls)%nat) by (apply nth_error_Some; congruence).
    destruct (nth_error l i) as [x|] eqn:Hx; [|exfalso; apply nth_error_None in Hx; apply (Nat.lt_irrefl i); eapply Nat.lt_le_trans; [exact Hlt|]; rewrite Hlen; exact Hx].
    destruct (nth_error progs i) as [p|] eqn:Hpi; [|exfalso; apply nth_error_None in Hpi; apply (Nat.lt_irrefl i); eapply Nat.lt_le_trans; [exact Hlt|]; rewrite Hlen, Hlen2; exact Hpi].
    destruct (HLs i x p Hx Hpi) as (L' & HL' & Ho). replace L' with L in Ho by congruence. eauto. }
  exists (concat Ls). split.
  - assert (Hloc : forall a k, In (a, k) (concat Ls) -> exists i x, nth_error l i = Some x /\ hfind a (e_h x) = Some (OOther k) /\ ~ shared a).
    { intros a k Hi. apply in_concat in Hi as (L & HL & Hi). apply In_nth_error in HL as (i & HLi). destruct (Hget i L HLi) as (x & p & Hx & _ & Ho).
      destruct (ow_live _ _ _ Ho a k Hi) as [Hf Hs]. exists i, x. auto. }
    split; [|split].
    + unfold addrs. rewrite concat_map. apply nodup_concat.
      * intros M HM. apply in_map_iff in HM as (L & <- & HL). apply In_nth_error in HL as (i & HLi). destruct (Hget i L HLi) as (x & p & _ & _ & Ho). apply (ow_nd _ _ _ Ho).
      * intros i j M N a HM HN Hij Ha Hb. apply map_nth in HM as (L1 & HL1 & ->). apply map_nth in HN as (L2 & HL2 & ->).
        destruct (Hget i L1 HL1) as (x & p & Hx & _ & Ho1). destruct (Hget j L2 HL2) as (y & q & Hy & _ & Ho2).
        apply in_map_iff in Ha as ([a1 k1] & Ea & Ha). apply in_map_iff in Hb as ([a2 k2] & Eb & Hb). cbn in Ea, Eb. subst a1 a2.
        destruct (ow_live _ _ _ Ho1 a k1 Ha) as [Hf1 Hs1]. destruct (ow_live _ _ _ Ho2 a k2 Hb) as [Hf2 _].
        apply Hs1. apply (g_dis _ _ _ _ G i x j y Hx Hy Hij a); congruence.
    + intros a k Hi. destruct (Hloc a k Hi) as (i & x & Hx & Hf & Hs). split; [|apply (g_sub _ _ _ _ G i x Hx a _ Hf)].
      apply (g_new _ _ _ _ G i x Hx a); congruence.
    + intros a Ha. destruct (in_dec Pos.eq_dec a (map adr sh)) as [Hs|Hs]; [apply (g_shared _ _ _ _ G a Hs)|].
      apply (g_out _ _ _ _ G). intros i x Hx.
      destruct (nth_error progs i) as [p|] eqn:Hpi; [|exfalso; apply nth_error_None in Hpi; apply (Nat.lt_irrefl i); eapply Nat.lt_le_trans; [|exact Hpi]; eapply Nat.lt_le_trans; [apply nth_error_Some; rewrite Hx; discriminate|apply Nat.eq_le_incl; exact Hlen2]].
      destruct (HLs i x p Hx Hpi) as (L & HL & Ho). apply (ow_rest _ _ _ Ho); [|exact Hs]. intros Hi. apply Ha. unfold addrs in *.
      apply in_map_iff in Hi as ([b k] & Eb & Hi). cbn in Eb. subst b. apply in_map_iff. exists (a, k). split; [reflexivity|]. apply in_concat. exists L. split; [eapply nth_error_In, HL|exact Hi].
  - clear - HLs Hlen Hlen2. revert progs Ls HLs Hlen Hlen2. induction l as [|x l IH]; intros [|p ps] [|L Ls] HLs Hlen Hlen2; try discriminate; [reflexivity|].
    cbn. rewrite map_app. apply Permutation_app.
    + destruct (HLs 0%nat x p eq_refl eq_refl) as (L' & HL' & Ho). injection HL' as <-. apply (ow_perm _ _ _ Ho).
    + apply IH; [|cbn in Hlen; injection Hlen as Hlen; exact Hlen|cbn in Hlen2; injection Hlen2 as Hlen2; exact Hlen2]. intros i y q Hy Hq. exact (HLs (S i) y q Hy Hq).
Qed.
End Reach.
Theorem oom_ends : Forall always_ends trees -> Acc (fun c' c => pool_once c c') (h0, trees).
Proof.
  intros Htot. rewrite <- entries_t. apply (ginv_ends h0 shared); [apply entries_ginv|]. apply Forall_forall. intros x Hx.
  rewrite Forall_forall in Htot. apply Htot. rewrite <- entries_t. apply in_map, Hx.
Qed.
Lemma step_once (c c' : heap * list (tree (cvars * list cobs))) : pool_step c c' -> pool_once c c'.
Proof. intros Hs. inversion Hs as [h h' l1 t t' l2 Hst]; subst. exists l1, t, t', l2. cbn [fst snd]. do 2 (split; [reflexivity|]). left. exact Hst. Qed.
Theorem pool_ends : Forall always_ends trees -> Acc (fun c' c => pool_step c c') (h0, trees).
Proof.
  intros Htot. pose proof (oom_ends Htot) as Ha. remember (h0, trees) as c eqn:Hc. clear Hc. induction Ha as [c _ IH]. constructor. intros c' Hs. apply IH, step_once, Hs.
Qed.
Lemma run_trans (c c1 c2 : heap * list (tree (cvars * list cobs))) f1 f2 : pool_run_oom c f1 c1 -> pool_run_oom c1 f2 c2 -> pool_run_oom c (f1 ++ f2) c2.
Proof. induction 1; intros H2; [exact H2|eapply run_step; eauto|cbn; eapply run_fail; eauto]. Qed.
Lemma split_unended (ts : list (tree (cvars * list cobs))) : Forall ended ts \/ exists l1 t l2, ts = l1 ++ t :: l2 /\ ~ ended t.
Proof.
  induction ts as [|t ts [IH|(l1 & u & l2 & -> & Hu)]].
  - left. constructor.
  - destruct t as [x|e| | | | |]; [left; constructor; [left; exists x; reflexivity|exact IH]|left; constructor; [right; exists e; reflexivity|exact IH]|..];
      right; eexists [], _, ts; (split; [reflexivity|]; intros [(x & Hx)|(x & Hx)]; discriminate).
  - right. exists (t :: l1), u, l2. auto.
Qed.
(** from every state, without further failures, every thread can be brought to its end *)
Theorem oom_completes : Forall always_ends trees -> forall fs h ts, pool_run_oom (h0, trees) fs (h, ts) ->
  exists h' ts', pool_steps (h, ts) (h', ts') /\ Forall ended ts'.
Proof.
  intros Htot fs h ts Hr.
  assert (Ha : Acc (fun c' c => pool_step c c') (h, ts)).
  { pose proof (oom_ends Htot) as Ha. assert (Hb : Acc (fun c' c => pool_once c c') (h, ts)).
    - remember (h0, trees) as c eqn:Hc. clear Hc. induction Hr as [c|c c1 fs c2 Hs _ IH|hh hh' l1 t t' l2 fs c2 Hst _ IH]; [exact Ha|apply IH, Ha, step_once, Hs|].
      apply IH, Ha. exists l1, t, t', l2. cbn [fst snd]. do 2 (split; [reflexivity|]). right. exact Hst.
    - clear - Hb. induction Hb as [c _ IH]. constructor. intros c' Hs. apply IH, step_once, Hs. }
  remember (h, ts) as c eqn:Hc. revert h ts Hc Hr. induction Ha as [c _ IH]. intros h ts -> Hr.
  destruct (split_unended ts) as [Hf|(l1 & t & l2 & -> & Hu)]; [exists h, ts; split; [constructor|exact Hf]|].
  destruct (oom_progress fs h _ Hr (length l1) t) as [Hx|[(h' & t' & Hs)|[_ Hx]]]; [apply nth_mid|destruct Hu; left; exact Hx| |destruct Hu; right; destruct Hx as [-> | ->]; eauto].
  assert (Hone : pool_step (h, l1 ++ t :: l2) (h', l1 ++ t' :: l2)) by (constructor; exact Hs).
  destruct (IH _ Hone _ _ eq_refl) as (h2 & ts2 & H1 & H2).
  - rewrite <- (app_nil_r fs). eapply run_trans; [exact Hr|]. eapply run_step; [exact Hone|constructor].
  - exists h2, ts2. split; [|exact H2]. econstructor; [exact Hone|exact H1].
Qed.
Lemma steps_trans (c c1 c2 : heap * list (tree (cvars * list cobs))) : pool_steps c c1 -> pool_steps c1 c2 -> pool_steps c c2.
Proof. induction 1; [auto|]. intros H2. econstructor; [eassumption|auto]. Qed.
Theorem pool_completes : Forall always_ends trees -> forall h ts, pool_steps (h0, trees) (h, ts) ->
  exists h' ts', pool_steps (h, ts) (h', ts') /\ Forall finished ts'.
Proof.
  intros Htot h ts Hr. destruct (oom_completes Htot [] h ts (steps_run _ _ Hr)) as (h' & ts' & H1 & H2). exists h', ts'. split; [exact H1|].
  pose proof (steps_trans _ _ _ Hr H1) as Hr'. apply Forall_forall. intros t Hti. rewrite Forall_forall in H2. destruct (H2 t Hti) as [Hf|(e & ->)]; [exact Hf|].
  apply In_nth_error in Hti as (i & Hi). destruct (pool_progress h' ts' Hr' i _ Hi) as [Hx|(h2 & t2 & Hx)]; [exact Hx|inversion Hx].
Qed.
End Shared.
(** a thread that runs alone in a pool *)
Lemma evals_pool {A} al l1 l2 h (t : tree A) r : fresh_alloc al -> evals al h t r ->
  exists fs h', pool_run_oom (h, l1 ++ t :: l2) fs (h', l1 ++ (match r with Ok (x, _) => TRet x | Err e => TErr e end) :: l2).
Proof.
  intros Hf. induction 1.
  - exists [], h. constructor.
  - exists [], h. constructor.
  - destruct IHevals as (fs & h' & IH). exists (length l1 :: fs), h'. eapply run_fail; [constructor|exact IH].
  - destruct IHevals as (fs & h' & IH). exists fs, h'. eapply run_step; [constructor; apply st_alloc, (Hf _ _ _ H)|exact IH].
  - destruct IHevals as (fs & h' & IH). exists fs, h'. eapply run_step; [constructor; apply st_load, H|exact IH].
  - exists [], h. eapply run_step; [constructor; apply st_load_bad, H|constructor].
  - destruct IHevals as (fs & h' & IH). exists fs, h'. eapply run_step; [constructor; apply st_use, H|exact IH].
  - exists [], h. eapply run_step; [constructor; apply st_use_bad, H|constructor].
  - destruct IHevals as (fs & h'' & IH). exists fs, h''. eapply run_step; [constructor; apply st_store, H|exact IH].
  - exists [], h. eapply run_step; [constructor; apply st_store_bad, H|constructor].
  - destruct IHevals as (fs & h'' & IH). exists fs, h''. eapply run_step; [constructor; apply st_free, H|exact IH].
  - exists [], h. eapply run_step; [constructor; apply st_free_bad, H|constructor].
Qed.
