(** Threads on a common heap: what a thread does alone, under every allocator, it does in every pool
    whose threads share only blocks that none of them releases, also when allocations fail. *)
From Verif Require Import Base M_PackedArray M_Queue M_Heap Threads Pool P_Size P_Heap P_Pool P_HeapSim P_HeapProg.
From Coq Require Import FMapPositive Permutation.
Open Scope Z_scope.

(** * One thread *)
Lemma store_inv h (a : addr) o h' : hstore h (Some a) o = Ok h' -> h' = hadd a o h /\ exists o', hfind a h = Some o' /\ forall x, o' <> OOther x.
Proof.
  unfold hstore. destruct (hfind a h) as [o'|]; [|discriminate]. intros H.
  destruct o'; try discriminate H; (inversion H; subst; split; [reflexivity|]; eexists; split; [reflexivity|discriminate]).
Qed.
Lemma store_live h (a : addr) o o' : hfind a h = Some o' -> (forall x, o' <> OOther x) -> hstore h (Some a) o = Ok (hadd a o h).
Proof. intros H Hn. unfold hstore. rewrite H. destruct o'; try reflexivity. exfalso. eapply Hn. reflexivity. Qed.
Lemma free_inv kd h (a : addr) h' : hfree kd h (Some a) = Ok h' -> h' = hremove a h /\ exists o, hfind a h = Some o /\ kind_eqb (kind_of o) kd = true.
Proof.
  unfold hfree. destruct (hfind a h) as [o|]; [|discriminate]. destruct (kind_eqb _ _) eqn:Hk; [|discriminate].
  intros H. inversion H; subst. eauto.
Qed.
Lemma free_live kd h (a : addr) o : hfind a h = Some o -> kind_eqb (kind_of o) kd = true -> hfree kd h (Some a) = Ok (hremove a h).
Proof. intros H Hk. unfold hfree. rewrite H, Hk. reflexivity. Qed.
Lemma load_inv h (a : addr) o : hload h (Some a) = Ok o -> hfind a h = Some o /\ forall x, o <> OOther x.
Proof. unfold hload. destruct (hfind a h) as [o'|]; [|discriminate]. destruct o'; intros H; inversion H; subst; (split; [reflexivity|discriminate]). Qed.
Lemma load_live h (a : addr) o : hfind a h = Some o -> (forall x, o <> OOther x) -> hload h (Some a) = Ok o.
Proof. intros H Hn. unfold hload. rewrite H. destruct o; try reflexivity. exfalso. eapply Hn. reflexivity. Qed.
Lemma use_inv h (a : addr) z u : huse h (Some a) z = Ok u -> exists o, hfind a h = Some o /\ z <= osize o.
Proof. unfold huse. destruct (hfind a h) as [o|]; [|discriminate]. destruct (Z.ltb_spec (osize o) z); [discriminate|]. intros _. exists o. auto. Qed.
Lemma use_live h (a : addr) z o : hfind a h = Some o -> z <= osize o -> huse h (Some a) z = Ok tt.
Proof. unfold huse. intros -> H. destruct (Z.ltb_spec (osize o) z); [lia|reflexivity]. Qed.
Definition memory_error (e : err) : Prop := e = BadAlloc \/ e = NullDeref.
Lemma load_err h (a : addr) e : hload h (Some a) = Err e -> ~ memory_error e.
Proof. unfold hload, memory_error. destruct (hfind a h) as [[]|]; intros H; inversion H; subst; intros [? | ?]; discriminate. Qed.
Lemma use_err h (a : addr) z e : huse h (Some a) z = Err e -> ~ memory_error e.
Proof. unfold huse, memory_error. destruct (hfind a h) as [o|]; [destruct (osize o <? z)|]; intros H; inversion H; subst; intros [? | ?]; discriminate. Qed.
Lemma store_err h (a : addr) o e : hstore h (Some a) o = Err e -> ~ memory_error e.
Proof. unfold hstore, memory_error. destruct (hfind a h) as [[]|]; intros H; inversion H; subst; intros [? | ?]; discriminate. Qed.
Lemma free_err kd h (a : addr) e : hfree kd h (Some a) = Err e -> ~ memory_error e.
Proof. unfold hfree, memory_error. destruct (hfind a h) as [o|]; [destruct (kind_eqb _ _)|]; intros H; inversion H; subst; intros [? | ?]; discriminate. Qed.

Section One.
Context {A : Type}.
(** b: allocations may fail *)
Definition safe (b : bool) (h : heap) (t : tree A) (Q : A -> heap -> Prop) : Prop :=
  forall al, fresh_alloc al -> (b = false -> never_fails al) ->
  exists r, evals al h t r /\ match r with Ok (x, h') => Q x h' | Err e => b = true /\ memory_error e end.

Lemma evals_later (al al' : allocator) n h (t : tree A) r : evals al' h t r ->
  (forall h sz, (n < clock h)%nat -> al' h sz = al h sz) -> (n < clock h)%nat -> evals al h t r.
Proof.
  intros H He. induction H; intros Hc.
  - constructor.
  - constructor.
  - apply ev_none; [rewrite <- He by exact Hc; assumption|]. apply IHevals. cbn. lia.
  - eapply ev_some; [rewrite <- He by exact Hc; eassumption|]. apply IHevals. cbn. lia.
  - eapply ev_load; eauto.
  - apply ev_load_bad; assumption.
  - eapply ev_use; eauto.
  - apply ev_use_bad; assumption.
  - eapply ev_store; [eassumption|]. apply IHevals. apply store_inv in H as [-> _]. cbn. lia.
  - apply ev_store_bad; assumption.
  - eapply ev_free; [eassumption|]. apply IHevals. apply free_inv in H as [-> _]. cbn. lia.
  - apply ev_free_bad; assumption.
Qed.
Lemma safe_alloc b h o (k : option addr -> tree A) Q a : safe b h (TAlloc o k) Q -> hfind a h = None -> safe b (hadd a o h) (k (Some a)) Q.
Proof.
  intros Hs Ha al Hf Hn.
  pose (al' := fun h' sz => if Nat.eqb (clock h') (clock h) then match hfind a h' with None => Some a | Some _ => al h' sz end else al h' sz).
  destruct (Hs al') as (r & Hev & HQ).
  - intros h1 sz c. unfold al'. destruct (Nat.eqb _ _); [|apply Hf]. destruct (hfind a h1) eqn:H1; [apply Hf|]. intros Hb. inversion Hb; subst. exact H1.
  - intros Hb h1 sz. unfold al'. destruct (Nat.eqb _ _); [|apply (Hn Hb)]. destruct (hfind a h1); [apply (Hn Hb)|discriminate].
  - exists r. split; [|exact HQ].
    assert (Hal : al' h (osize o) = Some a) by (unfold al'; rewrite Nat.eqb_refl, Ha; reflexivity).
    inversion Hev; subst; [congruence|]. replace a0 with a in * by congruence.
    apply (evals_later al al' (clock h)); [assumption| |cbn; lia].
    intros h2 sz Hc. unfold al'. destruct (Nat.eqb_spec (clock h2) (clock h)); [lia|reflexivity].
Qed.
Lemma safe_none h o (k : option addr -> tree A) Q : safe true h (TAlloc o k) Q -> safe true (htick h) (k None) Q.
Proof.
  intros Hs al Hf _.
  pose (al' := fun h' sz => if Nat.eqb (clock h') (clock h) then None else al h' sz).
  destruct (Hs al') as (r & Hev & HQ).
  - intros h1 sz c. unfold al'. destruct (Nat.eqb _ _); [discriminate|apply Hf].
  - discriminate.
  - exists r. split; [|exact HQ].
    assert (Hal : al' h (osize o) = None) by (unfold al'; rewrite Nat.eqb_refl; reflexivity).
    inversion Hev; subst; [|congruence].
    apply (evals_later al al' (clock h)); [assumption| |cbn; lia].
    intros h2 sz Hc. unfold al'. destruct (Nat.eqb_spec (clock h2) (clock h)); [lia|reflexivity].
Qed.
Lemma safe_load b h a (k : obj -> tree A) Q : safe b h (TLoad a k) Q -> exists o, hfind a h = Some o /\ (forall x, o <> OOther x) /\ safe b h (k o) Q.
Proof.
  intros Hs. destruct (hload h (Some a)) as [o|e] eqn:Hl.
  - exists o. destruct (load_inv _ _ _ Hl) as [H1 H2]. split; [exact H1|]. split; [exact H2|]. intros al Hf Hn. destruct (Hs al Hf Hn) as (r & Hev & HQ). exists r. split; [|exact HQ].
    inversion Hev; subst; congruence.
  - exfalso. destruct (Hs bump bump_fresh (fun _ => bump_never)) as (r & Hev & HQ). inversion Hev; subst; [congruence|]. destruct HQ as [_ HQ]. eapply load_err; eassumption.
Qed.
Lemma safe_use b h a z (k : tree A) Q : safe b h (TUse a z k) Q -> (exists o, hfind a h = Some o /\ z <= osize o) /\ safe b h k Q.
Proof.
  intros Hs. destruct (huse h (Some a) z) as [u|e] eqn:Hl.
  - split; [eapply use_inv, Hl|]. intros al Hf Hn. destruct (Hs al Hf Hn) as (r & Hev & HQ). exists r. split; [|exact HQ].
    inversion Hev; subst; congruence.
  - exfalso. destruct (Hs bump bump_fresh (fun _ => bump_never)) as (r & Hev & HQ). inversion Hev; subst; [congruence|]. destruct HQ as [_ HQ]. eapply use_err; eassumption.
Qed.
Lemma safe_store b h a o (k : tree A) Q : safe b h (TStore a o k) Q -> (exists o', hfind a h = Some o' /\ forall x, o' <> OOther x) /\ safe b (hadd a o h) k Q.
Proof.
  intros Hs. destruct (hstore h (Some a) o) as [h'|e] eqn:Hl.
  - destruct (store_inv _ _ _ _ Hl) as [-> H2]. split; [exact H2|]. intros al Hf Hn. destruct (Hs al Hf Hn) as (r & Hev & HQ). exists r. split; [|exact HQ].
    inversion Hev; subst; congruence.
  - exfalso. destruct (Hs bump bump_fresh (fun _ => bump_never)) as (r & Hev & HQ). inversion Hev; subst; [congruence|]. destruct HQ as [_ HQ]. eapply store_err; eassumption.
Qed.
Lemma safe_free b h kd a (k : tree A) Q : safe b h (TFree kd a k) Q -> (exists o, hfind a h = Some o /\ kind_eqb (kind_of o) kd = true) /\ safe b (hremove a h) k Q.
Proof.
  intros Hs. destruct (hfree kd h (Some a)) as [h'|e] eqn:Hl.
  - destruct (free_inv _ _ _ _ Hl) as [-> H2]. split; [exact H2|]. intros al Hf Hn. destruct (Hs al Hf Hn) as (r & Hev & HQ). exists r. split; [|exact HQ].
    inversion Hev; subst; congruence.
  - exfalso. destruct (Hs bump bump_fresh (fun _ => bump_never)) as (r & Hev & HQ). inversion Hev; subst; [congruence|]. destruct HQ as [_ HQ]. eapply free_err; eassumption.
Qed.
Lemma safe_ret b h (x : A) Q : safe b h (TRet x) Q -> Q x h.
Proof. intros Hs. destruct (Hs bump bump_fresh (fun _ => bump_never)) as (r & Hev & HQ). inversion Hev; subst. exact HQ. Qed.
Lemma safe_err b h e Q : safe b h (TErr e : tree A) Q -> b = true /\ memory_error e.
Proof. intros Hs. destruct (Hs bump bump_fresh (fun _ => bump_never)) as (r & Hev & HQ). inversion Hev; subst. exact HQ. Qed.

(** * The pool *)
(** a thread, its part of the heap, the same with other kinds of the shared blocks (so that releasing one would be an
    error), what is expected at its end without and with failing allocations *)
Record entry := mkentry { e_t : tree A; e_h : heap; e_v : heap; e_ok : bool; e_Q : A -> heap -> Prop; e_Qo : A -> heap -> Prop }.
Context (h0 : heap) (sh : addr -> Prop).
Record good (x : entry) : Prop := {
  g_safe : e_ok x = true -> safe false (e_h x) (e_t x) (e_Q x);
  g_oom : safe true (e_h x) (e_t x) (e_Qo x);
  g_oom2 : safe true (e_v x) (e_t x) (fun _ _ => True);
  g_same : forall a, ~ sh a -> hfind a (e_v x) = hfind a (e_h x);
  g_kind : forall a, sh a -> exists k k', hfind a (e_h x) = Some (OOther k) /\ hfind a (e_v x) = Some (OOther k') /\ fst k <> fst k' }.
Record ginv (H : heap) (l : list entry) : Prop := {
  g_good : forall i x, nth_error l i = Some x -> good x;
  g_sub : forall i x, nth_error l i = Some x -> forall a o, hfind a (e_h x) = Some o -> hfind a H = Some o;
  g_dis : forall i x j y, nth_error l i = Some x -> nth_error l j = Some y -> i <> j -> forall a, hfind a (e_h x) <> None -> hfind a (e_h y) <> None -> sh a;
  g_shared : forall a, sh a -> hfind a H = hfind a h0 /\ exists k, hfind a h0 = Some (OOther k);
  g_out : forall a, (forall i x, nth_error l i = Some x -> hfind a (e_h x) = None) -> hfind a H = hfind a h0;
  g_new : forall i x, nth_error l i = Some x -> forall a, hfind a (e_h x) <> None -> ~ sh a -> hfind a h0 = None }.

Lemma nth_upd {B} (l1 : list B) x l2 x' i : nth_error (l1 ++ x' :: l2) i = if Nat.eqb i (length l1) then Some x' else nth_error (l1 ++ x :: l2) i.
Proof.
  revert i. induction l1 as [|y l1 IH]; intros i; cbn [app length].
  - destruct i; reflexivity.
  - destruct i; [reflexivity|]. cbn. apply IH.
Qed.
Lemma nth_mid {B} (l1 : list B) x l2 : nth_error (l1 ++ x :: l2) (length l1) = Some x.
Proof. rewrite (nth_upd l1 x). rewrite Nat.eqb_refl. reflexivity. Qed.


Lemma ginv_upd H l1 x l2 H' x' : ginv H (l1 ++ x :: l2) -> good x' ->
  (forall a o, hfind a (e_h x') = Some o -> hfind a H' = Some o) ->
  (forall a, hfind a (e_h x') <> None -> hfind a (e_h x) <> None \/ hfind a H = None) ->
  (forall a, sh a -> hfind a H' = hfind a H) ->
  (forall a, hfind a (e_h x) = None -> hfind a (e_h x') = None -> hfind a H' = hfind a H) ->
  (forall a, hfind a (e_h x) <> None -> hfind a (e_h x') = None -> hfind a H' = None) ->
  ginv H' (l1 ++ x' :: l2).
Proof.
  intros G Hs Hsub Hnew Hsh Hsame Hgone.
  set (n := length l1). set (l := l1 ++ x :: l2) in *.
  assert (Hx : nth_error l n = Some x) by apply nth_mid.
  assert (Hc : forall i y, nth_error (l1 ++ x' :: l2) i = Some y -> (i = n /\ y = x') \/ (i <> n /\ nth_error l i = Some y)).
  { intros i y Hy. rewrite (nth_upd l1 x) in Hy. fold n l in Hy. destruct (Nat.eqb_spec i n); [left; split; congruence|right; auto]. }
  assert (Hd' : forall i y, i <> n -> nth_error l i = Some y -> forall a, hfind a (e_h x') <> None -> hfind a (e_h y) <> None -> sh a).
  { intros i y Hi Hy a Ha Hb. destruct (Hnew a Ha) as [H1|H1]; [apply (g_dis _ _ G n x i y Hx Hy (not_eq_sym Hi) a H1 Hb)|].
    destruct (hfind a (e_h y)) as [o|] eqn:Ho; [|congruence]. rewrite (g_sub _ _ G i y Hy a o Ho) in H1. discriminate. }
  assert (Hoth : forall i y, i <> n -> nth_error l i = Some y -> forall a, hfind a (e_h y) <> None -> hfind a H' = hfind a H).
  { intros i y Hi Hy a Ha. destruct (hfind a (e_h x)) as [o|] eqn:Ho.
    - apply Hsh. apply (g_dis _ _ G n x i y Hx Hy (not_eq_sym Hi)); congruence.
    - destruct (hfind a (e_h x')) as [o|] eqn:Ho'; [|apply Hsame; assumption]. apply Hsh. apply (Hd' i y Hi Hy); congruence. }
  constructor.
  - intros i y Hy. destruct (Hc i y Hy) as [[-> ->]|[Hi Hy']]; [exact Hs|apply (g_good _ _ G i y Hy')].
  - intros i y Hy a o Ha. destruct (Hc i y Hy) as [[-> ->]|[Hi Hy']]; [apply Hsub, Ha|].
    rewrite (Hoth i y Hi Hy') by congruence. apply (g_sub _ _ G i y Hy' a o Ha).
  - intros i y j z Hy Hz Hij a Ha Hb. destruct (Hc i y Hy) as [[-> ->]|[Hi Hy']], (Hc j z Hz) as [[-> ->]|[Hj Hz']].
    + congruence.
    + apply (Hd' j z Hj Hz' a Ha Hb).
    + apply (Hd' i y Hi Hy' a Hb Ha).
    + apply (g_dis _ _ G i y j z Hy' Hz' Hij a Ha Hb).
  - intros a Ha. rewrite (Hsh a Ha). apply (g_shared _ _ G a Ha).
  - intros a Ha.
    assert (Hax : hfind a (e_h x') = None) by (apply (Ha n); apply nth_mid).
    assert (Hoa : forall i y, i <> n -> nth_error l i = Some y -> hfind a (e_h y) = None).
    { intros i y Hi Hy. apply (Ha i). rewrite (nth_upd l1 x). fold n l. destruct (Nat.eqb_spec i n); [congruence|exact Hy]. }
    destruct (hfind a (e_h x)) as [o|] eqn:Ho.
    + rewrite Hgone by congruence. symmetry.
      assert (Hn : ~ sh a).
      { intros Hn. destruct (g_shared _ _ G a Hn) as [H1 (k & Hk)]. rewrite <- (Hsh a Hn), Hgone in H1 by congruence. congruence. }
      apply (g_new _ _ G n x Hx); congruence.
    + rewrite Hsame by assumption. apply (g_out _ _ G). intros i y Hy. destruct (Nat.eq_dec i n) as [->|Hi]; [congruence|apply (Hoa i y Hi Hy)].
  - intros i y Hy a Ha Hn. destruct (Hc i y Hy) as [[-> ->]|[Hi Hy']]; [|apply (g_new _ _ G i y Hy' a Ha Hn)].
    destruct (Hnew a Ha) as [H1|H1]; [apply (g_new _ _ G n x Hx a H1 Hn)|].
    rewrite <- H1. symmetry. apply (g_out _ _ G). intros i y Hyi. destruct (hfind a (e_h y)) as [o|] eqn:Ho; [|reflexivity].
    rewrite (g_sub _ _ G i y Hyi a o Ho) in H1. discriminate.
Qed.
(** what the thread does is also done on its part of the heap *)
Theorem ginv_step H l1 x l2 H' t' : ginv H (l1 ++ x :: l2) -> thread_step H (e_t x) H' t' ->
  exists x', e_t x' = t' /\ e_Q x' = e_Q x /\ e_Qo x' = e_Qo x /\ e_ok x' = e_ok x /\ thread_step (e_h x) (e_t x) (e_h x') t' /\ ginv H' (l1 ++ x' :: l2).
Proof.
  intros G Hst. assert (Hx : nth_error (l1 ++ x :: l2) (length l1) = Some x) by apply nth_mid.
  pose proof (g_good _ _ G _ _ Hx) as [Hs Ho Ho2 Hsame Hkind]. pose proof (g_sub _ _ G _ _ Hx) as Hsub.
  destruct x as [t h v ok Q Qo]. cbn [e_t e_h e_v e_ok e_Q e_Qo] in *.
  inversion Hst; subst.
  - (* a new block *)
    assert (Ha : hfind a h = None). { destruct (hfind a h) as [o'|] eqn:He; [|reflexivity]. rewrite (Hsub a o' He) in H0. discriminate. }
    assert (Hna : ~ sh a). { intros Hn. destruct (g_shared _ _ G _ Hn) as [H1 (kk & Hk)]. congruence. }
    assert (Hva : hfind a v = None) by (rewrite Hsame by exact Hna; exact Ha).
    exists (mkentry (k (Some a)) (hadd a o h) (hadd a o v) ok Q Qo). cbn [e_t e_h e_v e_ok e_Q e_Qo]. do 4 (split; [reflexivity|]). split; [apply st_alloc; assumption|].
    eapply ginv_upd; [exact G|..]; cbn [e_t e_h e_v e_ok e_Q e_Qo].
    + constructor; cbn [e_t e_h e_v e_ok e_Q e_Qo].
      * intros Hok. apply safe_alloc; auto.
      * apply safe_alloc; assumption.
      * apply safe_alloc; assumption.
      * intros b Hb. destruct (Pos.eq_dec b a) as [->|Hn]; [rewrite !hgss; reflexivity|]. rewrite !hgso by exact Hn. apply Hsame, Hb.
      * intros b Hb. assert (Hn : b <> a) by (intros ->; exact (Hna Hb)). rewrite !hgso by exact Hn. apply Hkind, Hb.
    + intros b ob Hb. destruct (Pos.eq_dec b a) as [->|Hn]; [rewrite hgss in Hb; rewrite hgss; exact Hb|]. rewrite hgso in Hb by congruence; rewrite hgso by congruence; auto.
    + intros b Hb. destruct (Pos.eq_dec b a) as [->|Hn]; [right; assumption|]. rewrite hgso in * by congruence. left. exact Hb.
    + intros b Hb. apply hgso. intros ->. exact (Hna Hb).
    + intros b Hb Hb'. apply hgso. intros ->. rewrite hgss in Hb'. discriminate.
    + intros b Hb Hb'. exfalso. destruct (Pos.eq_dec b a) as [->|Hn]; [congruence|]. rewrite hgso in Hb' by congruence. congruence.
  - (* load *)
    destruct (safe_load _ _ _ _ _ Ho) as (o' & Ho' & Hno & Hs'). destruct (load_inv _ _ _ H0) as [He _].
    assert (o' = o) by (rewrite (Hsub _ _ Ho') in He; congruence). subst o'.
    assert (Hna : ~ sh a). { intros Hn. destruct (Hkind a Hn) as (k1 & k2 & Hk & _). rewrite Ho' in Hk. inversion Hk. subst o. exact (Hno _ eq_refl). }
    exists (mkentry (k o) h v ok Q Qo). cbn [e_t e_h e_v e_ok e_Q e_Qo]. do 4 (split; [reflexivity|]). split; [apply st_load, load_live; assumption|].
    eapply ginv_upd; [exact G|..]; cbn [e_t e_h e_v e_ok e_Q e_Qo]; auto; try congruence.
    constructor; cbn [e_t e_h e_v e_ok e_Q e_Qo]; try assumption.
    + intros Hok. destruct (safe_load _ _ _ _ _ (Hs Hok)) as (o1 & Ho1 & _ & Hs1). replace o with o1 by congruence. exact Hs1.
    + destruct (safe_load _ _ _ _ _ Ho2) as (o1 & Ho1 & _ & Hs1). rewrite Hsame in Ho1 by exact Hna. replace o with o1 by congruence. exact Hs1.
  - exfalso. destruct (safe_load _ _ _ _ _ Ho) as (o' & Ho' & Hno & Hs'). rewrite (load_live _ _ _ (Hsub _ _ Ho') Hno) in H0. discriminate.
  - (* use *)
    destruct (safe_use _ _ _ _ _ _ Ho) as [(o' & He & Hz) Hs'].
    exists (mkentry t' h v ok Q Qo). cbn [e_t e_h e_v e_ok e_Q e_Qo]. do 4 (split; [reflexivity|]). split; [apply st_use; eapply use_live; eassumption|].
    eapply ginv_upd; [exact G|..]; cbn [e_t e_h e_v e_ok e_Q e_Qo]; auto; try congruence.
    constructor; cbn [e_t e_h e_v e_ok e_Q e_Qo]; try assumption.
    + intros Hok. apply (safe_use _ _ _ _ _ _ (Hs Hok)).
    + apply (safe_use _ _ _ _ _ _ Ho2).
  - exfalso. destruct (safe_use _ _ _ _ _ _ Ho) as [(o' & He & Hz) Hs']. rewrite (use_live _ _ _ o' (Hsub _ _ He) Hz) in H0. discriminate.
  - (* store *)
    destruct (safe_store _ _ _ _ _ _ Ho) as [(o' & Ho' & Hno) Hs']. pose proof (store_inv _ _ _ _ H0) as [-> _].
    assert (Hna : ~ sh a). { intros Hn. destruct (Hkind a Hn) as (k1 & k2 & Hk & _). rewrite Ho' in Hk. inversion Hk. subst o'. exact (Hno _ eq_refl). }
    exists (mkentry t' (hadd a o h) (hadd a o v) ok Q Qo). cbn [e_t e_h e_v e_ok e_Q e_Qo]. do 4 (split; [reflexivity|]). split; [apply st_store, (store_live _ _ _ _ Ho' Hno)|].
    eapply ginv_upd; [exact G|..]; cbn [e_t e_h e_v e_ok e_Q e_Qo].
    + constructor; cbn [e_t e_h e_v e_ok e_Q e_Qo].
      * intros Hok. apply (safe_store _ _ _ _ _ _ (Hs Hok)).
      * exact Hs'.
      * apply (safe_store _ _ _ _ _ _ Ho2).
      * intros b Hb. destruct (Pos.eq_dec b a) as [->|Hn]; [rewrite !hgss; reflexivity|]. rewrite !hgso by exact Hn. apply Hsame, Hb.
      * intros b Hb. assert (Hn : b <> a) by (intros ->; exact (Hna Hb)). rewrite !hgso by exact Hn. apply Hkind, Hb.
    + intros b ob Hb. destruct (Pos.eq_dec b a) as [->|Hn]; [rewrite hgss in Hb; rewrite hgss; exact Hb|]. rewrite hgso in Hb by congruence; rewrite hgso by congruence; auto.
    + intros b Hb. left. destruct (Pos.eq_dec b a) as [->|Hn]; [congruence|]. rewrite hgso in * by congruence. exact Hb.
    + intros b Hb. apply hgso. intros ->. exact (Hna Hb).
    + intros b Hb Hb'. apply hgso. intros ->. congruence.
    + intros b Hb Hb'. exfalso. destruct (Pos.eq_dec b a) as [->|Hn]; [rewrite hgss in Hb'; congruence|]. rewrite hgso in Hb' by congruence. congruence.
  - exfalso. destruct (safe_store _ _ _ _ _ _ Ho) as [(o' & Ho' & Hno) Hs']. rewrite (store_live _ _ _ _ (Hsub _ _ Ho') Hno) in H0. discriminate.
  - (* release *)
    destruct (safe_free _ _ _ _ _ _ Ho) as [(o' & Ho' & Hk) Hs']. pose proof (free_inv _ _ _ _ H0) as [-> _].
    destruct (safe_free _ _ _ _ _ _ Ho2) as [(o2 & Ho2' & Hk2) Hs2].
    assert (Hna : ~ sh a).
    { intros Hn. destruct (Hkind a Hn) as (k1 & k2 & H1 & H2 & H3). rewrite Ho' in H1. rewrite Ho2' in H2. inversion H1; inversion H2; subst o' o2. cbn [kind_of] in Hk, Hk2.
      apply H3. destruct (fst k1), (fst k2), kd; cbn in *; congruence. }
    exists (mkentry t' (hremove a h) (hremove a v) ok Q Qo). cbn [e_t e_h e_v e_ok e_Q e_Qo]. do 4 (split; [reflexivity|]). split; [apply st_free, (free_live _ _ _ _ Ho' Hk)|].
    eapply ginv_upd; [exact G|..]; cbn [e_t e_h e_v e_ok e_Q e_Qo].
    + constructor; cbn [e_t e_h e_v e_ok e_Q e_Qo].
      * intros Hok. apply (safe_free _ _ _ _ _ _ (Hs Hok)).
      * exact Hs'.
      * exact Hs2.
      * intros b Hb. destruct (Pos.eq_dec b a) as [->|Hn]; [rewrite !hgrs; reflexivity|]. rewrite !hgro by exact Hn. apply Hsame, Hb.
      * intros b Hb. assert (Hn : b <> a) by (intros ->; exact (Hna Hb)). rewrite !hgro by exact Hn. apply Hkind, Hb.
    + intros b ob Hb. destruct (Pos.eq_dec b a) as [->|Hn]; [rewrite hgrs in Hb; discriminate|]. rewrite hgro in Hb by congruence; rewrite hgro by congruence; auto.
    + intros b Hb. left. destruct (Pos.eq_dec b a) as [->|Hn]; [congruence|]. rewrite hgro in * by congruence. exact Hb.
    + intros b Hb. apply hgro. intros ->. exact (Hna Hb).
    + intros b Hb Hb'. apply hgro. intros ->. congruence.
    + intros b Hb Hb'. destruct (Pos.eq_dec b a) as [->|Hn]; [apply hgrs|]. rewrite hgro in Hb' by congruence. congruence.
  - exfalso. destruct (safe_free _ _ _ _ _ _ Ho) as [(o' & Ho' & Hk) Hs']. rewrite (free_live _ _ _ _ (Hsub _ _ Ho') Hk) in H0. discriminate.
Qed.
Theorem ginv_fail H l1 x l2 H' t' : ginv H (l1 ++ x :: l2) -> thread_fail H (e_t x) H' t' ->
  exists x', e_t x' = t' /\ e_Q x' = e_Q x /\ e_Qo x' = e_Qo x /\ e_ok x' = false /\ thread_fail (e_h x) (e_t x) (e_h x') t' /\ ginv H' (l1 ++ x' :: l2).
Proof.
  intros G Hst. assert (Hx : nth_error (l1 ++ x :: l2) (length l1) = Some x) by apply nth_mid.
  pose proof (g_good _ _ G _ _ Hx) as [Hs Ho Ho2 Hsame Hkind]. pose proof (g_sub _ _ G _ _ Hx) as Hsub.
  destruct x as [t h v ok Q Qo]. cbn [e_t e_h e_v e_ok e_Q e_Qo] in *.
  inversion Hst; subst.
  exists (mkentry (k None) (htick h) (htick v) false Q Qo). cbn [e_t e_h e_v e_ok e_Q e_Qo]. do 4 (split; [reflexivity|]). split; [constructor|].
  eapply ginv_upd; [exact G|..]; cbn [e_t e_h e_v e_ok e_Q e_Qo].
  - constructor; cbn [e_t e_h e_v e_ok e_Q e_Qo].
    + discriminate.
    + eapply safe_none, Ho.
    + eapply safe_none, Ho2.
    + exact Hsame.
    + exact Hkind.
  - exact Hsub.
  - intros a Ha. left. exact Ha.
  - reflexivity.
  - reflexivity.
  - intros a Ha Ha'. destruct (Ha Ha').
Qed.
Theorem ginv_run c fs c' : pool_run_oom c fs c' -> forall l, snd c = map e_t l -> ginv (fst c) l ->
  exists l', snd c' = map e_t l' /\ map e_Q l' = map e_Q l /\ map e_Qo l' = map e_Qo l /\
    (forall i x x', nth_error l i = Some x -> nth_error l' i = Some x' -> e_ok x = true -> ~ In i fs -> e_ok x' = true) /\ ginv (fst c') l'.
Proof.
  induction 1 as [c|c c1 fs c2 Hstep _ IH|h h' l1 t t' l2 fs c2 Hst _ IH]; intros l Hl G; [exists l; repeat (split; [auto; congruence|]); exact G| |].
  - inversion Hstep as [h h' l1 t t' l2 Hst]; subst. cbn [fst snd] in *.
    symmetry in Hl. apply map_eq_app in Hl as (m1 & m2 & -> & <- & Hm2).
    destruct m2 as [|x m2]; [discriminate|]. cbn in Hm2. injection Hm2 as <- <-.
    destruct (ginv_step _ _ _ _ _ _ G Hst) as (x' & <- & HQ & HQo & Hok & _ & G').
    destruct (IH (m1 ++ x' :: m2)) as (l' & H1 & H2 & H3 & H4 & H5); [rewrite map_app; reflexivity|exact G'|].
    exists l'. split; [exact H1|]. split; [rewrite H2, !map_app; cbn; rewrite HQ; reflexivity|]. split; [rewrite H3, !map_app; cbn; rewrite HQo; reflexivity|]. split; [|exact H5].
    intros i y y' Hy Hy' Hoky Hi. destruct (Nat.eq_dec i (length m1)) as [->|Hn].
    + rewrite nth_mid in Hy. injection Hy as <-. apply (H4 (length m1) x' y'); [apply nth_mid|exact Hy'|congruence|exact Hi].
    + apply (H4 i y y'); [|exact Hy'|exact Hoky|exact Hi]. rewrite (nth_upd m1 x). destruct (Nat.eqb_spec i (length m1)); [contradiction|exact Hy].
  - cbn [fst snd] in *.
    symmetry in Hl. apply map_eq_app in Hl as (m1 & m2 & -> & <- & Hm2).
    destruct m2 as [|x m2]; [discriminate|]. cbn in Hm2. injection Hm2 as <- <-.
    destruct (ginv_fail _ _ _ _ _ _ G Hst) as (x' & <- & HQ & HQo & Hok & _ & G').
    destruct (IH (m1 ++ x' :: m2)) as (l' & H1 & H2 & H3 & H4 & H5); [rewrite map_app; reflexivity|exact G'|].
    exists l'. split; [exact H1|]. split; [rewrite H2, !map_app; cbn; rewrite HQ; reflexivity|]. split; [rewrite H3, !map_app; cbn; rewrite HQo; reflexivity|]. split; [|exact H5].
    rewrite map_length. intros i y y' Hy Hy' Hoky Hi. destruct (Nat.eq_dec i (length m1)) as [->|Hn]; [destruct Hi; left; reflexivity|].
    apply (H4 i y y'); [|exact Hy'|exact Hoky|intros Hc; apply Hi; right; exact Hc]. rewrite (nth_upd m1 x). destruct (Nat.eqb_spec i (length m1)); [contradiction|exact Hy].
Qed.
(** no thread fails but for lack of memory, a thread that has not ended can go on *)
Theorem ginv_end H l i x v : ginv H l -> nth_error l i = Some x -> e_t x = TRet v -> (e_ok x = true -> e_Q x v (e_h x)) /\ e_Qo x v (e_h x).
Proof.
  intros G Hx Ht. pose proof (g_good _ _ G _ _ Hx) as [Hs Ho _ _ _]. rewrite Ht in Hs, Ho. split; [intros Hok; exact (safe_ret _ _ _ _ (Hs Hok))|exact (safe_ret _ _ _ _ Ho)].
Qed.
Theorem ginv_err H l i x e : ginv H l -> nth_error l i = Some x -> e_t x = TErr e -> e_ok x = false /\ memory_error e.
Proof.
  intros G Hx Ht. pose proof (g_good _ _ G _ _ Hx) as [Hs Ho _ _ _]. rewrite Ht in Hs, Ho. split; [|exact (proj2 (safe_err _ _ _ _ Ho))].
  destruct (e_ok x); [|reflexivity]. destruct (safe_err _ _ _ _ (Hs eq_refl)). discriminate.
Qed.
Theorem ginv_go H l i x : ginv H l -> nth_error l i = Some x -> (exists v, e_t x = TRet v) \/ (exists e, e_t x = TErr e) \/ exists H' t', thread_step H (e_t x) H' t'.
Proof.
  intros G Hx. pose proof (g_good _ _ G _ _ Hx) as [_ Hs _ _ _]. pose proof (g_sub _ _ G _ _ Hx) as Hsub.
  destruct (e_t x) as [v|e|o k|a k|a k|a o k|kd a k].
  - left. eauto.
  - right. left. eauto.
  - right. right. destruct (bump H (osize o)) as [a|] eqn:Ha; [|destruct (bump_never _ _ Ha)]. eexists _, _. eapply st_alloc. eapply bump_fresh. exact Ha.
  - right. right. destruct (safe_load _ _ _ _ _ Hs) as (o' & Ho' & Hno & Hs'). eexists _, _. eapply st_load. apply (load_live _ _ _ (Hsub _ _ Ho') Hno).
  - right. right. destruct (safe_use _ _ _ _ _ _ Hs) as [(o' & He & Hz) Hs']. eexists _, _. eapply st_use. exact (use_live _ _ _ o' (Hsub _ _ He) Hz).
  - right. right. destruct (safe_store _ _ _ _ _ _ Hs) as [(o' & Ho' & Hno) Hs']. eexists _, _. eapply st_store. apply (store_live _ _ _ _ (Hsub _ _ Ho') Hno).
  - right. right. destruct (safe_free _ _ _ _ _ _ Hs) as [(o' & Ho' & Hk) Hs']. eexists _, _. eapply st_free. apply (free_live _ _ _ _ (Hsub _ _ Ho') Hk).
Qed.
(** nobody touches a block that was there before *)
Theorem ginv_keeps H l : (forall a, sh a \/ ~ sh a) -> ginv H l -> keeps h0 H.
Proof.
  intros Hd G a o Ha. destruct (Hd a) as [Hs|Hs]; [rewrite (proj1 (g_shared _ _ G a Hs)); exact Ha|].
  rewrite (g_out _ _ G a); [exact Ha|]. intros i x Hx. destruct (hfind a (e_h x)) as [o'|] eqn:He; [|reflexivity].
  rewrite (g_new _ _ G i x Hx a) in Ha; [discriminate|congruence|exact Hs].
Qed.
(** every schedule ends *)
Definition lstep (l' l : list (heap * tree A)) : Prop :=
  exists l1 c c' l2, l = l1 ++ c :: l2 /\ l' = l1 ++ c' :: l2 /\ any_step (fst c) (snd c) (fst c') (snd c').
Lemma lstep_acc l : Forall (fun c => ends (fst c) (snd c)) l -> Acc lstep l.
Proof.
  induction l as [|c l IH]; intros Hl.
  - constructor. intros l' (l1 & c & c' & l2 & He & _). destruct l1; discriminate.
  - inversion Hl as [|? ? Hc Hr]; subst. specialize (IH Hr). clear Hl Hr. destruct c as [h t]. cbn [fst snd] in Hc. unfold ends in Hc. revert Hc.
    remember (h, t) as c eqn:Hc. clear Hc. intros Hc. revert l IH. induction Hc as [c _ IHc]. intros l Hl. induction Hl as [l Hl IHl].
    constructor. intros l' (l1 & d & d' & l2 & He & -> & Hs). destruct l1 as [|d0 l1]; cbn in He; injection He as -> ->; cbn [app].
    + apply IHc; [exact Hs|]. constructor. exact Hl.
    + apply IHl. exists l1, d, d', l2. auto.
Qed.
Theorem ginv_ends H l : ginv H l -> Forall (fun x => ends (e_h x) (e_t x)) l -> Acc (fun c' c => pool_once c c') (H, map e_t l).
Proof.
  intros G He. assert (Ha : Acc lstep (map (fun x => (e_h x, e_t x)) l)).
  { apply lstep_acc. apply Forall_map. exact He. }
  clear He. remember (map _ l) as m eqn:Hm. revert H l G Hm. induction Ha as [m _ IH]. intros H l G ->.
  constructor. intros [H' ts] Hst. remember (map e_t l) as ts0 eqn:Et. destruct Hst as (l1 & t & t' & l2 & E1 & E2 & Hs). cbn [fst snd] in *. subst ts ts0.
  rename E1 into Et. apply map_eq_app in Et as (m1 & m2 & -> & <- & Hm2). destruct m2 as [|x m2]; [discriminate|]. cbn in Hm2. injection Hm2 as <- <-.
  assert (Hx : exists x', e_t x' = t' /\ any_step (e_h x) (e_t x) (e_h x') t' /\ ginv H' (m1 ++ x' :: m2)).
  { destruct Hs as [Hs|Hs].
    - destruct (ginv_step _ _ _ _ _ _ G Hs) as (x' & H1 & _ & _ & _ & Hl & G'). exists x'. split; [exact H1|]. split; [left; exact Hl|exact G'].
    - destruct (ginv_fail _ _ _ _ _ _ G Hs) as (x' & H1 & _ & _ & _ & Hl & G'). exists x'. split; [exact H1|]. split; [right; exact Hl|exact G']. }
  destruct Hx as (x' & <- & Hl & G').
  replace (map e_t m1 ++ e_t x' :: map e_t m2) with (map e_t (m1 ++ x' :: m2)) by (rewrite map_app; reflexivity).
  eapply IH; [|exact G'|reflexivity]. rewrite !map_app. cbn [map]. eexists _, _, _, _. split; [reflexivity|]. split; [reflexivity|]. exact Hl.
Qed.
End One.
