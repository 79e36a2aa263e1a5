(** Proofs about M_Queue: the block queue refines a list. *)
From Verif Require Import Base M_PackedArray M_Queue P_PackedArray.
From Coq Require Import ZifyBool.
Open Scope Z_scope.
Ltac Zify.zify_post_hook ::= Z.div_mod_to_equations.

Notation zlen l := (Z.of_nat (length l)).

Definition dblk : packed := pa_new 0 1.
(** element number g of the concatenated blocks *)
Definition cell (E : env) (bs : list packed) (g : Z) : Z :=
  pa_val E (nth (Z.to_nat (g / 1024)) bs dblk) (g mod 1024).

Definition blk_ok (w : Z) (b : packed) : Prop := pa_wf b /\ pa_bits b = w /\ pa_len b = 1024.

(** [qrep64 E w q l]: queue q of width w holds the sequence l, front first *)
Record qrep64 (E : env) (w : Z) (q : queue) (l : list Z) : Prop := {
  qr_w : q_w q = w;
  qr_wr : 1 <= w <= 64;
  qr_blk : Forall (blk_ok w) (q_blocks q);
  qr_n : q_n q = u64 (zlen l);
  qr_shape : match q_blocks q with
             | [] => l = [] /\ q_s q = 0 /\ q_e q = 1023
             | _ => 0 <= q_s q < 1024 /\ 0 <= q_e q < 1024 /\
                    zlen l = 1024 * zlen (q_blocks q) - q_s q - 1023 + q_e q
             end;
  qr_val : forall k, 0 <= k < zlen l -> nth (Z.to_nat k) l 0 = cell E (q_blocks q) (q_s q + k);
  qr_rng : Forall (fun x => 0 <= x < 2 ^ w) l }.

Lemma q_new_rep64 E w : 1 <= w <= 64 -> qrep64 E w (q_new w) [].
Proof. intros H. constructor; cbn; auto; try lia. Qed.

Lemma new_blk w : 1 <= w <= 64 -> blk_ok w (pa_new 1024 w).
Proof. intros H. split; [apply pa_new_wf; lia | split; reflexivity]. Qed.

Lemma upd_last_app f r b b' : f b = Ok b' -> upd_last f (r ++ [b]) = Ok (r ++ [b']).
Proof.
  intros H. induction r as [|c r IH]; cbn [app upd_last].
  - rewrite H. reflexivity.
  - rewrite IH. cbn [bind]. destruct (r ++ [b]) eqn:Hr; [destruct r; discriminate|reflexivity].
Qed.

Lemma cell_last E r b b' i x :
  0 <= i < 1024 ->
  (forall j, 0 <= j < 1024 -> pa_val E b' j = if j =? i then x else pa_val E b j) ->
  forall g, 0 <= g < 1024 * zlen (r ++ [b]) ->
  cell E (r ++ [b']) g = if g =? 1024 * zlen r + i then x else cell E (r ++ [b]) g.
Proof.
  intros Hi Hv g Hg. unfold cell. rewrite app_length in Hg. cbn [length] in Hg.
  destruct (Z_lt_ge_dec (g / 1024) (zlen r)).
  - rewrite !app_nth1 by lia. replace (g =? 1024 * zlen r + i) with false by lia. reflexivity.
  - rewrite !app_nth2 by lia. replace (Z.to_nat (g / 1024) - length r)%nat with O by lia.
    cbn [nth]. rewrite Hv by lia.
    destruct (Z.eqb_spec (g mod 1024) i); destruct (Z.eqb_spec g (1024 * zlen r + i)); try lia; reflexivity.
Qed.

Lemma cell_first E r b b' i x :
  0 <= i < 1024 ->
  (forall j, 0 <= j < 1024 -> pa_val E b' j = if j =? i then x else pa_val E b j) ->
  forall g, 0 <= g ->
  cell E (b' :: r) g = if g =? i then x else cell E (b :: r) g.
Proof.
  intros Hi Hv g Hg. unfold cell. destruct (Z.to_nat (g / 1024)) eqn:Hk; cbn [nth].
  - rewrite Hv by lia.
    destruct (Z.eqb_spec (g mod 1024) i); destruct (Z.eqb_spec g i); try lia; reflexivity.
  - replace (g =? i) with false by lia. reflexivity.
Qed.

Lemma cell_cons E b r g : 0 <= g -> cell E (b :: r) (1024 + g) = cell E r g.
Proof.
  intros H. unfold cell. replace (Z.to_nat ((1024 + g) / 1024)) with (S (Z.to_nat (g / 1024))) by lia.
  cbn [nth]. f_equal. lia.
Qed.
Lemma cell_app E r b g : 0 <= g < 1024 * zlen r -> cell E (r ++ b) g = cell E r g.
Proof. intros H. unfold cell. rewrite app_nth1 by lia. reflexivity. Qed.

Lemma nth_snoc (l : list Z) x k : 0 <= k <= zlen l ->
  nth (Z.to_nat k) (l ++ [x]) 0 = if k =? zlen l then x else nth (Z.to_nat k) l 0.
Proof.
  intros H. destruct (Z.eqb_spec k (zlen l)) as [->|Hn].
  - rewrite app_nth2 by lia. replace (Z.to_nat (zlen l) - length l)%nat with O by lia. reflexivity.
  - rewrite app_nth1 by lia. reflexivity.
Qed.

Lemma u64_succ n : u64 (u64 n + 1) = u64 (n + 1).
Proof. unfold u64, wrap. rewrite Z.add_mod_idemp_l by lia. reflexivity. Qed.
Lemma u64_pred n : u64 (u64 n - 1) = u64 (n - 1).
Proof. unfold u64, wrap. rewrite Zminus_mod_idemp_l. reflexivity. Qed.

Lemma last_split {A} (l : list A) : l <> [] -> exists r x, l = r ++ [x].
Proof. intros H. destruct (exists_last H) as (r & x & Hx). eauto. Qed.

(** writing at position e of the last block when everything before is full *)
Lemma enq_finish E w bs s e q0 l x :
  1 <= w <= 64 -> Forall (blk_ok w) bs -> bs <> [] -> 0 <= s < 1024 -> 0 <= e < 1024 ->
  zlen l = 1024 * zlen bs - s - 1023 + e - 1 ->
  (forall k, 0 <= k < zlen l -> nth (Z.to_nat k) l 0 = cell E bs (s + k)) ->
  Forall (fun x => 0 <= x < 2 ^ w) l -> 0 <= x < 2 ^ w -> q_n q0 = u64 (zlen l) -> q_w q0 = w ->
  exists bs', upd_last (fun b => pa_set E b e x) bs = Ok bs' /\
    qrep64 E w (mkqueue (u64 (q_n q0 + 1)) (q_w q0) bs' s e) (l ++ [x]).
Proof.
  intros Hw Hbs Hne Hs He Hlen Hval Hr Hx Hn Hqw.
  destruct (last_split bs Hne) as (r & b & ->).
  apply Forall_app in Hbs as [Hr1 Hb1]. inversion Hb1 as [|? ? Hb _]; subst.
  destruct Hb as (Hwf & Hbits & Hpl).
  destruct (pa_set_ok E b e x) as (b' & Hset & Hwf' & Hbits' & Hlen' & Hv'); try lia; try assumption.
  { rewrite Hbits. lia. }
  exists (r ++ [b']). split; [apply upd_last_app; exact Hset|].
  rewrite app_length in Hlen; cbn [length] in Hlen.
  assert (Hl1 : zlen (r ++ [b']) = zlen r + 1) by (rewrite app_length; cbn [length]; lia).
  constructor; cbn [q_w q_blocks q_n q_s q_e].
  - reflexivity.
  - lia.
  - apply Forall_app; split; [assumption|]. constructor; [|constructor]. split; [assumption|]. split; congruence.
  - rewrite Hn. rewrite u64_succ. f_equal. rewrite app_length; cbn [length]. lia.
  - destruct (r ++ [b']) eqn:Hrb; [destruct r; discriminate|]. rewrite <- Hrb in *.
    split; [lia|]. split; [lia|]. rewrite app_length; cbn [length]. lia.
  - intros k Hk. rewrite app_length in Hk; cbn [length] in Hk. rewrite nth_snoc by lia.
    rewrite (cell_last E r b b' e x) by (try rewrite app_length; cbn [length]; try lia; intros; apply Hv'; lia).
    destruct (Z.eqb_spec k (zlen l)); destruct (Z.eqb_spec (s + k) (1024 * zlen r + e)); [lia|lia|lia|].
    apply Hval; lia.
  - apply Forall_app; split; [assumption|]. constructor; [assumption|constructor].
Qed.

Theorem enqueue_ok64 E w q l x : qrep64 E w q l -> 0 <= x < 2 ^ w ->
  exists q', enqueue E q x = Ok q' /\ qrep64 E w q' (l ++ [x]).
Proof.
  intros [Hw Hwr Hblk Hn Hsh Hval Hrng] Hx. unfold enqueue, QSIZ.
  destruct (q_blocks q) as [|b0 r0] eqn:Hbs.
  - destruct Hsh as (-> & Hs & He). rewrite He.
    replace (1023 =? 1024 - 1) with true by reflexivity.
    destruct (enq_finish E w [pa_new 1024 (q_w q)] 0 0 q [] x) as (bs' & Hu & Hq'); auto; try lia; cbn [length]; try lia; try discriminate.
    { rewrite Hw. constructor; [apply new_blk; lia|constructor]. }
    replace (-1 + 1) with 0 by lia. rewrite Hu. cbn [bind]. eauto.
  - destruct Hsh as (Hs & He & Hlen).
    destruct (Z.eqb_spec (q_e q) (1024 - 1)) as [Hee|Hee].
    + destruct (enq_finish E w ((b0 :: r0) ++ [pa_new 1024 (q_w q)]) (q_s q) 0 q l x) as (bs' & Hu & Hq'); auto; try lia.
      * apply Forall_app; split; [assumption|]. rewrite Hw. constructor; [apply new_blk; lia|constructor].
      * discriminate.
      * rewrite app_length. cbn [length] in *. lia.
      * intros k Hk. rewrite cell_app by lia. apply Hval; lia.
      * replace (-1 + 1) with 0 by lia. rewrite Hu. cbn [bind]. eauto.
    + destruct (enq_finish E w (b0 :: r0) (q_s q) (q_e q + 1) q l x) as (bs' & Hu & Hq'); auto; try lia.
      * discriminate.
      * rewrite Hu. cbn [bind]. eauto.
Qed.

Lemma enql_finish E w b r s e q0 l x :
  1 <= w <= 64 -> Forall (blk_ok w) (b :: r) -> 0 <= s < 1024 -> 0 <= e < 1024 ->
  zlen l = 1024 * zlen (b :: r) - s - 1023 + e - 1 ->
  (forall k, 0 <= k < zlen l -> nth (Z.to_nat k) l 0 = cell E (b :: r) (s + 1 + k)) ->
  Forall (fun x => 0 <= x < 2 ^ w) l -> 0 <= x < 2 ^ w -> q_n q0 = u64 (zlen l) -> q_w q0 = w ->
  exists b', pa_set E b s x = Ok b' /\
    qrep64 E w (mkqueue (u64 (q_n q0 + 1)) (q_w q0) (b' :: r) s e) (x :: l).
Proof.
  intros Hw Hbs Hs He Hlen Hval Hr Hx Hn Hqw.
  inversion Hbs as [|? ? Hb Hrr]; subst. destruct Hb as (Hwf & Hbits & Hpl).
  destruct (pa_set_ok E b s x) as (b' & Hset & Hwf' & Hbits' & Hlen' & Hv'); try lia; try assumption.
  { rewrite Hbits. lia. }
  exists b'. split; [exact Hset|].
  constructor; cbn [q_w q_blocks q_n q_s q_e].
  - reflexivity.
  - lia.
  - constructor; [|assumption]. split; [assumption|]. split; congruence.
  - rewrite Hn. rewrite u64_succ. f_equal. cbn [length]. lia.
  - split; [lia|]. split; [lia|]. cbn [length] in *. lia.
  - intros k Hk. cbn [length] in *.
    rewrite (cell_first E r b b' s x) by (try lia; intros; apply Hv'; lia).
    destruct (Z.eqb_spec (s + k) s).
    + replace (Z.to_nat k) with O by lia. reflexivity.
    + replace (Z.to_nat k) with (S (Z.to_nat (k - 1))) by lia. cbn [nth]. rewrite Hval by lia. f_equal; lia.
  - constructor; assumption.
Qed.

Theorem enqueue_l_ok64 E w q l x : qrep64 E w q l -> 0 <= x < 2 ^ w ->
  exists q', enqueue_l E q x = Ok q' /\ qrep64 E w q' (x :: l).
Proof.
  intros [Hw Hwr Hblk Hn Hsh Hval Hrng] Hx. unfold enqueue_l, QSIZ.
  destruct (q_blocks q) as [|b0 r0] eqn:Hbs.
  - destruct Hsh as (-> & Hs & He). rewrite Hs. replace (0 =? 0) with true by reflexivity.
    destruct (enql_finish E w (pa_new 1024 (q_w q)) [] 1023 1023 q [] x) as (bs' & Hu & Hq'); auto; try lia; cbn [length]; try lia.
    { rewrite Hw. constructor; [apply new_blk; lia|constructor]. }
    replace (1024 - 1) with 1023 by lia. rewrite Hu. cbn [bind]. eauto.
  - destruct Hsh as (Hs & He & Hlen).
    destruct (Z.eqb_spec (q_s q) 0) as [Hee|Hee].
    + destruct (enql_finish E w (pa_new 1024 (q_w q)) (b0 :: r0) 1023 (q_e q) q l x) as (bs' & Hu & Hq'); auto; try lia.
      * rewrite Hw. constructor; [apply new_blk; lia|assumption].
      * cbn [length] in *. lia.
      * intros k Hk. replace (1023 + 1 + k) with (1024 + k) by lia. rewrite cell_cons by lia. rewrite Hval by lia. f_equal; lia.
      * replace (1024 - 1) with 1023 by lia. rewrite Hu. cbn [bind]. eauto.
    + destruct (enql_finish E w b0 r0 (q_s q - 1) (q_e q) q l x) as (bs' & Hu & Hq'); auto; try lia.
      * intros k Hk. rewrite Hval by lia. f_equal; lia.
      * rewrite Hu. cbn [bind]. eauto.
Qed.

(** dequeue returns an int64_t *)
Theorem dequeue_signed E w q x l : qrep64 E w q (x :: l) ->
  exists q', dequeue E q = Ok (swrap 64 x, q') /\ qrep64 E w q' l.
Proof.
  intros [Hw Hwr Hblk Hn Hsh Hval Hrng]. unfold dequeue, QSIZ.
  destruct (q_blocks q) as [|b r] eqn:Hbs; [destruct Hsh; discriminate|].
  destruct Hsh as (Hs & He & Hlen).
  inversion Hblk as [|? ? Hb Hr]; subst. destruct Hb as (Hwf & Hbits & Hpl).
  inversion Hrng as [|? ? Hx Hrng']; subst.
  pose proof (pa_get_ok E b (q_s q) Hwf ltac:(lia)) as [Hg Hgr].
  rewrite Hg. cbn [bind].
  assert (Hxv : pa_val E b (q_s q) = x).
  { specialize (Hval 0 ltac:(cbn [length]; lia)). cbn [Z.to_nat nth] in Hval. rewrite Hval.
    unfold cell. replace ((q_s q + 0) / 1024) with 0 by lia. cbn [Z.to_nat nth]. f_equal; lia. }
  rewrite Hxv.
  assert (Hn' : u64 (q_n q - 1) = u64 (zlen l)).
  { rewrite Hn, u64_pred. f_equal. cbn [length]; lia. }
  assert (Hvn : forall k, 0 <= k < zlen l -> nth (Z.to_nat k) l 0 = cell E (b :: r) (q_s q + 1 + k)).
  { intros k Hk. specialize (Hval (k + 1) ltac:(cbn [length]; lia)).
    replace (Z.to_nat (k + 1)) with (S (Z.to_nat k)) in Hval by lia. cbn [nth] in Hval. rewrite Hval. f_equal; lia. }
  destruct (Z.eqb_spec (q_s q + 1) 1024) as [Hq|Hq].
  - destruct r as [|b1 r1].
    + eexists; split; [reflexivity|]. cbn [length] in *.
      assert (l = []) by (destruct l; [reflexivity|cbn [length] in *; lia]). subst l.
      constructor; cbn [q_w q_blocks q_n q_s q_e]; auto. cbn [length]; lia.
    + eexists; split; [reflexivity|]. constructor; cbn [q_w q_blocks q_n q_s q_e]; auto.
      * split; [lia|]. split; [lia|]. cbn [length] in *. lia.
      * intros k Hk. rewrite Hvn by lia. rewrite Hq. rewrite cell_cons by lia. f_equal.
  - eexists; split; [reflexivity|]. constructor; cbn [q_w q_blocks q_n q_s q_e]; auto.
    split; [lia|]. split; [lia|]. cbn [length] in *. lia.
Qed.

Theorem q_is_empty_ok64 E w q l : qrep64 E w q l -> zlen l < 2 ^ 64 ->
  q_is_empty q = match l with [] => true | _ => false end.
Proof.
  intros [Hw Hwr Hblk Hn Hsh Hval Hrng] Hl. unfold q_is_empty. rewrite Hn.
  unfold u64. rewrite wrap_small by lia. destruct l; cbn [length]; lia.
Qed.

(** queues of at most 63 bits, whose values dequeue returns unchanged *)
Definition qrep (E : env) (w : Z) (q : queue) (l : list Z) : Prop := qrep64 E w q l /\ w <= 63.
Lemma q_new_rep E w : 1 <= w <= 63 -> qrep E w (q_new w) [].
Proof. intros H. split; [apply q_new_rep64|]; lia. Qed.
Theorem enqueue_ok E w q l x : qrep E w q l -> 0 <= x < 2 ^ w ->
  exists q', enqueue E q x = Ok q' /\ qrep E w q' (l ++ [x]).
Proof. intros [H Hw] Hx. destruct (enqueue_ok64 E w q l x H Hx) as (q' & H1 & H2). exists q'. split; [assumption|split; assumption]. Qed.
Theorem enqueue_l_ok E w q l x : qrep E w q l -> 0 <= x < 2 ^ w ->
  exists q', enqueue_l E q x = Ok q' /\ qrep E w q' (x :: l).
Proof. intros [H Hw] Hx. destruct (enqueue_l_ok64 E w q l x H Hx) as (q' & H1 & H2). exists q'. split; [assumption|split; assumption]. Qed.
Theorem dequeue_ok E w q x l : qrep E w q (x :: l) ->
  exists q', dequeue E q = Ok (x, q') /\ qrep E w q' l.
Proof.
  intros [H Hw]. destruct (dequeue_signed E w q x l H) as (q' & H1 & H2). exists q'. split; [|split; assumption].
  rewrite H1, swrap_small; [reflexivity|lia|]. pose proof (qr_wr E w q _ H) as Hr.
  assert (2 ^ w <= 2 ^ (64 - 1)) by (apply Z.pow_le_mono_r; lia).
  pose proof (qr_rng E w q _ H) as Hx. apply Forall_inv in Hx. lia.
Qed.
Theorem q_is_empty_ok E w q l : qrep E w q l -> zlen l < 2 ^ 64 ->
  q_is_empty q = match l with [] => true | _ => false end.
Proof. intros [H _]. apply (q_is_empty_ok64 E w q l H). Qed.

(** dequeue on an empty queue: no block, or a value that is no element, and a queue that no longer
    counts as empty *)
Lemma dequeue_empty E w q : qrep64 E w q [] ->
  dequeue E q = Err NullDeref \/ exists x q', dequeue E q = Ok (x, q') /\ q_is_empty q' = false.
Proof.
  intros [Hw Hwr Hblk Hn Hsh Hval Hrng]. unfold dequeue.
  destruct (q_blocks q) as [|b r] eqn:Hbs; [left; reflexivity|right].
  destruct Hsh as (Hs & He & Hlen). inversion Hblk as [|? ? Hb Hr]; subst. destruct Hb as (Hwf & Hbits & Hpl).
  pose proof (pa_get_ok E b (q_s q) Hwf ltac:(lia)) as [Hg Hgr]. rewrite Hg. cbn [bind].
  destruct (if q_s q + 1 =? QSIZ then _ else _) as [[bs s] e].
  eexists _, _. split; [reflexivity|]. unfold q_is_empty. cbn [q_n]. rewrite Hn. reflexivity.
Qed.
