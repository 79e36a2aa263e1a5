From Verif Require Import Base M_PackedArray M_Queue P_PackedArray P_Queue Histories.
From Coq Require Import ZifyBool.
Open Scope Z_scope.

Lemma run_sets_ok E h : forall p, pa_wf p -> Forall (fun '(i, v) => 0 <= i < pa_len p /\ 0 <= v < 2 ^ pa_bits p) h ->
  exists p', run_sets E p h = Ok p' /\ pa_wf p' /\ pa_bits p' = pa_bits p /\ pa_len p' = pa_len p /\
    forall j, 0 <= j < pa_len p -> pa_val E p' j = match last_stored h j (Some (pa_val E p j)) with Some v => v | None => 0 end.
Proof.
  induction h as [|[i v] h IH]; intros p Hp Hh; cbn [run_sets last_stored].
  - exists p. auto.
  - inversion Hh as [|a h' Hiv Hr]; subst. destruct Hiv as [Hi Hv].
    destruct (pa_set_ok E p i v Hp Hi Hv) as (p1 & H1 & Hwf & Hb & Hl & Hval). rewrite H1. cbn [bind].
    destruct (IH p1 Hwf) as (p2 & H2 & Hwf2 & Hb2 & Hl2 & Hval2).
    { rewrite Hl, Hb. assumption. }
    exists p2. split; [assumption|]. split; [assumption|]. split; [lia|]. split; [lia|].
    intros j Hj. rewrite Hval2 by lia. rewrite Hval by lia. rewrite (Z.eqb_sym j i). destruct (Z.eqb_spec i j); subst; reflexivity.
Qed.

Lemma last_stored_acc h : forall j a, last_stored h j a = match last_stored h j None with Some v => Some v | None => a end.
Proof.
  induction h as [|[i v] h IH]; intros j a; cbn [last_stored]; [destruct a; reflexivity|].
  rewrite (IH j (if i =? j then Some v else a)), (IH j (if i =? j then Some v else None)).
  destruct (last_stored h j None); [reflexivity|]. destruct (i =? j); reflexivity.
Qed.

Theorem packed_history E len b h : 1 <= b <= 64 -> 0 <= len -> len * b < 2 ^ 64 ->
  Forall (fun '(i, v) => 0 <= i < len /\ 0 <= v < 2 ^ b) h ->
  exists p, run_sets E (pa_new len b) h = Ok p /\
    (forall j, 0 <= j < len -> exists v, pa_get E p j = Ok v /\ 0 <= v < 2 ^ b) /\
    (forall j v, last_stored h j None = Some v -> pa_get E p j = Ok v) /\
    (forall j, 0 <= j < len -> last_stored h j None = None -> pa_get E p j = pa_get E (pa_new len b) j).
Proof.
  intros Hb Hl Ho Hh. pose proof (pa_new_wf len b Hb Hl Ho) as Hwf.
  destruct (run_sets_ok E h (pa_new len b) Hwf Hh) as (p & Hr & Hp & Hbits & Hlen & Hv).
  cbn [pa_new pa_bits pa_len] in Hbits, Hlen.
  exists p. split; [assumption|].
  assert (Hj : forall j v, last_stored h j None = Some v -> 0 <= j < len).
  { intros j v. assert (Hg : forall a, (a = None) -> last_stored h j a = Some v -> 0 <= j < len).
    2: { apply Hg. reflexivity. }
    clear - Hh. induction h as [|[i w] h IH]; intros a Ha; cbn [last_stored]; [congruence|]. inversion Hh as [|a' h' Hiv Hr]; subst. destruct Hiv as [Hi Hv].
    destruct (Z.eqb_spec i j); [subst; intros; lia|]. apply IH; [assumption|reflexivity]. }
  split; [|split].
  - intros j H. destruct (pa_get_ok E p j Hp ltac:(lia)) as [H1 H2]. rewrite Hbits in H2. eauto.
  - intros j v H. pose proof (Hj j v H) as Hjr. destruct (pa_get_ok E p j Hp ltac:(lia)) as [H1 _]. rewrite H1.
    rewrite Hv by assumption. rewrite last_stored_acc, H. reflexivity.
  - intros j Hjr H. destruct (pa_get_ok E p j Hp ltac:(lia)) as [H1 _]. rewrite H1.
    rewrite Hv by assumption. rewrite last_stored_acc, H.
    destruct (pa_get_ok E (pa_new len b) j Hwf Hjr) as [H2 _]. congruence.
Qed.

Theorem queue_history E w h : forall q l r, qrep E w q l -> Forall (op_fits w) h ->
  zlen l + zlen h < 2 ^ 64 ->
  seq_run l h = Some r -> q_run E q h = Ok r.
Proof.
  induction h as [|op h IH]; intros q l r Hq Hf Hlen; cbn [seq_run q_run]; [congruence|].
  inversion Hf as [|a h' Hop Hf']; subst. cbn [length] in Hlen.
  destruct op as [x|x| |]; cbn [seq_exec q_exec op_fits] in *.
  - destruct (seq_run (l ++ [x]) h) as [r'|] eqn:Hr; [|discriminate]. intros He; injection He as <-.
    destruct (enqueue_ok E w q l x Hq Hop) as (q' & H1 & H2). rewrite H1. cbn [bind].
    rewrite (IH q' _ r' H2 Hf'); [reflexivity| |assumption]. rewrite app_length. cbn [length]. lia.
  - destruct (seq_run (x :: l) h) as [r'|] eqn:Hr; [|discriminate]. intros He; injection He as <-.
    destruct (enqueue_l_ok E w q l x Hq Hop) as (q' & H1 & H2). rewrite H1. cbn [bind].
    rewrite (IH q' _ r' H2 Hf'); [reflexivity| |assumption]. cbn [length]. lia.
  - destruct l as [|x l]; [discriminate|].
    destruct (seq_run l h) as [r'|] eqn:Hr; [|discriminate]. intros He; injection He as <-.
    destruct (dequeue_ok E w q x l Hq) as (q' & H1 & H2). rewrite H1. cbn [bind]. cbn [length] in Hlen.
    rewrite (IH q' _ r' H2 Hf'); [reflexivity| |assumption]. lia.
  - destruct (seq_run l h) as [r'|] eqn:Hr; [|discriminate]. intros He; injection He as <-. cbn [bind].
    rewrite (IH q _ r' Hq Hf'); [|lia|assumption]. cbn [bind].
    rewrite (q_is_empty_ok E w q l Hq) by lia. destruct l; reflexivity.
Qed.

Theorem queue_history_new E w h r : 1 <= w <= 63 -> Forall (op_fits w) h -> zlen h < 2 ^ 64 ->
  seq_run [] h = Some r -> q_run E (q_new w) h = Ok r.
Proof. intros Hw Hf Hl. apply queue_history with (w := w); [apply q_new_rep; assumption|assumption|cbn [length]; lia]. Qed.

(** all widths up to 64 *)
Lemma swrap64_obs x : 0 <= x < 2 ^ 64 -> swrap 64 x = if x <? 2 ^ 63 then x else x - 2 ^ 64.
Proof.
  intros H. unfold swrap. change (64 - 1) with 63. change (2 ^ 64) with 18446744073709551616 in *. change (2 ^ 63) with 9223372036854775808 in *.
  destruct (Z.ltb_spec x 9223372036854775808).
  - rewrite Z.mod_small by lia. lia.
  - rewrite <- (Z.mod_unique (x + 9223372036854775808) 18446744073709551616 1 (x + 9223372036854775808 - 18446744073709551616)); lia.
Qed.
Theorem queue_history64 E w h : forall q l r, qrep64 E w q l -> Forall (op_fits w) h ->
  zlen l + zlen h < 2 ^ 64 ->
  seq_run l h = Some r -> q_run E q h = Ok (map signed_obs r).
Proof.
  induction h as [|op h IH]; intros q l r Hq Hf Hlen; cbn [seq_run q_run]; [intros He; injection He as <-; reflexivity|].
  inversion Hf as [|a h' Hop Hf']; subst. cbn [length] in Hlen.
  destruct op as [x|x| |]; cbn [seq_exec q_exec op_fits] in *.
  - destruct (seq_run (l ++ [x]) h) as [r'|] eqn:Hr; [|discriminate]. intros He; injection He as <-.
    destruct (enqueue_ok64 E w q l x Hq Hop) as (q' & H1 & H2). rewrite H1. cbn [bind].
    rewrite (IH q' _ r' H2 Hf'); [reflexivity| |assumption]. rewrite app_length. cbn [length]. lia.
  - destruct (seq_run (x :: l) h) as [r'|] eqn:Hr; [|discriminate]. intros He; injection He as <-.
    destruct (enqueue_l_ok64 E w q l x Hq Hop) as (q' & H1 & H2). rewrite H1. cbn [bind].
    rewrite (IH q' _ r' H2 Hf'); [reflexivity| |assumption]. cbn [length]. lia.
  - destruct l as [|x l]; [discriminate|].
    destruct (seq_run l h) as [r'|] eqn:Hr; [|discriminate]. intros He; injection He as <-.
    destruct (dequeue_signed E w q x l Hq) as (q' & H1 & H2). rewrite H1. cbn [bind]. cbn [length] in Hlen.
    rewrite (IH q' _ r' H2 Hf'); [|lia|assumption]. cbn [bind map signed_obs]. rewrite swrap64_obs; [reflexivity|].
    pose proof (qr_rng E w q _ Hq) as Hx. apply Forall_inv in Hx. pose proof (qr_wr E w q _ Hq) as Hw.
    assert (2 ^ w <= 2 ^ 64) by (apply Z.pow_le_mono_r; lia). lia.
  - destruct (seq_run l h) as [r'|] eqn:Hr; [|discriminate]. intros He; injection He as <-. cbn [bind].
    rewrite (IH q _ r' Hq Hf'); [|lia|assumption]. cbn [bind map signed_obs].
    rewrite (q_is_empty_ok64 E w q l Hq) by lia. destruct l; reflexivity.
Qed.
Theorem queue_history_new64 E w h r : 1 <= w <= 64 -> Forall (op_fits w) h -> zlen h < 2 ^ 64 ->
  seq_run [] h = Some r -> q_run E (q_new w) h = Ok (map signed_obs r).
Proof. intros Hw Hf Hl. apply queue_history64 with (w := w); [apply q_new_rep64; assumption|assumption|cbn [length]; lia]. Qed.

(** dequeue when the queue is empty *)
Lemma queue_empty_dequeue E w h : forall q l r, qrep64 E w q l -> Forall (op_fits w) h ->
  zlen l + zlen h < 2 ^ 64 ->
  seq_run l (h ++ [OpIsEmpty]) = Some (r ++ [ObsBool true]) ->
  q_run E q (h ++ [OpDequeue; OpIsEmpty]) = Err NullDeref \/
  exists x, q_run E q (h ++ [OpDequeue; OpIsEmpty]) = Ok (map signed_obs r ++ [ObsValue x; ObsBool false]).
Proof.
  induction h as [|op h IH]; intros q l r Hq Hf Hlen; cbn [app].
  - cbn [seq_run seq_exec]. intros He. injection He as He.
    destruct r as [|o r]; [|destruct r; discriminate]. cbn [app] in He. destruct l; [|discriminate]. clear He.
    cbn [q_run q_exec]. destruct (dequeue_empty E w q Hq) as [-> | (x & q' & -> & H2)]; [left; reflexivity|right].
    exists x. cbn [bind]. rewrite H2. reflexivity.
  - inversion Hf as [|a h' Hop Hf']; subst. cbn [length] in Hlen. cbn [seq_run q_run].
    assert (Hstep : forall l' o q' r0, seq_exec l op = Some (l', o) -> q_exec E q op = Ok (q', signed_obs o) -> qrep64 E w q' l' ->
      zlen l' + zlen h < 2 ^ 64 -> seq_run l' (h ++ [OpIsEmpty]) = Some r0 -> o :: r0 = r ++ [ObsBool true] ->
      ('(q', o) <- q_exec E q op ;; r <- q_run E q' (h ++ [OpDequeue; OpIsEmpty]) ;; Ok (o :: r)) = Err NullDeref \/
      exists x, ('(q', o) <- q_exec E q op ;; r <- q_run E q' (h ++ [OpDequeue; OpIsEmpty]) ;; Ok (o :: r)) = Ok (map signed_obs r ++ [ObsValue x; ObsBool false])).
    { intros l' o q' r0 _ Hx Hq' Hl' Hr Hcons. rewrite Hx. cbn [bind].
      destruct r as [|o' r]; cbn [app] in Hcons.
      - injection Hcons as -> ->. destruct h; cbn [app seq_run] in Hr; [discriminate|].
        destruct (seq_exec l' q0) as [[? ?]|]; [|discriminate]. destruct (seq_run l0 _); discriminate.
      - injection Hcons as -> ->. destruct (IH q' l' r Hq' Hf' Hl' Hr) as [-> | (x & ->)]; [left; reflexivity|right].
        exists x. reflexivity. }
    destruct op as [x|x| |]; cbn [seq_exec op_fits] in *.
    + destruct (seq_run (l ++ [x]) _) as [r0|] eqn:Hr; [|discriminate]. intros He. injection He as He.
      destruct (enqueue_ok64 E w q l x Hq Hop) as (q' & H1 & H2).
      eapply Hstep; [reflexivity| |exact H2| |exact Hr|exact He]; [cbn [q_exec]; rewrite H1; reflexivity|].
      rewrite app_length. cbn [length]. lia.
    + destruct (seq_run (x :: l) _) as [r0|] eqn:Hr; [|discriminate]. intros He. injection He as He.
      destruct (enqueue_l_ok64 E w q l x Hq Hop) as (q' & H1 & H2).
      eapply Hstep; [reflexivity| |exact H2| |exact Hr|exact He]; [cbn [q_exec]; rewrite H1; reflexivity|].
      cbn [length]. lia.
    + destruct l as [|x l]; [discriminate|].
      destruct (seq_run l _) as [r0|] eqn:Hr; [|discriminate]. intros He. injection He as He. cbn [length] in Hlen.
      destruct (dequeue_signed E w q x l Hq) as (q' & H1 & H2).
      eapply Hstep; [reflexivity| |exact H2| |exact Hr|exact He]; [|lia].
      cbn [q_exec]. rewrite H1. cbn [bind signed_obs]. rewrite swrap64_obs; [reflexivity|].
      pose proof (qr_rng E w q _ Hq) as Hx. apply Forall_inv in Hx. pose proof (qr_wr E w q _ Hq) as Hw.
      assert (2 ^ w <= 2 ^ 64) by (apply Z.pow_le_mono_r; lia). lia.
    + destruct (seq_run l _) as [r0|] eqn:Hr; [|discriminate]. intros He. injection He as He.
      eapply Hstep; [reflexivity| |exact Hq| |exact Hr|exact He]; [|lia].
      cbn [q_exec signed_obs]. rewrite (q_is_empty_ok64 E w q l Hq) by lia. destruct l; reflexivity.
Qed.
Theorem queue_empty_dequeue_new E w h r : 1 <= w <= 64 -> Forall (op_fits w) h -> zlen h < 2 ^ 64 ->
  seq_run [] (h ++ [OpIsEmpty]) = Some (r ++ [ObsBool true]) ->
  q_run E (q_new w) (h ++ [OpDequeue; OpIsEmpty]) = Err NullDeref \/
  exists x, q_run E (q_new w) (h ++ [OpDequeue; OpIsEmpty]) = Ok (map signed_obs r ++ [ObsValue x; ObsBool false]).
Proof. intros Hw Hf Hl. apply queue_empty_dequeue with (w := w) (l := []); [apply q_new_rep64; assumption|assumption|cbn [length]; lia]. Qed.
