(** bwt_file as system calls on a shared file system (M_Fs.v): what every reachable state looks like. *)
From Verif Require Import Base M_Induce M_Flbwt M_File M_Fs FsSpec Spec BlockSpec Text P_Spec P_Lists P_Blocks P_Flbwt P_File P_Api P_Sorter P_Props P_Props2.
Open Scope Z_scope.

(** * The file system *)
Lemma fset_same F p c : fset F p c p = Some c.
Proof. unfold fset. rewrite Nat.eqb_refl. reflexivity. Qed.
Lemma fset_other F p q c : q <> p -> fset F p c q = F q.
Proof. intros H. unfold fset. rewrite (proj2 (Nat.eqb_neq q p) H). reflexivity. Qed.
Lemma write_at_end c x : write_at c (length c) x = c ++ x.
Proof. unfold write_at. rewrite firstn_all, Nat.sub_diag, skipn_all2 by lia. cbn [repeat app]. rewrite app_nil_r. reflexivity. Qed.

(** * One call *)
(** what the input file may contain *)
Definition good_content (hts : Z) (E : env) (c : list Z) : Prop :=
  c = [] \/ (Forall is_byte c /\ 3 <= Z.of_nat (length c) <= 2 ^ 58 /\ fresh_good E hts c).
Definition good_job (hts : Z) (F0 : fsys) (j : job) : Prop :=
  std_sort (j_srt j) /\ forall c, F0 (j_in j) = Some c -> good_content hts (j_env j) c.

(** what a call knows and has done *)
Definition inv1 (full : bool) (F0 F : fsys) (j : job) (s : pst) : Prop :=
  match s with
  | AtOpen => F (j_in j) = F0 (j_in j) /\ F (j_out j) = F0 (j_out j)
  | AtSize => F (j_in j) = F0 (j_in j) /\ F (j_out j) = F0 (j_out j) /\ exists c, F0 (j_in j) = Some c
  | AtRead n got => F (j_in j) = F0 (j_in j) /\ F (j_out j) = F0 (j_out j) /\ exists c rest, F0 (j_in j) = Some c /\ n = Z.of_nat (length c) /\ got ++ rest = c
  | AtCreate out => F (j_in j) = F0 (j_in j) /\ F (j_out j) = F0 (j_out j) /\ exists c, F0 (j_in j) = Some c /\ out = file_output c
  | AtWrite pos todo => exists c d, F0 (j_in j) = Some c /\ F (j_out j) = Some d /\ d ++ todo = file_output c /\ pos = length d
  | Finished (Ok tt) => exists c d todo, F0 (j_in j) = Some c /\ F (j_out j) = Some d /\ d ++ todo = file_output c /\ (full = false -> todo = [])
  | Finished (Err e) => (e = InvalidArgument \/ e = RuntimeError) /\ F (j_out j) = F0 (j_out j)
  end.
Lemma inv1_frame full F0 F F' j s : F' (j_in j) = F (j_in j) -> F' (j_out j) = F (j_out j) -> inv1 full F0 F j s -> inv1 full F0 F' j s.
Proof. intros H1 H2. destruct s as [| |? ?| | |[[]|e]]; cbn [inv1]; rewrite ?H1, ?H2; auto. Qed.

(** an upper bound for the number of steps that are left *)
Definition left_steps (F0 : fsys) (j : job) (s : pst) : nat :=
  let L := match F0 (j_in j) with Some c => length c | None => 0%nat end in
  match s with
  | AtOpen => (13 + 2 * L)%nat | AtSize => (12 + 2 * L)%nat | AtRead _ got => (11 + L + (L - length got))%nat
  | AtCreate out => (2 + length out)%nat | AtWrite _ todo => (1 + length todo)%nat | Finished _ => 0%nat
  end.

Lemma step_inv hts full F0 j F s F' s' : 1 <= hts <= 2 ^ 48 -> good_job hts F0 j -> step hts full j (F, s) (F', s') -> inv1 full F0 F j s ->
  inv1 full F0 F' j s' /\ (forall p, p <> j_out j -> F' p = F p) /\ (left_steps F0 j s' < left_steps F0 j s)%nat.
Proof.
  intros Hts [Hs Hg] Hst Hi. inversion Hst; subst; cbn [inv1 left_steps] in *.
  - destruct Hi as [Hi1 Hi2]. split; [|split; [auto|lia]]. rewrite Hi1 in *. split; [reflexivity|]. split; [exact Hi2|]. eexists; eassumption.
  - destruct Hi as [Hi1 Hi2]. split; [|split; [auto|lia]]. split; [left; reflexivity|exact Hi2].
  - destruct Hi as (Hi1 & Hi2 & d & Hd). split; [|split; [auto|lia]]. split; [exact Hi1|]. split; [exact Hi2|].
    exists d, d. split; [exact Hd|]. split; [congruence|reflexivity].
  - destruct Hi as (Hi1 & Hi2 & d & rest & Hd & Hn & Hr). split; [|split; [auto|lia]]. split; [right; reflexivity|exact Hi2].
  - destruct Hi as (Hi1 & Hi2 & d & rest & Hd & -> & Hr). assert (c = d) by congruence. subst c.
    assert (Hxy : rest = x ++ y). { match goal with H : skipn _ d = x ++ y |- _ => rewrite <- H end. rewrite <- Hr, skipn_app, skipn_all, Nat.sub_diag. reflexivity. }
    split; [|split; [auto|]].
    + split; [exact Hi1|]. split; [exact Hi2|]. exists d, y. split; [exact Hd|]. split; [reflexivity|]. rewrite <- app_assoc, <- Hxy. exact Hr.
    + rewrite Hd. rewrite <- Hr, Hxy, !app_length. destruct x; [congruence|]. cbn [length]. lia.
  - destruct Hi as (Hi1 & Hi2 & d & rest & Hd & -> & Hr). assert (c = d) by congruence. subst c. rename d into c.
    assert (Hgot : got = c). { pose proof (f_equal (@length Z) Hr) as Hl. rewrite app_length in Hl. destruct rest; [rewrite app_nil_r in Hr; exact Hr|cbn [length] in Hl; lia]. }
    clear Hr. subst got.
    destruct (Hg c Hd) as [->|(Hb & Hn & Hf)].
    + rewrite file_empty by (cbn; auto). split; [|split; [auto|cbn [left_steps]; lia]]. cbn [inv1]. split; [right; reflexivity|exact Hi2].
    + rewrite file_ok by (cbn; auto; lia). cbn [in_data]. split; [|split; [auto|]].
      * cbn [inv1]. split; [exact Hi1|]. split; [exact Hi2|]. exists c. split; [exact Hd|reflexivity].
      * cbn [left_steps]. rewrite Hd, output_length. lia.
  - destruct Hi as (Hi1 & Hi2 & c & Hc & ->). split; [|split; [|lia]].
    + exists c, []. rewrite fset_same. auto.
    + intros p Hp. apply fset_other. exact Hp.
  - destruct Hi as (Hi1 & Hi2 & d & Hd & ->). split; [|split; [auto|lia]]. split; [left; reflexivity|exact Hi2].
  - destruct Hi as (b & d & Hb & Hd & Ho & ->). assert (c = d) by congruence. subst c. split; [|split].
    + exists b, (d ++ x). rewrite fset_same, write_at_end, app_length, <- app_assoc. auto.
    + intros p Hp. apply fset_other. exact Hp.
    + rewrite app_length. destruct x; [congruence|]. cbn [length]. lia.
  - destruct Hi as (b & d & Hb & Hd & Ho & ->). split; [|split; [auto|lia]]. exists b, d, todo. split; [exact Hb|]. split; [exact Hd|]. split; [exact Ho|discriminate].
  - destruct Hi as (b & d & Hb & Hd & Ho & ->). split; [|split; [auto|lia]]. exists b, d, []. auto.
Qed.
(** a call that has not returned can always go on *)
Lemma step_live hts full F0 j F s : inv1 full F0 F j s -> (exists r, s = Finished r) \/ exists x, step hts full j (F, s) x.
Proof.
  intros Hi. destruct s as [| |n got|out|pos todo|r]; cbn [inv1] in Hi.
  - right. eexists. apply st_open_fails.
  - destruct Hi as (Hi1 & _ & c & Hc). right. eexists. apply st_size with (c := c). congruence.
  - destruct Hi as (Hi1 & _ & c & rest & Hc & -> & Hr). right. destruct rest as [|b rest].
    + rewrite app_nil_r in Hr. subst got. eexists. apply st_read_done with (c := c); [congruence|right; lia].
    + eexists. apply st_read with (c := c) (x := b :: rest) (y := []); [congruence| |discriminate|].
      * rewrite <- Hr, skipn_app, skipn_all, Nat.sub_diag, app_nil_r. reflexivity.
      * rewrite <- Hr, app_length. lia.
  - right. eexists. apply st_create.
  - destruct Hi as (c & d & _ & Hd & _). right. destruct todo as [|b todo]; [eexists; apply st_close|].
    eexists. apply (st_write hts full j F d pos [b] todo Hd). discriminate.
  - left. exists r. reflexivity.
Qed.

(** * Several calls *)
Definition total_left (F0 : fsys) (ps : list (job * pst)) : nat := list_sum (map (fun p => left_steps F0 (fst p) (snd p)) ps).
Definition sys_inv (full : bool) (F0 : fsys) (jobs : list job) (x : fsys * list (job * pst)) : Prop :=
  map fst (snd x) = jobs /\ Forall (fun p => inv1 full F0 (fst x) (fst p) (snd p)) (snd x) /\
  forall p, (forall j, In j jobs -> j_out j <> p) -> fst x p = F0 p.

Lemma indep_mid a j b p : independent (map fst (a ++ (j : job, p : pst) :: b)) -> forall q, In q a \/ In q b -> j_in (fst q) <> j_out j /\ j_out (fst q) <> j_out j.
Proof.
  intros Hi q Hq. rewrite map_app in Hi. cbn [map fst] in Hi.
  assert (H : exists k, k <> length (map fst a) /\ nth_error (map fst a ++ j :: map fst b) k = Some (fst q)).
  { destruct Hq as [Hq|Hq]; destruct (In_nth_error _ _ (in_map fst _ _ Hq)) as [k Hk]; pose proof (proj1 (nth_error_Some _ _) ltac:(rewrite Hk; discriminate)) as Hl.
    - exists k. split; [lia|]. rewrite nth_error_app1 by lia. exact Hk.
    - exists (length (map fst a) + S k)%nat. split; [lia|]. rewrite nth_error_app2 by lia.
      replace (length (map fst a) + S k - length (map fst a))%nat with (S k) by lia. exact Hk. }
  destruct H as (k & Hk & Hn).
  destruct (Hi (length (map fst a)) k j (fst q) ltac:(lia)) as [A B].
  - rewrite nth_error_app2, Nat.sub_diag by lia. reflexivity.
  - exact Hn.
  - split; congruence.
Qed.

Lemma sys_step_inv hts full F0 jobs x y : 1 <= hts <= 2 ^ 48 -> Forall (good_job hts F0) jobs -> independent jobs ->
  sys_step hts full x y -> sys_inv full F0 jobs x -> sys_inv full F0 jobs y /\ (total_left F0 (snd y) < total_left F0 (snd x))%nat.
Proof.
  intros Hts Hg Hind Hst (Hm & Hf & Hp). inversion Hst as [F F' a j s s' b Hj]; subst x y. cbn [fst snd] in *.
  apply Forall_app in Hf as [Hfa Hfb]. apply Forall_cons_iff in Hfb as [Hfj Hfb]. cbn [fst snd] in *.
  assert (Hgj : good_job hts F0 j).
  { rewrite <- Hm, map_app in Hg. apply Forall_app in Hg as [_ Hg]. cbn [map fst] in Hg. apply Forall_cons_iff in Hg. apply Hg. }
  destruct (step_inv hts full F0 j F s F' s' Hts Hgj Hj Hfj) as (H1 & H2 & H3).
  assert (Hoth : forall q, In q a \/ In q b -> inv1 full F0 F (fst q) (snd q) -> inv1 full F0 F' (fst q) (snd q)).
  { intros q Hq. rewrite <- Hm in Hind. destruct (indep_mid _ _ _ _ Hind q Hq) as [A B]. apply inv1_frame; apply H2; assumption. }
  split.
  - split; [|split]; cbn [fst snd].
    + rewrite <- Hm, !map_app. reflexivity.
    + apply Forall_app. split; [|apply Forall_cons; [exact H1|]]; rewrite Forall_forall in *; intros q Hq; apply Hoth; auto.
    + intros p Hnp. rewrite H2; [apply Hp; exact Hnp|]. intros ->. apply (Hnp j); [|reflexivity]. rewrite <- Hm, map_app. apply in_or_app. right. left. reflexivity.
  - cbn [snd]. unfold total_left. rewrite !map_app, !list_sum_app. cbn [map list_sum fold_right fst snd]. lia.
Qed.
Lemma sys_inv_start full F0 jobs : sys_inv full F0 jobs (F0, start jobs).
Proof.
  split; [|split]; cbn [fst snd].
  - unfold start. rewrite map_map. apply map_id.
  - unfold start. apply Forall_forall. intros p Hp. apply in_map_iff in Hp as (j & <- & _). cbn [inv1 fst snd]. auto.
  - reflexivity.
Qed.
Lemma run_inv hts full F0 jobs k x y : 1 <= hts <= 2 ^ 48 -> Forall (good_job hts F0) jobs -> independent jobs ->
  run hts full k x y -> sys_inv full F0 jobs x -> sys_inv full F0 jobs y /\ (k + total_left F0 (snd y) <= total_left F0 (snd x))%nat.
Proof.
  intros Hts Hg Hi Hr. induction Hr as [x|k x y z Hr IH Hs]; intros Hx; [auto|].
  destruct (IH Hx) as [Hy Hk]. destruct (sys_step_inv hts full F0 jobs y z Hts Hg Hi Hs Hy) as [Hz Hl]. split; [exact Hz|lia].
Qed.

(** ** what an observer sees *)
Definition prefix (a b : list Z) : Prop := exists c, a ++ c = b.
Lemma fs_untouched hts full F0 jobs k F ps : 1 <= hts <= 2 ^ 48 -> Forall (good_job hts F0) jobs -> independent jobs ->
  run hts full k (F0, start jobs) (F, ps) -> forall p, (forall j, In j jobs -> j_out j <> p) -> F p = F0 p.
Proof.
  intros Hts Hg Hi Hr. destruct (run_inv hts full F0 jobs k _ _ Hts Hg Hi Hr (sys_inv_start full F0 jobs)) as [(_ & _ & Hp) _]. exact Hp.
Qed.
Lemma fs_job hts full F0 jobs k F ps j s : 1 <= hts <= 2 ^ 48 -> Forall (good_job hts F0) jobs -> independent jobs ->
  run hts full k (F0, start jobs) (F, ps) -> In (j, s) ps -> inv1 full F0 F j s.
Proof.
  intros Hts Hg Hi Hr Hj. destruct (run_inv hts full F0 jobs k _ _ Hts Hg Hi Hr (sys_inv_start full F0 jobs)) as [(_ & Hf & _) _].
  cbn [fst snd] in Hf. rewrite Forall_forall in Hf. exact (Hf (j, s) Hj).
Qed.
Lemma fs_output hts full F0 jobs k F ps j s : 1 <= hts <= 2 ^ 48 -> Forall (good_job hts F0) jobs -> independent jobs ->
  run hts full k (F0, start jobs) (F, ps) -> In (j, s) ps ->
  F (j_out j) = F0 (j_out j) \/ exists c d, F0 (j_in j) = Some c /\ F (j_out j) = Some d /\ prefix d (file_output c).
Proof.
  intros Hts Hg Hi Hr Hj. pose proof (fs_job _ _ _ _ _ _ _ _ _ Hts Hg Hi Hr Hj) as H.
  destruct s as [| |n got|out|pos todo|[[]|e]]; cbn [inv1] in H; try (left; tauto).
  - destruct H as (c & d & Hc & Hd & Ho & _). right. exists c, d. split; [exact Hc|]. split; [exact Hd|]. exists todo. exact Ho.
  - destruct H as (c & d & todo & Hc & Hd & Ho & _). right. exists c, d. split; [exact Hc|]. split; [exact Hd|]. exists todo. exact Ho.
Qed.
Lemma fs_returned hts F0 jobs k F ps j : 1 <= hts <= 2 ^ 48 -> Forall (good_job hts F0) jobs -> independent jobs ->
  run hts false k (F0, start jobs) (F, ps) -> In (j, Finished (Ok tt)) ps -> exists c, F0 (j_in j) = Some c /\ F (j_out j) = Some (file_output c).
Proof.
  intros Hts Hg Hi Hr Hj. pose proof (fs_job _ _ _ _ _ _ _ _ _ Hts Hg Hi Hr Hj) as H. cbn [inv1] in H.
  destruct H as (c & d & todo & Hc & Hd & Ho & Ht). specialize (Ht eq_refl). subst todo. rewrite app_nil_r in Ho. subst d. exists c. auto.
Qed.
Lemma fs_threw hts full F0 jobs k F ps j e : 1 <= hts <= 2 ^ 48 -> Forall (good_job hts F0) jobs -> independent jobs ->
  run hts full k (F0, start jobs) (F, ps) -> In (j, Finished (Err e)) ps -> (e = InvalidArgument \/ e = RuntimeError) /\ F (j_out j) = F0 (j_out j).
Proof. intros Hts Hg Hi Hr Hj. exact (fs_job _ _ _ _ _ _ _ _ _ Hts Hg Hi Hr Hj). Qed.
Lemma list_sum_le {A} (f g : A -> nat) l : (forall x, In x l -> f x <= g x)%nat -> (list_sum (map f l) <= list_sum (map g l))%nat.
Proof. induction l as [|a l IH]; intros H; [cbn; lia|]. pose proof (H a (or_introl eq_refl)). pose proof (IH (fun x Hx => H x (or_intror Hx))). cbn [map list_sum fold_right] in *. unfold list_sum in *. lia. Qed.
Lemma fs_bound hts full F0 jobs k F ps : 1 <= hts <= 2 ^ 48 -> Forall (good_job hts F0) jobs -> independent jobs ->
  run hts full k (F0, start jobs) (F, ps) ->
  (k <= list_sum (map (fun j => 13 + 2 * match F0 (j_in j) with Some c => length c | None => 0 end) jobs))%nat /\
  (k + total_left F0 ps <= list_sum (map (fun j => 13 + 2 * match F0 (j_in j) with Some c => length c | None => 0 end) jobs))%nat.
Proof.
  intros Hts Hg Hi Hr. destruct (run_inv hts full F0 jobs k _ _ Hts Hg Hi Hr (sys_inv_start full F0 jobs)) as [_ Hk].
  cbn [snd] in Hk. unfold total_left at 2 in Hk. unfold start in Hk. rewrite map_map in Hk. cbn [fst snd left_steps] in Hk. split; lia.
Qed.
Lemma fs_live hts full F0 jobs k F ps : 1 <= hts <= 2 ^ 48 -> Forall (good_job hts F0) jobs -> independent jobs ->
  run hts full k (F0, start jobs) (F, ps) -> forall j s, In (j, s) ps -> (exists r, s = Finished r) \/ exists y, sys_step hts full (F, ps) y.
Proof.
  intros Hts Hg Hi Hr j s Hj. pose proof (fs_job _ _ _ _ _ _ _ _ _ Hts Hg Hi Hr Hj) as H.
  destruct (step_live hts full F0 j F s H) as [Hf|[[F' s'] Hs]]; [left; exact Hf|right].
  apply in_split in Hj as (a & b & ->). eexists. apply sys_one. exact Hs.
Qed.

(** ** the calls must not share files *)
Lemma run_app hts full k l x y z : run hts full k x y -> run hts full l y z -> run hts full (k + l) x z.
Proof.
  intros H1 H2. induction H2 as [y|l y z w H2 IH Hs]; [rewrite Nat.add_0_r; exact H1|].
  replace (k + S l)%nat with (S (k + l)) by lia. eapply run_S; [apply IH; exact H1|exact Hs].
Qed.
Lemma run_one hts full F F' a j s s' b : step hts full j (F, s) (F', s') -> run hts full 1 (F, a ++ (j, s) :: b) (F', a ++ (j, s') :: b).
Proof. intros H. eapply run_S; [apply run_0|]. apply sys_one. exact H. Qed.

(** a read of the whole file at once, and the computation *)
Lemma run_read hts full F a j b c : std_sort (j_srt j) -> 1 <= hts <= 2 ^ 48 -> F (j_in j) = Some c ->
  Forall is_byte c -> 3 <= Z.of_nat (length c) <= 2 ^ 58 -> fresh_good (j_env j) hts c ->
  run hts full 2 (F, a ++ (j, AtRead (Z.of_nat (length c)) []) :: b) (F, a ++ (j, AtCreate (file_output c)) :: b).
Proof.
  intros Hs Hts Hc Hb Hn Hf. change 2%nat with (1 + 1)%nat.
  eapply run_app; [apply (run_one hts full _ _ a _ _ _ b (st_read hts full j F (Z.of_nat (length c)) [] c c [] Hc ltac:(rewrite app_nil_r; reflexivity) ltac:(intros ->; cbn in Hn; lia) ltac:(cbn [length]; lia)))|].
  pose proof (run_one hts full _ _ a _ _ _ b (st_read_done hts full j F (Z.of_nat (length c)) c c Hc (or_introl eq_refl))) as H.
  rewrite file_ok in H by (cbn; auto; lia). exact H.
Qed.

(** in place: there is a moment at which the input is gone and nothing of the output is there *)
Lemma fs_inplace hts full F0 j c : std_sort (j_srt j) -> 1 <= hts <= 2 ^ 48 -> j_in j = j_out j -> F0 (j_in j) = Some c ->
  Forall is_byte c -> 3 <= Z.of_nat (length c) <= 2 ^ 58 -> fresh_good (j_env j) hts c ->
  exists k F ps, run hts full k (F0, start [j]) (F, ps) /\ F (j_in j) = Some [].
Proof.
  intros Hs Hts He Hc Hb Hn Hf. exists (1 + (1 + (2 + 1)))%nat, (fset F0 (j_out j) []), [(j, AtWrite 0 (file_output c))]. split.
  - unfold start. cbn [map].
    eapply run_app; [apply (run_one hts full _ _ [] _ _ _ [] (st_open hts full j F0 c Hc))|].
    eapply run_app; [apply (run_one hts full _ _ [] _ _ _ [] (st_size hts full j F0 c Hc))|].
    eapply run_app; [apply (run_read hts full F0 [] j [] c Hs Hts Hc Hb Hn Hf)|].
    apply (run_one hts full _ _ [] _ _ _ [] (st_create hts full j F0 (file_output c))).
  - rewrite He. apply fset_same.
Qed.

(** a call that reads what another call is writing: undefined behaviour *)
Lemma fs_race hts full F0 a b c d : std_sort (j_srt a) -> 1 <= hts <= 2 ^ 48 -> j_out a = j_in b -> j_in a <> j_out a ->
  F0 (j_in a) = Some c -> Forall is_byte c -> 3 <= Z.of_nat (length c) <= 2 ^ 58 -> fresh_good (j_env a) hts c ->
  F0 (j_in b) = Some d -> 3 <= Z.of_nat (length d) < 2 ^ 62 ->
  exists k F ps, run hts full k (F0, start [a; b]) (F, ps) /\ In (b, Finished (Err Uninit)) ps.
Proof.
  intros Hs Hts He Hne Hc Hb Hn Hf Hd Hm. pose proof (output_length c) as Hol. destruct (file_output c) as [|x o] eqn:Ho; [cbn in Hol; lia|].
  eexists (1 + (1 + (1 + (1 + (2 + (1 + (1 + (1 + 1))))))))%nat, _, _. split.
  - unfold start. cbn [map].
    eapply run_app; [apply (run_one hts full _ _ [(a, AtOpen)] _ _ _ [] (st_open hts full b F0 d Hd))|].
    eapply run_app; [apply (run_one hts full _ _ [(a, AtOpen)] _ _ _ [] (st_size hts full b F0 d Hd))|].
    eapply run_app; [apply (run_one hts full _ _ [] _ _ _ [(b, _)] (st_open hts full a F0 c Hc))|].
    eapply run_app; [apply (run_one hts full _ _ [] _ _ _ [(b, _)] (st_size hts full a F0 c Hc))|].
    eapply run_app; [apply (run_read hts full F0 [] a [(b, _)] c Hs Hts Hc Hb Hn Hf)|].
    rewrite Ho.
    eapply run_app; [apply (run_one hts full _ _ [] _ _ _ [(b, _)] (st_create hts full a F0 (x :: o)))|].
    eapply run_app; [apply (run_one hts full _ _ [] _ _ _ [(b, _)] (st_write hts full a _ [] 0 [x] o (fset_same _ _ _) ltac:(discriminate)))|].
    assert (HF : fset (fset F0 (j_out a) []) (j_out a) (write_at [] 0 [x]) (j_in b) = Some [x]) by (rewrite <- He, fset_same; reflexivity).
    eapply run_app; [apply (run_one hts full _ _ [(a, AtWrite (0 + length [x]) o)] _ _ _ [] (st_read hts full b _ (Z.of_nat (length d)) [] [x] [x] [] HF eq_refl ltac:(discriminate) ltac:(cbn [length]; lia)))|].
    pose proof (run_one hts full _ _ [(a, AtWrite (0 + length [x]) o)] _ _ _ [] (st_read_done hts full b _ (Z.of_nat (length d)) ([] ++ [x]) [x] HF (or_intror (le_n _)))) as Hl. cbn [app] in Hl.
    rewrite file_short in Hl by (cbn; auto; lia || discriminate). exact Hl.
  - right. left. reflexivity.
Qed.

(** a call that reads while another one replaces the file can transform a text that was never in the file *)
Lemma fs_torn hts full F0 a b c d k : let m := firstn k d ++ skipn k (firstn (length d) (file_output c)) in
  std_sort (j_srt a) -> std_sort (j_srt b) -> 1 <= hts <= 2 ^ 48 -> j_out a = j_in b -> j_in a <> j_out a ->
  F0 (j_in a) = Some c -> Forall is_byte c -> 3 <= Z.of_nat (length c) <= 2 ^ 58 -> fresh_good (j_env a) hts c ->
  F0 (j_in b) = Some d -> (1 <= k < length d)%nat -> (length d <= length c + 8)%nat ->
  Forall is_byte m -> 3 <= Z.of_nat (length d) <= 2 ^ 58 -> fresh_good (j_env b) hts m ->
  exists n F ps, run hts full n (F0, start [a; b]) (F, ps) /\ In (b, Finished (Ok tt)) ps /\ F (j_out b) = Some (file_output m).
Proof.
  intros m Hsa Hsb Hts He Hne Hc Hb Hn Hf Hd Hk Hlen Hbm Hnm Hfm.
  pose proof (output_length c) as Hol. set (o := file_output c) in *.
  assert (Hone : o <> []) by (intros H; rewrite H in Hol; cbn in Hol; lia).
  set (x := skipn k (firstn (length d) o)) in *.
  assert (Hlk : length (firstn k d) = k) by (rewrite firstn_length; lia).
  assert (Hlx : length x = (length d - k)%nat) by (unfold x; rewrite skipn_length, firstn_length; lia).
  assert (Hlm : length m = length d) by (unfold m; rewrite app_length; lia).
  assert (Hmo : file_output m <> []) by (intros H; pose proof (output_length m) as Hl; rewrite H in Hl; cbn in Hl; lia).
  eexists (1 + (1 + (1 + (1 + (1 + (2 + (1 + (1 + (1 + (1 + (1 + (1 + 1))))))))))))%nat, _, _. split.
  - unfold start. cbn [map].
    eapply run_app; [apply (run_one hts full _ _ [(a, AtOpen)] _ _ _ [] (st_open hts full b F0 d Hd))|].
    eapply run_app; [apply (run_one hts full _ _ [(a, AtOpen)] _ _ _ [] (st_size hts full b F0 d Hd))|].
    eapply run_app; [apply (run_one hts full _ _ [(a, AtOpen)] _ _ _ [] (st_read hts full b F0 (Z.of_nat (length d)) [] d (firstn k d) (skipn k d) Hd
      (eq_sym (firstn_skipn k d)) ltac:(intros H; rewrite H in Hlk; cbn in Hlk; lia) ltac:(cbn [length]; lia)))|].
    eapply run_app; [apply (run_one hts full _ _ [] _ _ _ [(b, _)] (st_open hts full a F0 c Hc))|].
    eapply run_app; [apply (run_one hts full _ _ [] _ _ _ [(b, _)] (st_size hts full a F0 c Hc))|].
    eapply run_app; [apply (run_read hts full F0 [] a [(b, _)] c Hsa Hts Hc Hb Hn Hf)|]. fold o.
    eapply run_app; [apply (run_one hts full _ _ [] _ _ _ [(b, _)] (st_create hts full a F0 o))|].
    pose proof (run_one hts full _ _ [] _ _ _ [(b, AtRead (Z.of_nat (length d)) ([] ++ firstn k d))] (st_write hts full a _ [] 0 o [] (fset_same F0 (j_out a) []) Hone)) as Hw.
    rewrite app_nil_r in Hw. rewrite (write_at_end [] o : write_at [] 0 _ = _) in Hw. cbn [app] in Hw |- *.
    eapply run_app; [exact Hw|].
    set (F1 := fset (fset F0 (j_out a) []) (j_out a) o) in *.
    assert (HF : F1 (j_in b) = Some o) by (unfold F1; rewrite <- He; apply fset_same).
    assert (Hsk : skipn (length (firstn k d)) o = x ++ skipn (length d) o).
    { rewrite Hlk. rewrite <- (firstn_skipn (length d) o) at 1. rewrite skipn_app, firstn_length.
      replace (k - Nat.min (length d) (length o))%nat with 0%nat by lia. reflexivity. }
    eapply run_app; [apply (run_one hts full _ _ [(a, AtWrite (0 + length o) [])] _ _ _ [] (st_read hts full b F1 (Z.of_nat (length d)) (firstn k d) o x (skipn (length d) o) HF Hsk
      ltac:(intros H; rewrite H in Hlx; cbn in Hlx; lia) ltac:(lia)))|].
    fold m.
    pose proof (run_one hts full _ _ [(a, AtWrite (0 + length o) [])] _ _ _ [] (st_read_done hts full b F1 (Z.of_nat (length d)) m o HF (or_introl (f_equal Z.of_nat Hlm)))) as Hr.
    rewrite file_ok in Hr by (cbn; rewrite ?Hlm; auto; lia). cbn [in_data] in Hr. eapply run_app; [exact Hr|].
    eapply run_app; [apply (run_one hts full _ _ [(a, AtWrite (0 + length o) [])] _ _ _ [] (st_create hts full b F1 (file_output m)))|].
    pose proof (run_one hts full _ _ [(a, AtWrite (0 + length o) [])] _ _ _ [] (st_write hts full b _ [] 0 (file_output m) [] (fset_same F1 (j_out b) []) Hmo)) as Hw2.
    rewrite app_nil_r in Hw2. rewrite (write_at_end [] (file_output m) : write_at [] 0 _ = _) in Hw2. cbn [app] in Hw2.
    eapply run_app; [exact Hw2|]. exact (run_one hts full _ _ [(a, AtWrite (0 + length o) [])] _ _ _ [] (st_close hts full b _ _)).
  - split; [right; left; reflexivity|]. apply fset_same.
Qed.

(** * examples/bwt.cpp *)
Lemma main_usage hts E srt argc f : argc <> 3 -> main hts E srt argc f = (Exit (-1), None).
Proof. intros H. unfold main. rewrite (proj2 (Z.eqb_neq argc 3) H). reflexivity. Qed.
Lemma main_ok hts E srt f : std_sort srt -> 1 <= hts <= 2 ^ 48 -> Forall is_byte (in_data f) ->
  3 <= Z.of_nat (length (in_data f)) <= 2 ^ 58 -> fresh_good E hts (in_data f) ->
  in_open f = true -> in_tell f = Z.of_nat (length (in_data f)) -> malloc_ok f = true -> out_open f = true ->
  main hts E srt 3 f = (Exit 0, Some (match out_limit f with None => file_output (in_data f) | Some k => firstn k (file_output (in_data f)) end)).
Proof. intros. unfold main. cbn [Z.eqb negb]. replace (3 =? 3) with true by reflexivity. cbn [negb]. rewrite bwt_file_ok by assumption. reflexivity. Qed.
Lemma main_exit hts E srt argc f code out : std_sort srt -> 1 <= hts <= 2 ^ 48 -> Forall is_byte (in_data f) ->
  in_data f = [] \/ 3 <= Z.of_nat (length (in_data f)) <= 2 ^ 58 /\ fresh_good E hts (in_data f) ->
  in_tell f = Z.of_nat (length (in_data f)) ->
  main hts E srt argc f = (Exit code, out) ->
  (code = -1 /\ argc <> 3 /\ out = None) \/
  (code = 0 /\ argc = 3 /\ in_open f = true /\ malloc_ok f = true /\ out_open f = true /\ in_data f <> [] /\
   out = Some (match out_limit f with None => file_output (in_data f) | Some k => firstn k (file_output (in_data f)) end)).
Proof.
  intros Hs Hts Hb Hn Ht H. destruct (Z.eq_dec argc 3) as [->|Ha]; [|rewrite main_usage in H by assumption; inversion H; subst; left; auto].
  right. unfold main in H. replace (3 =? 3) with true in H by reflexivity. cbn [negb] in H.
  destruct (bwt_file_gen hts E srt f) as [[[]|e] o] eqn:Hr; [|discriminate]. inversion H; subst code o.
  destruct (file_ok_written hts E srt f) as [o' Ho]; [rewrite Hr; reflexivity|].
  destruct (file_touched hts E srt f o' Ho) as (A & B & C & _ & D).
  destruct Hn as [Hn|[Hn Hf]]; [congruence|].
  rewrite bwt_file_ok in Hr by assumption. inversion Hr. repeat (split; [reflexivity || assumption|]). unfold cut. reflexivity.
Qed.
Lemma main_abnormal hts E srt argc f e out : std_sort srt -> 1 <= hts <= 2 ^ 48 -> Forall is_byte (in_data f) ->
  in_data f = [] \/ 3 <= Z.of_nat (length (in_data f)) <= 2 ^ 58 /\ fresh_good E hts (in_data f) ->
  in_tell f = Z.of_nat (length (in_data f)) ->
  main hts E srt argc f = (Abnormal e, out) ->
  argc = 3 /\ (e = InvalidArgument \/ e = RuntimeError) /\ out = None /\ (in_open f = false \/ malloc_ok f = false \/ in_data f = [] \/ out_open f = false).
Proof.
  intros Hs Hts Hb Hn Ht H. destruct (Z.eq_dec argc 3) as [->|Ha]; [|rewrite main_usage in H by assumption; discriminate].
  split; [reflexivity|]. unfold main in H. replace (3 =? 3) with true in H by reflexivity. cbn [negb] in H.
  destruct (in_open f) eqn:B1; [|rewrite file_null in H by assumption; inversion H; auto 8].
  destruct (malloc_ok f) eqn:B2; [|rewrite file_nomem in H by assumption; inversion H; auto 8].
  destruct Hn as [Hn|[Hn Hf]]; [rewrite file_empty in H by auto; inversion H; subst; auto 10|].
  destruct (out_open f) eqn:B3; [rewrite bwt_file_ok in H by assumption; discriminate|].
  rewrite file_noout in H by assumption. inversion H. auto 6.
Qed.

(** * Statements of Properties.v *)
Lemma valid_good hts F0 jobs : valid_jobs hts F0 jobs -> Forall (good_job hts F0) jobs.
Proof. intros H. apply Forall_forall. intros j Hj. exact (H j Hj). Qed.
Lemma calls_ok hts full F0 jobs k F ps : 1 <= hts <= 2 ^ 48 -> valid_jobs hts F0 jobs -> independent jobs ->
  run hts full k (F0, start jobs) (F, ps) ->
  map fst ps = jobs /\
  (forall p, (forall j, In j jobs -> j_out j <> p) -> F p = F0 p) /\
  (forall j s, In (j, s) ps -> F (j_out j) = F0 (j_out j) \/
     exists c d rest, F0 (j_in j) = Some c /\ F (j_out j) = Some d /\ d ++ rest = file_output c) /\
  (forall j e, In (j, Finished (Err e)) ps -> (e = InvalidArgument \/ e = RuntimeError) /\ F (j_out j) = F0 (j_out j)) /\
  (full = false -> forall j, In (j, Finished (Ok tt)) ps -> exists c, F0 (j_in j) = Some c /\ F (j_out j) = Some (file_output c)).
Proof.
  intros Hts Hv Hi Hr. apply valid_good in Hv.
  split; [|split; [|split; [|split]]].
  - destruct (run_inv hts full F0 jobs k _ _ Hts Hv Hi Hr (sys_inv_start full F0 jobs)) as [(H & _) _]. exact H.
  - eapply fs_untouched; eassumption.
  - intros j s Hj. destruct (fs_output _ _ _ _ _ _ _ _ _ Hts Hv Hi Hr Hj) as [H|(c & d & H1 & H2 & rest & H3)]; [left; exact H|right].
    exists c, d, rest. auto.
  - intros j e Hj. eapply fs_threw; eassumption.
  - intros -> j Hj. eapply fs_returned; eassumption.
Qed.
Lemma calls_end hts full F0 jobs k F ps : 1 <= hts <= 2 ^ 48 -> valid_jobs hts F0 jobs -> independent jobs ->
  run hts full k (F0, start jobs) (F, ps) ->
  (k <= list_sum (map (fun j => 13 + 2 * match F0 (j_in j) with Some c => length c | None => 0 end) jobs))%nat /\
  ((forall j s, In (j, s) ps -> exists r, s = Finished r) \/ exists y, sys_step hts full (F, ps) y).
Proof.
  intros Hts Hv Hi Hr. apply valid_good in Hv. split; [eapply fs_bound; eassumption|].
  assert (H : forall l, incl l ps -> (forall j s, In (j, s) l -> exists r, s = Finished r) \/ exists y, sys_step hts full (F, ps) y).
  { induction l as [|[j s] l IH]; intros Hl; [left; intros j s []|].
    destruct (fs_live _ _ _ _ _ _ _ Hts Hv Hi Hr j s (Hl _ (or_introl eq_refl))) as [Hf|Hy]; [|right; exact Hy].
    destruct (IH (fun x Hx => Hl x (or_intror Hx))) as [Hf'|Hy]; [|right; exact Hy].
    left. intros j' s' [H|H]; [inversion H; subst; exact Hf|exact (Hf' j' s' H)]. }
  apply (H ps). apply incl_refl.
Qed.

(** a complete run of one call among others *)
Lemma job_complete hts full F a j b c : std_sort (j_srt j) -> 1 <= hts <= 2 ^ 48 -> F (j_in j) = Some c ->
  Forall is_byte c -> 3 <= Z.of_nat (length c) <= 2 ^ 58 -> fresh_good (j_env j) hts c ->
  exists F', run hts full 7 (F, a ++ (j, AtOpen) :: b) (F', a ++ (j, Finished (Ok tt)) :: b) /\ F' (j_out j) = Some (file_output c) /\
    forall p, p <> j_out j -> F' p = F p.
Proof.
  intros Hs Hts Hc Hb Hn Hf. eexists. split; [|split; [apply fset_same|]].
  - change 7%nat with (1 + (1 + (2 + (1 + (1 + 1)))))%nat.
    eapply run_app; [apply (run_one hts full _ _ a _ _ _ b (st_open hts full j F c Hc))|].
    eapply run_app; [apply (run_one hts full _ _ a _ _ _ b (st_size hts full j F c Hc))|].
    eapply run_app; [apply (run_read hts full F a j b c Hs Hts Hc Hb Hn Hf)|].
    eapply run_app; [apply (run_one hts full _ _ a _ _ _ b (st_create hts full j F (file_output c)))|].
    assert (Hne : file_output c <> []) by (intros He; pose proof (output_length c) as Hl; rewrite He in Hl; cbn in Hl; lia).
    pose proof (run_one hts full _ _ a _ _ _ b (st_write hts full j _ [] 0 (file_output c) [] (fset_same F (j_out j) []) Hne)) as Hw.
    rewrite app_nil_r in Hw. rewrite (write_at_end []  (file_output c) : write_at [] 0 _ = _) in Hw. cbn [app] in Hw.
    eapply run_app; [exact Hw|]. apply run_one. apply st_close.
  - intros p Hp. rewrite !fset_other by exact Hp. reflexivity.
Qed.

(** files of one or two bytes *)
Lemma file_tiny hts E srt f : in_open f = true -> malloc_ok f = true -> in_tell f = Z.of_nat (length (in_data f)) ->
  1 <= Z.of_nat (length (in_data f)) <= 2 -> bwt_file_gen hts E srt f = (Err NullDeref, None).
Proof.
  intros H1 H2 H3 Hn. unfold bwt_file_gen. rewrite H1, H2, H3. cbn [negb].
  replace (u64 (Z.of_nat (length (in_data f)))) with (Z.of_nat (length (in_data f))) by (unfold u64; rewrite wrap_small by lia; reflexivity).
  destruct (fread_ok (Z.of_nat (length (in_data f))) (in_data f) eq_refl ltac:(lia)) as (T & -> & Hl & _).
  replace (Z.of_nat (length (in_data f)) <=? 0) with false by lia. rewrite aset_ok by lia. rewrite string_short by lia. reflexivity.
Qed.
Lemma main_tiny hts E srt f : in_open f = true -> malloc_ok f = true -> in_tell f = Z.of_nat (length (in_data f)) ->
  1 <= Z.of_nat (length (in_data f)) <= 2 -> main hts E srt 3 f = (Abnormal NullDeref, None).
Proof. intros H1 H2 H3 Hn. unfold main. rewrite (file_tiny hts E srt f H1 H2 H3 Hn). reflexivity. Qed.
