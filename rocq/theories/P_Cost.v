(** Dropping the step counter of M_Cost.v gives the programs of M_HashTable.v, M_Flbwt.v, M_Induce.v. *)
From Verif Require Import Base M_PackedArray M_Queue M_HashTable M_Cells M_Sais M_Split M_Induce M_Flbwt M_SaisCost M_Cost P_SaisCost P_SplitBranch.
Open Scope Z_scope.

Lemma dr_scale {A} k (m : cres A) m' : drop m = m' -> drop (cscale k m) = m'.
Proof. intros <-. destruct m as [[a c]|e]; reflexivity. Qed.
Lemma dr_skip {A B} (a : A) (f : A -> cres B) m' : drop (f a) = m' -> drop (cbind (tick (Ok a)) f) = m'.
Proof. intros <-. cbn. destruct (f a) as [[b c]|e]; reflexivity. Qed.
Lemma dr_tbind {A B C} (m : res A) (g : A -> res B) (f : B -> cres C) f' :
  (forall a, drop (f a) = f' a) -> drop (cbind (tick (bind m g)) f) = bind m (fun a => bind (g a) f').
Proof. intros H. destruct m as [a|e]; [|reflexivity]. cbn [bind]. apply dr_bind; [apply dr_tick|exact H]. Qed.

Ltac rdr := repeat first
  [ apply dr_tick
  | apply dr_bind; [|intros ?]
  | apply dr_for_up; intros ? ?
  | apply dr_for_down; intros ? ?
  | apply dr_loop; intros ?
  | match goal with
    | x : (_ * _)%type |- _ => destruct x
    | |- drop (if ?b then _ else _) = (if ?b then _ else _) => destruct b
    | |- drop (cret _) = Ok _ => apply dr_ret
    end
  | progress cbn zeta ].
Lemma d_azeros len : drop (azeros_steps len) = azeros len.
Proof. unfold azeros_steps. apply dr_skip. apply dr_for_up. intros. apply dr_tick. Qed.
Lemma d_ht_new hts n : drop (ht_new_steps hts n) = ht_new hts n.
Proof. unfold ht_new_steps, ht_new, ht_new_hb. apply dr_bind; [apply d_azeros|]. intros. apply dr_bind; [apply d_azeros|]. intros. rdr. Qed.
Lemma d_hash h T m p : drop (hash_steps h T m p) = hash_function h T m p.
Proof. unfold hash_steps, hash_function. rdr. Qed.
Lemma d_same E b T m p q l2 : drop (same_string_steps E b T m p q l2) = same_string E b T m p q l2.
Proof. unfold same_string_steps, same_string. rdr. Qed.
Lemma d_scan E h T m p q0 : drop (scan_chain_steps E h T m p q0) = scan_chain E h T m p q0.
Proof.
  unfold scan_chain_steps, scan_chain. cbn zeta. apply dr_loop. intros q. unfold scan_steps1. cbn zeta.
  destruct (q =? 0); [reflexivity|]. apply dr_bind; [apply dr_tick|intros l]. destruct (l =? 0); [reflexivity|].
  destruct (l =? 2); [rdr|]. destruct (negb (l =? m)); [rdr|]. apply dr_bind; [apply dr_tick|intros l2].
  apply dr_bind; [apply d_same|]. intros [|]; rdr.
Qed.
Lemma d_write E h T m p lb b r : drop (write_record_steps E h T m p lb b r) = write_record E h T m p lb b r.
Proof. unfold write_record_steps, write_record. rdr. Qed.
Lemma d_insert pw E h T m p : drop (insert_steps pw E h T m p) = insert_string E h T m p.
Proof.
  unfold insert_steps, insert_string. apply dr_bind; [apply d_hash|intros hv]. apply dr_bind; [apply dr_tick|intros q0].
  apply dr_bind; [apply dr_scale, d_scan|]. intros [q|q]; [reflexivity|]. apply dr_bind; [apply dr_tick|intros lb]. cbn zeta.
  apply dr_bind; [apply dr_tick|intros rest]. apply dr_bind.
  - destruct (_ <=? _); [|reflexivity]. apply dr_skip. apply dr_bind; [apply dr_tick|intros rest']. destruct (q =? 0); rdr.
  - intros [h' r]. apply dr_bind; [apply d_write|intros b]. rdr.
Qed.
Lemma d_find pw E h T m p : drop (find_steps pw E h T m p) = find_name E h T m p.
Proof.
  unfold find_steps, find_name. apply dr_bind; [apply d_hash|intros hv]. apply dr_bind; [apply dr_tick|intros q0].
  apply dr_bind; [apply dr_scale, d_scan|]. intros [q|q]; [apply dr_tick|reflexivity].
Qed.
Lemma d_extract_step pw E T i s : drop (extract_step_steps pw E T i s) = extract_step E T i s.
Proof.
  unfold extract_step_steps, extract_step. do 3 (apply dr_bind; [apply dr_tick|intros ?]).
  destruct (_ <? _); [reflexivity|]. destruct (_ <? _).
  - apply dr_bind.
    + destruct (x_prevS s); [|reflexivity]. cbn zeta. do 2 (apply dr_bind; [apply dr_tick|intros ?]).
      apply dr_bind; [apply d_insert|]. intros [? ?]. reflexivity.
    + intros [[[[[? ?] ?] ?] ?] ?]. rdr.
  - apply dr_bind; [destruct (x_prevS s); rdr|]. intros. reflexivity.
Qed.
Lemma d_extract pw E hts T n : drop (extract_steps pw E hts T n) = extract_LMS_strings E hts T n.
Proof.
  unfold extract_steps, extract_LMS_strings. apply dr_bind.
  - unfold cont_new_steps, cont_new. apply dr_bind; [apply dr_scale, d_azeros|]. reflexivity.
  - intros co. destruct (n <=? 2); [reflexivity|]. apply dr_bind; [apply d_ht_new|intros ht].
    do 5 (apply dr_bind; [apply dr_tick|intros ?]). apply dr_bind; [|reflexivity]. apply dr_for_down. intros. apply d_extract_step.
Qed.
Lemma d_collect E h p s j : drop (collect_chain_steps E h p s j) = collect_chain E h p s j.
Proof. unfold collect_chain_steps, collect_chain. cbn zeta. apply dr_loop. intros [[q s'] j']. unfold collect_step1. rdr. Qed.
Lemma d_sort E srt st T co : drop (sort_steps E srt st T co) = sort_LMS_strings E srt T co.
Proof.
  unfold sort_steps, sort_LMS_strings. destruct (c_ht co) as [h|]; [|reflexivity]. destruct (c_head_end co) as [he|]; [|reflexivity].
  apply dr_skip. cbn zeta. apply dr_bind; [apply dr_tick|intros lenlen]. apply dr_skip.
  apply dr_bind. { apply dr_for_up. intros i [s j]. apply dr_bind; [apply dr_tick|intros p]. apply d_collect. }
  intros [s j]. cbn zeta.
  unfold call_sort_steps, call_sort. destruct (aslice s 1 (1 + (j - 1))) as [l|e]; [|reflexivity]. cbn [bind].
  destruct (negb _); [reflexivity|]. destruct (ablit _ _ _) as [s'|e]; [|reflexivity]. cbn [bind].
  match goal with |- drop (cbind (Ok (?a, ?c)) ?f) = _ => transitivity (drop (f a)); [cbn [cbind bind]; destruct (f a) as [[? ?]|]; reflexivity|] end.
  rdr.
Qed.
Lemma d_create pw E T n co : drop (create_steps pw E T n co) = create_shortened_string E T n co.
Proof.
  unfold create_steps, create_shortened_string. destruct (c_ht co) as [h|]; [|reflexivity]. cbn zeta.
  apply dr_bind; [apply dr_tick|intros bits]. apply dr_skip. apply dr_bind; [apply dr_tick|intros T1].
  apply dr_bind; [|intros [[[? ?] ?] ?]; apply dr_tick]. apply dr_for_down. intros i [[[T1' prevS] q] j]. unfold create_step.
  do 2 (apply dr_bind; [apply dr_tick|intros ?]). destruct (_ <? _); [reflexivity|]. destruct (_ <? _); [|reflexivity].
  destruct prevS; [|reflexivity]. cbn zeta. apply dr_bind; [apply d_find|intros name]. rdr.
Qed.

(** * induce *)
Lemma d_step1 E buf base lp t c x : drop (induce_step1_steps E buf base lp t c x) = induce_step1 E buf base lp t c x.
Proof.
  unfold induce_step1_steps, induce_step1. destruct x as [s m]. apply dr_bind; [apply dr_tick|intros qq].
  destruct (q_is_empty qq); [reflexivity|]. apply dr_bind; [apply dr_tick|intros [v Q]]. cbn zeta. apply dr_bind.
  2:{ intros s'. apply dr_bind; [apply dr_scale, dr_tick|reflexivity]. }
  rdr.
Qed.
Lemma d_step2 E buf base lp t c s : drop (induce_step2_steps E buf base lp t c s) = induce_step2 E buf base lp t c s.
Proof.
  unfold induce_step2_steps, induce_step2. apply dr_bind; [apply dr_tick|intros qq].
  destruct (q_is_empty qq); [reflexivity|]. apply dr_bind; [apply dr_tick|intros [v Q]]. cbn zeta. rdr.
Qed.
Lemma d_induce E rd co : drop (induce_steps E rd co) = induce_bwt_rd E rd co.
Proof.
  unfold induce_steps, induce_bwt_rd. destruct (c_ht co) as [h|]; [|reflexivity]. cbn zeta.
  apply dr_bind; [unfold init_queues_steps, init_queues; apply dr_for_up; intros ? ?; apply dr_tick|intros Q].
  apply dr_bind; [unfold fill_steps, fill_lms; rdr|intros Q1].
  apply dr_bind; [unfold bucket_starts_steps, bucket_starts; rdr|intros M2].
  apply dr_bind; [unfold stype_starts_steps, stype_starts; rdr|intros C2].
  apply dr_skip. apply dr_bind; [unfold induce_first_steps, induce_first; rdr|intros s].
  apply dr_bind.
  { unfold induce_pass1_steps, induce_pass1. apply dr_for_up. intros c s1. apply dr_for_up. intros t s2.
    apply dr_bind; [apply dr_tick|intros m3]. apply dr_bind; [rdr|intros m]. apply dr_loop. intros. apply d_step1. }
  intros s1. apply dr_bind; [unfold reset_L_steps, reset_L; rdr|intros Q2].
  apply dr_bind; [unfold bucket_ends_steps, bucket_ends; rdr|intros M2'].
  apply dr_bind.
  { unfold induce_pass2_steps, induce_pass2. apply dr_for_down. intros c s2. apply dr_for_down. intros t s3. apply dr_loop. intros. apply d_step2. }
  intros s2. destruct (i_last s2); reflexivity.
Qed.

(** * bwt_string *)
Lemma d_branch E W Sv T1 co : drop (branch_steps E W Sv T1 co) = bwt_branch E W Sv T1 co.
Proof.
  unfold branch_steps, bwt_branch. destruct (c_ht co) as [h|]; [|reflexivity]. cbn zeta. apply dr_skip.
  apply dr_bind; [apply dp_sais|intros s]. apply dr_bind; [rdr|intros SA]. apply dr_bind; [rdr|intros SA'].
  unfold induce_bwt. apply d_induce.
Qed.
Lemma dr_skips {A B} k (a : A) (f : A -> cres B) m' : drop (f a) = m' -> drop (cbind (cscale k (tick (Ok a))) f) = m'.
Proof. intros <-. cbn [cscale tick bind cbind]. destruct (f a) as [[b c]|e]; reflexivity. Qed.
Lemma d_branch2 E uw Sv T1 co : 1 <= uw <= 31 -> drop (branch2_steps E uw Sv T1 co) = bwt_branch2 E uw Sv T1 co.
Proof.
  intros Hu. unfold branch2_steps, bwt_branch2. destruct (c_ht co) as [h|]; [|reflexivity]. cbn zeta. apply dr_skips. cbn iota.
  apply dr_bind; [apply ds_sais; lia|intros s]. apply dr_bind; [rdr|intros [L U]]. apply dr_bind; [rdr|intros [L' U']].
  apply d_induce.
Qed.
Lemma d_branch3 E Sv T1 co : drop (branch3_steps E Sv T1 co) = bwt_branch3 E Sv T1 co.
Proof.
  unfold branch3_steps, bwt_branch3. destruct (c_ht co) as [h|]; [|reflexivity]. cbn zeta. apply dr_skips. cbn iota.
  apply dr_bind; [apply ds_sais; lia|intros s]. apply dr_bind; [rdr|intros [[L M] U]]. apply dr_bind; [rdr|intros [[L' M'] U']].
  apply d_induce.
Qed.
Lemma d_branch_of E W Sv T1 co : drop (branch_of_steps E W Sv T1 co) = bwt_branch_of E W Sv T1 co.
Proof.
  unfold branch_of_steps, bwt_branch_of. destruct (W =? 40); [apply d_branch2; lia|]. destruct (W =? 48); [apply d_branch2; lia|].
  destruct (W =? 56); [apply d_branch3|apply d_branch].
Qed.
Theorem d_string pw st hts E srt T n b : drop (bwt_string_steps pw st hts E srt T n b) = bwt_string_gen hts E srt T n b.
Proof.
  unfold bwt_string_steps, bwt_string_gen. destruct T as [T|]; [|reflexivity]. destruct (n <=? 0); [reflexivity|].
  unfold bwt_is_steps, bwt_is. apply dr_bind; [apply d_extract|intros co]. apply dr_bind; [apply d_sort|intros [Sv co']].
  apply dr_bind; [apply d_create|intros T1]. cbn zeta.
  assert (Hf : forall (f : option (arr Z) -> cres (option (arr Z) * option bwt_result)) m', drop (f (if b then None else Some T)) = m' ->
    drop (cbind (if b then tick (Ok None) else cret (Some T)) f) = m').
  { intros f m' <-. destruct b; cbn [tick bind cret cbind]; destruct (f _) as [[? ?]|]; reflexivity. }
  apply Hf. apply dr_bind; [apply dr_tick|intros bits]. destruct (sa_width bits); [|reflexivity].
  apply dr_bind; [apply d_branch_of|reflexivity].
Qed.
