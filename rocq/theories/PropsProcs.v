(** C99: several colgrep processes that use one index at the same time. *)
From Verif Require Import Base Text Colgrep ColgrepSpec ColgrepHistory ColgrepFindings ColgrepTidy ColgrepIncr Procs ProcsSpec ProcsProofs.
Open Scope nat_scope.

(** C99. However many processes index, search, count and are killed, in any interleaving of their
    calls, at most one is changing the index, as long as none clears it. *)
Theorem C99_one_writer : forall T jobs d w p q,
  none_removes jobs -> reach T jobs any_move d w -> running w p -> running w q -> p = q.
Proof.
  intros T jobs d w p q NR H (i & es & P) (j & es' & Q). apply (tidy_one jobs w p q i j (tidy_reach T jobs _ d w NR H)); [rewrite P|rewrite Q]; reflexivity.
Qed.
Print Assumptions C99_one_writer.
(** What they leave is what runs one after the other leave, complete ones and killed ones, but
    for the number of searches, as long as the state was not saved by another process between
    reading and writing the count. *)
Theorem C99_serial : forall T jobs d w, none_removes jobs -> reach T jobs undisturbed d w -> serial T d (w_store w).
Proof. exact serial_reach. Qed.
Print Assumptions C99_serial.
Theorem C99_in_order : forall T jobs d w, none_removes jobs -> reach T jobs not_killed d w -> idle w -> one_by_one T d (w_log w) (w_store w).
Proof. exact one_by_one_reach. Qed.
Print Assumptions C99_in_order.
(** So, when no process is killed and none is at work, the index is up to date with the files
    that the last run found, under the conditions under which a single user's history is. *)
Theorem C99_up_to_date : forall T jobs w vs v, good_tool T -> none_removes jobs -> reach T jobs not_killed empty_store w -> idle w ->
  w_log w = vs ++ [v] -> ordinary T (vs ++ [v]) -> up_to_date T (v_project v) (w_store w).
Proof.
  intros T jobs w vs v GT NR H ID L O. pose proof (one_by_one_reach T jobs _ w NR H ID) as S. rewrite L in S. pose proof (one_by_one_current T _ _ GT S O) as C.
  rewrite rev_app_distr in C. cbn [rev app] in C. destruct C as (G & SN & _). exact (snapshot_up_to_date _ _ _ _ SN).
Qed.
Print Assumptions C99_up_to_date.
(** A search never waits for another process: it always has a move of its own. *)
Theorem C99_search_never_waits : forall T jobs d w p, reach T jobs any_move d w -> (exists v, jobs p = JSearch v) \/ jobs p = JNoUpdate ->
  w_phase w p <> PDone -> exists m w', m <> Kill /\ step T jobs p m w = Some w'.
Proof.
  intros T jobs d w p H J. assert (INV : match w_phase w p with PHold _ | PRemove | PRemoved _ => False | POpen _ => exists v, jobs p = JSearch v | _ => True end).
  { induction H as [|w q m w' H IH _ E]; [exact I|]. destruct (Nat.eq_dec q p) as [->|N].
    - unfold step in E. destruct (w_phase w p) as [|i|i es|i| |i| |s|] eqn:P; try contradiction.
      + destruct m; try discriminate.
        * destruct J as [(v & J)|J]; rewrite J in E; [|discriminate]. destruct (w_lock w); injection E as <-; cbn; rewrite upd_same; eauto.
        * destruct J as [(v & J)|J]; rewrite J in E; [discriminate|]. injection E as <-. cbn. rewrite upd_same. exact I.
        * injection E as <-. unfold release. rewrite P. cbn. rewrite upd_same. exact I.
      + destruct IH as (v & Jv). destruct m; try discriminate.
        * destruct (w_holder w i); [discriminate|]. unfold visit_of_job in E. rewrite Jv in E. injection E as <-. cbn. rewrite upd_same. exact I.
        * destruct (w_holder w i); [|discriminate]. rewrite Jv in E. injection E as <-. cbn. rewrite upd_same. exact I.
        * injection E as <-. unfold release. rewrite P. cbn. rewrite upd_same. exact I.
      + destruct es; destruct m; try discriminate; try (destruct (jobs p)); injection E as <-; unfold release; rewrite ?P; cbn; rewrite upd_same; exact I.
      + destruct m; try discriminate; try (destruct (d_vec (w_store w)), (jobs p)); injection E as <-; unfold release; rewrite ?P; cbn; rewrite upd_same; exact I.
      + destruct m; try discriminate; injection E as <-; unfold release; rewrite ?P; cbn; rewrite upd_same; exact I.
      + discriminate.
    - replace (w_phase w' p) with (w_phase w p); [exact IH|]. symmetry.
      assert (R : forall x, w_phase (release w x) = w_phase w) by (intro x; unfold release; destruct (held _); reflexivity).
      unfold step in E. destruct (w_phase w q) as [|i|i es|i| |i| |s|]; destruct m; try discriminate;
        repeat match type of E with match ?x with _ => _ end = _ => destruct x; try discriminate end; injection E as <-; cbn; rewrite ?R, upd_other by congruence; reflexivity. }
  intro ND. destruct (w_phase w p) as [|i|i es|i| |i| |s|] eqn:P; try contradiction.
  - destruct J as [(v & J)|J].
    + exists Open. unfold step. rewrite P, J. destruct (w_lock w); eexists; split; try discriminate; reflexivity.
    + exists Load. unfold step. rewrite P, J. eexists. split; [discriminate|reflexivity].
  - destruct INV as (v & Jv). destruct (w_holder w i) eqn:HO.
    + exists Busy. unfold step. rewrite P, HO, Jv. eexists. split; [discriminate|reflexivity].
    + exists Lock. unfold step. rewrite P, HO. unfold visit_of_job. rewrite Jv. eexists. split; [discriminate|reflexivity].
  - destruct es.
    + exists Finish. unfold step. rewrite P. destruct (jobs p); eexists; split; try discriminate; reflexivity.
    + exists Effect. unfold step. rewrite P. eexists. split; [discriminate|reflexivity].
  - exists Load. unfold step. rewrite P. destruct (d_vec (w_store w)), (jobs p); eexists; split; try discriminate; reflexivity.
  - exists Save. unfold step. rewrite P. eexists. split; [discriminate|reflexivity].
Qed.
Print Assumptions C99_search_never_waits.

(** *** Following a schedule *)
Lemma follow T jobs (ok : world -> nat -> move -> Prop) d l : forall w w', reach T jobs ok d w -> (forall w p m, In (p, m) l -> ok w p m) -> steps T jobs l w = Some w' -> reach T jobs ok d w'.
Proof.
  induction l as [|(p, m) l IH]; intros w w' R O E; [injection E as <-; exact R|]. cbn [steps] in E. destruct (step T jobs p m w) as [w1|] eqn:S; [|discriminate].
  apply (IH w1 w'); [|intros x q n J; apply O; right; exact J|exact E]. apply (one_step T jobs ok d w p m w1 R); [apply O; left; reflexivity|exact S].
Qed.
Definition calm_move (m : move) : bool := match m with Save | Kill => false | _ => true end.
Lemma follow_calm T jobs d l w w' : reach T jobs not_killed d w -> forallb (fun x => calm_move (snd x)) l = true -> steps T jobs l w = Some w' -> reach T jobs not_killed d w'.
Proof.
  intros R F E. apply (follow T jobs _ d l w w' R); [|exact E]. intros x p m J. rewrite forallb_forall in F. specialize (F _ J). cbn in F. split; [intros ->; discriminate|]. intros ->. discriminate.
Qed.
Definition times (n p : nat) (m : move) : list (nat * move) := repeat (p, m) n.
Definition the (o : option world) (d : store) : world := match o with Some w => w | None => start d end.
Lemma the_some o d : match o with Some _ => true | None => false end = true -> o = Some (the o d).
Proof. destruct o; [reflexivity|discriminate]. Qed.

(** *** What does not hold *)

(** The count of searches.  A search reads state.json, a run in another process ends and saves
    it, the search writes back what it had read: the next run adds the new file a second time. *)
Definition count_jobs (p : nat) : job := match p with 0 => JIndex (visit_of more) | 1 => JNoUpdate | _ => JIndex (visit_of more) end.
Definition run_of (p n : nat) : list (nat * move) := (p, Open) :: (p, Lock) :: times n p Effect ++ [(p, Finish)].
Definition effects_of (v : visit) (d : store) : nat := length (fst (visit_run toy v d)).
Definition lost_update : list (nat * move) :=
  [(1, Load); (1, Load)] ++ run_of 0 (effects_of (visit_of more) indexed) ++ [(1, Save)].
Definition after_lost : world := the (steps toy count_jobs lost_update (start indexed)) indexed.
Definition after_rerun : world := the (steps toy count_jobs (run_of 2 (effects_of (visit_of more) (w_store after_lost))) after_lost) indexed.
Theorem C99_lost_state_refuted : exists T jobs d w, good_tool T /\ none_removes jobs /\ d = visits T empty_store [visit_of base] /\ ordinary T [visit_of base; visit_of more] /\
  reach T jobs (fun _ _ m => m <> Kill) d w /\ idle w /\ w_log w = [visit_of more; visit_of more] /\ w_phase w 2 = PDone /\ ~ up_to_date T (proj more) (w_store w).
Proof.
  exists toy, count_jobs, indexed, after_rerun. split; [exact toy_good|]. split. { intro p. destruct p as [|[|p]]; split; discriminate. } split; [reflexivity|]. split.
  { constructor.
    - intros w [<-|[<-|[]]]; listed.
    - intros w [<-|[<-|[]]]; discriminate.
    - repeat split; in_cases; auto; left; discriminate.
    - cbn [consecutive]. split; [|exact I]; left; intros p f0 f H0 H1 HC; in_cases.
    - cbn [pairwise]. repeat split; try (intros w Hw p f0 f H; in_cases; fail). }
  split.
  { assert (K : forall l, forallb (fun x => match snd x with Kill => false | _ => true end) l = true -> forall w p m, In (p, m) l -> (fun (_ : world) (_ : nat) m => m <> Kill) w p m).
    { intros l F w p m J. rewrite forallb_forall in F. specialize (F _ J). cbn in F. intros ->. discriminate. }
    unfold after_rerun. eapply follow; [|apply K|apply the_some; vm_compute; reflexivity]; [|vm_compute; reflexivity].
    unfold after_lost. eapply follow; [apply at_start|apply K|apply the_some; vm_compute; reflexivity]. vm_compute. reflexivity. }
  split. { intros p (i & es & E). destruct p as [|[|[|p]]]; vm_compute in E; discriminate. }
  split; [vm_compute; reflexivity|]. split; [vm_compute; reflexivity|]. apply stale_not. vm_compute. reflexivity.
Qed.
Print Assumptions C99_lost_state_refuted.

(** Clearing.  A process that has opened the lock file before it is removed with the directory
    locks a file that no longer has a name; the next process makes a new one and locks that. *)
Definition clear_jobs (p : nat) : job := match p with 0 => JClear | _ => JIndex (visit_of pairs) end.
Definition two_locks : list (nat * move) := [(0, Open); (0, Lock); (1, Open); (0, Drop); (0, Remove); (1, Lock); (2, Open); (2, Lock)].
Definition both_run : world := the (steps toy clear_jobs two_locks (start indexed)) indexed.
Definition both_build : list (nat * move) := let n := effects_of (visit_of pairs) empty_store in times n 1 Effect ++ times n 2 Effect ++ [(1, Finish); (2, Finish)].
Definition after_both : world := the (steps toy clear_jobs both_build both_run) indexed.
Theorem C99_cleared_lock_refuted : exists T jobs d w w', reach T jobs (fun _ _ m => m <> Kill) d w /\ running w 1 /\ running w 2 /\
  reach T jobs (fun _ _ m => m <> Kill) d w' /\ idle w' /\ w_log w' = [visit_of pairs; visit_of pairs] /\ ~ up_to_date T (proj pairs) (w_store w').
Proof.
  exists toy, clear_jobs, indexed, both_run, after_both.
  assert (K : forall l, forallb (fun x => match snd x with Kill => false | _ => true end) l = true -> forall w p m, In (p, m) l -> (fun (_ : world) (_ : nat) m => m <> Kill) w p m).
  { intros l F w p m J. rewrite forallb_forall in F. specialize (F _ J). cbn in F. intros ->. discriminate. }
  assert (R : reach toy clear_jobs (fun _ _ m => m <> Kill) indexed both_run).
  { unfold both_run. eapply follow; [apply at_start|apply K|apply the_some; vm_compute; reflexivity]. vm_compute. reflexivity. }
  split; [exact R|]. split. { eexists _, _. vm_compute. reflexivity. } split. { eexists _, _. vm_compute. reflexivity. }
  split. { unfold after_both. eapply follow; [exact R|apply K|apply the_some; vm_compute; reflexivity]. vm_compute. reflexivity. }
  split. { intros p (i & es & E). destruct p as [|[|[|p]]]; vm_compute in E; discriminate. }
  split; [vm_compute; reflexivity|]. apply stale_not. vm_compute. reflexivity.
Qed.
Print Assumptions C99_cleared_lock_refuted.
(** And it removes an index that another process is writing: the lock is dropped first. *)
Theorem C99_cleared_while_written_refuted : exists T jobs d w w', reach T jobs any_move d w /\ running w 1 /\ step T jobs 0 Remove w = Some w' /\ running w' 1 /\ w_store w' = empty_store.
Proof.
  exists toy, clear_jobs, indexed, (the (steps toy clear_jobs [(0, Open); (0, Lock); (1, Open); (0, Drop); (1, Lock)] (start indexed)) indexed). eexists.
  split. { eapply follow; [apply at_start|intros; exact I|apply the_some; vm_compute; reflexivity]. }
  split. { eexists _, _. vm_compute. reflexivity. } split; [vm_compute; reflexivity|]. split; [|reflexivity]. eexists _, _. reflexivity.
Qed.
Print Assumptions C99_cleared_while_written_refuted.
(** The count is saved with the current format version, also over a state of an older format: the
    rebuild that the format asks for is not made any more. *)
Definition old_format : store :=
  {| d_vec := d_vec indexed; d_db := d_db indexed; d_building := false;
     d_state := option_map (fun s => {| s_files := s_files s; s_ignored := s_ignored s; s_searches := s_searches s; s_dirty := s_dirty s; s_format := false |}) (d_state indexed) |}.
Theorem C99_format_restamped_refuted : exists T jobs d w, d_vec d <> None /\ s_format (load d) = false /\ jobs 1 = JNoUpdate /\
  reach T jobs any_move d w /\ w_phase w 1 = PDone /\ d_vec (w_store w) = d_vec d /\
  In MoveAway (fst (visit_run T (visit_of base) d)) /\ fst (visit_run T (visit_of base) (w_store w)) = [].
Proof.
  exists toy, count_jobs, old_format, (the (steps toy count_jobs [(1, Load); (1, Load); (1, Save)] (start old_format)) old_format).
  split; [discriminate|]. split; [reflexivity|]. split; [reflexivity|]. split. { eapply follow; [apply at_start|intros; exact I|apply the_some; vm_compute; reflexivity]. }
  split; [reflexivity|]. split; [reflexivity|]. split; [vm_compute; auto|vm_compute; reflexivity].
Qed.
Print Assumptions C99_format_restamped_refuted.

(** *** A case: two searches and an `init` at the same time; the second search finds the lock held,
    its count is overwritten by the run. *)
Definition three_jobs (p : nat) : job := match p with 0 => JSearch (visit_of base) | 1 => JSearch (visit_of more) | _ => JIndex (visit_of more) end.
Definition n_first : nat := effects_of (visit_of base) empty_store.
Definition first_part : list (nat * move) := (0, Open) :: (1, Open) :: (0, Lock) :: times n_first 0 Effect ++ [(1, Busy); (0, Finish); (1, Load)].
Definition world1 : world := the (steps toy three_jobs first_part (start empty_store)) empty_store.
Definition world2 : world := the (step toy three_jobs 1 Save world1) empty_store.
Definition second_part : list (nat * move) := run_of 2 (effects_of (visit_of more) (w_store world2)) ++ [(0, Load)].
Definition world3 : world := the (steps toy three_jobs second_part world2) empty_store.
Definition world4 : world := the (step toy three_jobs 0 Save world3) empty_store.
Example C99_example : none_removes three_jobs /\ reach toy three_jobs not_killed empty_store world4 /\ idle world4 /\ w_log world4 = [visit_of base] ++ [visit_of more] /\
  s_searches (load (w_store world4)) = 2%Z /\ stale toy (proj more) (w_store world4) = false.
Proof.
  split. { intro p. destruct p as [|[|p]]; split; discriminate. } split.
  { assert (R1 : reach toy three_jobs not_killed empty_store world1) by (unfold world1; apply (follow_calm _ _ _ first_part (start empty_store)); [apply at_start|vm_compute; reflexivity|apply the_some; vm_compute; reflexivity]).
    assert (R2 : reach toy three_jobs not_killed empty_store world2).
    { eapply (one_step _ _ _ _ world1 1 Save); [exact R1| |apply the_some; vm_compute; reflexivity]. split; [discriminate|]. intros _ s E. vm_compute in E. injection E as <-. split; vm_compute; reflexivity. }
    assert (R3 : reach toy three_jobs not_killed empty_store world3) by (unfold world3; apply (follow_calm _ _ _ second_part world2); [exact R2|vm_compute; reflexivity|apply the_some; vm_compute; reflexivity]).
    eapply (one_step _ _ _ _ world3 0 Save); [exact R3| |apply the_some; vm_compute; reflexivity]. split; [discriminate|]. intros _ s E. vm_compute in E. injection E as <-. split; vm_compute; reflexivity. }
  split. { intros p (i & es & E). destruct p as [|[|[|p]]]; vm_compute in E; discriminate. }
  split; [vm_compute; reflexivity|]. split; vm_compute; reflexivity.
Qed.
