(** C100: the life of an index in the server, under requests one after the other and at the same
    time. *)
From Verif Require Import Base Life LifeSpec LifeProofs LifeSeq LifeLive.
Open Scope nat_scope.

(** C100. One after the other: whatever is on disk when the server starts, and whatever requests a
    client makes, each after the one before has ended, every answer is the one for the index as the
    client thinks of it, and so are the files: caches never show. *)
Theorem C100_in_turn : forall requests c d k w, in_turn requests k (boot c d) w ->
  let x := {| x_config := c; x_docs := d |} in
  (forall j, j < k -> w_phase w (H j) = Answered (fst (answer_to (requests j) (after requests j x)))) /\
  w_config w = x_config (after requests k x) /\ w_docs w = x_docs (after requests k x).
Proof. intros requests c d k w T x. destruct (in_turn_calm requests c d k w T) as (C & A). split; [exact A|]. destruct C. auto. Qed.
Print Assumptions C100_in_turn.
(** At the same time, any requests: a search is answered from one version of the index that was
    on disk as a whole. *)
Theorem C100_one_version : forall requests c d w k l, reach requests (boot c d) w -> w_phase w (H k) = Answered (Documents l) -> In (Some l) (w_versions w).
Proof. intros requests c d w k l R P. pose proof (k_phase _ (known_reach _ _ _ (known_boot c d) R) (H k)) as Q. rewrite P in Q. exact Q. Qed.
Print Assumptions C100_one_version.
Lemma inv_reach requests c d w : (forall k, in_place (requests k)) -> reach requests (ready c d) w -> inv requests c d w.
Proof. intros C R. induction R as [|w t n w' R IH E]; [apply inv_ready|]. exact (inv_step requests c d C t n w w' IH E). Qed.
(** At the same time, with the index loaded and left in place: a search that answers shows exactly
    the changes published so far, in the order in which they were published.  A change is
    published before it is reported complete. *)
Theorem C100_reads_current : forall requests c d w k n w' l, (forall k, in_place (requests k)) -> reach requests (ready c d) w ->
  step requests (H k) n w = Some w' -> w_phase w' (H k) = Answered (Documents l) -> l = replay (w_published w) d.
Proof.
  intros requests c d w k n w' l C R E P. pose proof (inv_reach requests c d w C R) as I. pose proof (i_threads _ _ _ _ I (H k)) as O. cbn in O. pose proof (C k) as CK.
  rewrite <- (i_pub _ _ _ _ I). unfold step in E. cbv zeta in E.
  destruct (w_phase w (H k)) eqn:PH; destruct (requests k) eqn:RK; cbn in CK; try contradiction; try discriminate;
    repeat match type of E with context [match ?x with _ => _ end] => destruct x eqn:?; try discriminate end; injection E as <-;
    cbn -[updt] in P; rewrite updt_same in P; try discriminate.
  injection P as <-. rewrite O. reflexivity.
Qed.
Print Assumptions C100_reads_current.
(** Accepted updates are published whole, in the order in which they were accepted, each once;
    what is accepted and not yet published is in the worker's hand or in the queue. *)
Theorem C100_accepted_in_order : forall requests c d w, (forall k, in_place (requests k)) -> reach requests (ready c d) w ->
  concat (w_accepted w) = concat (map added (w_published w)) ++ in_hand w ++ concat (w_items w 0).
Proof. intros requests c d w C R. exact (i_acc _ _ _ _ (inv_reach requests c d w C R)). Qed.
Print Assumptions C100_accepted_in_order.
(** The files are never behind: with no change under way they hold what searches show. *)
Theorem C100_files_current : forall requests c d w, (forall k, in_place (requests k)) -> reach requests (ready c d) w -> w_path w = None ->
  w_docs w = Some (replay (w_published w) d).
Proof.
  intros requests c d w C R P. destruct (inv_reach requests c d w C R) as [I1 I2 I3 I4 I5 (dd & D & B) I7 I8]. unfold between in B. rewrite P in B. congruence.
Qed.
Print Assumptions C100_files_current.
(** The configuration that requests and updates use is the one that was set last. *)
Theorem C100_settings_current : forall requests c d w t n w', (forall k, in_place (requests k)) -> reach requests (ready c d) w ->
  step requests t n w = Some w' -> w_phase w t = CLook -> w_phase w' t = CHave (last (w_configured w) c).
Proof.
  intros requests c d w t n w' C R E P. pose proof (i_cached _ _ _ _ (inv_reach requests c d w C R)) as CA. unfold step in E. rewrite P, CA in E. injection E as <-. cbn -[updt]. apply updt_same.
Qed.
Print Assumptions C100_settings_current.

(** *** A case: an update, a deletion, a new limit and searches in between *)
Lemma follow requests w0 l : forall w w', reach requests w0 w -> steps requests l w = Some w' -> reach requests w0 w'.
Proof.
  induction l as [|(t, n) l IH]; intros w w' R E; [injection E as <-; exact R|]. cbn [steps] in E. destruct (step requests t n w) as [w1|] eqn:S; [|discriminate].
  exact (IH w1 w' (one_step requests w0 w t n w1 R S) E).
Qed.
Definition times (k : nat) (t : thread) : list (thread * nat) := repeat (t, 1) k.
Definition the (o : option world) : world := match o with Some w => w | None => boot None None end.
Lemma follow_the requests w0 l : match steps requests l w0 with Some _ => true | None => false end = true -> reach requests w0 (the (steps requests l w0)).
Proof. intro E. destruct (steps requests l w0) as [w|] eqn:S; [|discriminate]. exact (follow requests w0 l w0 w (at_start requests w0) S). Qed.
Definition mixed (k : nat) : request :=
  match k with 0 => Update [5] | 1 => Update [6] | 2 => Delete (fun x => x =? 1) | 3 => Configure (Some 3) | _ => Read end.
Definition mixed_run : list (thread * nat) :=
  times 3 (H 0) ++ times 3 (H 1) ++ [(W 0, 2)] ++ times 1 (H 3) ++ times 1 (W 0) ++ times 2 (H 4) ++ times 4 (H 3) ++ times 5 (W 0) ++ times 2 (H 5) ++ times 5 (H 2) ++ times 1 (H 6).
Definition mixed_end : world := the (steps mixed mixed_run (ready None [1; 2; 3])).
Example C100_example : (forall k, in_place (mixed k)) /\ reach mixed (ready None [1; 2; 3]) mixed_end /\
  w_phase mixed_end (H 4) = Answered (Documents [1; 2; 3]) /\ w_phase mixed_end (H 5) = Answered (Documents [3; 5; 6]) /\ w_phase mixed_end (H 3) = Answered Done /\
  w_path mixed_end = None /\ length (w_published mixed_end) = 2 /\ w_docs mixed_end = Some [3; 5; 6].
Proof.
  split. { intro k. destruct k as [|[|[|[|k]]]]; exact I. } split. { apply follow_the. vm_compute. reflexivity. } vm_compute. repeat split.
Qed.
(** Requests in turn. *)
Definition story (k : nat) : request :=
  match k with 0 => Create (Some 2) | 1 => Update [1; 2; 3] | 2 => Read | 3 => Drop | 4 => Read | 5 => Create None | 6 => Update [7] | 7 => Add [8] | _ => Read end.
Lemma alone_steps requests t l : forall w w', (forall x, In x l -> fst x = t) -> steps requests l w = Some w' -> alone requests t w w'.
Proof.
  induction l as [|(u, n) l IH]; intros w w' F E; [injection E as <-; apply still|]. cbn [steps] in E. pose proof (F (u, n) (or_introl eq_refl)) as X. cbn in X. subst u.
  destruct (step requests t n w) as [w1|] eqn:S; [|discriminate]. eapply moves; [exact S|]. apply IH; [|exact E]. intros x J. apply F. right. exact J.
Qed.
Lemma drained_steps requests q l : forall w w', (forall x, In x l -> fst x = W q) -> steps requests l w = Some w' -> (forall q, w_phase w' (W q) = Start /\ w_items w' q = []) -> drained requests w w'.
Proof.
  induction l as [|(u, n) l IH]; intros w w' F E Q; [injection E as <-; apply empty; exact Q|]. cbn [steps] in E. pose proof (F (u, n) (or_introl eq_refl)) as X. cbn in X. subst u.
  destruct (step requests (W q) n w) as [w1|] eqn:S; [|discriminate]. eapply works; [exact S|]. apply IH; [|exact E|exact Q]. intros x J. apply F. right. exact J.
Qed.
Example C100_in_turn_example : exists w, in_turn story 3 (boot None None) w /\ w_phase w (H 2) = Answered (Documents [2; 3]).
Proof.
  pose (w1 := the (steps story (times 3 (H 0)) (boot None None))).
  pose (w2 := the (steps story (times 3 (H 1)) w1)). pose (w3 := the (steps story (times 7 (W 0)) w2)). pose (w4 := the (steps story (times 2 (H 2)) w3)).
  exists w4. split; [|vm_compute; reflexivity].
  assert (A : forall t k x, In x (times k t) -> fst x = t) by (intros t k x J; apply repeat_spec in J; subst x; reflexivity).
  apply (next_one story 2 (boot None None) w3 w4 w4); [|apply (alone_steps story (H 2) (times 2 (H 2))); [apply A|vm_compute; reflexivity]|eexists; vm_compute; reflexivity|].
  2: { apply empty. intros [|[|q]]; vm_compute; auto. }
  apply (next_one story 1 (boot None None) w1 w2 w3); [|apply (alone_steps story (H 1) (times 3 (H 1))); [apply A|vm_compute; reflexivity]|eexists; vm_compute; reflexivity|].
  2: { apply (drained_steps story 0 (times 7 (W 0))); [apply A|vm_compute; reflexivity|]. intros [|[|q]]; vm_compute; auto. }
  apply (next_one story 0 (boot None None) (boot None None) w1 w1); [apply none_yet|apply (alone_steps story (H 0) (times 3 (H 0))); [apply A|vm_compute; reflexivity]|eexists; vm_compute; reflexivity|].
  apply empty. intros [|[|q]]; vm_compute; auto.
Qed.

(** *** Waiting *)
(** No request waits for ever: one that has no answer, and a worker that has work, can move, or waits
    for a lock whose holder can move. *)
Theorem C100_never_stuck : forall requests c d w t, reach requests (boot c d) w -> unfinished w t ->
  can_move requests w t \/ exists u, u <> t /\ has_a_lock w u /\ can_move requests w u.
Proof. intros requests c d w t R U. apply progress; [|exact U]. exact (live_reach _ _ _ (live_boot _ _ _) R). Qed.
Print Assumptions C100_never_stuck.
(** And every run is short: a request makes at most 17 moves, a worker 10 for each accepted update. *)
Theorem C100_bounded : forall requests c d l w, steps requests l (boot c d) = Some w ->
  (forall k, moves_of (H k) l <= 17) /\ (forall q, moves_of (W q) l <= 10 * length (w_accepted w)).
Proof.
  intros requests c d l w E. split.
  - intros k. assert (X := request_moves requests k l _ _ E). change (rank (w_phase (boot c d) (H k))) with 17 in X. lia.
  - intros q. assert (NR : forall q', ~ reader (w_phase (boot c d) (W q'))) by (intros q' f; exact f).
    assert (X := worker_moves requests q l _ _ NR E).
    change (length (w_items (boot c d) q)) with 0 in X. change (wrank (w_phase (boot c d) (W q))) with 0 in X. change (length (w_accepted (boot c d))) with 0 in X. lia.
Qed.
Print Assumptions C100_bounded.
(** So when nothing can move, every request has its answer and every accepted update was processed. *)
Theorem C100_all_answered : forall requests c d w, reach requests (boot c d) w -> (forall t, ~ can_move requests w t) ->
  (forall k, exists a, w_phase w (H k) = Answered a) /\ (forall q, w_phase w (W q) = Start /\ w_items w q = []).
Proof.
  intros requests c d w R N. assert (P : forall t, ~ unfinished w t).
  { intros t U. destruct (C100_never_stuck requests c d w t R U) as [M|(u & _ & _ & M)]; exact (N _ M). }
  split.
  - intros k. destruct (w_phase w (H k)) eqn:E; try (exfalso; apply (P (H k)); intros a; congruence). eexists. reflexivity.
  - intros q. assert (Pq := P (W q)). cbn [unfinished] in Pq. split.
    + destruct (w_phase w (W q)); try reflexivity; exfalso; apply Pq; left; discriminate.
    + destruct (w_items w q); [reflexivity|]. exfalso. apply Pq. right. discriminate.
Qed.
Print Assumptions C100_all_answered.
(** Three requests, two of them waiting for the lock of the first. *)
Definition waiting (k : nat) : request := match k with 0 => Configure (Some 5) | 1 => Configure (Some 6) | _ => Read end.
Example C100_waiting_example : exists w, steps waiting [(H 0, 0); (H 2, 0); (H 0, 0)] (boot (Some None) (Some [1])) = Some w /\
  reach waiting (boot (Some None) (Some [1])) w /\ unfinished w (H 1) /\ ~ can_move waiting w (H 1) /\ w_name w = Some (H 0) /\ can_move waiting w (H 0).
Proof.
  eexists. split; [vm_compute; reflexivity|]. split.
  { eapply one_step with (t := H 0) (n := 0); [eapply one_step with (t := H 2) (n := 0); [eapply one_step with (t := H 0) (n := 0); [apply at_start|vm_compute; reflexivity]|vm_compute; reflexivity]|vm_compute; reflexivity]. }
  split; [intros a; discriminate|]. split; [intros (n & w' & E); discriminate|]. split; [reflexivity|]. exists 0. eexists. reflexivity.
Qed.

(** *** What does not hold *)

(** An index that is being loaded for its first search while an update is published: the old
    version is put in place of the new one and stays there until the next change. *)
Definition first_search (k : nat) : request := match k with 1 => Update [2] | _ => Read end.
Definition first_search_run : list (thread * nat) := times 4 (H 0) ++ times 3 (H 1) ++ times 9 (W 0) ++ times 3 (H 0) ++ times 2 (H 2).
Theorem C100_stale_after_start_refuted : exists requests l w, reach requests (boot (Some None) (Some [1])) w /\ requests 1 = Update [2] /\ requests 2 = Read /\
  (forall t, w_phase w t = Start \/ exists a, w_phase w t = Answered a) /\ w_items w 0 = [] /\ w_docs w = Some [1; 2] /\ length (w_published w) = 1 /\
  steps requests l (boot (Some None) (Some [1])) = Some w /\ (exists l1 l2, l = l1 ++ l2 /\ (forall x, In x l2 -> fst x = H 2) /\ exists w1, steps requests l1 (boot (Some None) (Some [1])) = Some w1 /\ length (w_published w1) = 1 /\ w_phase w1 (H 2) = Start) /\
  w_phase w (H 2) = Answered (Documents [1]).
Proof.
  exists first_search, first_search_run, (the (steps first_search first_search_run (boot (Some None) (Some [1])))).
  split. { apply follow_the. vm_compute. reflexivity. } split; [reflexivity|]. split; [reflexivity|].
  split. { intros [[|[|[|k]]]|[|q]]; vm_compute; try (right; eexists; reflexivity); left; reflexivity. }
  split; [vm_compute; reflexivity|]. split; [vm_compute; reflexivity|]. split; [vm_compute; reflexivity|]. split; [vm_compute; reflexivity|].
  split. { eexists (times 4 (H 0) ++ times 3 (H 1) ++ times 9 (W 0) ++ times 3 (H 0)), (times 2 (H 2)). split; [reflexivity|]. split; [intros x J; apply repeat_spec in J; subst x; reflexivity|]. eexists. split; [vm_compute; reflexivity|]. split; reflexivity. }
  vm_compute. reflexivity.
Qed.
Print Assumptions C100_stale_after_start_refuted.
(** The same with a deletion: a deleted index goes on answering, also after it was declared anew. *)
Definition ghost (k : nat) : request := match k with 1 => Drop | 2 => Create None | _ => Read end.
Definition ghost_run : list (thread * nat) := times 4 (H 0) ++ times 6 (H 1) ++ times 3 (H 0) ++ times 3 (H 2) ++ times 2 (H 3).
Theorem C100_deleted_index_answers_refuted : exists requests w, reach requests (boot (Some None) (Some [1])) w /\ requests 1 = Drop /\ requests 2 = Create None /\
  w_phase w (H 1) = Answered Done /\ w_phase w (H 2) = Answered Done /\ w_docs w = None /\ w_phase w (H 3) = Answered (Documents [1]).
Proof.
  exists ghost, (the (steps ghost ghost_run (boot (Some None) (Some [1])))). split. { apply follow_the. vm_compute. reflexivity. } vm_compute. repeat split.
Qed.
Print Assumptions C100_deleted_index_answers_refuted.
(** Documents that wait in the queue when their index is deleted are added to the next index of
    that name. *)
Definition haunted (k : nat) : request := match k with 0 => Update [1] | 1 => Drop | 2 => Create None | _ => Read end.
Definition haunted_run : list (thread * nat) := times 3 (H 0) ++ times 6 (H 1) ++ times 3 (H 2) ++ times 7 (W 0) ++ times 2 (H 3).
Theorem C100_deleted_documents_return_refuted : exists requests w, reach requests (boot (Some None) None) w /\ requests 0 = Update [1] /\ requests 1 = Drop /\ requests 2 = Create None /\ requests 3 = Read /\
  w_phase w (H 0) = Answered Accepted /\ w_phase w (H 1) = Answered Done /\ w_phase w (H 2) = Answered Done /\ w_phase w (H 3) = Answered (Documents [1]).
Proof.
  exists haunted, (the (steps haunted haunted_run (boot (Some None) None))). split. { apply follow_the. vm_compute. reflexivity. } vm_compute. repeat split.
Qed.
Print Assumptions C100_deleted_documents_return_refuted.
(** An update under way while its index is deleted makes files again without config.json: such an
    index can be searched, but neither filled nor declared. *)
Definition undeclared (k : nat) : request := match k with 0 => Update [1] | 1 => Drop | 2 => Read | 3 => Update [2] | _ => Create None end.
Definition undeclared_run : list (thread * nat) := times 3 (H 0) ++ times 4 (W 0) ++ times 6 (H 1) ++ times 5 (W 0) ++ times 2 (H 2) ++ times 1 (H 3) ++ times 2 (H 4).
Theorem C100_undeclared_index_refuted : exists requests w, reach requests (boot (Some None) None) w /\ requests 1 = Drop /\ requests 2 = Read /\ requests 3 = Update [2] /\ requests 4 = Create None /\
  w_phase w (H 1) = Answered Done /\ w_config w = None /\ w_phase w (H 2) = Answered (Documents [1]) /\ w_phase w (H 3) = Answered NotFound /\ w_phase w (H 4) = Answered AlreadyExists.
Proof.
  exists undeclared, (the (steps undeclared undeclared_run (boot (Some None) None))). split. { apply follow_the. vm_compute. reflexivity. } vm_compute. repeat split.
Qed.
Print Assumptions C100_undeclared_index_refuted.
(** A request that reads config.json for the cache while another changes it: the old configuration
    is cached and used until the server is started again. *)
Definition settings (k : nat) : request := match k with 1 => Configure (Some 5) | _ => Info end.
Definition settings_run : list (thread * nat) := times 3 (H 0) ++ times 7 (H 1) ++ times 2 (H 0) ++ times 3 (H 2).
Theorem C100_settings_lost_refuted : exists requests w, reach requests (boot (Some None) (Some [1])) w /\ requests 1 = Configure (Some 5) /\ requests 2 = Info /\
  w_phase w (H 1) = Answered Done /\ w_config w = Some (Some 5) /\ w_cached w = Some None /\ w_phase w (H 2) = Answered (Settings (Some None)).
Proof.
  exists settings, (the (steps settings settings_run (boot (Some None) (Some [1])))). split. { apply follow_the. vm_compute. reflexivity. } vm_compute. repeat split.
Qed.
Print Assumptions C100_settings_lost_refuted.
