(** C42: progress of updates as shown by the health endpoint. *)
From Verif Require Import Base Text ApiProgress ApiProgressSpec ApiProgressProofs.
Open Scope Z_scope.

Definition ev n t w := {| e_name := txt n; e_time := t; e_what := w |}.
Arguments ev n%string.
Definition sec (n : Z) : Z := n * 1000000000.
(** Two indices; the second update of index a is queued while the first one runs. *)
Definition ex_events : list pevent :=
  [ev "a" (sec 1) (RQueued 3); ev "b" (sec 2) (RQueued 1); ev "a" (sec 3) (RStage (txt "batching"));
   ev "a" (sec 4) (RQueued 2); ev "b" (sec 5) (RStage (txt "batching")); ev "b" (sec 6) (RFailed (txt "no"));
   ev "a" (sec 400) (RStage (txt "reload"))].
Definition statuses (es : list pevent) (now : Z) : list (text * status * option Z * option Z) :=
  map (fun h => (h_index h, h_status h, h_queued h, h_processed h)) (health_statuses (record_all es) now).

(** For every history of events and every time: an update that completed or failed, with no later
    event of its index, is never shown as queued or running; what is shown is the outcome. *)
Theorem C42_finished_shows_outcome es a e b now name h :
  es = a ++ e :: b -> e_name e = name -> is_outcome e -> silent name b -> shown es now name h ->
  match e_what e with
  | RComplete n => h_status h = SComplete /\ h_stage h = complete_stage /\ h_processed h = Some n /\ h_error h = None
  | RFailed m => h_status h = SFailed /\ h_stage h = failed_stage /\ h_error h = Some m
  | _ => True
  end /\ h_updated h = e_time e.
Proof. exact (shown_outcome es a e b now name h). Qed.
Print Assumptions C42_finished_shows_outcome.

(** ... it is shown for exactly the retention period: as long as neither this request nor any event
    recorded since came more than ten minutes later ... *)
Theorem C42_finished_shown_iff_recent es a e b now name :
  es = a ++ e :: b -> e_name e = name -> is_outcome e -> silent name b ->
  ((exists h, shown es now name h) <-> (now <= e_time e + retention /\ Forall (fun x => e_time x <= e_time e + retention) b)).
Proof. exact (shown_outcome_iff es a e b now name). Qed.
Print Assumptions C42_finished_shown_iff_recent.

(** ... and it does not change while it is shown, elapsed time included. *)
Theorem C42_finished_does_not_change es a e b now now' name h h' :
  es = a ++ e :: b -> e_name e = name -> is_outcome e -> silent name b ->
  shown es now name h -> shown es now' name h' -> h = h'.
Proof. exact (shown_frozen es a e b now now' name h h'). Qed.
Print Assumptions C42_finished_does_not_change.

(** An update in some stage is visible at all times, as running in that stage, until its next stage
    or its outcome, whatever is queued meanwhile. *)
Theorem C42_running_visible es a e b now name stage :
  es = a ++ e :: b -> e_name e = name -> e_what e = RStage stage ->
  Forall (fun x => e_name x = name -> is_queued x) b ->
  exists h, shown es now name h /\ h_status h = SRunning /\ h_stage h = stage.
Proof. exact (shown_running es a e b now name stage). Qed.
Print Assumptions C42_running_visible.

(** A queued update is visible at all times, as queued when nothing is running. *)
Theorem C42_queued_visible es a e b now name :
  es = a ++ e :: b -> e_name e = name -> is_queued e -> idle name a -> silent name b ->
  exists h, shown es now name h /\ h_status h = SQueued.
Proof. exact (shown_queued es a e b now name). Qed.
Print Assumptions C42_queued_visible.

(** Every index is shown at most once, and only if something was recorded for it. *)
Theorem C42_shown_once es now :
  NoDup (map h_index (health_statuses (record_all es) now)) /\
  (forall name h, silent name es -> ~ shown es now name h).
Proof. split; [exact (health_names es now)|]. intros name h. exact (shown_silent es now name h). Qed.
Print Assumptions C42_shown_once.

Example C42_example :
  statuses ex_events (sec 500) = [(txt "a", SRunning, Some 5, None); (txt "b", SFailed, Some 1, None)] /\
  statuses ex_events (sec 607) = [(txt "a", SRunning, Some 5, None)] /\
  statuses (ex_events ++ [ev "a" (sec 500) (RComplete 5)]) (sec 606)
    = [(txt "a", SComplete, Some 5, Some 5); (txt "b", SFailed, Some 1, None)] /\
  (* the hypotheses of the theorems, on this history *)
  (let e := ev "b" (sec 6) (RFailed (txt "no")) in
   ex_events = firstn 5 ex_events ++ e :: skipn 6 ex_events /\ is_outcome e /\ silent (txt "b") (skipn 6 ex_events) /\
   exists h, shown ex_events (sec 606) (txt "b") h) /\
  (let e := ev "a" (sec 3) (RStage (txt "batching")) in
   firstn 6 ex_events = firstn 2 ex_events ++ e :: skipn 3 (firstn 6 ex_events) /\
   Forall (fun x => e_name x = txt "a" -> is_queued x) (skipn 3 (firstn 6 ex_events))) /\
  (idle (txt "b") [ev "a" (sec 1) (RQueued 3)]).
Proof.
  split; [vm_compute; reflexivity|]. split; [vm_compute; reflexivity|]. split; [vm_compute; reflexivity|]. split; [|split].
  - split; [reflexivity|]. split; [exact I|]. split; [repeat constructor; discriminate|].
    eexists. split; [|]. { vm_compute. right. left. reflexivity. } reflexivity.
  - split; [reflexivity|]. repeat constructor; discriminate.
  - intros a e b E N S. destruct a as [|x a]; [injection E as <- <-; destruct S|]. destruct a; discriminate.
Qed.

(** Finding: the handler of a queued update sends the item to the worker before it records it as
    queued.  When the worker is quick, the finished update is shown as queued, at all later times,
    with nothing left to do. *)
Theorem C42_finished_update_shown_queued_refuted :
  exists name n schedule,
    interleaved (handler name (sec 2) n) (worker_task name (sec 1) n) schedule /\ causal false schedule = true /\
    forall now, exists h, shown (recorded schedule) now name h /\ h_status h = SQueued.
Proof.
  exists (txt "a"), 3, [ASend; AReceive; ARecord (ev "a" (sec 1) (RStage (txt "batching"))); ARecord (ev "a" (sec 1) (RComplete 3));
                        ARecord (ev "a" (sec 2) (RQueued 3))].
  split; [repeat constructor|]. split; [reflexivity|]. intros now.
  apply (C42_queued_visible _ [ev "a" (sec 1) (RStage (txt "batching")); ev "a" (sec 1) (RComplete 3)] (ev "a" (sec 2) (RQueued 3)) []).
  - reflexivity.
  - reflexivity.
  - exact I.
  - intros a e b E N S. destruct a as [|x a].
    + injection E as <- <-. eexists. split; [left; reflexivity|]. split; [reflexivity|exact I].
    + destruct a as [|y a]; [injection E as <- <- <-; destruct S|]. destruct a; discriminate.
  - constructor.
Qed.
Print Assumptions C42_finished_update_shown_queued_refuted.
(** Finding: an update that was queued while another one ran is shown as complete when that one
    completes, and is not shown at all ten minutes later, though it still waits. *)
Theorem C42_waiting_update_shown_complete_refuted :
  exists es, es = [ev "a" (sec 1) (RQueued 3); ev "a" (sec 2) (RStage (txt "batching")); ev "a" (sec 3) (RQueued 2); ev "a" (sec 4) (RComplete 3)] /\
    statuses es (sec 5) = [(txt "a", SComplete, Some 5, Some 3)] /\ statuses es (sec 700) = [].
Proof. eexists. split; [reflexivity|]. split; vm_compute; reflexivity. Qed.
Print Assumptions C42_waiting_update_shown_complete_refuted.
(** Finding: documents of an earlier, completed update are counted again as queued. *)
Theorem C42_queued_count_includes_finished_refuted :
  exists es, es = [ev "a" (sec 1) (RQueued 10); ev "a" (sec 2) (RStage (txt "batching")); ev "a" (sec 3) (RComplete 10); ev "a" (sec 4) (RQueued 5)] /\
    statuses es (sec 5) = [(txt "a", SQueued, Some 15, None)].
Proof. eexists. split; [reflexivity|]. vm_compute. reflexivity. Qed.
Print Assumptions C42_queued_count_includes_finished_refuted.
