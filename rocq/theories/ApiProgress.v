(** Progress of updates, as reported by the health endpoint (next-plaid-api/src/state.rs).  The text
    of the dates is in Calendar.v. *)
From Verif Require Import Base Text.
Open Scope nat_scope.

Open Scope Z_scope.
(** ** Entries (state.rs 66-76); the message is left out.  Times are in nanoseconds. *)
Inductive status := SQueued | SRunning | SComplete | SFailed.
Record progress := {
  pg_status : status;
  pg_stage : text;
  pg_queued : option Z;
  pg_processed : option Z;
  pg_started : Z;
  pg_updated : Z;
  pg_error : option text
}.
(** state.rs 64 [UPDATE_STATUS_RETENTION]: ten minutes *)
Definition retention : Z := 600 * 1000000000.
(** state.rs 108-115 [update_progress_is_visible] *)
Definition visible (p : progress) (now : Z) : bool :=
  match pg_status p with
  | SQueued | SRunning => true
  | _ => if now <? pg_updated p then true else now - pg_updated p <=? retention
  end.
(** [HashMap<String, UpdateProgress>] *)
Definition table : Type := list (text * progress).
Fixpoint get (m : table) (name : text) : option progress :=
  match m with [] => None | (n, p) :: m => if text_eqb n name then Some p else get m name end.
Fixpoint set (m : table) (name : text) (p : progress) : table :=
  match m with [] => [(name, p)] | (n, q) :: m => if text_eqb n name then (n, p) :: m else (n, q) :: set m name p end.
(** state.rs 104-106 [prune_expired_update_progress] *)
Definition prune (m : table) (now : Z) : table := filter (fun x => visible (snd x) now) m.
Definition usize_max : Z := 2 ^ 64 - 1.
Definition queued_stage : text := txt "queued".
Definition complete_stage : text := txt "complete".
Definition failed_stage : text := txt "failed".

(** state.rs 533-570 [record_update_queued] *)
Definition record_queued (m : table) (now : Z) (name : text) (n : Z) : table :=
  let m := prune m now in
  match get m name with
  | Some p =>
    let q := Z.min (match pg_queued p with Some q => q | None => 0 end + n) usize_max in
    set m name
      match pg_status p with
      | SRunning => {| pg_status := SRunning; pg_stage := pg_stage p; pg_queued := Some q; pg_processed := pg_processed p;
                       pg_started := pg_started p; pg_updated := now; pg_error := None |}
      | _ => {| pg_status := SQueued; pg_stage := queued_stage; pg_queued := Some q; pg_processed := None;
                pg_started := now; pg_updated := now; pg_error := None |}
      end
  | None => set m name {| pg_status := SQueued; pg_stage := queued_stage; pg_queued := Some n; pg_processed := None;
                          pg_started := now; pg_updated := now; pg_error := None |}
  end.
(** [entry(name).or_insert_with(..)] followed by the assignments common to the three functions below *)
Definition record_as (m : table) (now : Z) (name : text) (s : status) (stage : text) (q0 : option Z)
    (processed : option Z -> option Z) (err : option text) : table :=
  let m := prune m now in
  match get m name with
  | Some p => set m name {| pg_status := s; pg_stage := stage; pg_queued := pg_queued p; pg_processed := processed (pg_processed p);
                            pg_started := pg_started p; pg_updated := now; pg_error := err |}
  | None => set m name {| pg_status := s; pg_stage := stage; pg_queued := q0; pg_processed := processed None;
                          pg_started := now; pg_updated := now; pg_error := err |}
  end.
(** state.rs 573-596 [record_update_stage] *)
Definition record_stage (m : table) (now : Z) (name : text) (stage : text) : table :=
  record_as m now name SRunning stage None (fun p => p) None.
(** state.rs 599-623 [record_update_complete] *)
Definition record_complete (m : table) (now : Z) (name : text) (n : Z) : table :=
  record_as m now name SComplete complete_stage (Some n) (fun _ => Some n) None.
(** state.rs 626-649 [record_update_failed] *)
Definition record_failed (m : table) (now : Z) (name : text) (error : text) : table :=
  record_as m now name SFailed failed_stage None (fun p => p) (Some error).

(** ** The health endpoint (state.rs 652-690 [get_update_health_statuses]) *)
Record health := {
  h_index : text; h_status : status; h_stage : text; h_queued : option Z; h_processed : option Z;
  h_started : Z; h_updated : Z; h_elapsed_ms : Z; h_error : option text
}.
Definition health_of (now : Z) (x : text * progress) : health :=
  let p := snd x in
  let end_ := match pg_status p with SComplete | SFailed => pg_updated p | _ => now end in
  {| h_index := fst x; h_status := pg_status p; h_stage := pg_stage p; h_queued := pg_queued p; h_processed := pg_processed p;
     h_started := pg_started p; h_updated := pg_updated p;
     h_elapsed_ms := Z.min (Z.max 0 (end_ - pg_started p) / 1000000) usize_max; h_error := pg_error p |}.
(** [String::cmp]: byte order of UTF-8, which is code point order *)
Fixpoint text_leb (a b : text) : bool :=
  match a, b with
  | [], _ => true
  | _ :: _, [] => false
  | x :: a, y :: b => if x =? y then text_leb a b else x <? y
  end.
Definition health_statuses (m : table) (now : Z) : list health :=
  isort (fun a b => text_leb (h_index a) (h_index b)) (map (health_of now) (filter (fun x => visible (snd x) now) m)).

(** ** Histories: what the handlers and workers record, at the times their clocks show *)
Inductive record_event := RQueued (n : Z) | RStage (stage : text) | RComplete (n : Z) | RFailed (error : text).
Record pevent := { e_name : text; e_time : Z; e_what : record_event }.
Definition record (m : table) (e : pevent) : table :=
  match e_what e with
  | RQueued n => record_queued m (e_time e) (e_name e) n
  | RStage s => record_stage m (e_time e) (e_name e) s
  | RComplete n => record_complete m (e_time e) (e_name e) n
  | RFailed s => record_failed m (e_time e) (e_name e) s
  end.
Definition record_all (es : list pevent) : table := fold_left record es [].

(** ** One update request (documents.rs 1547-1600 [update_index], 346-380 [batch_worker], 403-575
    [process_batch]): the handler first sends the item, then records that it is queued; the worker
    receives the item, records its stages and the outcome.  Each list is what one task does, in
    order; the two run concurrently, and an item can only be received after it was sent. *)
Inductive act := ASend | AReceive | ARecord (e : pevent).
Definition handler (name : text) (t n : Z) : list act :=
  [ASend; ARecord {| e_name := name; e_time := t; e_what := RQueued n |}].
Definition worker_task (name : text) (t n : Z) : list act :=
  [AReceive; ARecord {| e_name := name; e_time := t; e_what := RStage (txt "batching") |};
   ARecord {| e_name := name; e_time := t; e_what := RComplete n |}].
(** An interleaving of two tasks *)
Inductive interleaved : list act -> list act -> list act -> Prop :=
| il_nil : interleaved [] [] []
| il_left a l r s : interleaved l r s -> interleaved (a :: l) r (a :: s)
| il_right a l r s : interleaved l r s -> interleaved l (a :: r) (a :: s).
(** The item is received after it was sent *)
Fixpoint causal (sent : bool) (s : list act) : bool :=
  match s with
  | [] => true
  | ASend :: s => causal true s
  | AReceive :: s => sent && causal sent s
  | ARecord _ :: s => causal sent s
  end.
Definition recorded (s : list act) : list pevent := flat_map (fun a => match a with ARecord e => [e] | _ => [] end) s.
