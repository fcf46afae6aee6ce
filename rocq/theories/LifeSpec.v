(** What is asked of the life of an index in the server. *)
From Verif Require Import Base Life.
Open Scope nat_scope.

(** Worlds reached from [w0] by moves of any threads in any order. *)
Inductive reach (requests : nat -> request) (w0 : world) : world -> Prop :=
| at_start : reach requests w0 w0
| one_step w t n w' : reach requests w0 w -> step requests t n w = Some w' -> reach requests w0 w'.

(** *** Requests at the same time *)
(** A server that has read the index and its configuration before. *)
Definition ready (c : config) (d : docs) : world :=
  set_cached (insert_slot (boot (Some c) (Some d)) d) (Some c).
(** Requests that leave the index in place, and whose writers use one lock. *)
Definition in_place (r : request) : Prop :=
  match r with Read | Info | Update _ | Delete _ | Configure _ => True | Create _ | Add _ | Drop => False end.
(** With a limit of [n] documents the newest [n] are kept. *)
Definition keep (c : config) (l : docs) : docs := match c with Some n => rev (firstn n (rev l)) | None => l end.
Definition effect (x : change) (l : docs) : docs :=
  match x with CAdd c b => keep c (l ++ b) | CDelete f => filter (fun d => negb (f d)) l | CNone => l end.
(** The documents after changes, oldest first. *)
Definition replay (l : list change) (d : docs) : docs := fold_left (fun l x => effect x l) l d.
Definition added (x : change) : docs := match x with CAdd _ b => b | _ => [] end.
(** What the worker has taken from the queue and not published. *)
Definition in_hand (w : world) : docs := match w_phase w (W 0) with Start => [] | _ => w_batch w 0 end.

(** *** One request after the other *)
(** The index as the client thinks of it: its configuration when it is declared, its documents when
    there are any. *)
Record index := { x_config : option config; x_docs : option docs }.
Definition answer_to (r : request) (x : index) : answer * index :=
  match r with
  | Read => (match x_docs x with Some l => Documents l | None => NotFound end, x)
  | Info => (Settings (x_config x), x)
  | Create c =>
    match x_config x, x_docs x with
    | None, None => (Done, {| x_config := Some c; x_docs := None |})
    | _, _ => (AlreadyExists, x)
    end
  | Update b =>
    match x_config x with
    | Some c => (Accepted, {| x_config := Some c; x_docs := Some (keep c (match x_docs x with Some l => l | None => [] end ++ b)) |})
    | None => (NotFound, x)
    end
  | Delete f =>
    match x_docs x with
    | Some l => (Done, {| x_config := x_config x; x_docs := Some (filter (fun d => negb (f d)) l) |})
    | None => (Failed, x)
    end
  | Add b =>
    match x_docs x, x_config x with
    | None, _ => (NotFound, x)
    | Some _, None => (Failed, x)
    | Some l, Some c => (Done, {| x_config := Some c; x_docs := Some (keep c (l ++ b)) |})
    end
  | Configure c => match x_config x with Some _ => (Done, {| x_config := Some c; x_docs := x_docs x |}) | None => (NotFound, x) end
  | Drop => (Done, {| x_config := None; x_docs := None |})
  end.
(** The requests 0, 1, 2, ... of a client that waits for each to end (and for the worker to have
    emptied the queue) before the next. *)
Inductive in_turn (requests : nat -> request) : nat -> world -> world -> Prop :=
| none_yet w0 : in_turn requests 0 w0 w0
| next_one k w0 w w1 w2 : in_turn requests k w0 w -> alone requests (H k) w w1 -> (exists a, w_phase w1 (H k) = Answered a) ->
    drained requests w1 w2 -> in_turn requests (S k) w0 w2
(** moves of one thread only *)
with alone (requests : nat -> request) : thread -> world -> world -> Prop :=
| still t w : alone requests t w w
| moves t n w w' w'' : step requests t n w = Some w' -> alone requests t w' w'' -> alone requests t w w''
(** moves of workers until all queues are empty and all workers wait *)
with drained (requests : nat -> request) : world -> world -> Prop :=
| empty w : (forall q, w_phase w (W q) = Start /\ w_items w q = []) -> drained requests w w
| works q n w w' w'' : step requests (W q) n w = Some w' -> drained requests w' w'' -> drained requests w w''.
(** What the spec says of the first [k] requests: their answers, and the index after them. *)
Fixpoint after (requests : nat -> request) (k : nat) (x : index) : index :=
  match k with O => x | S k' => snd (answer_to (requests k') (after requests k' x)) end.

(** *** Waiting *)
(** A request without answer; a worker with a batch, or with updates in its queue. *)
Definition unfinished (w : world) (t : thread) : Prop :=
  match t with H _ => forall a, w_phase w t <> Answered a | W q => w_phase w t <> Start \/ w_items w q <> [] end.
Definition can_move (requests : nat -> request) (w : world) (t : thread) : Prop := exists n w', step requests t n w = Some w'.
Definition has_a_lock (w : world) (t : thread) : Prop := w_name w = Some t \/ w_path w = Some t \/ w_loading w = Some t.
(** how many moves of a run are a thread's *)
Definition moves_of (t : thread) (l : list (thread * nat)) : nat := length (filter (fun x => thread_eqb (fst x) t) l).
