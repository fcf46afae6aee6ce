(** Threads joined by bounded channels (std::sync::mpsc::sync_channel), as colgrep's pipeline uses
    them.  Thread [i] reads from channel [i]; the only sender of that channel is held by thread
    [parent i]. *)
From Verif Require Import Base.
Open Scope nat_scope.
Set Default Proof Using "Type".

(** What a thread does; [M] are the messages, [E] its effects on the disk.
    [Fail]: `?` on an error, or a panic (its joiner treats both as an error);
    [Stop]: the thread returns Ok at once (`break` and the end of its function). *)
Inductive action (M E : Type) := Send (c : nat) (m : M) | Close (c : nat) | Join (t : nat) | Do (e : E) | Fail | Stop.
Arguments Send {M E}. Arguments Close {M E}. Arguments Join {M E}. Arguments Do {M E}. Arguments Fail {M E}. Arguments Stop {M E}.
Definition is_send {M E} (c : nat) (a : action M E) : list M := match a with Send c' m => if c' =? c then [m] else [] | _ => [] end.
Definition is_do {M E} (a : action M E) : list E := match a with Do e => [e] | _ => [] end.

(** A thread first does [p_start]; then `while let Ok(m) = receiver.recv()`: on the last message of
    what it has received so far it does [p_on]; when the channel is closed and empty, [p_end]. *)
Record program (M E : Type) := { p_start : list (action M E); p_on : list M -> list (action M E); p_end : list M -> list (action M E) }.
Arguments p_start {M E}. Arguments p_on {M E}. Arguments p_end {M E}.
Inductive status := Running | Done | Failed.
(** [t_hist]: messages received; [t_done]: actions completed (recorded only);
    [t_last]: no message will come, the thread ends after [t_todo]; [t_open]: the sender of its
    channel still exists. *)
Record thread (M E : Type) := { t_hist : list M; t_done : list (action M E); t_todo : list (action M E); t_last : bool; t_queue : list M; t_open : bool; t_status : status }.
Arguments t_hist {M E}. Arguments t_done {M E}. Arguments t_todo {M E}. Arguments t_last {M E}. Arguments t_queue {M E}. Arguments t_open {M E}. Arguments t_status {M E}.

Section NET.
  Context {M E : Type}.
  Variable parent : nat -> nat.
  Variable cap : nat -> nat.
  Variable prog : nat -> program M E.
  Definition state := nat -> thread M E.

  Definition upd (s : state) (i : nat) (t : thread M E) : state := fun j => if j =? i then t else s j.
  Definition with_todo (t : thread M E) (done todo : list (action M E)) : thread M E :=
    {| t_hist := t_hist t; t_done := done; t_todo := todo; t_last := t_last t; t_queue := t_queue t; t_open := t_open t; t_status := t_status t |}.
  Definition with_status (t : thread M E) (x : status) : thread M E :=
    {| t_hist := t_hist t; t_done := t_done t; t_todo := t_todo t; t_last := t_last t; t_queue := t_queue t; t_open := t_open t; t_status := x |}.
  Definition with_queue (t : thread M E) (q : list M) : thread M E :=
    {| t_hist := t_hist t; t_done := t_done t; t_todo := t_todo t; t_last := t_last t; t_queue := q; t_open := t_open t; t_status := t_status t |}.
  Definition closed (t : thread M E) : thread M E :=
    {| t_hist := t_hist t; t_done := t_done t; t_todo := t_todo t; t_last := t_last t; t_queue := t_queue t; t_open := false; t_status := t_status t |}.
  Definition receive (t : thread M E) (m : M) (q : list M) (todo : list (action M E)) : thread M E :=
    {| t_hist := t_hist t ++ [m]; t_done := t_done t; t_todo := todo; t_last := false; t_queue := q; t_open := t_open t; t_status := t_status t |}.
  Definition hang_up (t : thread M E) (todo : list (action M E)) : thread M E :=
    {| t_hist := t_hist t; t_done := t_done t; t_todo := todo; t_last := true; t_queue := t_queue t; t_open := t_open t; t_status := t_status t |}.
  (** A thread that ends drops the senders it holds. *)
  Definition finish (s : state) (i : nat) (x : status) : state :=
    fun j => let t := if j =? i then with_status (s i) x else s j in if (parent j =? i) && (0 <? j) then closed t else t.

  (** One step of thread [i]; [None]: it is blocked, or has ended. *)
  Definition step1 (i : nat) (s : state) : option state :=
    let t := s i in
    match t_status t with
    | Running =>
      match t_todo t with
      | a :: r =>
        let t' := with_todo t (t_done t ++ [a]) r in
        match a with
        | Send c m => match t_status (s c) with
                      | Running => if length (t_queue (s c)) <? cap c then Some (upd (upd s i t') c (with_queue (s c) (t_queue (s c) ++ [m]))) else None
                      | _ => Some (finish s i Failed)
                      end
        | Close c => Some (upd (upd s i t') c (closed (s c)))
        | Join c => match t_status (s c) with Running => None | Done => Some (upd s i t') | Failed => Some (finish s i Failed) end
        | Do _ => Some (upd s i t')
        | Fail => Some (finish s i Failed)
        | Stop => Some (finish s i Done)
        end
      | [] =>
        if t_last t then Some (finish s i Done)
        else match t_queue t with
             | m :: q => Some (upd s i (receive t m q (p_on (prog i) (t_hist t ++ [m]))))
             | [] => if t_open t then None else Some (upd s i (hang_up t (p_end (prog i) (t_hist t))))
             end
      end
    | _ => None
    end.
  (** The beginning: all threads spawned; nothing sends to thread 0. *)
  Definition start : state := fun i =>
    {| t_hist := []; t_done := []; t_todo := p_start (prog i); t_last := false; t_queue := []; t_open := 0 <? i; t_status := Running |}.
  (** Every schedule, [n] threads. *)
  Inductive reached (n : nat) : state -> Prop :=
  | reached_start : reached n start
  | reached_step i s s' : reached n s -> i < n -> step1 i s = Some s' -> reached n s'.
End NET.
