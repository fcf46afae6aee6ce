(** Discipline of the threads, and what a thread does over the messages it receives. *)
From Verif Require Import Base Threads.
Open Scope nat_scope.

(** What a thread does on the messages [h], one after the other. *)
Definition emits {M E} (on : list M -> list (action M E)) (h : list M) : list (action M E) := flat_map (fun k => on (firstn k h)) (seq 1 (length h)).

Section DISCIPLINE.
  Context {M E : Type}.
  Variable n : nat.
  Variable parent : nat -> nat.
  (** A thread sends only into channels whose sender it holds, and not after dropping it; it joins
      a thread only when the sender of that thread's channel is gone: dropped by itself ([C]), or
      held by a thread that was joined before ([J]). *)
  Fixpoint acts_ok (i : nat) (C J : list nat) (l : list (action M E)) : Prop :=
    match l with
    | [] => True
    | Send c _ :: r => 0 < c < n /\ parent c = i /\ ~ In c C /\ acts_ok i C J r
    | Close c :: r => 0 < c < n /\ parent c = i /\ acts_ok i (c :: C) J r
    | Join t :: r => i < t < n /\ (In t C \/ In (parent t) J) /\ acts_ok i C (t :: J) r
    | Do _ :: r => acts_ok i C J r
    | Fail :: _ | Stop :: _ => True
    end.
  (** Senders are dropped only on the way out. *)
  Definition calm (l : list (action M E)) : Prop := (forall c, ~ In (Close c) l) \/ In Stop l \/ In Fail l.
  Record disciplined_net (cap : nat -> nat) (prog : nat -> program M E) : Prop := {
    dn_parent : forall c, 0 < c < n -> parent c < c;
    dn_cap : forall c, 0 < c < n -> 1 <= cap c;
    dn_start : forall i, i < n -> acts_ok i [] [] (p_start (prog i)) /\ calm (p_start (prog i));
    dn_on : forall i h, i < n -> acts_ok i [] [] (p_on (prog i) h) /\ calm (p_on (prog i) h);
    dn_end : forall i h, i < n -> acts_ok i [] [] (p_end (prog i) h) }.
End DISCIPLINE.
