(** What is asked of several processes on one index. *)
From Verif Require Import Base Text Colgrep ColgrepSpec Procs.
Open Scope nat_scope.

(** Worlds reached by moves that all meet [ok]. *)
Inductive reach (T : tool) (jobs : nat -> job) (ok : world -> nat -> move -> Prop) (d : store) : world -> Prop :=
| at_start : reach T jobs ok d (start d)
| one_step w p m w' : reach T jobs ok d w -> ok w p m -> step T jobs p m w = Some w' -> reach T jobs ok d w'.
Definition any_move (w : world) (p : nat) (m : move) : Prop := True.
(** A process that is changing the index. *)
Definition running (w : world) (p : nat) : Prop := exists i es, w_phase w p = PRun i es.
Definition idle (w : world) : Prop := forall p, ~ running w p.
(** Nobody clears the index or removes it because it is corrupted. *)
Definition none_removes (jobs : nat -> job) : Prop := forall p, jobs p <> JClear /\ jobs p <> JRebuild.
(** The count of searches is written over what was read for it, of the current format. *)
Definition undisturbed (w : world) (p : nat) (m : move) : Prop :=
  m = Save -> forall s, w_phase w p = PSave s -> d_state (w_store w) = Some s /\ s_format s = true.
Definition not_killed (w : world) (p : nat) (m : move) : Prop := m <> Kill /\ undisturbed w p m.

(** Equal but for the number of searches. *)
Definition recount (d d' : store) : Prop :=
  d_vec d' = d_vec d /\ d_db d' = d_db d /\ d_building d' = d_building d /\
  match d_state d, d_state d' with
  | None, None => True
  | Some s, Some s' => s_files s' = s_files s /\ s_ignored s' = s_ignored s /\ s_dirty s' = s_dirty s /\ s_format s' = s_format s
  | _, _ => False
  end.
(** One run after the other, each complete or killed somewhere, with counts in between. *)
Inductive serial (T : tool) : store -> store -> Prop :=
| ser_none d : serial T d d
| ser_run d d1 v : serial T d d1 -> serial T d (after (visit_run T v) d1)
| ser_killed d d1 d2 v : serial T d d1 -> killed (visit_run T v) d1 d2 -> serial T d d2
| ser_count d d1 d2 : serial T d d1 -> recount d1 d2 -> serial T d d2.
(** The complete runs in their order, with counts in between. *)
Inductive one_by_one (T : tool) (d : store) : list visit -> store -> Prop :=
| obo_none : one_by_one T d [] d
| obo_run vs d1 v : one_by_one T d vs d1 -> one_by_one T d (vs ++ [v]) (after (visit_run T v) d1)
| obo_count vs d1 d2 : one_by_one T d vs d1 -> recount d1 d2 -> one_by_one T d vs d2.
