(** Who is in a critical section, read off the history. *)
From Verif Require Import Base Signals.
Open Scope list_scope.

Fixpoint drop_one (t : nat) (l : list nat) : list nat :=
  match l with [] => [] | u :: r => if Nat.eqb t u then r else u :: drop_one t r end.
(** One entry for each guard that is alive *)
Definition hold (l : list nat) (e : event) : list nat :=
  match e with Enter t => t :: l | Leave t => drop_one t l | _ => l end.
Definition holders (h : list event) : list nat := fold_left hold h [].

(** Guards: a thread leaves a section it has entered, and there are fewer guards than a word can count. *)
Fixpoint guarded_from (l : list nat) (h : list event) : Prop :=
  (Z.of_nat (length l) < 2 ^ 64)%Z /\
  match h with
  | [] => True
  | e :: r => match e with Leave t => In t l | _ => True end /\ guarded_from (hold l e) r
  end.
Definition guarded (h : list event) : Prop := guarded_from [] h.
