(** What a reader of the output relies on.  Of the model, only [item] and [cut_at] (a long line is
    cut) are used. *)
From Verif Require Import Base Text Display.
Open Scope nat_scope.

(** The lines of the output carry the numbers and texts of the file's lines. *)
Definition line_is (ls : list text) (n : nat) (t : text) : Prop := 1 <= n /\ exists s, nth_error ls (n - 1) = Some s /\ t = cut_at 400 s.
Definition number_of (i : item) : list nat := match i with Shown n _ => [n] | Dots => [] end.
Definition numbers (out : list item) : list nat := flat_map number_of out.
Definition rising (l : list nat) : Prop := StronglySorted lt l.
(** Exactly the lines of the file with the numbers in [P] are shown, in order, each once. *)
Definition shows (ls : list text) (P : nat -> Prop) (out : list item) : Prop :=
  rising (numbers out) /\ (forall n t, In (Shown n t) out <-> P n /\ line_is ls n t).

(** The lines around the matches that lie in the unit, and its head: the first line, and the
    second if the lines around the first match do not reach up to the head. *)
Definition around (matches : list nat) (first last half n : nat) : Prop :=
  exists m, In m matches /\ first <= m <= last /\ n <= m + half /\ m <= n + half.
Definition head (matches : list nat) (first last half n : nat) : Prop :=
  n = first \/ n = first + 1 /\ (forall m, In m matches -> first <= m <= last -> first + half < m).
Definition wanted_lines (matches : list nat) (first last half n : nat) : Prop :=
  first <= n <= last /\ (around matches first last half n \/ head matches first last half n).

(** ** Results by file *)
From Verif Require Import FtsRank Results.
Definition file_of {A} (h : hit A) : text := u_file (h_unit A h).
Definition before {X} (x y : X) (l : list X) : Prop := exists a b c, l = a ++ x :: b ++ y :: c.
(** Files in the order of their first results. *)
Definition by_first {A} (files : list text) (l : list (hit A)) : Prop :=
  forall f g, before f g files -> exists a h b, l = a ++ h :: b /\ file_of h = f /\ forall k, In k a -> file_of k <> f /\ file_of k <> g.
