(** Specification of containment and mutual exclusion. *)
From Verif Require Import Base Text ApiPath.
Open Scope Z_scope.

(** The directory [p] is the data directory [dir] or lies below it. *)
Definition inside (cwd : list text) (dir p : text) : Prop := exists rest, resolve cwd p = resolve cwd dir ++ rest.
(** A name that is one ordinary piece of a path *)
Definition plain (name : text) : Prop :=
  name <> [] /\ ~ In slash name /\ name <> txt "." /\ name <> txt "..".
(** A relative name that never goes to a parent *)
Definition descending (name : text) : Prop := is_absolute name = false /\ ~ In (txt "..") (pieces name).

(** A task is changing its index. *)
Definition writing (t : task) : Prop := t_phase t = Locked \/ t_phase t = Unlocked.
(** Two tasks that change the same directory *)
Definition same_index (cwd : list text) (dir : text) (a b : task) : Prop :=
  resolve cwd (index_path dir (t_name a)) = resolve cwd (index_path dir (t_name b)).
Definition exclusive (cwd : list text) (dir : text) (ts : list task) : Prop :=
  forall i j a b, i <> j -> nth_error ts i = Some a -> nth_error ts j = Some b ->
    same_index cwd dir a b -> writing a -> writing b -> False.
