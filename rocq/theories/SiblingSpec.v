(** What a copy and a list of siblings are to be. *)
From Verif Require Import Base Text Sibling.
From Coq Require Import String.
Open Scope string_scope.
Open Scope nat_scope.
Open Scope list_scope.

(** The path below a node leads to something, *)
Fixpoint there (n : node) (p : list text) : bool :=
  match p with
  | [] => true
  | x :: q => match n with Dir es => match lookup x es with Some m => there m q | None => false end | _ => false end
  end.
(** and reading it as a file gives this. *)
Fixpoint content (n : node) (p : list text) : option text :=
  match p with
  | [] => match n with File c | LinkFile c => Some c | _ => None end
  | x :: q => match n with Dir es => match lookup x es with Some m => content m q | None => None end | _ => None end
  end.

(** A directory has each name once. *)
Inductive proper : node -> Prop :=
| proper_file : forall c, proper (File c)
| proper_link : forall c, proper (LinkFile c)
| proper_other : proper LinkOther
| proper_dir : forall es, NoDup (map fst es) -> (forall x m, In (x, m) es -> proper m) -> proper (Dir es).

(** Every link below a node leads to a file. *)
Inductive sound : node -> Prop :=
| sound_file : forall c, sound (File c)
| sound_link : forall c, sound (LinkFile c)
| sound_dir : forall es, (forall x m, In (x, m) es -> sound m) -> sound (Dir es).

(** The path a line of the answer of git names *)
Definition names_path (ws : Z -> bool) (line p : text) : Prop :=
  exists a b, line = txt "worktree " ++ a ++ p ++ b /\ (forall c, In c (a ++ b) -> ws c = true)
    /\ (forall c r, p = c :: r -> ws c = false) /\ (forall c r, p = r ++ [c] -> ws c = false).
