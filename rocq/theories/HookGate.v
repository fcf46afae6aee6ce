(** When the hooks of colgrep speak. *)
From Verif Require Import Base Text.
From Coq Require Import String.
Open Scope string_scope.
Open Scope nat_scope.
Open Scope list_scope.

(** What the walker yields: an error, or an entry that is a file, is something else, or whose type is not known *)
Inductive entry := Failed | Found (is_file : option bool).

(** colgrep/src/commands/hooks.rs 10 *)
Definition SMALL_PROJECT_FILE_LIMIT : nat := 50.

(** colgrep/src/commands/hooks.rs 39-50, the loop of [is_small_project]; [count] the files seen *)
Fixpoint small_from (count : nat) (walk : list entry) : bool :=
  match walk with
  | [] => 0 <? count
  | Found (Some true) :: r => if SMALL_PROJECT_FILE_LIMIT <? count + 1 then false else small_from (count + 1) r
  | _ :: r => small_from count r
  end.
(** colgrep/src/commands/hooks.rs 30-51 [is_small_project]; the walk (hidden and ignored files left out, ten levels) is given *)
Definition is_small_project (walk : list entry) : bool := small_from 0 walk.

(** A configuration that cannot be read ([None]), names no model ([Some None]) or names one; colgrep/src/commands/hooks.rs 18-21 *)
Definition model_used (default_model : text) (config : option (option text)) : text :=
  match config with Some (Some m) => m | _ => default_model end.

(** What [find_parent_index] answers *)
Inductive parent := ParentError | NoParent | Parent.

(** colgrep/src/commands/hooks.rs 17-25 [should_inject_colgrep_context] *)
Definition should_inject (default_model : text) (config : option (option text)) (index_exists : text -> bool) (find_parent : text -> parent) (walk : list entry) : bool :=
  let m := model_used default_model config in
  index_exists m || match find_parent m with Parent => true | _ => false end || is_small_project walk.

Inductive hook := Session | Task.
(** colgrep/src/commands/hooks.rs 54-104 [cmd_session_hook] and 108-end [cmd_task_hook]: the name of the event in the answer, [None] for the empty object. The text of the advice is left out. *)
Definition answer (k : hook) (speak : bool) : option text :=
  if speak then Some (match k with Session => txt "SessionStart" | Task => txt "PreToolUse" end) else None.
