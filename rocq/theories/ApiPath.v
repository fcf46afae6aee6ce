(** Directories of indexes and locks of writers in the HTTP API (state.rs 348-350,
    handlers/documents.rs 245-275 and the handlers that lock). *)
From Verif Require Import Base Text.
Open Scope Z_scope.

(** ** Paths (std::path on Unix) *)
Definition slash : Z := 47.
Definition is_absolute (p : text) : bool := match p with c :: _ => c =? slash | [] => false end.
(** [Path::join]: an absolute argument replaces the path *)
Definition join (base p : text) : text :=
  if is_absolute p then p
  else match rev base with
       | [] => p
       | c :: _ => if c =? slash then base ++ p else base ++ slash :: p
       end.
(** state.rs 348-350 [index_path] *)
Definition index_path (dir name : text) : text := join dir name.
(** The pieces of a path between slashes *)
Fixpoint pieces_from (cur : text) (p : text) : list text :=
  match p with
  | [] => [rev cur]
  | c :: p => if c =? slash then rev cur :: pieces_from [] p else pieces_from (c :: cur) p
  end.
Definition pieces (p : text) : list text := pieces_from [] p.
(** How the operating system walks: empty pieces and [.] stay, [..] goes to the parent (of the root:
    the root).  Symbolic links are left out. *)
Definition walk (at_ : list text) (c : text) : list text :=
  if text_eqb c [] || text_eqb c (txt ".") then at_
  else if text_eqb c (txt "..") then removelast at_
  else at_ ++ [c].
Definition resolve (cwd : list text) (p : text) : list text :=
  fold_left walk (pieces p) (if is_absolute p then [] else cwd).

(** ** Writers *)
(** [create_index], the task of [add_documents], [update_index_config], [delete_index],
    [process_batch], [process_delete_batch] and the [update_metadata] handler *)
Inductive writer := WCreate | WAdd | WConfig | WDrop | WUpdate | WDelete | WMetadata.
(** The key in INDEX_LOCKS a writer locks: documents.rs 990, 1186, 1427, 1626 lock by name, 406 and
    849 by path; handlers/metadata.rs does not lock. *)
Definition lock_key (dir : text) (w : writer) (name : text) : option text :=
  match w with
  | WCreate | WAdd | WConfig | WDrop => Some name
  | WUpdate | WDelete => Some (index_path dir name)
  | WMetadata => None
  end.
(** A writer waits; works under its lock; works without a lock; is done. *)
Inductive phase := Idle | Locked | Unlocked | Finished.
Record task := { t_kind : writer; t_name : text; t_phase : phase }.
(** A key is held by the tasks in their locked phase. *)
Definition held (dir : text) (ts : list task) (k : text) : bool :=
  existsb (fun t => match t_phase t, lock_key dir (t_kind t) (t_name t) with Locked, Some k' => text_eqb k k' | _, _ => false end) ts.
Definition at_phase (t : task) (p : phase) : task := {| t_kind := t_kind t; t_name := t_name t; t_phase := p |}.
(** What a task can do next: [delete_index] (1452) gives up its lock before it removes the directory. *)
Definition advance (dir : text) (ts : list task) (t : task) : option task :=
  match t_phase t with
  | Idle =>
    match lock_key dir (t_kind t) (t_name t) with
    | None => Some (at_phase t Unlocked)
    | Some k => if held dir ts k then None else Some (at_phase t Locked)
    end
  | Locked => Some (at_phase t (match t_kind t with WDrop => Unlocked | _ => Finished end))
  | Unlocked => Some (at_phase t Finished)
  | Finished => None
  end.
(** A step: a new request, or task number [i] goes on. *)
Inductive sched := Start (w : writer) (name : text) | Go (i : nat).
Definition lstep (dir : text) (ts : list task) (s : sched) : option (list task) :=
  match s with
  | Start w name => Some (ts ++ [{| t_kind := w; t_name := name; t_phase := Idle |}])
  | Go i => match nth_error ts i with
            | Some t => match advance dir ts t with Some t' => Some (upd ts i t') | None => None end
            | None => None
            end
  end.
Fixpoint lrun (dir : text) (ts : list task) (ss : list sched) : option (list task) :=
  match ss with [] => Some ts | s :: ss => match lstep dir ts s with Some ts => lrun dir ts ss | None => None end end.
