(** Model of the process-wide cache of read connections to metadata databases
    (next-plaid/src/filtering.rs 657-718) and of the operations that replace the file of a database. *)
From Verif Require Import Base F32 IndexModel IndexSpec.
From Verif Require Import Text SqlModel MetaModel MetaQuery SyncModel ApiUpdate.
Open Scope nat_scope.

(** A database file is a number ("inode"): a connection keeps reading the file it was opened on,
    also when its name is gone.  [D]: what a database holds. *)
Record process {D : Type} := { p_file : nat -> option nat; p_data : nat -> D; p_next : nat; p_conn : nat -> option nat }.
Arguments process : clear implicits.
Definition put {A} (f : nat -> A) (k : nat) (v : A) : nat -> A := fun j => if j =? k then v else f j.

Section CACHE.
  Variable D : Type.
  Notation process := (process D).
  (** What is at a path now. *)
  Definition current (s : process) (p : nat) : option D := option_map (p_data s) (p_file s p).
  Definition begin (any : D) : process := {| p_file := fun _ => None; p_data := fun _ => any; p_next := 0; p_conn := fun _ => None |}.

  Definition unlink (s : process) (p : nat) : process := {| p_file := put (p_file s) p None; p_data := p_data s; p_next := p_next s; p_conn := p_conn s |}.
  (** filtering.rs 693-700 [invalidate_read_connection] *)
  Definition invalidate (s : process) (p : nat) : process := {| p_file := p_file s; p_data := p_data s; p_next := p_next s; p_conn := put (p_conn s) p None |}.
  Definition new_file (s : process) (p : nat) (d : D) : process :=
    {| p_file := put (p_file s) p (Some (p_next s)); p_data := put (p_data s) (p_next s) d; p_next := S (p_next s); p_conn := p_conn s |}.
  (** filtering.rs 1091-1101 and 1158-1176 (in [create_with_fixed_columns] and [create]): an
      existing file is removed, its connection forgotten; no file is made without metadata. *)
  Definition create_db (s : process) (p : nat) (md : option D) : process :=
    let s1 := match p_file s p with Some _ => unlink (invalidate s p) p | None => s end in
    match md with Some d => new_file s1 p d | None => s1 end.
  (** filtering.rs 724-733 [open_db_write] and what update, delete and update_where do with it: the
      file is opened by its name. *)
  Definition write_db (s : process) (p : nat) (f : D -> D) : process :=
    match p_file s p with
    | Some i => {| p_file := p_file s; p_data := put (p_data s) i (f (p_data s i)); p_next := p_next s; p_conn := p_conn s |}
    | None => s
    end.
  (** filtering.rs 673-691, 707-718: [with_db_read], after the caller found that the file exists *)
  Definition read_db (s : process) (p : nat) : process * option D :=
    match p_file s p with
    | None => (s, None)
    | Some i =>
      match p_conn s p with
      | Some j => (s, Some (p_data s j))
      | None => ({| p_file := p_file s; p_data := p_data s; p_next := p_next s; p_conn := put (p_conn s) p (Some i) |}, Some (p_data s i))
      end
    end.
  (** [std::fs::rename] of the directories: refused when there is something at the target *)
  Definition rename (s : process) (p q : nat) : process :=
    match p_file s q with
    | Some _ => s
    | None => {| p_file := put (put (p_file s) q (p_file s p)) p None; p_data := p_data s; p_next := p_next s; p_conn := p_conn s |}
    end.

  Inductive act :=
  | Create (p : nat) (md : option D)
  | Write (p : nat) (f : D -> D)
  | Read (p : nat)
  | RemoveDir (p : nat)                (* documents.rs 1458 (delete_index); colgrep search.rs 1190, 1313 *)
  | RenameDir (p q : nat).             (* colgrep index/mod.rs 2412-2417 (full_rebuild) *)
  Definition do_act (s : process) (a : act) : process * option (option D) :=
    match a with
    | Create p md => (create_db s p md, None)
    | Write p f => (write_db s p f, None)
    | Read p => let (s', x) := read_db s p in (s', Some x)
    | RemoveDir p => (unlink s p, None)
    | RenameDir p q => (rename s p q, None)
    end.
  Fixpoint answers (s : process) (l : list act) : list (option (option D)) :=
    match l with [] => [] | a :: r => let (s', x) := do_act s a in x :: answers s' r end.

  (** ** Several threads
      [read_connection] holds the lock of the table while it looks a path up and while it enters a
      connection, not in between. *)
  Inductive reader := Idle | Missed (p : nat) | Opened (p i : nat) | Ready (p i : nat).
  Record shared := { h_proc : process; h_reader : nat -> reader }.
  Inductive event := ELook (t p : nat) | EOpen (t : nat) | EEnter (t : nat) | EQuery (t : nat) | EAct (a : act).
  (** One step; the answer with its path when a query is answered. *)
  Definition go (s : shared) (e : event) : option (shared * option (nat * option D)) :=
    let at_reader t r := {| h_proc := h_proc s; h_reader := put (h_reader s) t r |} in
    match e with
    | ELook t p =>
      match h_reader s t, p_file (h_proc s) p with
      | Idle, Some _ => Some (at_reader t (match p_conn (h_proc s) p with Some i => Ready p i | None => Missed p end), None)
      | _, _ => None
      end
    | EOpen t =>
      match h_reader s t with
      | Missed p => Some (at_reader t (match p_file (h_proc s) p with Some i => Opened p i | None => Idle end), None)
      | _ => None
      end
    | EEnter t =>
      match h_reader s t with
      | Opened p i =>
        match p_conn (h_proc s) p with
        | Some j => Some (at_reader t (Ready p j), None)
        | None => Some ({| h_proc := {| p_file := p_file (h_proc s); p_data := p_data (h_proc s); p_next := p_next (h_proc s); p_conn := put (p_conn (h_proc s)) p (Some i) |};
                           h_reader := put (h_reader s) t (Ready p i) |}, None)
        end
      | _ => None
      end
    | EQuery t =>
      match h_reader s t with Ready p i => Some (at_reader t Idle, Some (p, Some (p_data (h_proc s) i))) | _ => None end
    | EAct a => match a with Read _ => None | _ => Some ({| h_proc := fst (do_act (h_proc s) a); h_reader := h_reader s |}, None) end
    end.
  Fixpoint goes (s : shared) (l : list event) : option shared :=
    match l with [] => Some s | e :: r => match go s e with Some (s', _) => goes s' r | None => None end end.
End CACHE.
Arguments Create {D}. Arguments Write {D}. Arguments Read {D}. Arguments RemoveDir {D}. Arguments RenameDir {D}.
Arguments ELook {D}. Arguments EOpen {D}. Arguments EEnter {D}. Arguments EQuery {D}. Arguments EAct {D}.
Arguments current {D}. Arguments begin {D}. Arguments unlink {D}. Arguments invalidate {D}. Arguments new_file {D}. Arguments create_db {D}. Arguments write_db {D}. Arguments read_db {D}. Arguments rename {D}.
Arguments do_act {D}. Arguments answers {D}. Arguments go {D}. Arguments goes {D}. Arguments h_proc {D}. Arguments h_reader {D}.

(** ** The repair of the API with counts that come through a connection
    documents.rs 110-192 (as ApiUpdate.repair): [view] is what the connection shows when the database
    is at its argument. *)
Definition repair_through (V : env) (view : store -> store) (s : server) : res (bool * server) :=
  match sv_index s with
  | None => Ok (false, s)
  | Some i =>
    if negb (db_exists (sv_store s)) then Ok (false, s)
    else bind (index_count i) (fun n => bind (count (view (sv_store s))) (fun k =>
      if n =? k then Ok (false, s)
      else bind (if n <? k then
                   let (m, r) := MetaModel.delete (sv_store s) (id_range n k) in
                   bind r (fun _ => Ok (i, m))
                 else
                   bind (step V i OReload) (fun r => bind (step V (snd r) (ODelete (id_range k n))) (fun r =>
                   Ok (snd r, sv_store s)))) (fun s' =>
           bind (index_count (fst s')) (fun n' => bind (count (view (snd s'))) (fun k' =>
           if n' =? k' then Ok (true, {| sv_index := Some (fst s'); sv_store := snd s' |}) else Err)))))
  end.
