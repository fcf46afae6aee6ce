(** Replacing a file atomically (next-plaid/src/utils.rs 12-84), on a directory that can lose
    power.  The directory is the parent of the file; creating it is not modelled. *)
From Verif Require Import Base Text Calendar Npy.
Open Scope nat_scope.

Definition name := text.
Definition name_eqb (a b : name) : bool := if list_eq_dec Z.eq_dec a b then true else false.
(** A directory maps names to inodes.  [entries] is what running programs see; after a loss of
    power some of the changes [unsynced] since the last fsync of the directory may be missing, and
    the content of an inode that was not fsynced is arbitrary.  A change sets some names at once (a
    rename sets two). *)
Definition change := list (name * option nat).
Record fs := {
  entries : name -> option nat;
  content : nat -> bytes;
  clean : nat -> bool;      (* fsynced since the last write *)
  next : nat;               (* all inodes are below *)
  durable : name -> option nat;
  unsynced : list change }.
Definition set_entry (d : name -> option nat) (n : name) (x : option nat) : name -> option nat := fun m => if name_eqb m n then x else d m.
Definition apply_change (d : name -> option nat) (c : change) : name -> option nat := fold_left (fun d e => set_entry d (fst e) (snd e)) c d.
Definition apply_changes (d : name -> option nat) (cs : list change) : name -> option nat := fold_left apply_change cs d.
Definition read (s : fs) (n : name) : option bytes := option_map (content s) (entries s n).

(** the system calls *)
Inductive op := Create (n : name) | Write (i : nat) (b : bytes) | Fsync (i : nat) | Rename (a b : name) | Unlink (n : name) | FsyncDir.
Definition dir_change (s : fs) (c : change) : fs :=
  {| entries := apply_change (entries s) c; content := content s; clean := clean s; next := next s; durable := durable s;
     unsynced := unsynced s ++ [c] |}.
Definition exec (s : fs) (o : op) : fs :=
  match o with
  | Create n =>
    let i := next s in
    {| entries := set_entry (entries s) n (Some i); content := fun j => if j =? i then [] else content s j;
       clean := fun j => if j =? i then false else clean s j; next := S i; durable := durable s;
       unsynced := unsynced s ++ [[(n, Some i)]] |}
  | Write i b =>
    {| entries := entries s; content := fun j => if j =? i then content s i ++ b else content s j;
       clean := fun j => if j =? i then false else clean s j; next := next s; durable := durable s; unsynced := unsynced s |}
  | Fsync i =>
    {| entries := entries s; content := content s; clean := fun j => if j =? i then true else clean s j; next := next s;
       durable := durable s; unsynced := unsynced s |}
  | Rename a b => dir_change s [(b, entries s a); (a, None)]
  | Unlink n => dir_change s [(n, None)]
  | FsyncDir =>
    {| entries := entries s; content := content s; clean := clean s; next := next s; durable := entries s; unsynced := [] |}
  end.
Definition exec_all (s : fs) (os : list op) : fs := fold_left exec os s.

(** what the operating system does during one call *)
Record io := {
  clock : nat -> Z;         (* nanoseconds, at each attempt to name the temporary file *)
  open_fails : nat -> bool; (* another error than AlreadyExists *)
  writes : list bytes;      (* what the callback writes *)
  write_ok : bool;          (* whether it succeeds *)
  sync_ok : bool;           (* flush and fsync *)
  rename_ok : bool;
  dirsync_ok : bool }.

Section ATOMIC.
  (** [OsStr::to_str] and the process id *)
  Variable valid_utf8 : name -> bool.
  Variable pid : Z.

  (** utils.rs 66-84 [atomic_temp_path_with_attempt]: the name, in the same directory *)
  Definition temp_name (n : name) (nanos : Z) (attempt : nat) : name :=
    txt "." ++ (if valid_utf8 n then n else txt "atomic-write") ++ txt "." ++ digits pid ++ txt "."
      ++ digits (nanos + Z.of_nat attempt) ++ txt ".tmp".
  (** utils.rs 22-36: the loop that opens a new file; [left] attempts remain after this one *)
  Fixpoint open_temp (x : io) (s : fs) (n : name) (attempt left : nat) : res name :=
    let t := temp_name n (clock x attempt) attempt in
    if open_fails x attempt then Err
    else match entries s t with
         | None => Ok t
         | Some _ => match left with O => Err | S l => open_temp x s n (S attempt) l end
         end.
  (** utils.rs 16-60 [atomic_write_file]: the system calls made, and the result *)
  Definition atomic_write_file (x : io) (s : fs) (n : name) : list op * res unit :=
    match open_temp x s n 0 8 with
    | Ok t =>
      let i := next s in
      let start := Create t :: map (Write i) (writes x) in
      if write_ok x && sync_ok x then
        if rename_ok x then (start ++ [Fsync i; Rename t n] ++ (if dirsync_ok x then [FsyncDir] else []), Ok tt)
        else (start ++ [Fsync i], Err)
      else (start ++ [Unlink t], Err)
    | Err => ([], Err)
    | Panic => ([], Panic)
    end.
End ATOMIC.
