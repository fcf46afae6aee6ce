(** One index directory used by several processes at the same time: who writes which file how, and
    what a loaded index still reads from the directory (next-plaid/src/mmap.rs, index.rs, update.rs,
    delete.rs).  Time is cut at every system call on the files concerned.

    A loaded index (index.rs 1026-1139 [MmapIndex::load]) has copies of most arrays and three memory
    maps: centroids.npy (codec.rs 548-553), merged_codes.npy and merged_residuals.npy.  A map shows
    the file it was made of (the inode), also after its name was given to another file or removed
    (Unix); if that file is written in place the map shows the new bytes, and if it is cut short the
    process dies at the next access. *)
From Verif Require Import Base.
Open Scope nat_scope.

Inductive arr := Codes | Residuals.
Definition arr_eqb (a b : arr) : bool := match a, b with Codes, Codes | Residuals, Residuals => true | _, _ => false end.
(** The names in the directory.  [Other] is every other file: metadata.json, the chunk files, ivf.npy,
    ... ; the temporary names of [atomic_write_file] are left out (they are unique, C35). *)
Inductive file := Centroids | Merged (a : arr) | Temp (a : arr) | Manifest (a : arr) | Lock (a : arr) | Other (n : nat).
Definition file_eqb (f g : file) : bool :=
  match f, g with
  | Centroids, Centroids => true
  | Merged a, Merged b | Temp a, Temp b | Manifest a, Manifest b | Lock a, Lock b => arr_eqb a b
  | Other n, Other m => n =? m
  | _, _ => false
  end.
Definition bytes := list Z.

(** What a writer still has to do to the files. *)
Inductive wop :=
| Replace (f : file) (b : bytes)             (* utils.rs 16-60 [atomic_write_file]: a new file gets the name *)
| Rewrite (f : file) (pieces : list bytes)   (* [File::create], then writes, through a buffer *)
| Remove (f : file).                         (* [fs::remove_file] *)

(** Where a process is. *)
Inductive stage :=
| Idle
(** create (index.rs 551-927), update (update.rs 621-1115) and delete (delete.rs 66-262) *)
| Write (todo : list wop) (clear : bool)
| Filling (i : nat) (pieces : list bytes) (todo : list wop) (clear : bool)
(** mmap.rs 1714-1742 [clear_merged_files]: both lock files opened and locked, then the removals *)
| Clear0 | Clear1 (l : nat) | Clear2 (l : nat) | Clear3 (l l' : nat) | Clearing (l l' : nat) (todo : list file)
(** index.rs 1026-1139 [load]: before the map of the centroids; the merges; the two maps *)
| Load0 | Convert (b : bytes)
| Merge0 (c : nat) (a : arr) | Merge1 (c : nat) (a : arr) (l : nat) | Merge2 (c : nat) (a : arr) (l : nat)
| Merge3 (c : nat) (a : arr) (l : nat) (i : nat) (pieces : list bytes) | Merge4 (c : nat) (a : arr) (l : nat) | Merge5 (c : nat) (a : arr) (l : nat)
| Map1 (c : nat) | Map2 (c : nat) (m : nat).

(** The maps of a loaded index. *)
Record maps := { m_centroids : nat; m_codes : nat; m_residuals : nat }.

Record world := {
  dir : file -> option nat;       (* name to inode *)
  data : nat -> bytes;            (* content of an inode *)
  meant : nat -> bytes;           (* what its writer means to put there: not in the code, for the statements *)
  fresh : nat;                    (* the next inode *)
  held : nat -> option nat;       (* exclusive lock on an inode: the process *)
  at_ : nat -> stage;             (* where each process is *)
  loaded : list maps              (* all indexes loaded so far, by any process *)
}.

Definition upd {A} (f : nat -> A) (i : nat) (a : A) : nat -> A := fun j => if j =? i then a else f j.
Definition name (d : file -> option nat) (f : file) (o : option nat) : file -> option nat := fun g => if file_eqb g f then o else d g.
Definition set_files (w : world) d c m n := {| dir := d; data := c; meant := m; fresh := n; held := held w; at_ := at_ w; loaded := loaded w |}.
Definition go (w : world) (p : nat) (s : stage) := {| dir := dir w; data := data w; meant := meant w; fresh := fresh w; held := held w; at_ := upd (at_ w) p s; loaded := loaded w |}.
Definition set_held (w : world) (l : nat) (o : option nat) := {| dir := dir w; data := data w; meant := meant w; fresh := fresh w; held := upd (held w) l o; at_ := at_ w; loaded := loaded w |}.
Definition add_loaded (w : world) (m : maps) := {| dir := dir w; data := data w; meant := meant w; fresh := fresh w; held := held w; at_ := at_ w; loaded := loaded w ++ [m] |}.

(** A new file, complete, under the name. *)
Definition replace (w : world) (f : file) (b : bytes) : world :=
  set_files w (name (dir w) f (Some (fresh w))) (upd (data w) (fresh w) b) (upd (meant w) (fresh w) b) (S (fresh w)).
(** [File::create]: the file under the name is cut to nothing, or a new empty one gets the name. *)
Definition opened (w : world) (f : file) : nat := match dir w f with Some i => i | None => fresh w end.
Definition cut (w : world) (f : file) (b : bytes) : world :=
  match dir w f with
  | Some i => set_files w (dir w) (upd (data w) i []) (upd (meant w) i b) (fresh w)
  | None => set_files w (name (dir w) f (Some (fresh w))) (upd (data w) (fresh w) []) (upd (meant w) (fresh w) b) (S (fresh w))
  end.
Definition append (w : world) (i : nat) (b : bytes) : world := set_files w (dir w) (upd (data w) i (data w i ++ b)) (meant w) (fresh w).
Definition remove (w : world) (f : file) : world := set_files w (name (dir w) f None) (data w) (meant w) (fresh w).
(** [fs::rename] of the temporary file to its name *)
Definition rename (w : world) (f g : file) : world := set_files w (name (name (dir w) g (dir w f)) f None) (data w) (meant w) (fresh w).
(** Opening a lock file makes it if it is missing (mmap.rs 33-42). *)
Definition touch (w : world) (f : file) : world :=
  match dir w f with Some _ => w | None => replace w f [] end.

(** mmap.rs 1722-1731: the files [clear_merged_files] removes *)
Definition cleared : list file :=
  [Merged Codes; Temp Codes; Manifest Codes; Merged Residuals; Temp Residuals; Manifest Residuals].

(** What a process may begin or decide. *)
Inductive choice :=
| Go                                        (* the next system call *)
| BeginWrite (todo : list wop) (clear : bool)
| BeginLoad
| Rebuild (a : arr) (pieces : list bytes)   (* the merge of [a] finds that it must write, and what it reads from the chunks *)
| Keep                                      (* a merge finds the merged file up to date *)
| Killed                                    (* the process dies; the system drops its locks *)
| ConvertIt (b : bytes).                    (* [load] finds an index of fast-plaid and will write centroids.npy anew *)

Definition after_merge (c : nat) (a : arr) : stage := match a with Codes => Merge0 c Residuals | Residuals => Map1 c end.
Definition done_writing (clear : bool) : stage := if clear then Clear0 else Idle.

Definition step (w : world) (p : nat) (ch : choice) : option world :=
  match ch, at_ w p with
  | Killed, _ =>
    Some {| dir := dir w; data := data w; meant := meant w; fresh := fresh w;
            held := fun l => match held w l with Some q => if q =? p then None else Some q | None => None end;
            at_ := upd (at_ w) p Idle; loaded := loaded w |}
  | BeginWrite todo clear, Idle => Some (go w p (Write todo clear))
  | BeginLoad, Idle => Some (go w p Load0)
  (* the writers *)
  | Go, Write [] clear => Some (go w p (done_writing clear))
  | Go, Write (Replace f b :: todo) clear => Some (go (replace w f b) p (Write todo clear))
  | Go, Write (Remove f :: todo) clear => Some (go (remove w f) p (Write todo clear))
  | Go, Write (Rewrite f pieces :: todo) clear => Some (go (cut w f (concat pieces)) p (Filling (opened w f) pieces todo clear))
  | Go, Filling i [] todo clear => Some (go w p (Write todo clear))
  | Go, Filling i (b :: pieces) todo clear => Some (go (append w i b) p (Filling i pieces todo clear))
  (* clear_merged_files *)
  | Go, Clear0 => Some (go (touch w (Lock Codes)) p (Clear1 (opened w (Lock Codes))))
  | Go, Clear1 l => match held w l with None => Some (go (set_held w l (Some p)) p (Clear2 l)) | Some _ => None end
  | Go, Clear2 l => Some (go (touch w (Lock Residuals)) p (Clear3 l (opened w (Lock Residuals))))
  | Go, Clear3 l l' => match held w l' with None => Some (go (set_held w l' (Some p)) p (Clearing l l' cleared)) | Some _ => None end
  | Go, Clearing l l' (f :: todo) => Some (go (remove w f) p (Clearing l l' todo))
  | Go, Clearing l l' [] => Some (go (set_held (set_held w l' None) l None) p Idle)
  (* load *)
  | ConvertIt b, Load0 => Some (go w p (Convert b))
  | Go, Convert b => Some (go (cut w Centroids b) p (Filling (opened w Centroids) [b] [] false))
  | Go, Load0 => match dir w Centroids with Some c => Some (go w p (Merge0 c Codes)) | None => Some (go w p Idle) end
  | Keep, Merge0 c a => Some (go w p (after_merge c a))                                       (* mmap.rs 1276-1301: the fast path, without the lock *)
  | Go, Merge0 c a => Some (go (touch w (Lock a)) p (Merge1 c a (opened w (Lock a))))
  | Go, Merge1 c a l => match held w l with None => Some (go (set_held w l (Some p)) p (Merge2 c a l)) | Some _ => None end
  | Keep, Merge2 c a l => Some (go w p (Merge4 c a l))
  | Rebuild a' pieces, Merge2 c a l =>
    if arr_eqb a' a then Some (go (cut w (Temp a) (concat pieces)) p (Merge3 c a l (opened w (Temp a)) pieces)) else None
  | Go, Merge3 c a l i (b :: pieces) => Some (go (append w i b) p (Merge3 c a l i pieces))
  | Go, Merge3 c a l i [] =>
    match dir w (Temp a) with
    | Some _ => Some (go (rename w (Temp a) (Merged a)) p (Merge4 c a l))
    | None => Some (go (set_held w l None) p Idle)                                            (* an error *)
    end
  | Go, Merge4 c a l => Some (go (replace w (Manifest a) []) p (Merge5 c a l))                (* the content is C15's matter *)
  | Go, Merge5 c a l => Some (go (set_held w l None) p (after_merge c a))
  | Go, Map1 c => match dir w (Merged Codes) with Some m => Some (go w p (Map2 c m)) | None => Some (go w p Idle) end
  | Go, Map2 c m => match dir w (Merged Residuals) with
                    | Some r => Some (add_loaded (go w p Idle) {| m_centroids := c; m_codes := m; m_residuals := r |})
                    | None => Some (go w p Idle)
                    end
  | _, _ => None
  end.

Fixpoint run (w : world) (l : list (nat * choice)) : option world :=
  match l with [] => Some w | (p, ch) :: l => match step w p ch with Some w' => run w' l | None => None end end.

(** An empty directory, no process at work. *)
Definition nothing : world :=
  {| dir := fun _ => None; data := fun _ => []; meant := fun _ => []; fresh := 0; held := fun _ => None; at_ := fun _ => Idle; loaded := [] |}.
