(** Model of several colgrep processes that use one index directory: the lock file, indexing,
    searching with its count of searches, clearing (colgrep/src/index/paths.rs,
    index/mod.rs, commands/search.rs, clear.rs, stats.rs).
    One move is one call to the file system, or one [effect] of a run (Colgrep.v).  What a run
    does is computed when it has the lock: state.json is read once, before the first effect
    (mod.rs 1638; [build_resumable] reads it again before it writes it), and the other files are
    written by runs only. *)
From Verif Require Import Base Text Colgrep ColgrepSpec.
Open Scope nat_scope.

(** What a process was started for. *)
Inductive job :=
| JIndex (v : visit)    (** `init`: mod.rs 1615-1618 [index] *)
| JSearch (v : visit)   (** a search: mod.rs 1737-1747 [try_index], then the count *)
| JNoUpdate             (** a search with --no-update: only the count *)
| JResetStats           (** stats.rs 73-108 [cmd_reset_stats] *)
| JClear                (** clear.rs 59-69 *)
| JRebuild.             (** search.rs 1187-1191, 1307-1314: the directory of a corrupted index is removed *)
Inductive phase :=
| PStart
| POpen (ino : nat)                      (** the lock file is open, lock not taken *)
| PRun (ino : nat) (es : list effect)    (** the lock is held, [es] is still to do *)
| PHold (ino : nat)                      (** the lock is held by clear, or by the removal *)
| PRemove                                (** clear has dropped the lock *)
| PRemoved (ino : nat)                   (** the directory is removed, the lock still held *)
| PCount                                 (** about to read state.json for the count *)
| PSave (s : state)                      (** has read it *)
| PDone.
Record world := {
  w_store : store;
  w_lock : option nat;            (** the file that is named .lock *)
  w_next : nat;                   (** no lock file from here on has been made *)
  w_holder : nat -> option nat;   (** which process holds the lock on a file *)
  w_phase : nat -> phase;
  w_log : list visit              (** the runs that were begun, not part of the code *)
}.
Inductive move := Open | Lock | Busy | Effect | Finish | Load | Save | Drop | Remove | Kill.

Definition upd {A} (f : nat -> A) (k : nat) (a : A) : nat -> A := fun i => if i =? k then a else f i.
Definition set_phase (w : world) (p : nat) (ph : phase) : world :=
  {| w_store := w_store w; w_lock := w_lock w; w_next := w_next w; w_holder := w_holder w; w_phase := upd (w_phase w) p ph; w_log := w_log w |}.
Definition set_holder (w : world) (ino : nat) (h : option nat) : world :=
  {| w_store := w_store w; w_lock := w_lock w; w_next := w_next w; w_holder := upd (w_holder w) ino h; w_phase := w_phase w; w_log := w_log w |}.
Definition set_store (w : world) (d : store) : world :=
  {| w_store := d; w_lock := w_lock w; w_next := w_next w; w_holder := w_holder w; w_phase := w_phase w; w_log := w_log w |}.
Definition set_lock (w : world) (l : option nat) (n : nat) : world :=
  {| w_store := w_store w; w_lock := l; w_next := n; w_holder := w_holder w; w_phase := w_phase w; w_log := w_log w |}.
Definition add_log (w : world) (v : visit) : world :=
  {| w_store := w_store w; w_lock := w_lock w; w_next := w_next w; w_holder := w_holder w; w_phase := w_phase w; w_log := w_log w ++ [v] |}.
(** state.rs 121-129 [increment_search_count], [reset_search_count] *)
Definition with_searches (s : state) (n : Z) : state :=
  {| s_files := s_files s; s_ignored := s_ignored s; s_searches := n; s_dirty := s_dirty s; s_format := s_format s |}.
Definition count (j : job) (s : state) : state :=
  match j with JResetStats => with_searches s 0 | _ => with_searches s (s_searches s + 1) end.
(** The file whose lock a process holds. *)
Definition held (ph : phase) : option nat :=
  match ph with PRun i _ | PHold i | PRemoved i => Some i | _ => None end.
Definition release (w : world) (p : nat) : world :=
  match held (w_phase w p) with Some i => set_holder w i None | None => w end.

Section STEP.
  Variable T : tool.
  Variable jobs : nat -> job.
  Definition visit_of_job (p : nat) : option visit := match jobs p with JIndex v | JSearch v => Some v | _ => None end.
  (** The move of process [p]; [None] when it cannot make it. *)
  Definition step (p : nat) (m : move) (w : world) : option world :=
    match w_phase w p, m with
    | PDone, _ => None
    | _, Kill => Some (set_phase (release w p) p PDone)      (* the system closes its files *)
    | PStart, Open =>
      match jobs p with
      | JNoUpdate | JResetStats => None
      | _ =>                                    (* paths.rs 246-249, 267-270: create_dir_all, File::create *)
        match w_lock w with
        | Some i => Some (set_phase w p (POpen i))
        | None => Some (set_phase (set_lock w (Some (w_next w)) (S (w_next w))) p (POpen (w_next w)))
        end
      end
    | PStart, Load =>
      match jobs p with
      | JNoUpdate | JResetStats => Some (set_phase w p PCount)
      | _ => None
      end
    | POpen i, Lock =>                          (* try_lock_exclusive *)
      match w_holder w i with
      | Some _ => None
      | None =>
        match visit_of_job p with
        | Some v => Some (set_phase (add_log (set_holder w i (Some p)) v) p (PRun i (fst (visit_run T v (w_store w)))))
        | None => Some (set_phase (set_holder w i (Some p)) p (PHold i))
        end
      end
    | POpen i, Busy =>                          (* a search goes on, the others time out *)
      match w_holder w i with
      | None => None
      | Some _ => match jobs p with JSearch _ => Some (set_phase w p PCount) | _ => Some (set_phase w p PDone) end
      end
    | PRun i (e :: es), Effect => Some (set_phase (set_store w (apply (w_store w) e)) p (PRun i es))
    | PRun i [], Finish =>
      match jobs p with
      | JSearch _ => Some (set_phase (set_holder w i None) p PCount)
      | _ => Some (set_phase (set_holder w i None) p PDone)
      end
    | PHold i, Drop =>                          (* clear.rs 66-67 *)
      match jobs p with JClear => Some (set_phase (set_holder w i None) p PRemove) | _ => None end
    | PRemove, Remove =>                        (* clear.rs 68; remove_dir_all is one move *)
      Some (set_phase (set_lock (set_store w empty_store) None (w_next w)) p PDone)
    | PHold i, Remove =>                        (* search.rs 1189-1190 *)
      match jobs p with JRebuild => Some (set_phase (set_lock (set_store w empty_store) None (w_next w)) p (PRemoved i)) | _ => None end
    | PRemoved i, Drop => Some (set_phase (set_holder w i None) p PDone)
    | PCount, Load =>                           (* search.rs 1640-1641; a search without an index has ended before *)
      match d_vec (w_store w), jobs p with
      | None, JSearch _ | None, JNoUpdate => Some (set_phase w p PDone)
      | _, _ => Some (set_phase w p (PSave (load (w_store w))))
      end
    | PSave s, Save =>                          (* search.rs 1642-1643 *)
      Some (set_phase (set_store w (apply (w_store w) (SaveState (count (jobs p) s)))) p PDone)
    | _, _ => None
    end.
  Fixpoint steps (l : list (nat * move)) (w : world) : option world :=
    match l with
    | [] => Some w
    | (p, m) :: l' => match step p m w with Some w' => steps l' w' | None => None end
    end.
End STEP.
Definition start (d : store) : world :=
  {| w_store := d; w_lock := None; w_next := 0; w_holder := fun _ => None; w_phase := fun _ => PStart; w_log := [] |}.
