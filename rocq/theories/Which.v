(** Which index a colgrep command uses: own index, index of a directory above, or a new one.

    Paths are canonical and absolute ([std::fs::canonicalize] at search.rs 1034, init.rs 32,
    clear.rs 59, status.rs 8): the list of the names below the root.  A file of the disk is its path
    and its text; directories without files are not represented.  What an index holds is the files it
    was made from, relative to its project; how an index is made and searched is modelled in
    [Colgrep*.v], [Glob.v] and [Ranking.v] (C62-C66, C82-C92). *)
From Verif Require Import Base Text Regex Glob.
Open Scope nat_scope.

Definition path := list text.
Definition content := list (path * text).
Definition path_eqb (p q : path) : bool := (fix eq p q := match p, q with [], [] => true | a :: p', b :: q' => text_eqb a b && eq p' q' | _, _ => false end) p q.

(** [Path::strip_prefix] on canonical paths *)
Fixpoint strip (pre p : path) : option path :=
  match pre, p with
  | [], _ => Some p
  | a :: pre', b :: p' => if text_eqb a b then strip pre' p' else None
  | _ :: _, [] => None
  end.
(** [Path::components().count()]: the root counts as one *)
Definition depth (p : path) : nat := S (length p).
(** [to_string_lossy] of a relative path *)
Fixpoint shown_path (p : path) : text := match p with [] => [] | [x] => x | x :: p' => x ++ ch "/" :: shown_path p' end.

(** project.json. colgrep/src/index/paths.rs 22-47 *)
Record meta := { m_path : path; m_model : option text }.
(** A directory below the data directory: project.json (if it is there and readable), the vector
    index and its database (if index/metadata.json is there), the marker of a build in progress. *)
Record entry := { e_meta : option meta; e_index : option content; e_building : bool }.
Definition no_entry : entry := {| e_meta := None; e_index := None; e_building := false |}.
(** The data directory, in the order of [read_dir]. *)
Definition store := list (text * entry).
Record world := { w_disk : content; w_store : store }.

Definition lookup (s : store) (d : text) : option entry := option_map snd (find (fun x => text_eqb (fst x) d) s).
Fixpoint put (s : store) (d : text) (e : entry) : store :=
  match s with
  | [] => [(d, e)]
  | x :: s' => if text_eqb (fst x) d then (d, e) :: s' else x :: put s' d e
  end.
(** [std::fs::remove_dir_all] *)
Definition remove (s : store) (d : text) : store := filter (fun x => negb (text_eqb (fst x) d)) s.

(** How a run of the indexer ends: completely (with a full rebuild or not), not started because
    another process holds the lock, or stopped midway: some of the old files and some of the new ones
    are in the index, or there is none, project.json has been written or not. *)
Inductive outcome :=
| Finished (rebuilt : bool)
| Busy
| Stopped (kept_old kept_new : path -> bool) (any stamped building : bool).

Record request := { q_path : path; q_model : text; q_cwd : option path; q_no_update : bool; q_include : list text; q_file : option text }.
Inductive answer := Shown (files : content) | NoIndex | Failed.
Record parent := { p_dir : text; p_root : path; p_sub : path }.

Section Which.
(** [compute_index_dir_name]: colgrep/src/index/paths.rs 96-122 (name and 32 bits of a hash) *)
Variable name : path -> text -> text.
(** The rules that choose the files of a project (C92): given the project and a relative path. *)
Variable wanted : path -> path -> bool.
(** [--include] (C81): given the patterns and a relative path. *)
Variable included : list text -> path -> bool.

(** The files of a project. *)
Definition files_of (disk : content) (root : path) : content :=
  flat_map (fun f => match strip root (fst f) with Some rel => if wanted root rel then [(rel, snd f)] else [] | None => [] end) disk.

(** ** find_index_for_project, index_exists
    colgrep/src/index/paths.rs 132-166 *)
Definition index_exists (s : store) (p : path) (m : text) : bool :=
  match lookup s (name p m) with
  | Some e =>
      match e_index e with
      | Some _ =>
          match e_meta e with
          | Some mt => if path_eqb (m_path mt) p then match m_model mt with Some m' => text_eqb m' m | None => true end else true
          | None => true
          end
      | None => false
      end
  | None => false
  end.

(** ** find_parent_index
    colgrep/src/index/paths.rs 180-227 *)
Definition best_depth (best : option parent) : nat := match best with Some b => depth (p_root b) | None => 0 end.
Definition consider (p : path) (m : text) (best : option parent) (x : text * entry) : option parent :=
  match e_meta (snd x) with
  | Some mt =>
      match m_model mt with
      | Some m' =>
          if text_eqb m' m then
            if path_eqb p (m_path mt) then best
            else match strip (m_path mt) p with
                 | Some rel => if best_depth best <? depth (m_path mt) then Some {| p_dir := fst x; p_root := m_path mt; p_sub := rel |} else best
                 | None => best
                 end
          else best
      | None => best
      end
  | None => best
  end.
Definition find_parent_index (s : store) (p : path) (m : text) : option parent := fold_left (consider p m) s None.

(** ** is_external_project_path
    colgrep/src/commands/search.rs 413-421 *)
Definition is_external (p : path) (cwd : option path) : bool :=
  match cwd with None => false | Some c => match strip c p with Some _ => false | None => true end end.

(** ** should_search_from_root
    colgrep/src/scoring.rs 10-34; [exists] for a name in a directory of the disk *)
Definition on_disk (disk : content) (dir : path) (n : text) : bool :=
  text_eqb n [] || text_eqb n (txt ".") || text_eqb n (txt "..") ||
  existsb (fun f => match strip (dir ++ [n]) (fst f) with Some _ => true | None => false end) disk.
Fixpoint before_slash (s : text) : text := match s with [] => [] | c :: s' => if (c =? ch "/")%Z then [] else c :: before_slash s' end.
Definition should_search_from_root (disk : content) (patterns : list text) (dir : path) : bool :=
  existsb (fun pat => if starts_with (txt "**/") pat then
                        let n := before_slash (skipn 3 pat) in
                        if zmem (ch "*") n then false else negb (on_disk disk dir n)
                      else false) patterns.

(** ** A run of the indexer for a project: [index] and [try_index]
    colgrep/src/index/mod.rs 1617-1681, 1739-1755: a first or resumed build ends with project.json
    (2273-2277), so does a full rebuild (2432-2434); an incremental update does not write it.  A
    project without files gets no index/metadata.json. *)
Definition run_index (w : world) (root : path) (m : text) (o : outcome) : world :=
  let d := name root m in
  let e := match lookup (w_store w) d with Some e => e | None => no_entry end in
  let now := files_of (w_disk w) root in
  let stamp := Some {| m_path := root; m_model := Some m |} in
  let e' :=
    match o with
    | Busy => e
    | Finished rebuilt =>
        {| e_meta := match e_index e with Some _ => if rebuilt || e_building e then stamp else e_meta e | None => stamp end;
           e_index := match e_index e, now with None, [] => None | _, _ => Some now end;
           e_building := false |}
    | Stopped kept_old kept_new any stamped building =>
        {| e_meta := if stamped then stamp else e_meta e;
           e_index := if any then Some (filter (fun f => kept_old (fst f)) (match e_index e with Some c => c | None => [] end) ++
                                        filter (fun f => kept_new (fst f)) now) else None;
           e_building := building |}
    end in
  {| w_disk := w_disk w; w_store := put (w_store w) d e' |}.

(** ** The choice of a search
    colgrep/src/commands/search.rs 1074-1100 *)
Definition choose (s : store) (p : path) (m : text) (cwd : option path) : option parent :=
  if index_exists s p m then None else if is_external p cwd then None else find_parent_index s p m.
Definition root_of (p : path) (c : option parent) : path := match c with Some i => p_root i | None => p end.

(** ** A search
    colgrep/src/commands/search.rs 1033-1254, 1333-1450: the choice, the update, the check that there
    is an index, the index that is loaded, and the filters on files (the subdirectory, --include and a
    single file).  Clearing an index whose files cannot be read (1171-1205, 1292-1330) is left out. *)
Definition search (w : world) (q : request) (o : outcome) : world * answer :=
  let p := q_path q in
  let m := q_model q in
  let c := choose (w_store w) p m (q_cwd q) in
  let root := root_of p c in
  let subdir := match c with
                | Some i => if should_search_from_root (w_disk w) (q_include q) (root ++ p_sub i) then None else Some (p_sub i)
                | None => None end in
  let w1 := if q_no_update q then w else run_index w root m o in
  match (if q_no_update q then Busy else o) with
  | Stopped _ _ _ _ _ => (w1, Failed)
  | _ =>
      match option_map e_index (lookup (w_store w1) (name root m)) with
      | Some (Some _) =>
          match option_map e_index (lookup (w_store w1) (match c with Some i => p_dir i | None => name root m end)) with
          | Some (Some files) =>
              let by_dir := match subdir with
                            | Some sub => filter (fun f => like (shown_path sub ++ txt "%") (shown_path (fst f))) files
                            | None => files end in
              let by_include := match q_include q with [] => by_dir | pats => filter (fun f => included pats (fst f)) by_dir end in
              let by_file := match q_file q with
                             | Some n => filter (fun f => match strip root (p ++ [n]) with Some rel => path_eqb (fst f) rel | None => false end) by_include
                             | None => by_include end in
              (w1, Shown (map (fun f => (root ++ fst f, snd f)) by_file))
          | _ => (w1, Failed)
          end
      | _ => (w1, NoIndex)
      end
  end.

(** ** colgrep init
    colgrep/src/commands/init.rs 31-76 *)
Definition init (w : world) (p : path) (m : text) (o : outcome) : world :=
  run_index w (root_of p (find_parent_index (w_store w) p m)) m o.

(** ** colgrep status: the project it names
    colgrep/src/commands/status.rs 7-40 *)
Definition status (s : store) (p : path) (m : text) : option path :=
  if index_exists s p m then Some p else option_map p_root (find_parent_index s p m).

(** ** colgrep clear and clear --all
    colgrep/src/commands/clear.rs 17-89 *)
Definition clear (w : world) (p : path) (m : text) : world :=
  match lookup (w_store w) (name p m) with
  | Some _ => {| w_disk := w_disk w; w_store := remove (w_store w) (name p m) |}
  | None =>
      match find_parent_index (w_store w) p m with
      | Some i => {| w_disk := w_disk w; w_store := remove (w_store w) (p_dir i) |}
      | None => w
      end
  end.
Definition clear_all (w : world) : world := {| w_disk := w_disk w; w_store := [] |}.

(** ** Histories: edits of the files, commands, and a [remove_dir_all] that was killed *)
Inductive event :=
| Edit (disk : content)
| Search (q : request) (o : outcome)
| Init (p : path) (m : text) (o : outcome)
| Clear (p : path) (m : text)
| ClearAll
| Torn (d : text) (meta_kept index_kept building_kept : bool).
Definition step (w : world) (ev : event) : world :=
  match ev with
  | Edit disk => {| w_disk := disk; w_store := w_store w |}
  | Search q o => fst (search w q o)
  | Init p m o => init w p m o
  | Clear p m => clear w p m
  | ClearAll => clear_all w
  | Torn d meta_kept index_kept building_kept =>
      match lookup (w_store w) d with
      | Some e => {| w_disk := w_disk w; w_store := put (w_store w) d
                      {| e_meta := if meta_kept then e_meta e else None; e_index := if index_kept then e_index e else None;
                         e_building := building_kept && e_building e |} |}
      | None => w
      end
  end.
Definition history (disk : content) (evs : list event) : world := fold_left step evs {| w_disk := disk; w_store := [] |}.
End Which.
