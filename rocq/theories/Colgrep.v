(** Model of how [colgrep] keeps the index of a project up to date with its files:
    colgrep/src/index/mod.rs (update plan, incremental update, resumable first build, full
    rebuild, repair, worktree seeding, indexing pipeline) and colgrep/src/index/state.rs.

    The vector index is the list of documents it holds; a document is named by the code unit
    whose text was embedded ([row]).  The metadata database is the list of its rows with their
    [_subset_] numbers.  Search shows, for document number [i], the metadata row numbered [i].
    Every change of the index directory is one [effect]; a killed process leaves the effects
    of a prefix.  Each effect is taken as atomic (the files inside one effect are the subject of
    C37 and C24).

    Left out: the full-text table, progress bars and prompts (the answer is always yes),
    [called_by] (a unit is its file, line and text), I/O errors, the language argument of
    [index] (always absent), Ctrl-C as something other than a killed process, and
    [index_specific_files], which no command calls. *)
From Verif Require Import Base Text.
Open Scope nat_scope.

Definition path := text.
Definition mem (p : path) (l : list path) : bool := existsb (text_eqb p) l.

(** A file on disk: content and modification time; the size is that of the content
    (state.rs [file_stat] 137-145). *)
Record file := { f_content : text; f_mtime : Z }.
Definition f_size (f : file) : Z := Z.of_nat (length (f_content f)).
(** The project directory; [p_visible] stands for the ignore rules of [scan_files]
    (mod.rs 2689-2735: .gitignore, [should_ignore]). *)
Record project := { p_files : list (path * file); p_visible : path -> bool }.
Fixpoint assoc {A} (l : list (path * A)) (p : path) : option A :=
  match l with [] => None | (q, a) :: l' => if text_eqb p q then Some a else assoc l' p end.

(** What the model is told about the outside: language detection by file name
    (parser/language.rs 8-90), UTF-8 validity ([read_to_string]), the content hash
    (state.rs [hash_file] 131-134), unit extraction (parser [extract_units]: line and text of
    each unit), the order on paths, the size limit and the three batch sizes
    ([INDEX_CHUNK_SIZE], [UPDATE_FLUSH_DOC_LIMIT], [BUILD_CHECKPOINT_UNITS]). *)
Record tool := {
  t_language : path -> bool;
  t_utf8 : text -> bool;
  t_hash : text -> Z;
  t_units : path -> text -> list (Z * text);
  t_path_leb : path -> path -> bool;
  t_max_size : Z;
  t_chunk : nat; t_flush : nat; t_checkpoint : nat
}.

(** A code unit as indexed (parser/types.rs 117-152). *)
Record row := { r_file : path; r_line : Z; r_text : text }.
Definition rows_of (T : tool) (p : path) (c : text) : list row :=
  map (fun u => {| r_file := p; r_line := fst u; r_text := snd u |}) (t_units T p c).

(** state.rs 39-61 [FileInfo], 16-37 [IndexState]; [s_format] says whether the recorded
    format version is the current one (a missing state has version 0). *)
Record info := { i_hash : Z; i_mtime : Z; i_size : Z }.
Record state := {
  s_files : list (path * info);
  s_ignored : list path;
  s_searches : Z;
  s_dirty : bool;
  s_format : bool
}.
Definition default_state : state :=
  {| s_files := []; s_ignored := []; s_searches := 0; s_dirty := false; s_format := false |}.
Definition info_of (T : tool) (f : file) : info :=
  {| i_hash := t_hash T (f_content f); i_mtime := f_mtime f; i_size := f_size f |}.
Definition remove_key {A} (l : list (path * A)) (p : path) : list (path * A) :=
  filter (fun e => negb (text_eqb p (fst e))) l.
Definition put {A} (l : list (path * A)) (p : path) (a : A) : list (path * A) := (p, a) :: remove_key l p.
Definition with_files (s : state) (l : list (path * info)) : state :=
  {| s_files := l; s_ignored := s_ignored s; s_searches := s_searches s; s_dirty := s_dirty s; s_format := s_format s |}.
Definition with_dirty (s : state) (b : bool) : state :=
  {| s_files := s_files s; s_ignored := s_ignored s; s_searches := s_searches s; s_dirty := b; s_format := s_format s |}.
Definition add_ignored (s : state) (p : path) : state :=
  {| s_files := s_files s; s_ignored := p :: s_ignored s; s_searches := s_searches s; s_dirty := s_dirty s; s_format := s_format s |}.

(** The index directory: vector index ([metadata.json] and its files), metadata database,
    state.json and the marker of a build in progress. *)
Record store := {
  d_vec : option (list row);
  d_db : option (list (nat * row));
  d_state : option state;
  d_building : bool
}.
Definition empty_store : store := {| d_vec := None; d_db := None; d_state := None; d_building := false |}.
(** state.rs [IndexState::load] 77-87. *)
Definition load (d : store) : state := match d_state d with Some s => s | None => default_state end.

Fixpoint number (k : nat) (rows : list row) : list (nat * row) :=
  match rows with [] => [] | r :: rs => (k, r) :: number (S k) rs end.
Definition mem_nat (i : nat) (l : list nat) : bool := existsb (Nat.eqb i) l.
Definition id_leb (a b : nat * row) : bool := fst a <=? fst b.
(** next-plaid delete.rs: the remaining documents move up. *)
Definition drop_docs (ids : list nat) (v : list row) : list row :=
  map snd (filter (fun e => negb (mem_nat (fst e) ids)) (number 0 v)).
(** next-plaid filtering.rs [delete]: the remaining rows are renumbered in their order. *)
Definition drop_rows (ids : list nat) (db : list (nat * row)) : list (nat * row) :=
  number 0 (map snd (isort id_leb (filter (fun e => negb (mem_nat (fst e) ids)) db))).

(** One change of the index directory. *)
Inductive effect :=
| SaveState (s : state)          (** [IndexState::save], written aside and renamed, stamped with the format *)
| Building (b : bool)            (** marker file written or removed *)
| VecNew (rows : list row)       (** [write_index_from_encoded_chunks] *)
| VecAdd (rows : list row)       (** [MmapIndex::update_append] *)
| VecDel (ids : list nat)        (** [delete_from_index] *)
| DbAdd (rows : list (nat * row)) (** [filtering::create] or [filtering::update] *)
| DbDel (ids : list nat)         (** [filtering::delete] *)
| MoveAway                       (** index directory renamed to index.old, or removed *)
| MoveIn (v : option (list row)) (db : option (list (nat * row))). (** index.tmp renamed to the index directory *)

Definition stamp (s : state) : state :=
  {| s_files := s_files s; s_ignored := s_ignored s; s_searches := s_searches s; s_dirty := s_dirty s; s_format := true |}.
Definition apply (d : store) (e : effect) : store :=
  match e with
  | SaveState s => {| d_vec := d_vec d; d_db := d_db d; d_state := Some (stamp s); d_building := d_building d |}
  | Building b => {| d_vec := d_vec d; d_db := d_db d; d_state := d_state d; d_building := b |}
  | VecNew rows => {| d_vec := Some rows; d_db := d_db d; d_state := d_state d; d_building := d_building d |}
  | VecAdd rows => {| d_vec := option_map (fun v => v ++ rows) (d_vec d); d_db := d_db d; d_state := d_state d; d_building := d_building d |}
  | VecDel ids => {| d_vec := option_map (drop_docs ids) (d_vec d); d_db := d_db d; d_state := d_state d; d_building := d_building d |}
  | DbAdd rows => {| d_vec := d_vec d; d_db := Some (match d_db d with Some l => l | None => [] end ++ rows);
                     d_state := d_state d; d_building := d_building d |}
  | DbDel ids => {| d_vec := d_vec d; d_db := option_map (drop_rows ids) (d_db d); d_state := d_state d; d_building := d_building d |}
  | MoveAway => {| d_vec := None; d_db := None; d_state := d_state d; d_building := d_building d |}
  | MoveIn v db => {| d_vec := v; d_db := db; d_state := d_state d; d_building := d_building d |}
  end.
Definition apply_all (d : store) (es : list effect) : store := fold_left apply es d.

(** A computation: the effects it performs and its result. *)
Definition act (A : Type) : Type := store -> list effect * res A.
Definition ret {A} (a : A) : act A := fun _ => ([], Ok a).
Definition fail {A} : act A := fun _ => ([], Err).
Definition ask : act store := fun d => ([], Ok d).
Definition emit (e : effect) : act unit := fun _ => ([e], Ok tt).
Definition andthen {A B} (m : act A) (f : A -> act B) : act B := fun d =>
  let '(es, r) := m d in
  match r with
  | Ok a => let '(es', r') := f a (apply_all d es) in (es ++ es', r')
  | Err => (es, Err)
  | Panic => (es, Panic)
  end.
Notation "x <- m ;; k" := (andthen m (fun x => k)) (at level 61, m at next level, right associativity).
Notation "m ;;; k" := (andthen m (fun _ => k)) (at level 61, right associativity).
Definition when (b : bool) (m : act unit) : act unit := if b then m else ret tt.
(** [let _ = ...]: an error is dropped. *)
Definition attempt (m : act nat) : act unit := fun d =>
  match m d with (es, Ok _) => (es, Ok tt) | (es, Err) => (es, Ok tt) | (es, Panic) => (es, Panic) end.
Definition nonempty {A} (l : list A) : bool := match l with [] => false | _ => true end.

(** mod.rs 77-163 [delete_files_from_index], [delete_files_from_index_inner]: the row numbers of
    all files are collected first, then removed from the vector index and from the database. *)
Definition ids_of (db : list (nat * row)) (p : path) : list nat :=
  map fst (filter (fun e => text_eqb p (r_file (snd e))) db).
Definition ids_of_files (d : store) (files : list path) : list nat :=
  match d_db d with
  | Some db => nodup Nat.eq_dec (flat_map (ids_of db) files)
  | None => []
  end.
Definition delete_files (files : list path) : act nat := fun d =>
  let ids := ids_of_files d files in
  match ids, d_vec d with
  | [], _ => ([], Ok 0)
  | _, None => ([], Err)
  | _, Some _ => ([VecDel ids; DbDel ids], Ok (length ids))
  end.

(** mod.rs 2689-2735 [scan_files], 2738-2744 [is_file_too_large]. *)
Definition scan (T : tool) (pj : project) : list (path * file) :=
  filter (fun e => p_visible pj (fst e) && t_language T (fst e) && (f_size (snd e) <=? t_max_size T)%Z) (p_files pj).

(** mod.rs 974-1050 [parse_files_parallel] on one file: skipped when it is not UTF-8. *)
Inductive parsed := PSkip | PUnits (rows : list row) (i : info).
Definition parse (T : tool) (e : path * file) : parsed :=
  if t_utf8 T (f_content (snd e)) then PUnits (rows_of T (fst e) (f_content (snd e))) (info_of T (snd e)) else PSkip.

(** mod.rs 2948-3028 [compute_update_plan] on one scanned file. *)
Inductive verdict := VIgnored | VSame | VTouched (i : info) | VChanged | VAdded.
Definition classify (T : tool) (s : state) (e : path * file) : verdict :=
  let '(p, f) := e in
  if mem p (s_ignored s) then VIgnored
  else match assoc (s_files s) p with
  | Some i =>
      if (i_mtime i =? f_mtime f)%Z && (i_size i =? f_size f)%Z then VSame
      else if (i_hash i =? t_hash T (f_content f))%Z then VTouched (info_of T f)
      else VChanged
  | None => VAdded
  end.
Definition is_added (v : verdict) : bool := match v with VAdded => true | _ => false end.
Definition is_changed (v : verdict) : bool := match v with VChanged => true | _ => false end.
Definition plan_added (T : tool) (s : state) (pj : project) : list (path * file) :=
  filter (fun e => is_added (classify T s e)) (scan T pj).
Definition plan_changed (T : tool) (s : state) (pj : project) : list (path * file) :=
  filter (fun e => is_changed (classify T s e)) (scan T pj).
Definition plan_touched (T : tool) (s : state) (pj : project) : list (path * info) :=
  flat_map (fun e => match classify T s e with VTouched i => [(fst e, i)] | _ => [] end) (scan T pj).
Definition plan_deleted (T : tool) (s : state) (pj : project) : list path :=
  filter (fun p => negb (mem p (map fst (scan T pj)))) (map fst (s_files s)).

(** mod.rs 421-456 [prepare_units_for_encoding]: sorted by file and line (an unstable sort is
    modelled by a stable one), then a strided sample moved to the front. *)
Definition row_leb (T : tool) (a b : row) : bool :=
  if text_eqb (r_file a) (r_file b) then (r_line a <=? r_line b)%Z else t_path_leb T (r_file a) (r_file b).
Definition prepare (T : tool) (units : list row) : list row :=
  let items := isort (row_leb T) units in
  let n := Nat.min (t_chunk T) (length items) in
  if (0 <? n) && (n <? length items) then
    let stride := length items / n in
    let sampled := map (fun i => i * stride) (seq 0 n) in
    let numbered := number 0 items in
    map snd (filter (fun e => mem_nat (fst e) sampled) numbered)
    ++ map snd (filter (fun e => negb (mem_nat (fst e) sampled)) numbered)
  else items.

(** mod.rs 640-686 [run_index_stage], update path, and 690-715 [flush_update_batch]: pipeline
    chunks are gathered until [UPDATE_FLUSH_DOC_LIMIT] documents are pending. *)
Fixpoint group (flush : nat) (pending : list row) (cs : list (list row)) : list (list row) :=
  match cs with
  | [] => match pending with [] => [] | _ => [pending] end
  | c :: cs' =>
      let p := pending ++ c in
      if (flush <=? length p) && nonempty p then p :: group flush [] cs' else group flush p cs'
  end.
Fixpoint db_adds (k : nat) (bs : list (list row)) : list effect :=
  match bs with [] => [] | b :: bs' => DbAdd (number k b) :: db_adds (k + length b) bs' end.
(** The metadata stage is a thread of its own (mod.rs 771-816, 826-903): its writes interleave
    with those of the index stage.  [merge] runs through every interleaving as the schedule
    varies; [merge_after] through those where the n-th batch of rows follows the n-th batch of
    documents. *)
Fixpoint merge (sch : list bool) (l r : list effect) : list effect :=
  match sch with
  | [] => l ++ r
  | b :: s => if b then match l with x :: l' => x :: merge s l' r | [] => r end
              else match r with y :: r' => y :: merge s l r' | [] => l end
  end.
Fixpoint merge_after (sch : list bool) (k : nat) (l r : list effect) : list effect :=
  match sch with
  | [] => l ++ r
  | b :: s => if b || (k =? 0) then match l with x :: l' => x :: merge_after s (S k) l' r | [] => r end
              else match r with y :: r' => y :: merge_after s (k - 1) l r' | [] => l end
  end.
Definition conflict (db : option (list (nat * row))) (new : list (nat * row)) : bool :=
  match db with
  | Some l => existsb (fun e => mem_nat (fst e) (map fst l)) new
  | None => false
  end.
(** mod.rs 826-903 [run_chunk_pipeline] with 553-640 [run_index_stage] (first build: documents
    numbered from 0, written at once at the end; the rows are inserted chunk by chunk
    meanwhile) and 771-816 [run_metadata_stage] (a row number already present is an error, on
    which the documents of the batch are removed again; only the first batch is followed here). *)
Definition pipeline (T : tool) (sch : list row -> list bool) (rows : list row) : act unit := fun d =>
  match rows with
  | [] => ([], Ok tt)
  | _ =>
    match d_vec d with
    | None =>
        if conflict (d_db d) (number 0 rows) then ([], Err)
        else (merge (sch rows) [VecNew rows] (db_adds 0 (chunks (t_chunk T) rows)), Ok tt)
    | Some v =>
        let bs := group (t_flush T) [] (chunks (t_chunk T) rows) in
        if conflict (d_db d) (number (length v) rows)
        then ([VecAdd (hd [] bs); VecDel (seq (length v) (length (hd [] bs)))], Err)
        else (merge_after (sch rows) 0 (map VecAdd bs) (db_adds (length v) bs), Ok tt)
    end
  end.

(** mod.rs 1553-1608 [repair_index_db_sync]; the result says whether it succeeded. *)
Definition repair : act bool := fun d =>
  match d_vec d, d_db d with
  | Some v, Some db =>
      if length v =? length db then ([], Ok true)
      else
        let es := if length v <? length db then [DbDel (seq (length v) (length db - length v))]
                  else [VecDel (seq (length db) (length v - length db))] in
        let d' := apply_all d es in
        (es, Ok (match d_vec d', d_db d' with
                 | Some v', Some db' => length v' =? length db'
                 | _, _ => false
                 end))
  | _, _ => ([], Ok true)
  end.
(** mod.rs 1512-1543 [reconcile_document_counts], with the count test of [run_indexing]. *)
Definition reconcile : act unit := fun d =>
  match d_vec d, d_db d with
  | Some v, Some db =>
      if length v <? length db then
        match filter (fun i => length v <=? i) (map fst db) with
        | [] => ([], Ok tt)
        | ids => ([DbDel ids], Ok tt)
        end
      else ([], Ok tt)
  | _, _ => ([], Ok tt)
  end.
(** mod.rs 3032-3049 [cleanup_orphaned_entries]. *)
Definition cleanup (pj : project) : act nat := fun d =>
  let files := match d_db d with Some db => nodup text_dec (map (fun e => r_file (snd e)) db) | None => [] end in
  delete_files (filter (fun p => match assoc (p_files pj) p with None => true | Some _ => false end) files) d.

(** The loops over parsed files. *)
Definition parsed_rows (T : tool) (l : list (path * file)) : list row :=
  flat_map (fun e => match parse T e with PUnits rows _ => rows | PSkip => [] end) l.
Definition parsed_skips (T : tool) (l : list (path * file)) : list path :=
  flat_map (fun e => match parse T e with PSkip => [fst e] | _ => [] end) l.
(** mod.rs 2585-2600, the state part of the loop in [incremental_update]. *)
Definition note_parsed (T : tool) (s : state) (e : path * file) : state :=
  match parse T e with
  | PSkip => add_ignored (with_files s (remove_key (s_files s) (fst e))) (fst e)
  | PUnits _ i => with_files s (put (s_files s) (fst e) i)
  end.

(** mod.rs 2319-2443 [full_rebuild]: everything is written in index.tmp, which then replaces the
    index directory; state.json is written last. *)
Definition full_rebuild (T : tool) (pj : project) : act unit :=
  let files := scan T pj in
  let s := fold_left (note_parsed T) files default_state in
  let units := parsed_rows T files in
  let rows := prepare T units in
  emit (Building false) ;;;
  emit MoveAway ;;;
  when (nonempty units) (emit (MoveIn (Some rows) (Some (number 0 rows)))) ;;;
  emit (SaveState s).

(** mod.rs 2446-2687 [incremental_update]. *)
Definition incremental (T : tool) (sch : list row -> list bool) (pj : project) (s : state) : act unit :=
  let added := plan_added T s pj in
  let changed := plan_changed T s pj in
  let touched := plan_touched T s pj in
  let deleted := plan_deleted T s pj in
  repaired <- (if s_dirty s then repair else ret true) ;;
  if negb repaired then full_rebuild T pj
  else
    orphans <- (if nonempty deleted || ((0 <? s_searches s)%Z && (s_searches s mod 50 =? 0)%Z)
                then cleanup pj else ret 0) ;;
    let s1 := with_files s (fold_left (fun m e => put m (fst e) (snd e)) touched (s_files s)) in
    if negb (nonempty added) && negb (nonempty changed) && negb (nonempty deleted) && (orphans =? 0)
    then when (nonempty touched || s_dirty s) (emit (SaveState (with_dirty s1 false)))
    else
      when (nonempty deleted || nonempty changed || nonempty added) (emit (SaveState (with_dirty s1 true))) ;;;
      delete_files deleted ;;;
      let s2 := with_files s1 (fold_left remove_key deleted (s_files s1)) in
      let s3 := with_files s2 (filter (fun e => match assoc (p_files pj) (fst e) with Some _ => true | None => false end)
                                      (s_files s2)) in
      let todo := filter (fun e => negb (mem (fst e) (s_ignored s3))) (added ++ changed) in
      let units := parsed_rows T todo in
      let s4 := fold_left (note_parsed T) todo s3 in
      attempt (delete_files (filter (fun p => mem p (map fst changed)) (parsed_skips T todo))) ;;;
      when (nonempty units)
        (delete_files (map fst changed) ;;; pipeline T sch (prepare T units)) ;;;
      emit (SaveState (with_dirty s4 false)).

(** mod.rs 2291-2317 [flush_build_batch]. *)
Definition flush_batch (T : tool) (sch : list row -> list bool) (files : list path) (units : list row) : act unit :=
  delete_files files ;;; pipeline T sch (prepare T units).
(** mod.rs 2206-2262, the batching loop of [build_resumable] and its final partial batch. *)
Definition entry := (path * (list row * info))%type.
Definition units_in (batch : list entry) : list row := flat_map (fun e => fst (snd e)) batch.
Definition commit (s : state) (batch : list entry) : state :=
  with_dirty (with_files s (fold_left (fun m e => put m (fst e) (snd (snd e))) batch (s_files s))) false.
Fixpoint build_loop (T : tool) (sch : list row -> list bool) (s : state) (batch fs : list entry) : act state :=
  match fs with
  | [] =>
      if nonempty (units_in batch)
      then flush_batch T sch (map fst batch) (units_in batch) ;;;
           emit (SaveState (commit s batch)) ;;; ret (commit s batch)
      else ret s
  | e :: fs' =>
      let batch' := batch ++ [e] in
      if t_checkpoint T <=? length (units_in batch')
      then flush_batch T sch (map fst batch') (units_in batch') ;;;
           emit (SaveState (commit s batch')) ;;; build_loop T sch (commit s batch') [] fs'
      else build_loop T sch s batch' fs'
  end.
(** mod.rs 2060-2286 [build_resumable]. *)
Definition parsed_entries (T : tool) (l : list (path * file)) : list entry :=
  flat_map (fun e => match parse T e with PUnits rows i => [(fst e, (rows, i))] | PSkip => [] end) l.
Definition build (T : tool) (sch : list row -> list bool) (pj : project) : act unit :=
  emit (Building true) ;;;
  d <- ask ;;
  let s := load d in
  (fun d' => match repair d' with (es, _) => (es, Ok tt) end) ;;;
  let stale := plan_deleted T s pj in
  delete_files stale ;;;
  let s1 := with_files s (fold_left remove_key stale (s_files s)) in
  let todo := filter (fun e => match assoc (s_files s1) (fst e) with None => negb (mem (fst e) (s_ignored s1)) | Some _ => false end)
                     (scan T pj) in
  let s2 := fold_left add_ignored (parsed_skips T todo) s1 in
  let entries := parsed_entries T todo in
  let empties := filter (fun e => negb (nonempty (fst (snd e)))) entries in
  let work := isort (fun a b : entry => t_path_leb T (fst a) (fst b))
                    (filter (fun e => nonempty (fst (snd e))) entries) in
  let s3 := if nonempty empties then commit s2 empties else s2 in
  when (nonempty empties) (emit (SaveState s3)) ;;;
  s4 <- build_loop T sch s3 [] work ;;
  emit (SaveState (with_dirty s4 false)) ;;;
  emit (Building false).

(** mod.rs 1464-1503 [reconstruct_state_from_filtering_db]; [None] when the database is empty. *)
Definition reconstruct (T : tool) (pj : project) (db : list (nat * row)) : option state :=
  match db with
  | [] => None
  | _ => Some (with_files default_state
           (flat_map (fun p => match assoc (p_files pj) p with Some f => [(p, info_of T f)] | None => [] end)
                     (nodup text_dec (map (fun e => r_file (snd e)) db))))
  end.

(** mod.rs 176-200 [seed_source_state] and 1988-2046 [try_seed_from_sibling_worktree]: the
    recorded times and sizes are replaced by those of this worktree's files. *)
Definition seedable (d : store) : option state :=
  match d_building d, d_vec d, d_db d, d_state d with
  | false, Some _, Some _, Some s =>
      if nonempty (s_files s) && s_format s && negb (s_dirty s) then Some s else None
  | _, _, _, _ => None
  end.
Definition refresh (T : tool) (pj : project) (e : path * info) : path * info :=
  match assoc (p_files pj) (fst e) with
  | Some f => (fst e, {| i_hash := i_hash (snd e); i_mtime := f_mtime f; i_size := f_size f |})
  | None => e
  end.
Fixpoint seed_from (T : tool) (pj : project) (siblings : list store) : act unit :=
  match siblings with
  | [] => ret tt
  | src :: rest =>
      match seedable src with
      | Some s => emit MoveAway ;;; emit (MoveIn (d_vec src) (d_db src)) ;;;
                  emit (SaveState (with_files s (map (refresh T pj) (s_files s))))
      | None => seed_from T pj rest
      end
  end.

(** mod.rs 1628-1731 [run_indexing] (behind [IndexBuilder::index]); [siblings] are the index
    directories of the other worktrees of the repository (mod.rs 1976-1986). *)
Definition index (T : tool) (sch : list row -> list bool) (siblings : list store) (pj : project) (force : bool) : act unit :=
  d0 <- ask ;;
  when (negb force && match d_vec d0 with None => true | Some _ => false end) (seed_from T pj siblings) ;;;
  d <- ask ;;
  let s := load d in
  let exists_ := match d_vec d with Some _ => true | None => false end in
  if force then full_rebuild T pj
  else if exists_ && nonempty (s_files s) && negb (s_format s) then full_rebuild T pj
  else if d_building d || negb exists_ then build T sch pj
  else match d_db d with
  | None => full_rebuild T pj
  | Some db =>
      match (if nonempty (s_files s) then Some (false, s)
             else match reconstruct T pj db with Some s' => Some (true, s') | None => None end) with
      | None => full_rebuild T pj
      | Some (fresh, s') =>
          when fresh (emit (SaveState s')) ;;;
          reconcile ;;;
          incremental T sch pj s'
      end
  end.

(** A completed run: what it leaves, and whether it reported success. *)
Definition after {A} (m : act A) (d : store) : store := apply_all d (fst (m d)).
Definition outcome {A} (m : act A) (d : store) : res A := snd (m d).
