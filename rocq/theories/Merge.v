(** The merged codes and residuals files (next-plaid/src/mmap.rs 1070-1743): one big file cached
    next to the chunk files, with a manifest that says what it was made from.
    Not modelled: the lock files (the calls run one after another), the temporary files (they are
    never read), I/O errors, chunk files that cannot be read, and manifests in the legacy format.
    Modification times are numbers of nanoseconds; the f64 seconds of the code are taken as
    exact, also after their trip through JSON. *)
From Verif Require Import Base Text Npy.
Open Scope nat_scope.

Section MERGE.
  (** A row, its bytes, and a padding row of [c] columns: codes have [two_d = false], residuals
      [two_d = true]. *)
  Variable A : Type.
  Variable two_d : bool.
  Variable header : nat -> nat -> bytes.
  Variable row_bytes : A -> bytes.
  Variable zero_row : nat -> A.

  (** a chunk file: modification time, columns, rows *)
  Record chunk_file := { k_mtime : Z; k_cols : nat; k_rows : list A }.
  (** the rest of the directory, as far as a merge reads it: the arguments [num_chunks] and
      [padding_rows] (both read from the index directory by the caller, index.rs 1100-1120) and
      the modification time of metadata.json *)
  Record version := {
    v_chunks : nat -> option chunk_file;
    v_num : nat;
    v_padding : nat;
    v_meta : option Z }.
  (** mmap.rs 1072-1098 [ChunkManifestEntry], [MergeManifest]; the keys are the chunk numbers *)
  Record manifest := {
    m_chunks : list (nat * (nat * Z));
    m_padding : nat;
    m_num : nat;
    m_meta : Z;
    m_total : nat;
    m_cols : nat }.
  Record cache := { c_merged : option bytes; c_manifest : option manifest }.
  Definition no_cache : cache := {| c_merged := None; c_manifest := None |}.

  (** The atomic changes to the cached files: renames and removals. *)
  Inductive cwrite := SetMerged (b : bytes) | SetManifest (m : manifest) | DelMerged | DelManifest.
  Definition apply_cwrite (c : cache) (w : cwrite) : cache :=
    match w with
    | SetMerged b => {| c_merged := Some b; c_manifest := c_manifest c |}
    | SetManifest m => {| c_merged := c_merged c; c_manifest := Some m |}
    | DelMerged => {| c_merged := None; c_manifest := c_manifest c |}
    | DelManifest => {| c_merged := c_merged c; c_manifest := None |}
    end.
  Definition apply_cwrites (c : cache) (ws : list cwrite) : cache := fold_left apply_cwrite ws c.

  Fixpoint lookup_chunk (i : nat) (l : list (nat * (nat * Z))) : option (nat * Z) :=
    match l with [] => None | (j, e) :: r => if j =? i then Some e else lookup_chunk i r end.
  (** bytes per row: mmap.rs 1298, 1508 *)
  Definition unit_size (cols : nat) : nat := if two_d then cols else 8.
  (** mmap.rs 1283-1284 [current_metadata_mtime] *)
  Definition meta_mtime (v : version) : Z := match v_meta v with Some t => t | None => 0%Z end.
  (** mmap.rs 1285-1304, 1499-1521: the fast path *)
  Definition fast_path (v : version) (c : cache) : option bytes :=
    match c_manifest c, c_merged c with
    | Some m, Some b =>
      if (m_num m =? v_num v) && (m_padding m =? v_padding v) && (length (m_chunks m) =? v_num v)
         && (0 <? m_total m) && (negb two_d || (0 <? m_cols m))
         && (0 <? m_meta m)%Z && (Z.abs (m_meta m - meta_mtime v) <? 1000000)%Z
         && (length b =? length (header (m_total m) (m_cols m)) + m_total m * unit_size (m_cols m))
      then Some b else None
    | _, _ => None
    end.
  (** mmap.rs 1317-1363, 1535-1577: the chunks with at least one row, in order *)
  Definition scan (v : version) : list (nat * chunk_file) :=
    flat_map (fun i => match v_chunks v i with
                       | Some k => match k_rows k with [] => [] | _ => [(i, k)] end
                       | None => [] end) (seq 0 (v_num v)).
  Definition entry (ik : nat * chunk_file) : nat * (nat * Z) := (fst ik, (length (k_rows (snd ik)), k_mtime (snd ik))).
  Definition is_clean (m : manifest) (ik : nat * chunk_file) : bool :=
    match lookup_chunk (fst ik) (m_chunks m) with
    | Some e => (fst e =? length (k_rows (snd ik))) && (snd e =? k_mtime (snd ik))%Z
    | None => false
    end.
  Definition scanned_rows (v : version) : list A := flat_map (fun ik => k_rows (snd ik)) (scan v).
  (** columns of the last chunk file that exists, rows or not: mmap.rs 1548 *)
  Definition scanned_cols (v : version) : nat :=
    if two_d then fold_left (fun a i => match v_chunks v i with Some k => k_cols k | None => a end) (seq 0 (v_num v)) 0 else 0.
  Definition final_rows (v : version) : nat := length (scanned_rows v) + v_padding v.
  (** mmap.rs 1395-1420, 1613-1637: the content written *)
  Definition content (v : version) : bytes :=
    header (final_rows v) (scanned_cols v) ++ flat_map row_bytes (scanned_rows v)
      ++ flat_map row_bytes (repeat (zero_row (scanned_cols v)) (v_padding v)).
  Definition new_manifest (v : version) : manifest :=
    {| m_chunks := map entry (scan v); m_padding := v_padding v; m_num := v_num v; m_meta := meta_mtime v;
       m_total := final_rows v; m_cols := scanned_cols v |}.
  (** mmap.rs 1369-1393, 1585-1607 [needs_full_rewrite] *)
  Definition needs_rewrite (v : version) (c : cache) : bool :=
    match c_merged c, c_manifest c with
    | Some _, Some m =>
      negb (forallb (is_clean m) (scan v)) || negb (m_padding m =? v_padding v) || negb (m_total m =? final_rows v)
        || (two_d && negb (m_cols m =? scanned_cols v) && negb (m_cols m =? 0))
    | _, _ => true
    end.
  (** mmap.rs 1395-1447, 1609-1665: write, check the size, rename; then the manifest *)
  Definition rewrite (v : version) : list cwrite * res bytes :=
    if length (content v) =? length (header (final_rows v) (scanned_cols v)) + final_rows v * unit_size (scanned_cols v)
    then ([SetMerged (content v); SetManifest (new_manifest v)], Ok (content v))
    else ([], Err).
  (** mmap.rs 1266-1477 [merge_codes_chunks], 1483-1704 [merge_residuals_chunks]: the changes made
      and the content of the file whose path is returned *)
  Definition merge (v : version) (c : cache) : list cwrite * res bytes :=
    match fast_path v c with
    | Some b => ([], Ok b)
    | None =>
      if (length (scanned_rows v) =? 0) || (two_d && (scanned_cols v =? 0)) then ([], Err)
      else if needs_rewrite v c then rewrite v
      else match c_merged c with
        | Some b =>
          if length b <? 64 + final_rows v * unit_size (scanned_cols v)
          then (* removed, then the function calls itself: nothing is cached any more *)
            let '(ws, r) := rewrite v in (DelMerged :: DelManifest :: ws, r)
          else ([SetManifest (new_manifest v)], Ok b)
        | None => ([], Panic)
        end
    end.
  (** mmap.rs 1714-1743 [clear_merged_files], for one of the two arrays *)
  Definition clear_writes : list cwrite := [DelMerged; DelManifest].

  (** What happens to a directory: the chunk files and metadata.json change; a merge, stopped
      after [k] of its changes; a clear, stopped after [k] of its removals.  A large [k] is a
      complete call. *)
  Inductive event := Edit (v : version) | Merge (k : nat) | Clear (k : nat).
  Definition current (vs : list version) (v0 : version) : version := last vs v0.
  Definition step (v0 : version) (s : list version * cache) (e : event) : list version * cache :=
    match e with
    | Edit v => (fst s ++ [v], snd s)
    | Merge k => (fst s, apply_cwrites (snd s) (firstn k (fst (merge (current (fst s) v0) (snd s)))))
    | Clear k => (fst s, apply_cwrites (snd s) (firstn k clear_writes))
    end.
  (** all versions so far, and the cached files *)
  Definition run (v0 : version) (es : list event) : list version * cache := fold_left (step v0) es ([v0], no_cache).
End MERGE.
Arguments k_mtime {A}. Arguments k_cols {A}. Arguments k_rows {A}. Arguments Build_chunk_file {A}.
Arguments v_chunks {A}. Arguments v_num {A}. Arguments v_padding {A}. Arguments v_meta {A}. Arguments Build_version {A}.
Arguments Edit {A}. Arguments Merge {A}. Arguments Clear {A}.
Arguments scan {A}. Arguments scanned_rows {A}. Arguments meta_mtime {A}. Arguments entry {A}. Arguments current {A}.

(** the codes: mmap.rs 1266-1477 *)
Definition codes_header (rows _ : nat) : bytes := write_npy_header (npy_header_dict_1d (Z.of_nat rows) (txt "<i8")).
Definition codes_merge := merge Z false codes_header (le_bytes 8) (fun _ => 0%Z).
Definition codes_run := run Z false codes_header (le_bytes 8) (fun _ => 0%Z).
(** the residuals: mmap.rs 1483-1704; a row is its bytes *)
Definition residuals_header (rows cols : nat) : bytes := write_npy_header (npy_header_dict_2d (Z.of_nat rows) (Z.of_nat cols) (txt "|u1")).
Definition residuals_merge := merge bytes true residuals_header (fun r => r) (fun c => repeat 0%Z c).
Definition residuals_run := run bytes true residuals_header (fun r => r) (fun c => repeat 0%Z c).
