(** Model of the metadata databases of the earlier layouts (next-plaid/src/filtering.rs), which
    the code still reads, updates and migrates, and of the file at every commit: what a process
    killed in the middle of an operation leaves.

    Before the split layout one table METADATA holds every column.  In version 0 [_subset_] is its
    primary key, in version 1 a plain column.  The version is SQLite's user_version; everything
    below version 2 is taken for one of these.  A transaction, or a statement outside one, is
    atomic: that is SQLite's (trusted).  The indexes are not modelled; the order of the rows of a
    table is that of a list, read in any order ([scan]). *)
From Verif Require Import Base Text SqlModel Base64 MetaModel.
Open Scope nat_scope.

Record lrow := { l_sub : Z; l_vals : list sqlv }.
(** [l_pk]: [_subset_] is the primary key; [l_cols]: the columns but [_subset_]; [l_need]: the
    columns declared NOT NULL. *)
Record ltab := { l_pk : bool; l_cols : list column; l_need : list text; l_rows : list lrow }.
(** The database file: user_version, METADATA, METADATA_CONTENT. *)
Record disk := { d_version : Z; d_meta : option ltab; d_content : option (list column * list fat_row) }.

Section LEGACY.
  Variable E : engine.
  Variable scan : list lrow -> list lrow.

  (** ** Tables *)
  Definition content_col : column := {| c_name := content_column; c_type := CInt |}.
  (** A split database as tables: the first column of METADATA is [_content_id_]. *)
  Definition thin_table (cols : list column) (rows : list thin_row) : ltab :=
    {| l_pk := false; l_cols := content_col :: cols; l_need := [content_column];
       l_rows := map (fun r => {| l_sub := t_sub r; l_vals := SInt (t_cid r) :: t_vals r |}) rows |}.
  Definition stored (d : db) : disk :=
    {| d_version := 2; d_meta := Some (thin_table (thin_cols d) (thin_rows d)); d_content := Some (fat_cols d, fat_rows d) |}.
  Definition cid_of (v : sqlv) : Z := match v with SInt z => z | _ => 0%Z end.
  Definition thin_of (r : lrow) : thin_row :=
    {| t_sub := l_sub r; t_cid := cid_of (hd SNull (l_vals r)); t_vals := tl (l_vals r) |}.
  Definition split_db (t : ltab) (c : list column * list fat_row) : db :=
    {| thin_cols := tl (l_cols t); fat_cols := fst c; thin_rows := map thin_of (l_rows t); fat_rows := snd c |}.

  (** ** Reading: filtering.rs 2143-2242 [get] *)
  Definition old_object (t : ltab) (r : lrow) : json :=
    JObj ((subset_column, JInt (l_sub r)) :: combine (map c_name (l_cols t)) (map (row_to_json_value E) (l_vals r))).
  Definition get_ids_old (t : ltab) (ids : list Z) : list json :=
    let results := flat_map (fun chunk => map (fun r => (l_sub r, old_object t r))
                                            (scan (filter (fun r => zmem (l_sub r) chunk) (l_rows t))))
                            (chunks param_limit ids) in
    pick (fold_left map_insert results []) ids.
  Definition by_sub (a b : lrow) : bool := (l_sub a <=? l_sub b)%Z.
  Definition get_all_old (t : ltab) : list json := map (old_object t) (isort by_sub (scan (l_rows t))).
  Definition get_old (t : ltab) (subset : option (list Z)) : list json :=
    match subset with Some ids => get_ids_old t ids | None => get_all_old t end.
  (** The version decides which code reads the file; a query on a missing table fails. *)
  Definition get_disk (f : disk) (subset : option (list Z)) : res (list json) :=
    match d_meta f with
    | None => Err
    | Some t =>
      if (2 <=? d_version f)%Z then
        match d_content f with
        | Some c => get_rows E (Db (split_db t c)) subset
        | None => Err
        end
      else Ok (get_old t subset)
    end.

  (** ** Updating: filtering.rs 1332-1463 [update], 913-946 [insert_fixed_metadata_rows] *)
  (** One INSERT: refused for a repeated primary key or a NULL in a NOT NULL column. *)
  Definition insert_old (t : ltab) (v : json) (sub : Z) : option ltab :=
    if l_pk t && zmem sub (map l_sub (l_rows t)) then None
    else if existsb (fun c => mem (c_name c) (l_need t) && match cell E v c with SNull => true | _ => false end) (l_cols t) then None
    else Some {| l_pk := l_pk t; l_cols := l_cols t; l_need := l_need t;
                 l_rows := l_rows t ++ [{| l_sub := sub; l_vals := map (cell E v) (l_cols t) |}] |}.
  Fixpoint inserts_old (strict : bool) (t : ltab) (rows : list (json * Z)) : option ltab :=
    match rows with
    | [] => Some t
    | (v, sub) :: rest =>
      if strict && negb (is_object v) then None else
      match insert_old t v sub with Some t' => inserts_old strict t' rest | None => None end
    end.
  (** ALTER TABLE METADATA ADD COLUMN *)
  Definition add_old (t : ltab) (c : column) : option ltab :=
    if mem (ci (c_name c)) (map ci (subset_column :: map c_name (l_cols t))) then None
    else Some {| l_pk := l_pk t; l_cols := l_cols t ++ [c]; l_need := l_need t;
                 l_rows := map (fun r => {| l_sub := l_sub r; l_vals := l_vals r ++ [SNull] |}) (l_rows t) |}.
  Fixpoint adds_old (t : ltab) (cols : list column) : option ltab :=
    match cols with
    | [] => Some t
    | c :: rest => match add_old t c with Some t' => adds_old t' rest | None => None end
    end.
  Definition update_old (t : ltab) (md : list json) (ids : list Z) : ltab * res nat :=
    match md with
    | [] => (t, Ok 0)
    | _ =>
      if negb (length md =? length ids) then (t, Err) else
      let existing := map c_name (l_cols t) in
      if forallb (fun p => mem (fst p) existing) (pairs md)
      then match inserts_old true t (combine md ids) with
           | Some t' => (t', Ok (length md))
           | None => (t, Err)
           end
      else
        match new_names existing (pairs md) with
        | Ok names =>
          match adds_old t (map (typed md) names) with
          | None => (t, Err)
          | Some t1 =>
            match inserts_old false t1 (combine md ids) with
            | Some t2 => (t2, Ok (length md))
            | None => (t, Err)
            end
          end
        | Err => (t, Err)
        | Panic => (t, Panic)
        end
    end.

  (** ** Deleting: filtering.rs 1662-1765 *)
  Definition shift_old (rows : list lrow) (u : Z * Z * Z) : list lrow :=
    let '(from, to, shift) := u in
    map (fun r => if (from <=? l_sub r)%Z && (l_sub r <? to)%Z
                  then {| l_sub := (l_sub r - shift)%Z; l_vals := l_vals r |} else r) rows.
  Definition delete_old (t : ltab) (subset : list Z) : ltab * nat :=
    let original_count := (max_or (map l_sub (l_rows t)) + 1)%Z in
    let kept := filter (fun r => negb (zmem (l_sub r) subset)) (l_rows t) in
    let deleted := length (l_rows t) - length kept in
    let sorted := filter (fun id => (0 <=? id)%Z && (id <? original_count)%Z)
                    (dedup Z.eqb (isort Z.leb subset)) in
    let max_id := max_or (map l_sub kept) in
    let rows :=
      match sorted with
      | first :: rest =>
        if (0 <=? max_id)%Z
        then fold_left shift_old
               (range_updates 1 first rest (max_id + Z.of_nat (length sorted) + 1)%Z) kept
        else kept
      | [] => kept
      end in
    ({| l_pk := l_pk t; l_cols := l_cols t; l_need := l_need t; l_rows := rows |}, deleted).
  (** filtering.rs 832-865: the table rebuilt with [_subset_] as a plain column; copying a row
      stores its values in columns of the same type again, and the new columns have no NOT NULL *)
  Definition migrate (t : ltab) : ltab :=
    {| l_pk := false; l_cols := l_cols t; l_need := [];
       l_rows := map (fun r => {| l_sub := l_sub r; l_vals := map (fun p => e_aff E (c_type (fst p)) (snd p)) (combine (l_cols t) (l_vals r)) |}) (l_rows t) |}.
  (** filtering.rs 790-866 [ensure_fast_subset_schema]: the file after each commit *)
  Definition ensure_v1 (f : disk) : list disk :=
    if (1 <=? d_version f)%Z then []
    else match d_meta f with
         | None => []
         | Some t =>
           if l_pk t then [{| d_version := 1; d_meta := Some (migrate t); d_content := d_content f |}]
           else [{| d_version := 1; d_meta := Some t; d_content := d_content f |}]
         end.

  (** ** Whole operations: the file after each commit, in order, and the answer.  A process
      killed in the middle leaves the file as it was, or one of these. *)
  Definition update_trace (f : disk) (md : list json) (ids : list Z) : list disk * res nat :=
    match md with
    | [] => ([], Ok 0)
    | _ =>
      if negb (length md =? length ids) then ([], Err) else
      match d_meta f with
      | None => ([], Err)
      | Some t =>
        if (2 <=? d_version f)%Z then
          match d_content f with
          | None => ([], Err)
          | Some c => match MetaModel.update E (Db (split_db t c)) md ids with
                      | (Db d', Ok n) => ([stored d'], Ok n)
                      | (_, r) => ([], r)
                      end
          end
        else match update_old t md ids with
             | (t', Ok n) => ([{| d_version := d_version f; d_meta := Some t'; d_content := d_content f |}], Ok n)
             | (_, r) => ([], r)
             end
      end
    end.
  Definition delete_trace (f : disk) (subset : list Z) : list disk * res nat :=
    match subset with
    | [] => ([], Ok 0)
    | _ =>
      match d_meta f with
      | None => ([], Err)
      | Some t =>
        if (2 <=? d_version f)%Z then
          match d_content f with
          | None => ([], Err)
          | Some c => let '(d', n) := delete_v2 (split_db t c) subset in ([stored d'], Ok n)
          end
        else
          let first := ensure_v1 f in
          let f1 := last first f in
          match d_meta f1 with
          | None => (first, Err)
          | Some t1 => let '(t2, n) := delete_old t1 subset in
                       (first ++ [{| d_version := d_version f1; d_meta := Some t2; d_content := d_content f1 |}], Ok n)
          end
      end
    end.
  (** filtering.rs 868-911, 1071-1101, 1141-1308 [create], for metadata that is created in the
      end as [d]: [None] is no file.  The existing file is removed; the new one is empty until
      the first commit.  With a fixed schema the tables and the version come one by one, then the
      rows; otherwise tables and rows in one transaction, and then the version. *)
  Definition empty_disk : disk := {| d_version := 0; d_meta := None; d_content := None |}.
  Definition create_trace (md : list json) (d : db) : list (option disk) :=
    match try_fixed_schema md with
    | Ok (Some _) =>
      [None; Some empty_disk;
       Some {| d_version := 0; d_meta := Some (thin_table (thin_cols d) []); d_content := None |};
       Some {| d_version := 0; d_meta := Some (thin_table (thin_cols d) []); d_content := Some (fat_cols d, []) |};
       Some {| d_version := 2; d_meta := Some (thin_table (thin_cols d) []); d_content := Some (fat_cols d, []) |};
       Some (stored d)]
    | _ =>
      [None; Some empty_disk;
       Some {| d_version := 0; d_meta := Some (thin_table (thin_cols d) (thin_rows d)); d_content := Some (fat_cols d, fat_rows d) |};
       Some (stored d)]
    end.
End LEGACY.
