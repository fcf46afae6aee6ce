(** Model of the metadata store (next-plaid/src/filtering.rs): creation, update, delete,
    reading back, over the split ("v2") layout every database created by this code has.
    SQLite itself is a parameter ([engine]): how it coerces a value stored in a column
    (type affinity), compares values, and in which order it scans rows. *)
From Verif Require Import Base Text SqlModel Base64.
Open Scope nat_scope.

(** serde_json::Value.  An integer is any i64 or u64; a float is given by its bits; an
    object is the list of its (distinct) keys in iteration order. *)
Inductive json :=
| JNull | JBool (b : bool) | JInt (z : Z) | JFloat (bits : Z) | JStr (s : text)
| JArr (l : list json) | JObj (o : list (text * json)).
(** Values SQLite stores, and the declared column types the code uses. *)
Inductive sqlv := SNull | SInt (z : Z) | SReal (bits : Z) | SText (s : text) | SBlob (b : list Z).
Inductive ctype := CInt | CReal | CText | CBlob.
Record column := { c_name : text; c_type : ctype }.
(** A METADATA row ([_subset_], [_content_id_], other columns) and a METADATA_CONTENT row. *)
Record thin_row := { t_sub : Z; t_cid : Z; t_vals : list sqlv }.
Record fat_row := { f_cid : Z; f_vals : list sqlv }.
Record db := { thin_cols : list column; fat_cols : list column;
               thin_rows : list thin_row; fat_rows : list fat_row }.
(** The metadata.db file: absent; left behind by a creation that failed (its schema is
    incomplete: modelled as a store every later operation rejects); or a database. *)
Inductive store := NoDb | Broken | Db (d : db).

(** What the model takes from SQLite, serde_json and the regex engine. *)
Record engine := {
  e_aff : ctype -> sqlv -> sqlv;                       (* column type affinity on storage *)
  e_f64 : Z -> Z;                                      (* integer to f64 (bits) *)
  e_finite : Z -> bool;                                (* the f64 is finite *)
  e_json : json -> text;                               (* serde_json::to_string *)
  e_unjson : list Z -> option json;                    (* serde_json::from_slice *)
  e_scan : list (thin_row * fat_row) -> list (thin_row * fat_row); (* row order of a query *)
  e_cmp : cmp_op -> ctype -> sqlv -> sqlv -> option bool;          (* column OP value; None = NULL *)
  e_like : sqlv -> sqlv -> option bool;
  e_num : text -> bool;                                (* "1=1": number = number *)
  e_regex : text -> option (text -> bool) }.           (* compile a pattern *)

Definition subset_column : text := txt "_subset_".
Definition content_column : text := txt "_content_id_".
(** filtering.rs 78-90 [THIN_COLUMNS] *)
Definition thin_names : list text :=
  map txt ["file"; "name"; "qualified_name"; "line"; "end_line"; "language"; "unit_type";
           "complexity"; "has_loops"; "has_branches"; "has_error_handling"]%string.
Definition mem (k : text) (l : list text) : bool := existsb (text_eqb k) l.
(** filtering.rs 758-760 [is_thin_column] *)
Definition is_thin_column (c : text) : bool :=
  text_eqb c subset_column || text_eqb c content_column || mem c thin_names.

(** SQLite compares column names ignoring the case of ASCII letters. *)
Definition ci (s : text) : text := map to_lower1 s.
Fixpoint ci_distinct (l : list text) : bool :=
  match l with [] => true | c :: r => negb (mem (ci c) (map ci r)) && ci_distinct r end.

Section STORE.
  Variable E : engine.

  (** filtering.rs 617-630 [infer_sql_type] *)
  Definition infer_sql_type (v : json) : ctype :=
    match v with
    | JInt _ | JBool _ => CInt
    | JFloat _ => CReal
    | JStr _ | JNull => CText
    | JArr _ | JObj _ => CBlob
    end.
  Definition is_i64 (z : Z) : bool := (- 2 ^ 63 <=? z)%Z && (z <? 2 ^ 63)%Z.
  (** filtering.rs 633-649 [json_to_sql] *)
  Definition json_to_sql (v : json) : sqlv :=
    match v with
    | JNull => SNull
    | JBool b => SInt (if b then 1 else 0)
    | JInt z => if is_i64 z then SInt z else SReal (e_f64 E z)
    | JFloat f => SReal f
    | JStr s => SText s
    | JArr _ | JObj _ => SText (e_json E v)
    end.
  (** [obj.get(k).unwrap_or(&Null)]; a row that is not an object gives NULL everywhere *)
  Definition item_get (v : json) (k : text) : json :=
    match v with
    | JObj o => match find (fun p => text_eqb (fst p) k) o with Some p => snd p | None => JNull end
    | _ => JNull
    end.
  Definition is_object (v : json) : bool := match v with JObj _ => true | _ => false end.
  Definition is_null (v : json) : bool := match v with JNull => true | _ => false end.
  Definition pairs (md : list json) : list (text * json) :=
    flat_map (fun v => match v with JObj o => o | _ => [] end) md.
  (** the value stored for one column *)
  Definition cell (v : json) (c : column) : sqlv := e_aff E (c_type c) (json_to_sql (item_get v (c_name c))).

  (** CREATE TABLE METADATA (...), CREATE TABLE METADATA_CONTENT (...): filtering.rs 868-903
      and 1202-1239.  SQLite rejects a repeated column name. *)
  Definition create_tables (cols : list column) : option db :=
    let thin := filter (fun c => is_thin_column (c_name c)) cols in
    let fat := filter (fun c => negb (is_thin_column (c_name c))) cols in
    if ci_distinct (subset_column :: content_column :: map c_name thin)
       && ci_distinct (content_column :: map c_name fat)
    then Some {| thin_cols := thin; fat_cols := fat; thin_rows := []; fat_rows := [] |}
    else None.
  (** The two INSERTs of one row; [_content_id_] is METADATA_CONTENT's primary key. *)
  Definition insert_row (d : db) (v : json) (sub cid : Z) : option db :=
    if existsb (fun r => (f_cid r =? cid)%Z) (fat_rows d) then None
    else Some {| thin_cols := thin_cols d; fat_cols := fat_cols d;
                 thin_rows := thin_rows d ++ [{| t_sub := sub; t_cid := cid; t_vals := map (cell v) (thin_cols d) |}];
                 fat_rows := fat_rows d ++ [{| f_cid := cid; f_vals := map (cell v) (fat_cols d) |}] |}.
  (** the insert loops; [strict]: a row that is not an object is an error *)
  Fixpoint insert_rows (strict : bool) (d : db) (rows : list (json * Z * Z)) : option db :=
    match rows with
    | [] => Some d
    | (v, sub, cid) :: rest =>
      if strict && negb (is_object v) then None else
      match insert_row d v sub cid with
      | Some d' => insert_rows strict d' rest
      | None => None
      end
    end.
  (** SELECT COALESCE(MAX(c), -1) *)
  Definition max_or (l : list Z) : Z := fold_right Z.max (-1)%Z l.
  Definition next_content_id (d : db) : Z := (max_or (map f_cid (fat_rows d)) + 1)%Z.
  Definition zseq (start : Z) (n : nat) : list Z := map (fun i => (start + Z.of_nat i)%Z) (seq 0 n).
  Definition with_ids (md : list json) (ids cids : list Z) : list (json * Z * Z) := combine (combine md ids) cids.

  (** filtering.rs 1033-1064 [try_fixed_schema_from_first_row] *)
  Definition try_fixed_schema (md : list json) : res (option (list column)) :=
    match md with
    | JObj o :: rest =>
      if forallb (fun p => is_valid_column_name (fst p)) o
      then if forallb (fun p => mem (fst p) (map fst o)) (pairs rest)
           then Ok (Some (map (fun p => {| c_name := fst p; c_type := infer_sql_type (snd p) |}) o))
           else Ok None
      else Err
    | _ => Ok None
    end.
  (** filtering.rs 1177-1196 and 1497-1527: the keys not yet known, in order of appearance *)
  Fixpoint new_names (known : list text) (ps : list (text * json)) : res (list text) :=
    match ps with
    | [] => Ok []
    | (k, _) :: rest =>
      if mem k known then new_names known rest
      else if is_valid_column_name k then bind (new_names (k :: known) rest) (fun l => Ok (k :: l))
      else Err
    end.
  (** [column_types]: the type of the first non-null value, TEXT when there is none.  The map
      is filled in the same loop in the code and read afterwards. *)
  Definition column_type (md : list json) (k : text) : ctype :=
    match find (fun p => text_eqb (fst p) k && negb (is_null (snd p))) (pairs md) with
    | Some p => infer_sql_type (snd p)
    | None => CText
    end.
  Definition typed (md : list json) (k : text) : column := {| c_name := k; c_type := column_type md k |}.

  (** filtering.rs 1141-1308 [create], 1071-1101 [create_with_fixed_columns].  Any existing
      database is removed first.  The fixed path creates the tables outside the insert
      transaction; the generic path does both in one transaction. *)
  Definition create (s : store) (md : list json) (ids : list Z) : store * res nat :=
    if negb (length md =? length ids) then (s, Err) else
    match md with
    | [] => (NoDb, Ok 0)
    | _ =>
      match try_fixed_schema md with
      | Ok (Some cols) =>
        match create_tables cols with
        | None => (Broken, Err)
        | Some d =>
          match insert_rows true d (with_ids md ids (zseq (next_content_id d) (length md))) with
          | Some d' => (Db d', Ok (length md))
          | None => (Db d, Err)
          end
        end
      | Ok None =>
        match new_names [] (pairs md) with
        | Ok names =>
          match create_tables (map (typed md) names) with
          | None => (Broken, Err)
          | Some d =>
            match insert_rows false d (with_ids md ids ids) with
            | Some d' => (Db d', Ok (length md))
            | None => (Broken, Err)
            end
          end
        | Err => (NoDb, Err)
        | Panic => (NoDb, Panic)
        end
      | Err => (NoDb, Err)
      | Panic => (NoDb, Panic)
      end
    end.

  (** ALTER TABLE ... ADD COLUMN: existing rows get NULL; a repeated name is rejected *)
  Definition add_thin_column (d : db) (c : column) : option db :=
    if mem (ci (c_name c)) (map ci (subset_column :: content_column :: map c_name (thin_cols d))) then None
    else Some {| thin_cols := thin_cols d ++ [c]; fat_cols := fat_cols d;
                 thin_rows := map (fun r => {| t_sub := t_sub r; t_cid := t_cid r; t_vals := t_vals r ++ [SNull] |})
                                  (thin_rows d);
                 fat_rows := fat_rows d |}.
  Definition add_fat_column (d : db) (c : column) : option db :=
    if mem (ci (c_name c)) (map ci (content_column :: map c_name (fat_cols d))) then None
    else Some {| thin_cols := thin_cols d; fat_cols := fat_cols d ++ [c];
                 thin_rows := thin_rows d;
                 fat_rows := map (fun r => {| f_cid := f_cid r; f_vals := f_vals r ++ [SNull] |}) (fat_rows d) |}.
  Fixpoint add_columns (add : db -> column -> option db) (d : db) (cols : list column) : option db :=
    match cols with
    | [] => Some d
    | c :: rest => match add d c with Some d' => add_columns add d' rest | None => None end
    end.
  (** filtering.rs 1332-1357 [update], 1465-1627 [update_v2]: one transaction *)
  Definition update (s : store) (md : list json) (ids : list Z) : store * res nat :=
    match md with
    | [] => (s, Ok 0)
    | _ =>
      if negb (length md =? length ids) then (s, Err) else
      match s with
      | Db d =>
        match new_names (map c_name (thin_cols d) ++ map c_name (fat_cols d)) (pairs md) with
        | Ok names =>
          let thin := filter is_thin_column names in
          let fat := filter (fun c => negb (is_thin_column c)) names in
          match add_columns add_thin_column d (map (typed md) thin) with
          | None => (s, Err)
          | Some d1 =>
            match add_columns add_fat_column d1 (map (typed md) fat) with
            | None => (s, Err)
            | Some d2 =>
              match insert_rows false d2 (with_ids md ids (zseq (next_content_id d2) (length md))) with
              | Some d3 => (Db d3, Ok (length md))
              | None => (s, Err)
              end
            end
          end
        | Err => (s, Err)
        | Panic => (s, Panic)
        end
      | _ => (s, Err)
      end
    end.

  (** filtering.rs 1823-1843: the UPDATE statements of the re-sequencing.  [prev] is the last
      id of the first [k] ids, [rest] the others; a run of consecutive ids emits nothing.  The
      code's nested loops build the same list. *)
  Fixpoint range_updates (k : nat) (prev : Z) (rest : list Z) (fin : Z) : list (Z * Z * Z) :=
    match rest with
    | [] => if (prev + 1 <? fin)%Z then [((prev + 1)%Z, fin, Z.of_nat k)] else []
    | next :: more =>
      if (next =? prev + 1)%Z then range_updates (S k) next more fin
      else (if (prev + 1 <? next)%Z then [((prev + 1)%Z, next, Z.of_nat k)] else [])
             ++ range_updates (S k) next more fin
    end.
  (** filtering.rs 1845-1853: UPDATE METADATA SET _subset_ = _subset_ - shift WHERE from <= _subset_ < to *)
  Definition shift_rows (rows : list thin_row) (u : Z * Z * Z) : list thin_row :=
    let '(from, to, shift) := u in
    map (fun r => if (from <=? t_sub r)%Z && (t_sub r <? to)%Z
                  then {| t_sub := (t_sub r - shift)%Z; t_cid := t_cid r; t_vals := t_vals r |} else r) rows.
  Definition zmem (z : Z) (l : list Z) : bool := existsb (Z.eqb z) l.
  (** filtering.rs 1767-1854 [delete_v2] *)
  Definition delete_v2 (d : db) (subset : list Z) : db * nat :=
    let original_count := (max_or (map t_sub (thin_rows d)) + 1)%Z in
    let kept := filter (fun r => negb (zmem (t_sub r) subset)) (thin_rows d) in
    let deleted := length (thin_rows d) - length kept in
    let fat := filter (fun r => zmem (f_cid r) (map t_cid kept)) (fat_rows d) in
    let sorted := filter (fun id => (0 <=? id)%Z && (id <? original_count)%Z)
                    (dedup Z.eqb (isort Z.leb subset)) in
    let max_id := max_or (map t_sub kept) in
    let rows :=
      match sorted with
      | first :: rest =>
        if (0 <=? max_id)%Z
        then fold_left shift_rows
               (range_updates 1 first rest (max_id + Z.of_nat (length sorted) + 1)%Z) kept
        else kept
      | [] => kept
      end in
    ({| thin_cols := thin_cols d; fat_cols := fat_cols d; thin_rows := rows; fat_rows := fat |}, deleted).
  (** filtering.rs 1646-1660 [delete] *)
  Definition delete (s : store) (subset : list Z) : store * res nat :=
    match subset with
    | [] => (s, Ok 0)
    | _ => match s with
           | NoDb => (s, Ok 0)
           | Broken => (s, Err)
           | Db d => let '(d', n) := delete_v2 d subset in (Db d', Ok n)
           end
    end.

  (** filtering.rs 2374-2397 [row_to_json_value] *)
  Definition row_to_json_value (v : sqlv) : json :=
    match v with
    | SInt i => JInt i
    | SReal f => if e_finite E f then JFloat f else JNull
    | SText s => JStr s
    | SBlob b => match e_unjson E b with Some j => j | None => JStr (base64_encode b) end
    | SNull => JNull
    end.
  (** METADATA M JOIN METADATA_CONTENT C ON M._content_id_ = C._content_id_ *)
  Definition joined (d : db) : list (thin_row * fat_row) :=
    flat_map (fun t => map (pair t) (filter (fun f => (f_cid f =? t_cid t)%Z) (fat_rows d))) (thin_rows d).
  Definition query (d : db) (p : thin_row * fat_row -> bool) : list (thin_row * fat_row) :=
    e_scan E (filter p (joined d)).
  (** filtering.rs 2315-2321, 2351-2357: the object built from one result row *)
  Definition row_object (d : db) (r : thin_row * fat_row) : json :=
    let '(t, f) := r in
    JObj ((subset_column, JInt (t_sub t))
            :: combine (map c_name (thin_cols d)) (map row_to_json_value (t_vals t))
            ++ combine (map c_name (fat_cols d)) (map row_to_json_value (f_vals f))).
  (** filtering.rs 2325-2331: the results by id (a later row replaces an earlier one), then
      each requested id taken out of the map once *)
  Definition map_insert (m : list (Z * json)) (r : Z * json) : list (Z * json) :=
    r :: filter (fun p => negb (fst p =? fst r)%Z) m.
  Fixpoint pick (m : list (Z * json)) (ids : list Z) : list json :=
    match ids with
    | [] => []
    | id :: rest =>
      match find (fun p => (fst p =? id)%Z) m with
      | Some p => snd p :: pick (filter (fun p => negb (fst p =? id)%Z) m) rest
      | None => pick m rest
      end
    end.
  Definition param_limit : nat := 900.
  (** filtering.rs 2252-2331 [get_v2] with a list of ids *)
  Definition get_ids_v2 (d : db) (ids : list Z) : list json :=
    let results := flat_map (fun chunk => map (fun r => (t_sub (fst r), row_object d r))
                                            (query d (fun r => zmem (t_sub (fst r)) chunk)))
                            (chunks param_limit ids) in
    pick (fold_left map_insert results []) ids.
  (** ORDER BY _subset_ *)
  Definition by_subset (a b : thin_row * fat_row) : bool := (t_sub (fst a) <=? t_sub (fst b))%Z.
  Definition get_all_v2 (d : db) : list json :=
    map (row_object d) (isort by_subset (query d (fun _ => true))).
  (** filtering.rs 2143-2165 [get] without a condition *)
  Definition get_rows (s : store) (subset : option (list Z)) : res (list json) :=
    match s with
    | NoDb => Ok []
    | Broken => Err
    | Db d => Ok (match subset with Some ids => get_ids_v2 d ids | None => get_all_v2 d end)
    end.
  (** filtering.rs 2679-2689 [count] *)
  Definition count (s : store) : res nat :=
    match s with NoDb => Ok 0 | Broken => Err | Db d => Ok (length (thin_rows d)) end.
End STORE.
