(** Model of the metadata queries (next-plaid/src/filtering.rs): [where_condition],
    [where_condition_regexp], [get] with a condition, [update_where], and of what SQLite does
    with the condition text: parse it with SQL's precedences, bind the parameters from left
    to right, evaluate it in three-valued logic on every row. *)
From Verif Require Import Base Text SqlModel SqlSpec MetaModel.
Open Scope nat_scope.

(** ** SQLite's reading of a condition (the part of SQL the validator lets through) *)
Fixpoint ast_in_tail (fuel n : nat) (ts : list token) : res (nat * list token) :=
  match fuel with
  | O => Panic
  | S f => if token_eqb (current ts) TComma
           then bind (expect TPlaceholder (advance ts)) (ast_in_tail f (S n))
           else bind (expect TRParen ts) (fun r => Ok (n, r))
  end.
Definition ast_in (neg : bool) (c : text) (ts : list token) : res (cond * list token) :=
  bind (expect TLParen ts) (fun ts => bind (expect TPlaceholder ts) (fun ts =>
  bind (ast_in_tail (S (length ts)) 1 ts) (fun p => Ok (CIn neg c (fst p), snd p)))).
Definition ast_between (neg : bool) (c : text) (ts : list token) : res (cond * list token) :=
  bind (between_tail ts) (fun r => Ok (CBetween neg c, r)).
Definition ast_one (a : cond) (ts : list token) : res (cond * list token) :=
  bind (expect TPlaceholder ts) (fun r => Ok (a, r)).
Definition ast_operator (c : text) (ts : list token) : res (cond * list token) :=
  match current ts with
  | TIs => let ts := advance ts in
           if token_eqb (current ts) TNot
           then bind (expect TNull (advance ts)) (fun r => Ok (CNull true c, r))
           else bind (expect TNull ts) (fun r => Ok (CNull false c, r))
  | TNot => let ts := advance ts in
            match current ts with
            | TBetween => ast_between true c (advance ts)
            | TIn => ast_in true c (advance ts)
            | TLike => ast_one (CLike true c) (advance ts)
            | TRegexp => ast_one (CRegexp true c) (advance ts)
            | _ => Err
            end
  | TBetween => ast_between false c (advance ts)
  | TIn => ast_in false c (advance ts)
  | TLike => ast_one (CLike false c) (advance ts)
  | TRegexp => ast_one (CRegexp false c) (advance ts)
  | TCmp o => ast_one (CCmp c o) (advance ts)
  | _ => Err
  end.
Fixpoint ast_expr (fuel : nat) (ts : list token) : res (cond * list token) :=
  match fuel with O => Panic | S f => bind (ast_and f ts) (fun p => ast_or_loop f (fst p) (snd p)) end
with ast_or_loop (fuel : nat) (a : cond) (ts : list token) : res (cond * list token) :=
  match fuel with
  | O => Panic
  | S f => if token_eqb (current ts) TOr
           then bind (ast_and f (advance ts)) (fun p => ast_or_loop f (COr a (fst p)) (snd p))
           else Ok (a, ts)
  end
with ast_and (fuel : nat) (ts : list token) : res (cond * list token) :=
  match fuel with O => Panic | S f => bind (ast_unary f ts) (fun p => ast_and_loop f (fst p) (snd p)) end
with ast_and_loop (fuel : nat) (a : cond) (ts : list token) : res (cond * list token) :=
  match fuel with
  | O => Panic
  | S f => if token_eqb (current ts) TAnd
           then bind (ast_unary f (advance ts)) (fun p => ast_and_loop f (CAnd a (fst p)) (snd p))
           else Ok (a, ts)
  end
with ast_unary (fuel : nat) (ts : list token) : res (cond * list token) :=
  match fuel with
  | O => Panic
  | S f => if token_eqb (current ts) TNot
           then bind (ast_primary f (advance ts)) (fun p => Ok (CNot (fst p), snd p))
           else ast_primary f ts
  end
with ast_primary (fuel : nat) (ts : list token) : res (cond * list token) :=
  match fuel with
  | O => Panic
  | S f => if token_eqb (current ts) TLParen
           then bind (ast_expr f (advance ts)) (fun p => bind (expect TRParen (snd p)) (fun r => Ok (fst p, r)))
           else match current ts with
                | TIdent name => ast_operator name (advance ts)
                | _ => Err
                end
  end.
Definition ast_of (ts : list token) : res cond :=
  bind (ast_expr (5 * length ts + 5) ts) (fun p => if token_eqb (current (snd p)) TEof then Ok (fst p) else Err).

(** Number of placeholders; columns mentioned. *)
Fixpoint placeholders (a : cond) : nat :=
  match a with
  | COr a b | CAnd a b => placeholders a + placeholders b
  | CNot a => placeholders a
  | CCmp _ _ | CLike _ _ | CRegexp _ _ => 1
  | CNull _ _ => 0
  | CBetween _ _ => 2
  | CIn _ _ n => n
  end.
Fixpoint mentioned (a : cond) : list text :=
  match a with
  | COr a b | CAnd a b => mentioned a ++ mentioned b
  | CNot a => mentioned a
  | CCmp c _ | CLike _ c | CRegexp _ c | CNull _ c | CBetween _ c | CIn _ c _ => [c]
  end.
Fixpoint has_regexp (a : cond) : bool :=
  match a with
  | COr a b | CAnd a b => has_regexp a || has_regexp b
  | CNot a => has_regexp a
  | CRegexp _ _ => true
  | _ => false
  end.
(** Three-valued logic; [None] is NULL. *)
Definition and3 (x y : option bool) : option bool :=
  match x, y with
  | Some false, _ | _, Some false => Some false
  | Some true, Some true => Some true
  | _, _ => None
  end.
Definition or3 (x y : option bool) : option bool :=
  match x, y with
  | Some true, _ | _, Some true => Some true
  | Some false, Some false => Some false
  | _, _ => None
  end.
Definition not3 (x : option bool) : option bool := option_map negb x.
Definition neg3 (n : bool) (x : option bool) : option bool := if n then not3 x else x.

Section QUERY.
  Variable U : unicode.
  Variable E : engine.

  (** Evaluation of a condition on a row: [val] gives the type and value of a column, [reg] is
      the registered REGEXP function, which ignores its pattern argument (filtering.rs
      2024-2035) and fails on a value that is not text.  SQLite may skip an operand of AND or
      OR; here both are evaluated, so a failing REGEXP always fails the query. *)
  Fixpoint eval (reg : option (text -> bool)) (val : text -> ctype * sqlv) (ps : list sqlv) (a : cond)
    : res (option bool) :=
    match a with
    | COr a b => bind (eval reg val (firstn (placeholders a) ps) a) (fun x =>
                 bind (eval reg val (skipn (placeholders a) ps) b) (fun y => Ok (or3 x y)))
    | CAnd a b => bind (eval reg val (firstn (placeholders a) ps) a) (fun x =>
                  bind (eval reg val (skipn (placeholders a) ps) b) (fun y => Ok (and3 x y)))
    | CNot a => bind (eval reg val ps a) (fun x => Ok (not3 x))
    | CCmp c o => Ok (e_cmp E o (fst (val c)) (snd (val c)) (nth 0 ps SNull))
    | CLike n c => Ok (neg3 n (e_like E (snd (val c)) (nth 0 ps SNull)))
    | CRegexp n c =>
      match reg, snd (val c), nth 0 ps SNull with
      | Some re, SText s, SText _ => Ok (neg3 n (Some (re s)))
      | _, _, _ => Err
      end
    | CNull n c => Ok (neg3 n (Some (match snd (val c) with SNull => true | _ => false end)))
    | CBetween n c => Ok (neg3 n (and3 (e_cmp E OGe (fst (val c)) (snd (val c)) (nth 0 ps SNull))
                                       (e_cmp E OLe (fst (val c)) (snd (val c)) (nth 1 ps SNull))))
    | CIn n c k => Ok (neg3 n (fold_right or3 (Some false)
                     (map (e_cmp E OEq (fst (val c)) (snd (val c))) (firstn k ps))))
    end.

  (** Columns a query sees: METADATA's, and for the JOIN also METADATA_CONTENT's. *)
  Definition visible (d : db) (join : bool) (r : thin_row * fat_row) : list (text * (ctype * sqlv)) :=
    (subset_column, (CInt, SInt (t_sub (fst r)))) :: (content_column, (CInt, SInt (t_cid (fst r))))
      :: combine (map c_name (thin_cols d)) (combine (map c_type (thin_cols d)) (t_vals (fst r)))
      ++ (if join then (content_column, (CInt, SInt (f_cid (snd r))))
            :: combine (map c_name (fat_cols d)) (combine (map c_type (fat_cols d)) (f_vals (snd r)))
          else []).
  Definition visible_names (d : db) (join : bool) : list text :=
    subset_column :: content_column :: map c_name (thin_cols d)
      ++ (if join then content_column :: map c_name (fat_cols d) else []).
  (** Resolution ignores the case of ASCII letters; a name with no or two matches is an error
      when the statement is prepared.  (SQLite takes an unmatched quoted name for a string;
      the validator lets one through only outside ASCII; not modelled.) *)
  Definition resolves (names : list text) (c : text) : bool :=
    length (filter (fun k => text_eqb (ci k) (ci c)) names) =? 1.
  Definition value_of (vis : list (text * (ctype * sqlv))) (c : text) : ctype * sqlv :=
    match find (fun p => text_eqb (ci (fst p)) (ci c)) vis with Some p => snd p | None => (CText, SNull) end.

  (** filtering.rs 537-561 [get_schema_columns] *)
  Definition schema_columns (d : db) : list text :=
    subset_column :: map c_name (thin_cols d) ++ map c_name (fat_cols d).
  (** filtering.rs 1929-1945 [condition_references_fat_column] *)
  Definition references_fat (d : db) (condition : text) : bool :=
    existsb (fun c => contains (u_upper U (c_name c)) (u_upper U condition)) (fat_cols d).

  Fixpoint filterM {A} (f : A -> res bool) (l : list A) : res (list A) :=
    match l with
    | [] => Ok []
    | x :: xs => bind (f x) (fun b => bind (filterM f xs) (fun ys => Ok (if b then x :: ys else ys)))
    end.
  (** Run "... WHERE condition" on the rows [rows]: rows where the condition is true. *)
  Definition run_where (reg : option (text -> bool)) (d : db) (join : bool) (condition : text) (ps : list sqlv)
      (rows : list (thin_row * fat_row)) : res (list (thin_row * fat_row)) :=
    if is_numeric_equality U condition
    then match ps with [] => Ok (if e_num E condition then rows else []) | _ => Err end
    else
      bind (bind (tokenize U condition) ast_of) (fun a =>
      if forallb (resolves (visible_names d join)) (mentioned a)
         && (length ps =? placeholders a)
         && (negb (has_regexp a) || match reg with Some _ => true | None => false end)
      then filterM (fun r => bind (eval reg (value_of (visible d join r)) ps a)
                                  (fun b => Ok (match b with Some true => true | _ => false end))) rows
      else Err).
  Definition thin_only (d : db) : list (thin_row * fat_row) :=
    map (fun t => (t, {| f_cid := t_cid t; f_vals := [] |})) (thin_rows d).
  (** filtering.rs 1891-1925: the ids selected by a validated condition *)
  Definition select_ids (reg : option (text -> bool)) (d : db) (condition : text) (ps : list sqlv) : res (list Z) :=
    let join := references_fat d condition in
    bind (run_where reg d join condition ps (if join then joined d else thin_only d)) (fun rows =>
    Ok (map (fun r => t_sub (fst r)) (e_scan E rows))).

  (** filtering.rs 1880-1926 [where_condition]; [reg]: what an earlier query registered on the
      cached read connection *)
  Definition where_condition (reg : option (text -> bool)) (s : store) (condition : text) (params : list json)
    : res (list Z) :=
    match s with
    | NoDb | Broken => Err
    | Db d => bind (validate_condition U (schema_columns d) condition) (fun _ =>
              select_ids reg d condition (map (json_to_sql E) params))
    end.
  (** filtering.rs 1969-2059 [where_condition_regexp]: also returns the function registered on
      the cached connection afterwards *)
  Definition where_condition_regexp (reg : option (text -> bool)) (s : store) (condition : text) (params : list json)
    : option (text -> bool) * res (list Z) :=
    match s with
    | NoDb => (reg, Err)
    | _ =>
      match params with
      | JStr pattern :: _ =>
        match e_regex E pattern with
        | None => (reg, Err)
        | Some re =>
          match s with
          | Db d =>
            match validate_condition U (schema_columns d) condition with
            | Ok _ => (Some re, select_ids (Some re) d condition (map (json_to_sql E) params))
            | Err => (reg, Err)
            | Panic => (reg, Panic)
            end
          | _ => (reg, Err)
          end
        end
      | _ => (reg, Err)
      end
    end.
  (** filtering.rs 2143-2250 [get], 2333-2359 [get_v2] *)
  Definition get (reg : option (text -> bool)) (s : store) (condition : option text) (params : list json)
      (subset : option (list Z)) : res (list json) :=
    match condition, subset with
    | Some _, Some _ => Err
    | None, _ => get_rows E s subset
    | Some c, None =>
      match s with
      | NoDb => Ok []
      | Broken => Err
      | Db d => bind (validate_condition U (schema_columns d) c) (fun _ =>
                bind (run_where reg d true c (map (json_to_sql E) params) (joined d)) (fun rows =>
                Ok (map (row_object E d) (isort by_subset (e_scan E rows)))))
      end
    end.

  (** SET "col" = value for each update in turn; the column is found ignoring case *)
  Definition set_one (cols : list column) (vals : list sqlv) (u : text * json) : list sqlv :=
    map (fun cv => if text_eqb (ci (c_name (fst cv))) (ci (fst u))
                   then e_aff E (c_type (fst cv)) (json_to_sql E (snd u)) else snd cv) (combine cols vals).
  Definition set_vals (cols : list column) (vals : list sqlv) (us : list (text * json)) : list sqlv :=
    fold_left (set_one cols) us vals.
  (** all the columns of the SET clause exist in the table *)
  Definition settable (cols : list column) (us : list (text * json)) : bool :=
    forallb (fun u => mem (ci (fst u)) (map (fun c => ci (c_name c)) cols)) us.
  Definition update_thin (d : db) (us : list (text * json)) (chunk : list Z) : db :=
    {| thin_cols := thin_cols d; fat_cols := fat_cols d; fat_rows := fat_rows d;
       thin_rows := map (fun r => if zmem (t_sub r) chunk
                                  then {| t_sub := t_sub r; t_cid := t_cid r; t_vals := set_vals (thin_cols d) (t_vals r) us |}
                                  else r) (thin_rows d) |}.
  Definition update_fat (d : db) (us : list (text * json)) (chunk : list Z) : db :=
    let cids := map t_cid (filter (fun r => zmem (t_sub r) chunk) (thin_rows d)) in
    {| thin_cols := thin_cols d; fat_cols := fat_cols d; thin_rows := thin_rows d;
       fat_rows := map (fun r => if zmem (f_cid r) cids
                                 then {| f_cid := f_cid r; f_vals := set_vals (fat_cols d) (f_vals r) us |}
                                 else r) (fat_rows d) |}.
  (** filtering.rs 2572-2676 [update_where_v2], in one transaction; the synchronisation of the
      full-text index that follows the commit is not modelled here *)
  Definition update_where_v2 (d : db) (us : list (text * json)) (ids : list Z) : res db :=
    let thin := filter (fun u => is_thin_column (fst u)) us in
    let fat := filter (fun u => negb (is_thin_column (fst u))) us in
    if settable (thin_cols d) thin && settable (fat_cols d) fat
    then let d1 := match thin with
                   | [] => d
                   | _ => fold_left (fun d ch => update_thin d thin ch) (chunks param_limit ids) d
                   end in
         Ok (match fat with
             | [] => d1
             | _ => fold_left (fun d ch => update_fat d fat ch) (chunks param_limit ids) d1
             end)
    else Err.
  (** filtering.rs 2489-2512: checks on one key of the updates *)
  Definition updatable (cols : list text) (k : text) : bool :=
    negb (text_eqb k subset_column) && is_valid_column_name k
    && existsb (fun c => text_eqb (u_lower U c) (u_lower U k)) cols.
  (** filtering.rs 2457-2569 [update_where]; it runs on a fresh connection, where REGEXP is not
      registered *)
  Definition update_where (s : store) (condition : text) (params : list json) (updates : json) : store * res nat :=
    match s with
    | NoDb => (s, Err)
    | _ =>
      match updates with
      | JObj [] => (s, Ok 0)
      | JObj us =>
        match s with
        | Db d =>
          match bind (validate_condition U (schema_columns d) condition) (fun _ =>
                if forallb (fun u => updatable (schema_columns d) (fst u)) us
                then select_ids None d condition (map (json_to_sql E) params) else Err) with
          | Ok [] => (s, Ok 0)
          | Ok ids => match update_where_v2 d us ids with
                      | Ok d' => (Db d', Ok (length ids))
                      | Err => (s, Err)
                      | Panic => (s, Panic)
                      end
          | Err => (s, Err)
          | Panic => (s, Panic)
          end
        | _ => (s, Err)
        end
      | _ => (s, Err)
      end
    end.

  (** METADATA_CONTENT scanned on its own *)
  Definition content_only (d : db) : list (thin_row * fat_row) :=
    map (fun f => ({| t_sub := 0; t_cid := f_cid f; t_vals := [] |}, f)) (fat_rows d).
  Definition content_cells (d : db) (r : thin_row * fat_row) : list (text * (ctype * sqlv)) :=
    (content_column, (CInt, SInt (f_cid (snd r))))
      :: combine (map c_name (fat_cols d)) (combine (map c_type (fat_cols d)) (f_vals (snd r))).
  (** filtering.rs 2079-2120 [get_distinct_strings]; a value that is not text is an error *)
  Definition get_distinct_strings (s : store) (column : text) : res (list text) :=
    match s with
    | NoDb => Ok []
    | _ =>
      if negb (is_valid_column_name column) then Err
      else
      match s with
      | Db d =>
        if negb (mem column (schema_columns d)) then Ok []
        else
          let vals := filter (fun v => match v with SNull => false | _ => true end)
                        (if is_thin_column column
                         then map (fun r => snd (value_of (visible d false r) column)) (e_scan E (thin_only d))
                         else map (fun r => snd (value_of (content_cells d r) column)) (e_scan E (content_only d))) in
          bind (mapM (fun v => match v with SText t => Ok t | _ => Err end) vals) (fun l =>
          Ok (nodup text_dec l))
      | _ => Err
      end
    end.
End QUERY.
