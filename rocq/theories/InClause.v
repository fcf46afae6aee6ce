(** The list of documents a statement is about: as parameters, or in a table of its own. *)
From Verif Require Import Base Text Calendar.
From Coq Require Import String.
Open Scope string_scope.
Open Scope Z_scope.
Open Scope list_scope.

(** The temporary tables of one connection: names, and the keys in each *)
Definition temps := list (text * list Z).
Fixpoint table (name : text) (d : temps) : option (list Z) :=
  match d with [] => None | (n, ids) :: r => if text_eqb name n then Some ids else table name r end.
(** CREATE TEMP TABLE: an error if there is one of that name *)
Definition create (name : text) (d : temps) : option temps :=
  match table name d with Some _ => None | None => Some ((name, []) :: d) end.
(** INSERT OR IGNORE of one key (id INTEGER PRIMARY KEY) *)
Fixpoint insert (name : text) (id : Z) (d : temps) : temps :=
  match d with
  | [] => []
  | (n, ids) :: r => if text_eqb name n then (n, if existsb (Z.eqb id) ids then ids else ids ++ [id]) :: r else (n, ids) :: insert name id r
  end.
(** DROP TABLE IF EXISTS; next-plaid/src/text_search.rs 1142-1144 [drop_temp_table] *)
Fixpoint drop (name : text) (d : temps) : temps :=
  match d with [] => [] | (n, ids) :: r => if text_eqb name n then r else (n, ids) :: drop name r end.

(** next-plaid/src/text_search.rs 1080-1089 [make_temp_table_name]: the name, and the counter after it (AtomicU64 wraps around) *)
Definition make_temp_table_name (prefix : text) (pid counter : Z) : text * Z :=
  (txt "_tmp_" ++ prefix ++ txt "_" ++ digits pid ++ txt "_" ++ digits counter, (counter + 1) mod 2 ^ 64).

(** next-plaid/src/text_search.rs 1092 *)
Definition SQLITE_PARAM_LIMIT : nat := 900.

(** IN with that many question marks, or IN (SELECT id FROM the table) *)
Inductive clause := Marks (n : nat) | FromTable (name : text).

(** next-plaid/src/text_search.rs 1104-1139 [build_in_clause]: the clause, its parameters, the table to drop, the tables and the counter afterwards; [None] an error. Simplified: of the errors of SQLite only the clash of names is modelled. *)
Definition build_in_clause (pid counter : Z) (d : temps) (ids : list Z) : option (clause * list Z * option text * temps * Z) :=
  if (List.length ids <=? SQLITE_PARAM_LIMIT)%nat then Some (Marks (List.length ids), ids, None, d, counter)
  else
    let '(name, counter') := make_temp_table_name (txt "in") pid counter in
    match create name d with
    | None => None
    | Some d1 => Some (FromTable name, [], Some name, fold_left (fun t id => insert name id t) ids d1, counter')
    end.

(** What SQLite makes of [x IN ...]: an error if the parameters are not as many as the marks, or there is no such table *)
Definition holds (d : temps) (c : clause) (params : list Z) (x : Z) : option bool :=
  match c with
  | Marks n => if (n =? List.length params)%nat then Some (existsb (Z.eqb x) params) else None
  | FromTable name => match params, table name d with [], Some ids => Some (existsb (Z.eqb x) ids) | _, _ => None end
  end.
