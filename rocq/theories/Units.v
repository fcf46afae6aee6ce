(** Code units in the metadata of colgrep's index: what is written for a unit and how a row is
    turned into a unit again. *)
From Verif Require Import Base Text SqlModel MetaModel.
Open Scope nat_scope.

(** colgrep/src/parser/types.rs 103-115 [UnitType], 5-50 [Language]: their names in JSON
    ([rename_all = "lowercase"]).  A path is its text; a path that is not UTF-8 is left out (writing
    it would panic). *)
Definition unit_types : list text := map txt ["function"; "method"; "class"; "constant"; "document"; "section"; "rawcode"]%string.
Definition languages : list text := map txt
  ["python"; "typescript"; "javascript"; "go"; "rust"; "java"; "c"; "cpp"; "ruby"; "csharp"; "kotlin"; "swift"; "scala"; "php"; "lua"; "elixir";
   "haskell"; "ocaml"; "r"; "zig"; "julia"; "sql"; "vue"; "svelte"; "qml"; "css"; "html"; "markdown"; "text"; "yaml"; "toml"; "json"; "dockerfile";
   "makefile"; "shell"; "powershell"; "asciidoc"; "org"]%string.
(** types.rs 117-153 [CodeUnit] *)
Record code_unit := {
  cu_name : text; cu_qualified_name : text; cu_file : text; cu_line : nat; cu_end_line : nat; cu_language : text; cu_unit_type : text;
  cu_signature : text; cu_docstring : option text; cu_parameters : list text; cu_return_type : option text; cu_extends : option text; cu_parent_class : option text;
  cu_calls : list text; cu_called_by : list text;
  cu_complexity : nat; cu_has_loops : bool; cu_has_branches : bool; cu_has_error_handling : bool;
  cu_variables : list text; cu_imports : list text; cu_code : text }.

(** [serde_json::to_value] *)
Definition j_nat (n : nat) : json := JInt (Z.of_nat n).
Definition j_opt (o : option text) : json := match o with Some t => JStr t | None => JNull end.
Definition j_list (l : list text) : json := JArr (map JStr l).
Definition unit_fields (u : code_unit) : list (text * json) :=
  [(txt "name", JStr (cu_name u)); (txt "qualified_name", JStr (cu_qualified_name u)); (txt "file", JStr (cu_file u));
   (txt "line", j_nat (cu_line u)); (txt "end_line", j_nat (cu_end_line u));
   (txt "language", JStr (cu_language u)); (txt "unit_type", JStr (cu_unit_type u));
   (txt "signature", JStr (cu_signature u)); (txt "docstring", j_opt (cu_docstring u)); (txt "parameters", j_list (cu_parameters u));
   (txt "return_type", j_opt (cu_return_type u)); (txt "extends", j_opt (cu_extends u)); (txt "parent_class", j_opt (cu_parent_class u));
   (txt "calls", j_list (cu_calls u)); (txt "called_by", j_list (cu_called_by u));
   (txt "complexity", j_nat (cu_complexity u)); (txt "has_loops", JBool (cu_has_loops u)); (txt "has_branches", JBool (cu_has_branches u));
   (txt "has_error_handling", JBool (cu_has_error_handling u));
   (txt "variables", j_list (cu_variables u)); (txt "imports", j_list (cu_imports u)); (txt "code", JStr (cu_code u))].
Definition to_value (u : code_unit) : json := JObj (unit_fields u).

Section READ.
  (** [serde_json::from_str] *)
  Variable parse : text -> option json.
  (** colgrep/src/index/mod.rs 4419-4445 [fix_sqlite_types].  [as_i64] is [None] for numbers that are
      not i64; in a row there are none. *)
  Definition fix_value (k : text) (v : json) : json :=
    if starts_with (txt "has_") k || starts_with (txt "is_") k then match v with JInt n => JBool (negb (n =? 0)%Z) | _ => v end
    else match v with
         | JStr s => if starts_with (txt "[") s then match parse s with Some (JArr l) => JArr l | _ => v end else v
         | _ => v
         end.
  Definition fix_sqlite_types (v : json) : json :=
    match v with JObj o => JObj (map (fun p => (fst p, fix_value (fst p) (snd p))) o) | _ => v end.
End READ.

(** [serde_json::from_value::<CodeUnit>]: unknown keys are ignored, a missing or null optional field
    is [None], everything else must have its type. *)
Definition lookup (o : list (text * json)) (k : text) : option json := option_map snd (find (fun p => text_eqb (fst p) k) o).
Definition d_str (v : option json) : option text := match v with Some (JStr s) => Some s | _ => None end.
Definition d_opt (v : option json) : option (option text) :=
  match v with None | Some JNull => Some None | Some (JStr s) => Some (Some s) | _ => None end.
Definition d_nat (v : option json) : option nat := match v with Some (JInt z) => if (0 <=? z)%Z then Some (Z.to_nat z) else None | _ => None end.
Definition d_bool (v : option json) : option bool := match v with Some (JBool b) => Some b | _ => None end.
Fixpoint strings (l : list json) : option (list text) :=
  match l with
  | [] => Some []
  | JStr s :: r => match strings r with Some t => Some (s :: t) | None => None end
  | _ :: _ => None
  end.
Definition d_list (v : option json) : option (list text) := match v with Some (JArr l) => strings l | _ => None end.
Definition d_enum (names : list text) (v : option json) : option text := match d_str v with Some s => if mem s names then Some s else None | None => None end.
Definition obind {X Y} (o : option X) (f : X -> option Y) : option Y := match o with Some x => f x | None => None end.
Definition from_fields (o : list (text * json)) : option code_unit :=
  let g k := lookup o (txt k) in
  obind (d_str (g "name"%string)) (fun name => obind (d_str (g "qualified_name"%string)) (fun qualified => obind (d_str (g "file"%string)) (fun file =>
  obind (d_nat (g "line"%string)) (fun line => obind (d_nat (g "end_line"%string)) (fun end_line =>
  obind (d_enum languages (g "language"%string)) (fun language => obind (d_enum unit_types (g "unit_type"%string)) (fun unit_type =>
  obind (d_str (g "signature"%string)) (fun signature => obind (d_opt (g "docstring"%string)) (fun docstring => obind (d_list (g "parameters"%string)) (fun parameters =>
  obind (d_opt (g "return_type"%string)) (fun return_type => obind (d_opt (g "extends"%string)) (fun extends => obind (d_opt (g "parent_class"%string)) (fun parent =>
  obind (d_list (g "calls"%string)) (fun calls => obind (d_list (g "called_by"%string)) (fun called_by =>
  obind (d_nat (g "complexity"%string)) (fun complexity => obind (d_bool (g "has_loops"%string)) (fun loops => obind (d_bool (g "has_branches"%string)) (fun branches =>
  obind (d_bool (g "has_error_handling"%string)) (fun handling =>
  obind (d_list (g "variables"%string)) (fun variables => obind (d_list (g "imports"%string)) (fun imports => obind (d_str (g "code"%string)) (fun code =>
  Some {| cu_name := name; cu_qualified_name := qualified; cu_file := file; cu_line := line; cu_end_line := end_line; cu_language := language; cu_unit_type := unit_type;
          cu_signature := signature; cu_docstring := docstring; cu_parameters := parameters; cu_return_type := return_type; cu_extends := extends; cu_parent_class := parent;
          cu_calls := calls; cu_called_by := called_by; cu_complexity := complexity; cu_has_loops := loops; cu_has_branches := branches; cu_has_error_handling := handling;
          cu_variables := variables; cu_imports := imports; cu_code := code |})))))))))))))))))))))).
Definition from_value (v : json) : option code_unit := match v with JObj o => from_fields o | _ => None end.
(** mod.rs 4064-4069 and 4217-4224: a row that is not a unit gives nothing *)
Definition unit_of_row (parse : text -> option json) (row : json) : option code_unit := from_value (fix_sqlite_types parse row).
