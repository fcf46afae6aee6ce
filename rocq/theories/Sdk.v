(** The Python package (colgrep/python-sdk/src/lib.rs): parsing a source text, one unit or the merged
    unit, and the names of languages. *)
From Verif Require Import Base Text FtsText SqlModel MetaModel Units Embed Colgrep Walk.
Open Scope nat_scope.

(** colgrep/src/parser/types.rs 51-101 [FromStr for Language]: the words accepted, in lower case *)
Definition words : list (text * text) := map (fun p => (txt (fst p), txt (snd p)))
  [("python", "python"); ("py", "python"); ("typescript", "typescript"); ("ts", "typescript"); ("javascript", "javascript"); ("js", "javascript");
   ("go", "go"); ("rust", "rust"); ("rs", "rust"); ("java", "java"); ("c", "c"); ("cpp", "cpp"); ("c++", "cpp"); ("ruby", "ruby"); ("rb", "ruby");
   ("csharp", "csharp"); ("c#", "csharp"); ("cs", "csharp"); ("kotlin", "kotlin"); ("kt", "kotlin"); ("swift", "swift"); ("scala", "scala");
   ("php", "php"); ("lua", "lua"); ("elixir", "elixir"); ("ex", "elixir"); ("haskell", "haskell"); ("hs", "haskell"); ("ocaml", "ocaml"); ("ml", "ocaml");
   ("r", "r"); ("zig", "zig"); ("julia", "julia"); ("jl", "julia"); ("sql", "sql"); ("vue", "vue"); ("svelte", "svelte"); ("css", "css");
   ("qml", "qml"); ("html", "html"); ("htm", "html"); ("markdown", "markdown"); ("md", "markdown"); ("text", "text"); ("txt", "text");
   ("yaml", "yaml"); ("yml", "yaml"); ("toml", "toml"); ("json", "json"); ("dockerfile", "dockerfile"); ("makefile", "makefile");
   ("shell", "shell"); ("sh", "shell"); ("bash", "shell"); ("powershell", "powershell"); ("ps1", "powershell");
   ("asciidoc", "asciidoc"); ("adoc", "asciidoc"); ("org", "org")]%string.
(** types.rs 5-50 [derive(Debug)]: the name of a variant as it is written in the source; the first
    component is the name used for it elsewhere in this model *)
Definition debug_names : list (text * text) := map (fun p => (txt (fst p), txt (snd p)))
  [("python", "Python"); ("typescript", "TypeScript"); ("javascript", "JavaScript"); ("go", "Go"); ("rust", "Rust"); ("java", "Java"); ("c", "C");
   ("cpp", "Cpp"); ("ruby", "Ruby"); ("csharp", "CSharp"); ("kotlin", "Kotlin"); ("swift", "Swift"); ("scala", "Scala"); ("php", "Php"); ("lua", "Lua");
   ("elixir", "Elixir"); ("haskell", "Haskell"); ("ocaml", "Ocaml"); ("r", "R"); ("zig", "Zig"); ("julia", "Julia"); ("sql", "Sql"); ("vue", "Vue");
   ("svelte", "Svelte"); ("qml", "Qml"); ("css", "Css"); ("html", "Html"); ("markdown", "Markdown"); ("text", "Text"); ("yaml", "Yaml"); ("toml", "Toml");
   ("json", "Json"); ("dockerfile", "Dockerfile"); ("makefile", "Makefile"); ("shell", "Shell"); ("powershell", "Powershell"); ("asciidoc", "AsciiDoc");
   ("org", "Org")]%string.
Definition debug_name (lang : text) : text := match assoc debug_names lang with Some n => n | None => [] end.
(** python-sdk/src/lib.rs 475-508 [supported_languages] *)
Definition supported_languages : list text := map txt
  ["python"; "typescript"; "javascript"; "go"; "rust"; "java"; "c"; "cpp"; "ruby"; "csharp"; "kotlin"; "swift"; "scala"; "php"; "lua"; "elixir";
   "haskell"; "ocaml"; "r"; "zig"; "julia"; "sql"; "vue"; "svelte"; "html"; "markdown"; "yaml"; "toml"; "json"; "shell"]%string.
(** lib.rs 117-125: the name of the kind of a unit *)
Definition type_names : list (text * text) := map (fun p => (txt (fst p), txt (snd p)))
  [("function", "Function"); ("method", "Method"); ("class", "Class"); ("constant", "Constant"); ("document", "Document"); ("section", "Section");
   ("rawcode", "RawCode")]%string.
Definition unit_type_name (t : text) : text := match assoc type_names t with Some n => n | None => [] end.

(** lib.rs 11-62 [PyCodeUnit]: the fields of a unit, its language and kind by their names, and the text *)
Record py_unit := {
  py_name : text; py_qualified_name : text; py_file : text; py_line : nat; py_end_line : nat; py_language : text; py_unit_type : text;
  py_signature : text; py_docstring : option text; py_parameters : list text; py_return_type : option text; py_extends : option text;
  py_parent_class : option text; py_calls : list text; py_called_by : list text;
  py_complexity : nat; py_has_loops : bool; py_has_branches : bool; py_has_error_handling : bool;
  py_variables : list text; py_imports : list text; py_code : text; py_embedding_text : text }.

(** lib.rs 197-207 [dedup_ordered] *)
Fixpoint dedup_ordered (seen : list text) (items : list text) : list text :=
  match items with
  | [] => []
  | x :: r => if existsb (text_eqb x) seen then dedup_ordered seen r else x :: dedup_ordered (x :: seen) r
  end.
(** lib.rs 209-292: the loop over the sorted units and what is made of it *)
Definition blank_line : text := [10%Z; 10%Z].
Definition gathered (f : py_unit -> list text) (l : list py_unit) : list text := dedup_ordered [] (flat_map f l).
Definition docs_of (u : py_unit) : list text := match py_docstring u with Some (c :: r) => [c :: r] | _ => [] end.
Definition nothing : py_unit :=
  {| py_name := []; py_qualified_name := []; py_file := []; py_line := 0; py_end_line := 0; py_language := []; py_unit_type := []; py_signature := [];
     py_docstring := None; py_parameters := []; py_return_type := None; py_extends := None; py_parent_class := None; py_calls := []; py_called_by := [];
     py_complexity := 0; py_has_loops := false; py_has_branches := false; py_has_error_handling := false; py_variables := []; py_imports := [];
     py_code := []; py_embedding_text := [] |}.
Definition merge_sorted (sorted : list py_unit) (filename : text) : py_unit :=
  let first := hd nothing sorted in
  {| py_name := filename; py_qualified_name := filename ++ txt "::merged"; py_file := py_file first; py_line := py_line first;
     py_end_line := py_end_line (last sorted nothing); py_language := py_language first; py_unit_type := txt "Document"; py_signature := py_signature first;
     py_docstring := match flat_map docs_of sorted with [] => None | ds => Some (join blank_line (dedup_ordered [] ds)) end;
     py_parameters := gathered py_parameters sorted; py_return_type := None; py_extends := None; py_parent_class := None;
     py_calls := gathered py_calls sorted; py_called_by := gathered py_called_by sorted;
     py_complexity := fold_left (fun n u => n + py_complexity u) sorted 0;
     py_has_loops := fold_left (fun b u => b || py_has_loops u) sorted false;
     py_has_branches := fold_left (fun b u => b || py_has_branches u) sorted false;
     py_has_error_handling := fold_left (fun b u => b || py_has_error_handling u) sorted false;
     py_variables := gathered py_variables sorted; py_imports := gathered py_imports sorted;
     py_code := join blank_line (map py_code sorted); py_embedding_text := join blank_line (map py_embedding_text sorted) |}.
(** lib.rs 158-195 [merge_units]; the sum of the complexities is taken without the overflow of usize *)
Definition merge_units (units : list py_unit) (filename : text) : py_unit :=
  match units with
  | [] => {| py_name := filename; py_qualified_name := filename; py_file := filename; py_line := 1; py_end_line := 1; py_language := txt "Unknown";
             py_unit_type := txt "Document"; py_signature := []; py_docstring := None; py_parameters := []; py_return_type := None; py_extends := None;
             py_parent_class := None; py_calls := []; py_called_by := []; py_complexity := 1; py_has_loops := false; py_has_branches := false;
             py_has_error_handling := false; py_variables := []; py_imports := []; py_code := []; py_embedding_text := [] |}
  | [u] => u
  | _ => merge_sorted (isort (fun a b => py_line a <=? py_line b) units) filename
  end.

Section SDK.
  Variable U : unicode.
  Variables is_upper is_lower : Z -> bool.
  (** The components of a path; [extract_units] (C89-C91). *)
  Variable components : text -> list text.
  Variable extract_units : text -> text -> text -> list code_unit.

  (** types.rs 54-100 *)
  Definition from_str (s : text) : option text := assoc words (u_lower U s).
  (** lib.rs 115-156 [from_code_unit] *)
  Definition from_code_unit (u : code_unit) : py_unit :=
    {| py_name := cu_name u; py_qualified_name := cu_qualified_name u; py_file := cu_file u; py_line := cu_line u; py_end_line := cu_end_line u;
       py_language := debug_name (cu_language u); py_unit_type := unit_type_name (cu_unit_type u); py_signature := cu_signature u;
       py_docstring := cu_docstring u; py_parameters := cu_parameters u; py_return_type := cu_return_type u; py_extends := cu_extends u;
       py_parent_class := cu_parent_class u; py_calls := cu_calls u; py_called_by := cu_called_by u; py_complexity := cu_complexity u;
       py_has_loops := cu_has_loops u; py_has_branches := cu_has_branches u; py_has_error_handling := cu_has_error_handling u;
       py_variables := cu_variables u; py_imports := cu_imports u; py_code := cu_code u;
       py_embedding_text := build_embedding_text U is_upper is_lower u (components (cu_file u)) |}.
  (** lib.rs 344-361 [parse_code], 422-442 [parse_code_with_language]: a ValueError is [Err] *)
  Definition parsed (code filename lang : text) (merge : bool) : list py_unit :=
    let units := map from_code_unit (extract_units filename code lang) in
    if merge then [merge_units units filename] else units.
  Definition parse_code (code filename : text) (merge : bool) : res (list py_unit) :=
    match detect_language U (components filename) with Some lang => Ok (parsed code filename lang merge) | None => Err end.
  Definition parse_code_with_language (code filename language : text) (merge : bool) : res (list py_unit) :=
    match from_str language with Some lang => Ok (parsed code filename lang merge) | None => Err end.
  (** lib.rs 464-467 [py_detect_language] *)
  Definition py_detect_language (filename : text) : option text := option_map debug_name (detect_language U (components filename)).
End SDK.
