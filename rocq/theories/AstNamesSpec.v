(** How functions, classes and rules are to be called; where the body of a class is. *)
From Verif Require Import Base Text FtsText FtsTextSpec Analysis AnalysisSpec Qml QmlSpec Decls DeclsSpec AstNames.
From Coq Require Import String.
Open Scope string_scope.
Open Scope nat_scope.
Open Scope list_scope.

Definition query_kinds : list string := ["binary_query"; "feature_query"; "keyword_query"; "parenthesized_query"; "selector_query"; "unary_query"].
Definition type_kinds : list string := ["class_specifier"; "struct_specifier"; "union_specifier"; "enum_specifier"].
(** C: the declarator inside that of a function *)
Definition declared_in (n d : tree) : Prop := of_kind ["function_declarator"] n /\ in_field "declarator" n d \/ ~ of_kind ["function_declarator"] n /\ d = n.
Definition called : list (list string * (tree -> tree -> Prop)) :=
  [ (["python"; "rust"; "go"; "java"; "ruby"; "csharp"], in_field "name");
    (["typescript"; "javascript"; "vue"; "svelte"], otherwise (in_field "name") (in_field "property"));
    (["c"; "cpp"], fun n m => exists d, in_field "declarator" n d /\ declared_in d m);
    (["kotlin"; "swift"; "scala"; "php"; "lua"; "haskell"; "r"; "zig"; "julia"; "sql"], in_field "name");
    (["elixir"], otherwise (in_field "target") (in_field "name"));
    (["ocaml"], otherwise (in_field "name") (in_field "pattern")) ].
Section SPEC.
  Variable U : unicode.
  (** the words of a node, one blank between them *)
  Definition in_words (n : tree) (s : text) : Prop := exists l, splits (u_ws U) (t_text n) l /\ l <> [] /\ s = join (txt " ") l.
  (** the name of a rule of a style sheet *)
  Inductive rule_name (n : tree) : text -> Prop :=
  | selector_rule c s : of_kind ["rule_set"] n -> child_of ["selectors"] n c -> in_words c s -> rule_name n s
  | keyframes_rule c s : of_kind ["keyframes_statement"] n -> child_of ["keyframes_name"] n c -> in_words c s -> rule_name n (txt "@keyframes " ++ s)
  | query_rule k at_word cs l : In (k, at_word) [("media_statement", "@media"); ("supports_statement", "@supports")] -> of_kind [k] n ->
      cs = filter (fun c => one_of query_kinds (t_kind c)) (t_children n) -> each in_words cs l -> rule_name n (join (txt " ") (txt at_word :: l))
  | line_rule k at_word : In (k, at_word) [("import_statement", "@import"); ("charset_statement", "@charset"); ("namespace_statement", "@namespace")] -> of_kind [k] n ->
      rule_name n (txt at_word).
  Definition node_name (lang : text) (n : tree) (s : text) : Prop :=
    (lang = txt "css" /\ rule_name n s)
    \/ (spoken lang ["c"; "cpp"] /\ of_kind type_kinds n /\ exists m, otherwise (in_field "name") (child_of ["type_identifier"]) n m /\ s = t_text m)
    \/ (~ (spoken lang ["c"; "cpp"] /\ of_kind type_kinds n) /\ s <> [] /\ exists m, written lang called n m /\ s = t_text m).
End SPEC.
Definition bodies : list (list string * (tree -> tree -> Prop)) :=
  [ (["python"; "rust"; "typescript"; "javascript"; "vue"; "svelte"; "java"; "csharp"; "ruby"; "kotlin"; "swift"; "scala"; "php"; "elixir"; "haskell"; "ocaml"; "zig"; "julia"], in_field "body");
    (["go"], in_field "type");
    (["c"; "cpp"], child_of ["field_declaration_list"]);
    (["css"], fun n m => of_kind ["keyframes_statement"] n /\ child_of ["keyframe_block_list"] n m \/ ~ of_kind ["keyframes_statement"] n /\ child_of ["block"] n m) ].
