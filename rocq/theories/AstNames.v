(** Which nodes are functions, classes and constants, how they are called and where the body of a class is
    (colgrep/src/parser/ast.rs 7-360), over any syntax tree. *)
From Verif Require Import Base Text FtsText Analysis Decls.
From Coq Require Import String.
Open Scope string_scope.
Open Scope nat_scope.
Open Scope list_scope.

(** a [match] on the language *)
Fixpoint pick {A} (lang : text) (table : list (list string * A)) (default : A) : A :=
  match table with
  | [] => default
  | (ls, a) :: r => if is lang ls then a else pick lang r default
  end.

(** 7-38 [is_function_node] *)
Definition function_kinds : list (list string * list string) :=
  [ (["python"], ["function_definition"]);
    (["rust"], ["function_item"]);
    (["typescript"; "javascript"; "vue"; "svelte"], ["function_declaration"; "method_definition"; "arrow_function"]);
    (["go"], ["function_declaration"; "method_declaration"]);
    (["java"], ["method_declaration"; "constructor_declaration"]);
    (["c"; "cpp"], ["function_definition"]);
    (["ruby"], ["method"; "singleton_method"]);
    (["csharp"], ["method_declaration"; "constructor_declaration"]);
    (["kotlin"], ["function_declaration"; "anonymous_function"]);
    (["swift"], ["function_declaration"; "init_declaration"]);
    (["scala"], ["function_definition"; "function_declaration"]);
    (["php"], ["function_definition"; "method_declaration"]);
    (["lua"], ["function_declaration"]);
    (["elixir"], ["call"; "anonymous_function"]);
    (["haskell"], ["function"]);
    (["ocaml"], ["let_binding"; "value_definition"]);
    (["r"], ["function_definition"]);
    (["zig"], ["FnProto"; "fn_decl"]);
    (["julia"], ["function_definition"; "short_function_definition"]);
    (["sql"], ["create_function_statement"; "create_procedure"]) ].
Definition is_function_node (lang kind : text) : bool := one_of (pick lang function_kinds []) kind.
(** 40-125 [is_class_node] *)
Definition class_kinds : list (list string * list string) :=
  [ (["python"], ["class_definition"]);
    (["rust"], ["impl_item"; "struct_item"; "enum_item"; "trait_item"]);
    (["typescript"; "vue"; "svelte"], ["class_declaration"; "interface_declaration"; "type_alias_declaration"; "enum_declaration"]);
    (["javascript"], ["class_declaration"]);
    (["go"], ["type_declaration"]);
    (["java"], ["class_declaration"; "interface_declaration"; "enum_declaration"]);
    (["cpp"], ["class_specifier"; "struct_specifier"; "enum_specifier"]);
    (["ruby"], ["class"; "module"]);
    (["csharp"], ["class_declaration"; "interface_declaration"; "enum_declaration"; "struct_declaration"]);
    (["kotlin"], ["class_declaration"; "object_declaration"; "interface_declaration"]);
    (["swift"], ["class_declaration"; "struct_declaration"; "protocol_declaration"; "enum_declaration"]);
    (["scala"], ["class_definition"; "object_definition"; "trait_definition"]);
    (["php"], ["class_declaration"; "interface_declaration"; "trait_declaration"; "enum_declaration"]);
    (["lua"], []);
    (["elixir"], ["call"]);
    (["haskell"], ["type_alias"; "newtype"; "adt"]);
    (["ocaml"], ["type_definition"; "module_definition"]);
    (["r"], []);
    (["zig"], ["ContainerDecl"]);
    (["julia"], ["struct_definition"; "abstract_definition"]);
    (["sql"], ["create_table_statement"; "create_view_statement"; "create_index_statement"]);
    (["c"], ["struct_specifier"; "union_specifier"; "enum_specifier"]);
    (["css"], ["rule_set"; "media_statement"; "keyframes_statement"; "supports_statement"]) ].
Definition is_class_node (lang kind : text) : bool := one_of (pick lang class_kinds []) kind.
(** 127-165 [is_constant_node] *)
Definition constant_kinds : list (list string * list string) :=
  [ (["rust"], ["const_item"; "static_item"]);
    (["typescript"; "javascript"; "vue"; "svelte"], ["lexical_declaration"; "variable_declaration"]);
    (["go"], ["const_declaration"; "var_declaration"]);
    (["c"; "cpp"], ["declaration"]);
    (["python"], ["expression_statement"]);
    (["kotlin"], ["property_declaration"]);
    (["swift"], ["constant_declaration"; "variable_declaration"]);
    (["scala"], ["val_definition"; "var_definition"]);
    (["php"], ["const_declaration"]);
    (["elixir"], ["unary_operator"]);
    (["haskell"], ["function"]);
    (["ocaml"], ["let_binding"]);
    (["r"], ["left_assignment"; "equals_assignment"]);
    (["zig"], ["VarDecl"]);
    (["julia"], ["const_statement"]);
    (["sql"], []);
    (["css"], ["import_statement"; "charset_statement"; "namespace_statement"]) ].
Definition is_constant_node (lang kind : text) : bool := one_of (pick lang constant_kinds []) kind.

(** 167-224 [find_class_body] *)
Definition body_table : list (list string * (tree -> option tree)) :=
  [ (["python"; "rust"; "typescript"; "javascript"; "vue"; "svelte"; "java"; "csharp"], by_field "body");
    (["go"], by_field "type");
    (["cpp"], by_kind "field_declaration_list");
    (["ruby"; "kotlin"; "swift"; "scala"; "php"; "elixir"; "haskell"; "ocaml"], by_field "body");
    (["r"], fun _ => None);
    (["zig"; "julia"], by_field "body");
    (["sql"], fun _ => None);
    (["c"], by_kind "field_declaration_list");
    (["css"], fun n => if one_of ["keyframes_statement"] (t_kind n) then by_kind "keyframe_block_list" n else by_kind "block" n) ].
Definition find_class_body (lang : text) : tree -> option tree := pick lang body_table (fun _ => None).

Section NAMES.
  Variable U : unicode.
  (** 303-314 [text_of] *)
  Definition text_of (n : tree) : option text :=
    let s := neat U (t_text n) in
    if non_empty s then Some (join (txt " ") (split_whitespace (u_ws U) s)) else None.
  Definition queries : list string := ["binary_query"; "feature_query"; "keyword_query"; "parenthesized_query"; "selector_query"; "unary_query"].
  (** 293-360 [get_css_unit_name] *)
  Definition css_unit_name (n : tree) : option text :=
    let k := t_kind n in
    if one_of ["rule_set"] k then and_then (by_kind "selectors" n) text_of
    else if one_of ["keyframes_statement"] k then and_then (and_then (by_kind "keyframes_name" n) text_of) (fun s => Some (txt "@keyframes " ++ s))
    else if one_of ["media_statement"; "supports_statement"] k then
      let kw := if one_of ["media_statement"] k then txt "@media" else txt "@supports" in
      let query := flat_map (fun c => match text_of c with Some s => [s] | None => [] end) (filter (fun c => one_of queries (t_kind c)) (t_children n)) in
      match query with
      | [] => Some kw
      | _ => Some (kw ++ txt " " ++ join (txt " ") query)
      end
    else if one_of ["import_statement"] k then Some (txt "@import")
    else if one_of ["charset_statement"] k then Some (txt "@charset")
    else if one_of ["namespace_statement"] k then Some (txt "@namespace")
    else None.
  (** 226-284 [get_node_name] *)
  Definition specifiers : list string := ["class_specifier"; "struct_specifier"; "union_specifier"; "enum_specifier"].
  Definition name_table : list (list string * (tree -> option tree)) :=
    [ (["python"; "rust"; "go"; "java"; "ruby"; "csharp"], by_field "name");
      (["typescript"; "javascript"; "vue"; "svelte"], fun n => or_else (by_field "name" n) (by_field "property" n));
      (["c"; "cpp"], fun n => and_then (by_field "declarator" n) (fun d => if one_of ["function_declarator"] (t_kind d) then by_field "declarator" d else Some d));
      (["kotlin"; "swift"; "scala"; "php"; "lua"; "haskell"; "r"; "zig"; "julia"; "sql"], by_field "name");
      (["elixir"], fun n => or_else (by_field "target" n) (by_field "name" n));
      (["ocaml"], fun n => or_else (by_field "name" n) (by_field "pattern" n)) ].
  Definition get_node_name (lang : text) (n : tree) : option text :=
    if is lang ["css"] then css_unit_name n
    else if is lang ["c"; "cpp"] && one_of specifiers (t_kind n) then option_map t_text (or_else (by_field "name" n) (by_kind "type_identifier" n))
    else and_then (pick lang name_table (fun _ => None) n) (fun m => if non_empty (t_text m) then Some (t_text m) else None).
End NAMES.
