(** Names, types, type parameters and kinds of declarations (colgrep/src/parser/extract.rs 160-540, 617-710),
    over any syntax tree.  [up] lists the nodes around the declaration, the nearest first, in place of
    [node.parent()]. *)
From Verif Require Import Base Text FtsText Analysis Qml.
From Coq Require Import String.
Open Scope string_scope.
Open Scope nat_scope.
Open Scope list_scope.

(** a [for] loop that returns the first thing found; one over the children of some kinds *)
Fixpoint first_some {A} (f : tree -> option A) (l : list tree) : option A :=
  match l with
  | [] => None
  | c :: r => match f c with Some x => Some x | None => first_some f r end
  end.
Definition among (ks : list string) (f : tree -> option tree) (n : tree) : option tree :=
  first_some (fun c => if one_of ks (t_kind c) then f c else None) (t_children n).

Section DECLS.
  Variable U : unicode.
  Variable lang : text.
  (** ast.rs [get_node_name] of a rule of a style sheet: not modelled here *)
  Variable css_name : tree -> option text.

  (** 214-226, 248-252, 259-265: a name is trimmed, and recorded unless it is empty, a keyword or known *)
  Definition add_name (skip : list string) (acc : list text) (n : tree) : list text :=
    let s := neat U (t_text n) in
    if negb (non_empty s) || one_of skip s then acc else push_unique acc s.
  (** 200-211 kinds of identifiers *)
  Definition id_kinds : list string :=
    if is lang ["java"; "typescript"; "vue"; "svelte"; "rust"] then ["type_identifier"; "identifier"]
    else if is lang ["scala"] then ["identifier"; "type_identifier"]
    else if is lang ["csharp"] then ["identifier"]
    else if is lang ["kotlin"; "swift"] then ["type_identifier"; "simple_identifier"]
    else [].
  (** 196-234 [extract_type_param_names] *)
  Fixpoint type_param_names (t : tree) (acc : list text) : list text :=
    let 'Tree k _ _ _ _ _ cs := t in
    if one_of id_kinds k then add_name ["extends"; "super"; "where"] acc t
    else fold_left (fun a c => type_param_names c a) cs acc.
  (** 241-272 [visit] of [extract_cpp_template_params] *)
  Fixpoint template_visit (t : tree) (acc : list text) : list text :=
    let 'Tree k _ _ _ _ _ cs := t in
    if one_of ["type_identifier"] k then add_name [] acc t
    else
      let acc :=
        if one_of ["type_parameter_declaration"; "template_type_parameter"] k
        then fold_left (fun a c => if one_of ["type_identifier"; "identifier"] (t_kind c) then add_name [] a c else a) cs acc
        else acc in
      fold_left (fun a c => template_visit c a) cs acc.
  (** 162-194 [extract_class_type_parameters] *)
  Definition extract_class_type_parameters (up : list tree) (n : tree) : list text :=
    if is lang ["cpp"] then
      match up with
      | p :: _ => if one_of ["template_declaration"] (t_kind p) then template_visit p [] else []
      | [] => []
      end
    else
      let clause :=
        if is lang ["java"; "scala"; "typescript"; "vue"; "svelte"; "rust"; "csharp"; "kotlin"] then by_field "type_parameters" n
        else if is lang ["swift"] then by_kind "generic_parameter_clause" n
        else None in
      match clause with Some c => type_param_names c [] | None => [] end.

  (** 345-485 [get_constant_name]: the node that names a constant.  In the branch of C and C++ the inner
      test for an identifier (403-407) comes after a test that the node is no identifier, and is left out. *)
  Definition constant_node (n : tree) : option tree :=
    if is lang ["rust"] then by_field "name" n
    else if is lang js then among ["variable_declarator"] (by_field "name") n
    else if is lang ["go"] then among ["const_spec"; "var_spec"] (fun c => or_else (by_field "name" c) (by_kind "identifier" c)) n
    else if is lang ["python"] then and_then (child 0 n) (fun a => and_then (keep_kind "assignment" a) (by_field "left"))
    else if is lang ["c"; "cpp"] then or_else (among ["init_declarator"; "declarator"] (by_field "declarator") n) (by_kind "identifier" n)
    else if is lang ["kotlin"] then or_else (by_field "name" n) (among ["variable_declaration"] (by_kind "simple_identifier") n)
    else if is lang ["swift"] then among ["pattern_initializer"] (among ["identifier_pattern"; "simple_identifier"] Some) n
    else if is lang ["scala"] then by_field "pattern" n
    else if is lang ["php"] then among ["const_element"] (by_field "name") n
    else if is lang ["elixir"] then among ["call"] (by_field "target") n
    else if is lang ["haskell"; "ocaml"] then or_else (by_field "name" n) (by_field "pattern" n)
    else None.
  Definition get_constant_name (n : tree) : option text :=
    if is lang ["css"] then css_name n
    else and_then (constant_node n) (fun m => Some ((if is lang ["elixir"] then txt "@" else []) ++ t_text m)).
  (** 487-494 [is_python_constant_name] *)
  Definition upper (c : Z) : bool := ((65 <=? c) && (c <=? 90))%Z.
  Definition lower (c : Z) : bool := ((97 <=? c) && (c <=? 122))%Z.
  Definition digit (c : Z) : bool := ((48 <=? c) && (c <=? 57))%Z.
  Definition is_python_constant_name (s : text) : bool :=
    existsb (fun c => upper c || lower c) s && forallb (fun c => upper c || digit c || (c =? 95)%Z) s.
  (** 496-534 [get_constant_type] *)
  Definition type_node (n : tree) : option tree :=
    if is lang ["rust"] then by_field "type" n
    else if is lang ["typescript"; "vue"; "svelte"] then among ["variable_declarator"] (by_field "type") n
    else if is lang ["go"] then among ["const_spec"; "var_spec"] (by_field "type") n
    else if is lang ["python"] then and_then (child 0 n) (fun a => and_then (keep_kind "assignment" a) (by_field "type"))
    else None.
  (** 617-632 [find_arrow_function] *)
  Fixpoint find_arrow (t : tree) : option tree :=
    let 'Tree k _ _ _ _ _ cs := t in
    if one_of ["arrow_function"] k then Some t
    else (fix go l := match l with [] => None | c :: r => match find_arrow c with Some x => Some x | None => go r end end) cs.

  (** 277-341 [extract_constant], 536-615: which kind of unit is made, its name, and the type of a constant
      or the node whose parameters, calls and variables a function gets.  Lines and code are in Units and
      Analysis. *)
  Inductive declared := A_constant (name : text) (type : option text) | A_function (name : text) (arrow : tree).
  Definition extract_constant (n : tree) : option declared :=
    match get_constant_name n with
    | None => None
    | Some name =>
      if is lang ["python"] && negb (is_python_constant_name name) then None
      else match (if is lang js then find_arrow n else None) with
           | Some a => Some (A_function name a)
           | None => Some (A_constant name (option_map t_text (type_node n)))
           end
    end.

  (** 688-703 [extract_go_receiver_type], 705-712 [extract_rust_impl_type] *)
  Definition go_receiver (r : tree) : option text :=
    and_then (among ["parameter_declaration"] (by_field "type") r) (fun m => Some (neat U (strip_start (txt "*") (t_text m)))).
  (** 634-686 [determine_function_type]: is it a method, and of which type (when no class was given) *)
  Definition function_type (up : list tree) (n : tree) (class : option text) : bool * option text :=
    match class with
    | Some _ => (true, None)
    | None =>
      let owner :=
        if is lang ["go"] then and_then (keep_kind "method_declaration" n) (fun n => and_then (by_field "receiver" n) go_receiver)
        else if is lang ["rust"] then
          match up with
          | p :: g :: _ => and_then (keep_kind "declaration_list" p) (fun _ => and_then (keep_kind "impl_item" g) (fun g => option_map t_text (by_field "type" g)))
          | _ => None
          end
        else None in
      match owner with Some t => (true, Some t) | None => (false, None) end
    end.
End DECLS.
