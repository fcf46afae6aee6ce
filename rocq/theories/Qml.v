(** QML files: the units colgrep makes of them (colgrep/src/parser/qml.rs), over any syntax tree. *)
From Verif Require Import Base Text FtsText Analysis Pattern.
From Coq Require Import String.
Open Scope string_scope.
Open Scope nat_scope.
Open Scope list_scope.

Inductive unit_kind := KClass | KMethod | KFunction | KConstant.
(** types.rs 120-195 [CodeUnit], without the fields QML leaves at their defaults and without the path,
    which is the same for every unit of a file *)
Record qunit := { q_name : text; q_line : nat; q_end : nat; q_kind : unit_kind; q_parent : option text; q_signature : text; q_code : text;
                  q_vars : list text; q_params : list text; q_type : option text; q_extends : option text; q_imports : list text }.

(** 541-545 [push_unique] *)
Definition push_unique (l : list text) (x : text) : list text := if mem x l then l else l ++ [x].
(** [str::split_once]: what follows the first occurrence *)
Fixpoint after_first (sep s : text) : option text :=
  if starts_with sep s then Some (skipn (List.length sep) s) else match s with [] => None | _ :: r => after_first sep r end.
Definition first_word (ws : Z -> bool) (s : text) : text := hd [] (split_whitespace ws s).

Section QML.
  Variable U : unicode.
  (** extract.rs: what the TypeScript analysis makes of functions, constants and enumerations (C107 says what
      it records); here any functions *)
  Variable script_function : tree -> option text -> option qunit.
  Variable script_constant script_class : tree -> option qunit.
  (** the lines of the file *)
  Variable ls : list text.

  (** 499-516 [field_text], [node_text] *)
  Definition some_text (s : text) : option text := if non_empty s then Some s else None.
  Definition node_text (t : tree) : option text := some_text (neat U (t_text t)).
  Definition field_text (f : string) (t : tree) : option text := and_then (by_field f t) node_text.
  (** 518-523 *)
  Definition first_non_empty_line (code : text) : text :=
    match find (fun l => non_empty (neat U l)) (lines code) with Some l => neat U l | None => [] end.
  (** 525-533 *)
  Definition is_simple_identifier (s : text) : bool :=
    match s with c :: r => (under c || a_alpha c) && forallb (fun x => under x || a_alnum x) r | [] => false end.
  (** 535-540 *)
  Definition looks_like_signal_handler (s : text) : bool :=
    match s with a :: b :: c :: _ => (a =? 111)%Z && (b =? 110)%Z && a_upper c | _ => false end.
  (** 307-310, 350-353, 389-392: the line a node begins on *)
  Definition line_of (t : tree) : text := match nth_error ls (t_first t) with Some l => neat U l | None => [] end.

  (** 422-452 [extract_object_variables] *)
  Definition variable_of (c : tree) : option text :=
    if text_eqb (t_kind c) (txt "ui_property") then field_text "name" c
    else if text_eqb (t_kind c) (txt "ui_binding") then
      match field_text "name" c with
      | Some n => if text_eqb n (txt "id") then
                    and_then (by_field "value" c) (fun v => let s := neat U (t_text v) in if is_simple_identifier s then Some s else None)
                  else None
      | None => None
      end
    else None.
  Definition extract_object_variables (t : tree) : list text :=
    match by_field "initializer" t with
    | Some i => fold_left (fun l c => match variable_of c with Some x => push_unique l x | None => l end) (t_children i) []
    | None => []
    end.
  (** 402-420 [extract_signal_parameters] *)
  Definition extract_signal_parameters (t : tree) : list text :=
    match by_field "parameters" t with
    | Some p => filter non_empty (map (fun c => neat U (t_text c)) (filter (fun c => text_eqb (t_kind c) (txt "ui_signal_parameter")) (t_children p)))
    | None => []
    end.

  Definition member_kind (parent : option text) : unit_kind := match parent with Some _ => KMethod | None => KFunction end.
  (** 235-262 [extract_object_definition] *)
  Definition object_definition (parent : option text) (t : tree) : option qunit :=
    and_then (field_text "type_name" t) (fun name => and_then (node_text t) (fun code =>
      Some {| q_name := name; q_line := t_first t + 1; q_end := t_last t + 1; q_kind := KClass; q_parent := parent; q_signature := first_non_empty_line code;
              q_code := code; q_vars := extract_object_variables t; q_params := []; q_type := None; q_extends := None; q_imports := [] |})).
  (** 264-295 [extract_inline_component] *)
  Definition inline_component (parent : option text) (t : tree) : option qunit :=
    and_then (field_text "name" t) (fun name => and_then (node_text t) (fun code =>
      Some {| q_name := name; q_line := t_first t + 1; q_end := t_last t + 1; q_kind := KClass; q_parent := parent; q_signature := first_non_empty_line code;
              q_code := code; q_vars := [txt "component"]; q_params := []; q_type := None; q_extends := and_then (by_field "component" t) (field_text "type_name"); q_imports := [] |})).
  (** 297-331 [extract_signal] *)
  Definition signal (parent : option text) (t : tree) : option qunit :=
    and_then (field_text "name" t) (fun name => and_then (node_text t) (fun code =>
      Some {| q_name := name; q_line := t_first t + 1; q_end := t_last t + 1; q_kind := member_kind parent; q_parent := parent; q_signature := line_of t;
              q_code := code; q_vars := []; q_params := extract_signal_parameters t; q_type := None; q_extends := None; q_imports := [] |})).
  (** 333-363 [extract_property] *)
  Definition property (parent : option text) (t : tree) : option qunit :=
    and_then (field_text "name" t) (fun name => and_then (node_text t) (fun code =>
      Some {| q_name := name; q_line := t_first t + 1; q_end := t_last t + 1; q_kind := KConstant; q_parent := parent; q_signature := line_of t;
              q_code := code; q_vars := []; q_params := []; q_type := field_text "type" t; q_extends := None; q_imports := [] |})).
  (** 365-400 [extract_handler_binding] *)
  Definition handler (parent : option text) (t : tree) : option qunit :=
    and_then (field_text "name" t) (fun name => if looks_like_signal_handler name then and_then (node_text t) (fun code =>
      Some {| q_name := name; q_line := t_first t + 1; q_end := t_last t + 1; q_kind := member_kind parent; q_parent := parent; q_signature := line_of t;
              q_code := code; q_vars := []; q_params := []; q_type := None; q_extends := None; q_imports := [] |}) else None).

  (** 454-484 [extract_qml_imports] *)
  Definition line_imports (line : text) : list text :=
    let t := neat U line in
    if starts_with (txt "import ") t then
      let rest := neat U (strip_start (txt "import ") t) in
      if non_empty rest then
        named_text (trim (fun c => (c =? 39)%Z) (trim (fun c => (c =? 34)%Z) (first_word (u_ws U) rest)))
        ++ match after_first (txt " as ") rest with Some a => named_text (neat U (first_word (u_ws U) a)) | None => [] end
      else []
    else [].
  Definition extract_qml_imports : list text := fold_left push_unique (flat_map line_imports ls) [].
  (** 486-497 [imports_used_in_code] *)
  Definition used_in (code name : text) : bool := contains (name ++ txt ".") code || contains (name ++ txt " ") code || contains (name ++ txt " {") code.
  Definition imports_used_in_code (code : text) : list text := fold_left push_unique (filter (used_in code) extract_qml_imports) [].

  Definition as_list {A} (o : option A) : list A := match o with Some x => [x] | None => [] end.
  Definition with_imports (u : qunit) : qunit :=
    {| q_name := q_name u; q_line := q_line u; q_end := q_end u; q_kind := q_kind u; q_parent := q_parent u; q_signature := q_signature u; q_code := q_code u;
       q_vars := q_vars u; q_params := q_params u; q_type := q_type u; q_extends := q_extends u; q_imports := imports_used_in_code (q_code u) |}.
  Definition with_parent (parent : option text) (u : qunit) : qunit :=
    {| q_name := q_name u; q_line := q_line u; q_end := q_end u; q_kind := q_kind u; q_parent := parent; q_signature := q_signature u; q_code := q_code u;
       q_vars := q_vars u; q_params := q_params u; q_type := q_type u; q_extends := q_extends u; q_imports := q_imports u |}.
  (** 134-186: the nodes that are not searched further, with the unit each gives, if any *)
  Definition member_unit (parent : option text) (t : tree) : option (list qunit) :=
    if one_of ["function_declaration"; "generator_function_declaration"] (t_kind t) then Some (as_list (option_map with_imports (script_function t parent)))
    else if one_of ["variable_declaration"] (t_kind t) then Some (as_list (script_constant t))
    else if one_of ["enum_declaration"] (t_kind t) then Some (as_list (option_map (with_parent parent) (script_class t)))
    else if one_of ["ui_signal"] (t_kind t) then Some (as_list (signal parent t))
    else if one_of ["ui_property"] (t_kind t) then Some (as_list (property parent t))
    else if one_of ["ui_binding"] (t_kind t) then Some (as_list (handler parent t))
    else None.
  (** the units of several nodes in turn; [None] once the depth limit is hit, since [depth_limit_hit] ends
      the search and the units are thrown away *)
  Fixpoint gather (l : list (option (list qunit))) : option (list qunit) :=
    match l with
    | [] => Some []
    | None :: _ => None
    | Some us :: l => option_map (app us) (gather l)
    end.
  (** 63-233 [extract_from_node], [recurse_initializer]: the fuel is one more than the number of levels left
      below [max_depth]; the children of an initializer are counted two levels below the node, those of the
      initializer of an inline component's type two levels below the component *)
  Fixpoint visit (fuel : nat) (parent : option text) (t : tree) : option (list qunit) :=
    match fuel with
    | O => None
    | S f =>
      let inner name n := match by_field "initializer" n with
                          | Some i => gather (map (match f with S g => visit g (Some name) | O => fun _ => None end) (t_children i))
                          | None => Some []
                          end in
      let children := gather (map (visit f parent) (t_children t)) in
      if one_of ["ui_annotated_object"] (t_kind t) then match by_field "definition" t with Some d => visit f parent d | None => Some [] end
      else if one_of ["ui_inline_component"] (t_kind t) then
        match inline_component parent t with
        | Some u => option_map (cons u) (match by_field "component" t with Some c => inner (q_name u) c | None => Some [] end)
        | None => Some []
        end
      else if one_of ["ui_object_definition"] (t_kind t) then
        match object_definition parent t with
        | Some u => option_map (cons u) (inner (q_name u) t)
        | None => children
        end
      else match member_unit parent t with Some us => Some us | None => children end
    end.
  (** 17-61 [extract_qml_units] *)
  Definition extract_qml_units (max_depth : nat) (root : tree) : list qunit :=
    match visit (S max_depth) None root with Some us => us | None => [] end.
End QML.
