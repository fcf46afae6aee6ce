(** What the units of a QML file should be. *)
From Verif Require Import Base Text FtsText Analysis AnalysisSpec Pattern Qml.
From Coq Require Import String.
Open Scope string_scope.
Open Scope nat_scope.
Open Scope list_scope.
Notation length := List.length.

(** [v] is [l] with every repetition left out *)
Inductive firsts : list text -> list text -> Prop :=
| firsts_nil : firsts [] []
| firsts_new l v x : firsts l v -> ~ In x l -> firsts (l ++ [x]) (v ++ [x])
| firsts_old l v x : firsts l v -> In x l -> firsts (l ++ [x]) v.

Section QML_SPEC.
  Variable U : unicode.
  Variable script_function : tree -> option text -> option qunit.
  Variable script_constant script_class : tree -> option qunit.
  Variable ls : list text.

  (** what a field says, what a node says: without blanks around, not empty *)
  Definition code_of (n : tree) (s : text) : Prop := bared U (t_text n) s /\ s <> [].
  Definition field_says (f : string) (n : tree) (s : text) : Prop := exists c, in_field f n c /\ code_of c s.
  Definition may_say (f : string) (n : tree) (o : option text) : Prop :=
    match o with Some s => field_says f n s | None => forall s, ~ field_says f n s end.

  (** ** Which nodes are reached, how deep, inside which object *)
  Definition an_object (n : tree) (name : text) : Prop := of_kind ["ui_object_definition"] n /\ field_says "type_name" n name /\ exists code, code_of n code.
  Definition a_component (n : tree) (name : text) : Prop := of_kind ["ui_inline_component"] n /\ field_says "name" n name /\ exists code, code_of n code.
  Definition members : list string :=
    ["function_declaration"; "generator_function_declaration"; "variable_declaration"; "enum_declaration"; "ui_signal"; "ui_property"; "ui_binding"].
  (** nodes that are just gone through *)
  Definition plain (n : tree) : Prop := ~ of_kind ("ui_annotated_object" :: "ui_inline_component" :: members) n /\ forall name, ~ an_object n name.
  Definition field_at (f : string) (n : tree) (i : nat) (c : tree) : Prop :=
    nth_error (t_children n) i = Some c /\ t_field c = Some (txt f) /\ forall j x, j < i -> nth_error (t_children n) j = Some x -> t_field x <> Some (txt f).
  Inductive reaches : option text -> nat -> tree -> list nat -> option text -> nat -> tree -> Prop :=
  | r_here p d t : reaches p d t [] p d t
  | r_annotated p d t i c q p' d' n : of_kind ["ui_annotated_object"] t -> field_at "definition" t i c -> reaches p (d + 1) c q p' d' n -> reaches p d t (i :: q) p' d' n
  | r_object p d t name i init j c q p' d' n : an_object t name -> field_at "initializer" t i init -> nth_error (t_children init) j = Some c ->
      reaches (Some name) (d + 2) c q p' d' n -> reaches p d t (i :: j :: q) p' d' n
  | r_component p d t name h comp i init j c q p' d' n : a_component t name -> field_at "component" t h comp -> field_at "initializer" comp i init ->
      nth_error (t_children init) j = Some c -> reaches (Some name) (d + 2) c q p' d' n -> reaches p d t (h :: i :: j :: q) p' d' n
  | r_child p d t i c q p' d' n : plain t -> nth_error (t_children t) i = Some c -> reaches p (d + 1) c q p' d' n -> reaches p d t (i :: q) p' d' n.

  (** ** What a node gives *)
  Definition first_line (code s : text) : Prop :=
    (exists a l b, lines code = a ++ l :: b /\ (forall x, In x a -> blank_line U x) /\ ~ blank_line U l /\ bared U l s)
    \/ ((forall x, In x (lines code) -> blank_line U x) /\ s = []).
  Definition own_line (n : tree) (s : text) : Prop := match nth_error ls (t_first n) with Some l => bared U l s | None => s = [] end.
  Definition simple_name (s : text) : Prop :=
    exists c r, s = c :: r /\ (c = 95%Z \/ a_alpha c = true) /\ forall x, In x r -> x = 95%Z \/ a_alnum x = true.
  (** the name of a property, the value of an [id] *)
  Definition variable_here (c : tree) (s : text) : Prop :=
    (of_kind ["ui_property"] c /\ field_says "name" c s)
    \/ (of_kind ["ui_binding"] c /\ field_says "name" c (txt "id") /\ exists v, in_field "value" c v /\ bared U (t_text v) s /\ simple_name s).
  Inductive each {A B} (R : A -> B -> Prop) : list A -> list B -> Prop :=
  | each_nil : each R [] []
  | each_gives a b l r : R a b -> each R l r -> each R (a :: l) (b :: r)
  | each_none a l r : (forall b, ~ R a b) -> each R l r -> each R (a :: l) r.
  Definition object_variables (n : tree) (v : list text) : Prop :=
    (no_field "initializer" n /\ v = []) \/ exists i all, in_field "initializer" n i /\ each variable_here (t_children i) all /\ firsts all v.
  Definition signal_parameters (n : tree) (v : list text) : Prop :=
    (no_field "parameters" n /\ v = []) \/ exists p, in_field "parameters" n p /\ each (fun c s => of_kind ["ui_signal_parameter"] c /\ code_of c s) (t_children p) v.
  Definition handler_name (s : text) : Prop := exists c r, s = txt "on" ++ c :: r /\ a_upper c = true.
  (** ** Imports: the module, without quotes, and the alias *)
  Definition unquoted_with (q : Z) (s core : text) : Prop :=
    exists a b, s = a ++ core ++ b /\ (forall c, In c (a ++ b) -> c = q) /\ (forall c r, core = c :: r -> c <> q) /\ (forall c r, core = r ++ [c] -> c <> q).
  Definition word_first (s w : text) : Prop := exists rest, split_whitespace (u_ws U) s = w :: rest.
  Definition import_alias (r : text) (l : list text) : Prop :=
    ((forall a b, r <> a ++ txt " as " ++ b) /\ l = [])
    \/ exists a b, r = a ++ txt " as " ++ b /\ (forall a' b', r = a' ++ txt " as " ++ b' -> length a <= length a')
       /\ ((exists w, word_first b w /\ l = [w]) \/ (split_whitespace (u_ws U) b = [] /\ l = [])).
  Definition import_names (line : text) (l : list text) : Prop :=
    (~ marked U "import " line /\ l = [])
    \/ exists r, says U "import " line r
       /\ ((r = [] /\ l = [])
           \/ exists w w' m al, word_first r w /\ unquoted_with 34 w w' /\ unquoted_with 39 w' m /\ import_alias r al /\ l = (match m with [] => [] | _ => [m] end) ++ al).
  Definition file_imports (v : list text) : Prop := exists each_line, Forall2 import_names ls each_line /\ firsts (List.concat each_line) v.
  Definition mentions (code name : text) : Prop := exists a c b, code = a ++ name ++ c :: b /\ (c = 46%Z \/ c = 32%Z).
  Definition imports_mentioned (code : text) (v : list text) : Prop :=
    exists all keep, file_imports all /\ (forall x, keep x = true <-> mentions code x) /\ v = filter keep all.

  Inductive gives (p : option text) (n : tree) : qunit -> Prop :=
  | gives_object name code s v : of_kind ["ui_object_definition"] n -> field_says "type_name" n name -> code_of n code -> first_line code s -> object_variables n v ->
      gives p n {| q_name := name; q_line := t_first n + 1; q_end := t_last n + 1; q_kind := KClass; q_parent := p; q_signature := s; q_code := code; q_vars := v;
                   q_params := []; q_type := None; q_extends := None; q_imports := [] |}
  | gives_component name code s ex : of_kind ["ui_inline_component"] n -> field_says "name" n name -> code_of n code -> first_line code s ->
      ((no_field "component" n /\ ex = None) \/ exists c, in_field "component" n c /\ may_say "type_name" c ex) ->
      gives p n {| q_name := name; q_line := t_first n + 1; q_end := t_last n + 1; q_kind := KClass; q_parent := p; q_signature := s; q_code := code; q_vars := [txt "component"];
                   q_params := []; q_type := None; q_extends := ex; q_imports := [] |}
  | gives_signal name code s v : of_kind ["ui_signal"] n -> field_says "name" n name -> code_of n code -> own_line n s -> signal_parameters n v ->
      gives p n {| q_name := name; q_line := t_first n + 1; q_end := t_last n + 1; q_kind := match p with Some _ => KMethod | None => KFunction end; q_parent := p; q_signature := s; q_code := code;
                   q_vars := []; q_params := v; q_type := None; q_extends := None; q_imports := [] |}
  | gives_property name code s ty : of_kind ["ui_property"] n -> field_says "name" n name -> code_of n code -> own_line n s -> may_say "type" n ty ->
      gives p n {| q_name := name; q_line := t_first n + 1; q_end := t_last n + 1; q_kind := KConstant; q_parent := p; q_signature := s; q_code := code;
                   q_vars := []; q_params := []; q_type := ty; q_extends := None; q_imports := [] |}
  | gives_handler name code s : of_kind ["ui_binding"] n -> field_says "name" n name -> handler_name name -> code_of n code -> own_line n s ->
      gives p n {| q_name := name; q_line := t_first n + 1; q_end := t_last n + 1; q_kind := match p with Some _ => KMethod | None => KFunction end; q_parent := p; q_signature := s; q_code := code;
                   q_vars := []; q_params := []; q_type := None; q_extends := None; q_imports := [] |}
  | gives_function u v : of_kind ["function_declaration"; "generator_function_declaration"] n -> script_function n p = Some u -> imports_mentioned (q_code u) v ->
      gives p n {| q_name := q_name u; q_line := q_line u; q_end := q_end u; q_kind := q_kind u; q_parent := q_parent u; q_signature := q_signature u; q_code := q_code u;
                   q_vars := q_vars u; q_params := q_params u; q_type := q_type u; q_extends := q_extends u; q_imports := v |}
  | gives_constant u : of_kind ["variable_declaration"] n -> script_constant n = Some u -> gives p n u
  | gives_enum u : of_kind ["enum_declaration"] n -> script_class n = Some u ->
      gives p n {| q_name := q_name u; q_line := q_line u; q_end := q_end u; q_kind := q_kind u; q_parent := p; q_signature := q_signature u; q_code := q_code u;
                   q_vars := q_vars u; q_params := q_params u; q_type := q_type u; q_extends := q_extends u; q_imports := q_imports u |}.
End QML_SPEC.
