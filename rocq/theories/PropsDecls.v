(** C112: what is recorded of declarations: names and types of constants, type parameters, methods. *)
From Verif Require Import Base Text FtsText Analysis AnalysisSpec AnalysisTree AnalysisText Qml QmlSpec QmlText Decls DeclsSpec DeclsProofs DeclsTypes.
From Verif Require Import PropsAnalysis.
From Coq Require Import String.
Open Scope string_scope.
Open Scope nat_scope.
Open Scope list_scope.
Notation length := List.length.

Definition fld (f k s : string) (cs : list tree) : tree := Tree (txt k) (Some (txt f)) true (txt s) 0 0 cs.
Definition nd (k s : string) (cs : list tree) : tree := Tree (txt k) None true (txt s) 0 0 cs.
Definition no_css (n : tree) : option text := None.

(** A declaration is recorded exactly as a constant or a function of the name written in it. *)
Theorem C112_constants css lang n d : extract_constant lang css n = Some d <-> recorded css lang n d.
Proof. apply recorded_iff. Qed.
Print Assumptions C112_constants.
Definition go_const : tree :=
  nd "const_declaration" "const ( A int = 1; B = 2 )" [
    nd "const" "const" [];
    nd "const_spec" "A int = 1" [fld "name" "identifier" "A" []; fld "type" "type_identifier" "int" []];
    nd "const_spec" "B = 2" [fld "name" "identifier" "B" []]].
Definition py_const (name : string) : tree :=
  nd "expression_statement" "" [nd "assignment" "" [fld "left" "identifier" name []; fld "type" "type" "int" []; fld "right" "integer" "3" []]].
Definition js_arrow : tree :=
  nd "lexical_declaration" "const f = async x => g(y => y)" [
    nd "variable_declarator" "f = x => g(y => y)" [
      fld "name" "identifier" "f" [];
      fld "value" "arrow_function" "x => g(y => y)" [nd "call_expression" "g(y => y)" [nd "arrow_function" "y => y" []]]]].
Example C112_constants_example :
  extract_constant (txt "go") no_css go_const = Some (A_constant (txt "A") (Some (txt "int")))
  /\ extract_constant (txt "python") no_css (py_const "MAX_2") = Some (A_constant (txt "MAX_2") (Some (txt "int")))
  /\ extract_constant (txt "python") no_css (py_const "Max") = None
  /\ extract_constant (txt "python") no_css (py_const "__1") = None
  /\ (exists a, extract_constant (txt "vue") no_css js_arrow = Some (A_function (txt "f") a) /\ t_text a = txt "x => g(y => y)")
  /\ extract_constant (txt "elixir") no_css (nd "unary_operator" "@x 1" [nd "call" "x 1" [fld "target" "identifier" "x" []]]) = Some (A_constant (txt "@x") None)
  /\ extract_constant (txt "c") no_css (nd "declaration" "int x" [nd "primitive_type" "int" []; fld "declarator" "identifier" "x" []]) = Some (A_constant (txt "x") None).
Proof.
  repeat match goal with |- _ /\ _ => split end; try (vm_compute; reflexivity).
  eexists. split; vm_compute; reflexivity.
Qed.

(** Exactly one language says where a name is: what is written is a function of the declaration. *)
Theorem C112_one_name css lang n s s' : constant_name css lang n s -> constant_name css lang n s' -> s = s'.
Proof. rewrite <- !constant_name_iff. congruence. Qed.
Print Assumptions C112_one_name.
Example C112_one_name_example : constant_name no_css (txt "go") go_const (txt "A").
Proof. apply constant_name_iff. vm_compute. reflexivity. Qed.

(** Type parameters: in every language that has them, the names in the clause, each once, in order. *)
Theorem C112_type_parameters U l ks up n : In (l, ks) identifiers ->
  (forall c, clause (txt l) n c -> names_of U ks ["extends"; "super"; "where"] c (extract_class_type_parameters U (txt l) up n))
  /\ ((forall c, ~ clause (txt l) n c) -> extract_class_type_parameters U (txt l) up n = []).
Proof.
  intro I. unfold identifiers in I. cbn [In] in I.
  repeat (destruct I as [E|I];
    [injection E as <- <-; unfold extract_class_type_parameters, clause; langs;
     match goal with |- context [text_eqb ?a ?b] => let v := eval vm_compute in (text_eqb a b) in change (text_eqb a b) with v end; cbv iota;
     split; [intros c C; first [apply by_field_iff in C | apply by_kind_iff in C]; rewrite C;
             match goal with |- context [type_param_names U ?x] => try (apply (names_of_iff U x c); reflexivity) end
            |intro N; match goal with |- match ?o with _ => _ end = _ => destruct o as [c|] eqn:O; [|reflexivity] end;
             exfalso; apply (N c); first [apply by_field_iff; exact O | apply by_kind_iff; exact O]]|]).
  all: try destruct I.
Qed.
Print Assumptions C112_type_parameters.
Definition rust_struct : tree :=
  nd "struct_item" "struct P<T: Show, U, T>" [
    fld "name" "type_identifier" "P" [];
    fld "type_parameters" "type_parameters" "<T: Show, U, T>" [
      nd "type_parameter" "T: Show" [fld "name" "type_identifier" "T" []; fld "bounds" "trait_bounds" ": Show" [nd "type_identifier" "Show" []]];
      nd "type_parameter" "U" [fld "name" "type_identifier" "U" []];
      nd "type_parameter" "T" [fld "name" "type_identifier" "T" []]]].
Example C112_type_parameters_example :
  extract_class_type_parameters ascii_unicode (txt "rust") [] rust_struct = [txt "T"; txt "Show"; txt "U"]
  /\ (exists c, clause (txt "rust") rust_struct c)
  /\ extract_class_type_parameters ascii_unicode (txt "python") [] rust_struct = [].
Proof.
  repeat match goal with |- _ /\ _ => split end; try (vm_compute; reflexivity).
  eexists. unfold clause. change (text_eqb (txt "rust") (txt "swift")) with false. cbv iota. apply by_field_iff. reflexivity.
Qed.

(** In other languages nothing is recorded; in C++ only below a template. *)
Theorem C112_no_type_parameters U lang up n :
  (forall l ks, In (l, ks) identifiers -> lang <> txt l) -> (lang = txt "cpp" -> forall p r, up = p :: r -> ~ of_kind ["template_declaration"] p) ->
  extract_class_type_parameters U lang up n = [].
Proof.
  intros N C. unfold extract_class_type_parameters. destruct (is lang ["cpp"]) eqn:E.
  - apply is_one in E. destruct up as [|p r]; [reflexivity|]. specialize (C E p r eq_refl). rewrite of_kind_mem in C. destruct (one_of _ _); [destruct (C eq_refl)|reflexivity].
  - assert (A : forall ls, (forall l, In l ls -> exists ks, In (l, ks) identifiers) -> is lang ls = false).
    { intros ls H. destruct (is lang ls) eqn:X; [|reflexivity]. apply is_spoken in X. destruct X as (l & Il & El). destruct (H l Il) as (ks & J). destruct (N l ks J El). }
    rewrite !A; [reflexivity| |]; intros l I; cbn [In] in I; unfold identifiers; repeat (destruct I as [<-|I]; [eexists; cbn [In]; intuition reflexivity|]); destruct I.
Qed.
Print Assumptions C112_no_type_parameters.
Example C112_no_type_parameters_example : forall l ks, In (l, ks) identifiers -> txt "go" <> txt l.
Proof. intros l ks I. unfold identifiers in I. cbn [In] in I. repeat (destruct I as [E|I]; [injection E as <- <-; discriminate|]). destruct I. Qed.

(** C++: each once, the names of types anywhere in the template, and names right below its parameters. *)
Theorem C112_templates U t r n : of_kind ["template_declaration"] t ->
  let v := extract_class_type_parameters U (txt "cpp") (t :: r) n in
  NoDup v /\ forall s, In s v <-> template_name U t s.
Proof.
  intros K v. unfold v, extract_class_type_parameters. langs. apply of_kind_mem in K. rewrite K. apply template_visit_iff.
Qed.
Print Assumptions C112_templates.
Definition cpp_class : tree :=
  nd "class_specifier" "class Box { Item x; }" [fld "name" "type_identifier" "Box" []; fld "body" "field_declaration_list" "{ Item x; }" [nd "field_declaration" "Item x;" [fld "type" "type_identifier" "Item" []]]].
Definition cpp_template : tree :=
  nd "template_declaration" "template <typename T> class Box { Item x; }" [
    fld "parameters" "template_parameter_list" "<typename T>" [nd "type_parameter_declaration" "typename T" [nd "type_identifier" "T" []]]; cpp_class].
Example C112_templates_example : extract_class_type_parameters ascii_unicode (txt "cpp") [cpp_template] cpp_class = [txt "T"; txt "Box"; txt "Item"] /\ of_kind ["template_declaration"] cpp_template.
Proof. split; [vm_compute; reflexivity|]. exists "template_declaration". split; [left; reflexivity|reflexivity]. Qed.

(** A function is a method exactly when it is in a class or belongs to a type, which is then named. *)
Theorem C112_methods U lang up n class m w :
  function_type U lang up n class = (m, w) <->
  match class with
  | Some _ => m = true /\ w = None
  | None => (m = true /\ exists t, w = Some t /\ belongs U lang up n t) \/ (m = false /\ w = None /\ forall t, ~ belongs U lang up n t)
  end.
Proof. apply function_type_iff. Qed.
Print Assumptions C112_methods.
Definition go_method (ty : string) : tree :=
  nd "method_declaration" "" [fld "receiver" "parameter_list" "" [nd "(" "(" []; nd "parameter_declaration" "" [fld "name" "identifier" "s" []; fld "type" "pointer_type" ty []]]; fld "name" "field_identifier" "Push" []].
Definition rust_impl : tree := nd "impl_item" "" [fld "trait" "type_identifier" "Show" []; fld "type" "type_identifier" "Point" []].
Example C112_methods_example :
  function_type ascii_unicode (txt "go") [] (go_method "* Stack") None = (true, Some (txt "Stack"))
  /\ function_type ascii_unicode (txt "rust") [nd "declaration_list" "" []; rust_impl] (nd "function_item" "" []) None = (true, Some (txt "Point"))
  /\ function_type ascii_unicode (txt "rust") [nd "declaration_list" "" []; nd "mod_item" "" []] (nd "function_item" "" []) None = (false, None)
  /\ function_type ascii_unicode (txt "java") [] (nd "method_declaration" "" []) (Some (txt "A")) = (true, None).
Proof. repeat split; vm_compute; reflexivity. Qed.

(** ** Not true of the code *)
(** A name recorded as a type parameter need not be the name of one: bounds are recorded too. *)
Theorem C112_bounds_refuted : ~ forall U lang up n s, In s (extract_class_type_parameters U lang up n) ->
  exists p c m, at_place n p c /\ of_kind ["type_parameter"] c /\ in_field "name" c m /\ t_text m = s.
Proof.
  intro H. specialize (H ascii_unicode (txt "rust") [] rust_struct (txt "Show")).
  destruct H as (p & c & m & A & K & F & T); [vm_compute; auto|].
  assert (I : In c (nodes rust_struct)) by (apply in_nodes; eauto). apply by_field_iff in F. apply of_kind_mem in K.
  assert (B : forallb (fun c => negb (one_of ["type_parameter"] (t_kind c) && match by_field "name" c with Some m => text_eqb (t_text m) (txt "Show") | None => false end)) (nodes rust_struct) = true) by (vm_compute; reflexivity).
  rewrite forallb_forall in B. specialize (B c I). rewrite K, F, T in B. discriminate B.
Qed.
Print Assumptions C112_bounds_refuted.
(** A C++ class may be recorded as its own template parameter. *)
Theorem C112_template_refuted : ~ forall U t r n name, In n (t_children t) -> in_field "name" n name ->
  ~ In (t_text name) (extract_class_type_parameters U (txt "cpp") (t :: r) n).
Proof.
  intro H. apply (H ascii_unicode cpp_template [] cpp_class (fld "name" "type_identifier" "Box" [])); [right; left; reflexivity|apply by_field_iff; reflexivity|]. vm_compute. auto.
Qed.
Print Assumptions C112_template_refuted.
(** Of several constants declared together only one is recorded. *)
Theorem C112_several_refuted : ~ forall css n c m, In c (t_children n) -> of_kind ["const_spec"] c -> in_field "name" c m -> constant_name css (txt "go") n (t_text m).
Proof.
  intro H. specialize (H no_css go_const (nd "const_spec" "B = 2" [fld "name" "identifier" "B" []]) (fld "name" "identifier" "B" [])).
  assert (C : constant_name no_css (txt "go") go_const (txt "B")).
  { apply H; [cbn; auto|exists "const_spec"; split; [left; reflexivity|reflexivity]|apply by_field_iff; reflexivity]. }
  apply constant_name_iff in C. vm_compute in C. discriminate C.
Qed.
Print Assumptions C112_several_refuted.
(** A constant is recorded as a function although its value is not one. *)
Definition js_mapped : tree :=
  nd "lexical_declaration" "const ids = xs.map(x => x.id)" [
    nd "variable_declarator" "ids = xs.map(x => x.id)" [
      fld "name" "identifier" "ids" [];
      fld "value" "call_expression" "xs.map(x => x.id)" [fld "arguments" "arguments" "(x => x.id)" [nd "arrow_function" "x => x.id" []]]]].
Theorem C112_arrow_refuted : ~ forall css lang n s a, extract_constant lang css n = Some (A_function s a) ->
  exists d, In d (t_children n) /\ in_field "value" d a.
Proof.
  intro H. destruct (H no_css (txt "javascript") js_mapped (txt "ids") (nd "arrow_function" "x => x.id" [])) as (d & [<-|[]] & F); [vm_compute; reflexivity|].
  apply by_field_iff in F. vm_compute in F. discriminate F.
Qed.
Print Assumptions C112_arrow_refuted.
(** A method of a generic Go type is not recorded under the name of the type. *)
Theorem C112_receiver_refuted : ~ forall U up n r p ty m base w, in_field "receiver" n r -> In p (t_children r) -> in_field "type" p ty -> in_field "type" ty base ->
  function_type U (txt "go") up n None = (m, Some w) -> w = t_text base.
Proof.
  intro H. set (base := fld "type" "type_identifier" "Stack" []). set (ty := fld "type" "generic_type" "Stack[T]" [base; fld "type_arguments" "type_arguments" "[T]" []]).
  set (p := nd "parameter_declaration" "s Stack[T]" [ty]). set (r := fld "receiver" "parameter_list" "(s Stack[T])" [p]).
  specialize (H ascii_unicode [] (nd "method_declaration" "" [r]) r p ty true base (txt "Stack[T]")).
  assert (E : txt "Stack[T]" = txt "Stack"); [|discriminate E]. apply H; try (apply by_field_iff; reflexivity); [left; reflexivity|vm_compute; reflexivity].
Qed.
Print Assumptions C112_receiver_refuted.
