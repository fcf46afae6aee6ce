(** What is to be recorded of a declaration: its name, its type, its type parameters, whether it is a method. *)
From Verif Require Import Base Text FtsText Analysis AnalysisSpec Qml QmlSpec Decls.
From Coq Require Import String.
Open Scope string_scope.
Open Scope nat_scope.
Open Scope list_scope.

(** the first child with a property; going down to the first child of some kinds from which [R] leads on *)
Definition first_child (P : tree -> Prop) (n c : tree) : Prop :=
  exists l r, t_children n = l ++ c :: r /\ P c /\ forall x, In x l -> ~ P x.
Definition through (ks : list string) (R : tree -> tree -> Prop) (n m : tree) : Prop :=
  exists c, first_child (fun c => of_kind ks c /\ exists m, R c m) n c /\ R c m.
(** one way, or else another *)
Definition otherwise (R S : tree -> tree -> Prop) (n m : tree) : Prop := R n m \/ (forall x, ~ R n x) /\ S n m.
Definition child_of (ks : list string) : tree -> tree -> Prop := first_child (of_kind ks).
Definition assigned (f : string) (n m : tree) : Prop := exists a r, t_children n = a :: r /\ of_kind ["assignment"] a /\ in_field f a m.

(** Where the name of a constant is written, by language; where its type is. *)
Definition name_places : list (list string * (tree -> tree -> Prop)) :=
  [ (["rust"], in_field "name");
    (["javascript"; "typescript"; "vue"; "svelte"], through ["variable_declarator"] (in_field "name"));
    (["go"], through ["const_spec"; "var_spec"] (otherwise (in_field "name") (child_of ["identifier"])));
    (["python"], assigned "left");
    (["c"; "cpp"], otherwise (through ["init_declarator"; "declarator"] (in_field "declarator")) (child_of ["identifier"]));
    (["kotlin"], otherwise (in_field "name") (through ["variable_declaration"] (child_of ["simple_identifier"])));
    (["swift"], through ["pattern_initializer"] (child_of ["identifier_pattern"; "simple_identifier"]));
    (["scala"], in_field "pattern");
    (["php"], through ["const_element"] (in_field "name"));
    (["elixir"], through ["call"] (in_field "target"));
    (["haskell"; "ocaml"], otherwise (in_field "name") (in_field "pattern")) ].
Definition type_places : list (list string * (tree -> tree -> Prop)) :=
  [ (["rust"], in_field "type");
    (["typescript"; "vue"; "svelte"], through ["variable_declarator"] (in_field "type"));
    (["go"], through ["const_spec"; "var_spec"] (in_field "type"));
    (["python"], assigned "type") ].
Definition spoken (lang : text) (ls : list string) : Prop := exists l, In l ls /\ lang = txt l.
Definition written (lang : text) (table : list (list string * (tree -> tree -> Prop))) (n m : tree) : Prop :=
  exists ls R, In (ls, R) table /\ spoken lang ls /\ R n m.
(** the name a constant gets; names that are kept in Python *)
Definition constant_name (css_name : tree -> option text) (lang : text) (n : tree) (s : text) : Prop :=
  (lang = txt "css" /\ css_name n = Some s)
  \/ (lang = txt "elixir" /\ exists m, written lang name_places n m /\ s = txt "@" ++ t_text m)
  \/ (lang <> txt "elixir" /\ exists m, written lang name_places n m /\ s = t_text m).
Definition capital (c : Z) : Prop := (65 <= c <= 90)%Z.
Definition all_caps (s : text) : Prop :=
  (exists c, In c s /\ capital c) /\ forall c, In c s -> capital c \/ (48 <= c <= 57)%Z \/ c = 95%Z.
Definition scripts : list string := ["javascript"; "typescript"; "vue"; "svelte"].
(** the first node of these kinds, however deep *)
Definition first_anywhere (ks : list string) (t n : tree) : Prop :=
  exists p, at_place t p n /\ of_kind ks n /\ forall q m, at_place t q m -> of_kind ks m -> q = p \/ read_before p q.
Definition recorded (css_name : tree -> option text) (lang : text) (n : tree) (d : declared) : Prop :=
  match d with
  | A_function s a => constant_name css_name lang n s /\ spoken lang scripts /\ first_anywhere ["arrow_function"] n a
  | A_constant s ty =>
    constant_name css_name lang n s /\ (lang = txt "python" -> all_caps s)
    /\ (spoken lang scripts -> forall p m, at_place n p m -> ~ of_kind ["arrow_function"] m)
    /\ match ty with
       | Some w => exists m, written lang type_places n m /\ w = t_text m
       | None => forall m, ~ written lang type_places n m
       end
  end.

Section TYPE_PARAMETERS.
  Variable U : unicode.
  (** the name a node gives: without blanks around, not empty, none of the keywords *)
  Definition gives_name (skip : list string) (n : tree) (s : text) : Prop :=
    bared U (t_text n) s /\ s <> [] /\ ~ spoken s skip.
  (** nodes of some kinds that are not below another one *)
  Definition outermost (ks : list string) (t : tree) (p : list nat) (n : tree) : Prop :=
    at_place t p n /\ of_kind ks n /\ forall q r m, p = q ++ r -> r <> [] -> at_place t q m -> ~ of_kind ks m.
  (** [v]: the names they give, in reading order, each once *)
  Definition names_of (ks skip : list string) (t : tree) (v : list text) : Prop :=
    exists ps ns names, StronglySorted read_before ps /\ Forall2 (at_place t) ps ns
      /\ (forall p n, outermost ks t p n <-> In p ps /\ at_place t p n)
      /\ each (gives_name skip) ns names /\ firsts names v.
  Definition identifiers : list (string * list string) :=
    [ ("java", ["type_identifier"; "identifier"]); ("typescript", ["type_identifier"; "identifier"]); ("vue", ["type_identifier"; "identifier"]);
      ("svelte", ["type_identifier"; "identifier"]); ("rust", ["type_identifier"; "identifier"]); ("csharp", ["identifier"]);
      ("kotlin", ["type_identifier"; "simple_identifier"]); ("swift", ["type_identifier"; "simple_identifier"]); ("scala", ["identifier"; "type_identifier"]) ].
  (** where the clause of type parameters is *)
  Definition clause (lang : text) (n c : tree) : Prop :=
    if text_eqb lang (txt "swift") then child_of ["generic_parameter_clause"] n c else in_field "type_parameters" n c.
  (** C++: names of types anywhere in the template, and names right below a parameter *)
  Definition template_name (t : tree) (s : text) : Prop :=
    exists p n, at_place t p n /\ gives_name [] n s
      /\ (forall q r m, p = q ++ r -> r <> [] -> at_place t q m -> ~ of_kind ["type_identifier"] m)
      /\ (of_kind ["type_identifier"] n
          \/ of_kind ["identifier"] n /\ exists q i m, p = q ++ [i] /\ at_place t q m /\ of_kind ["type_parameter_declaration"; "template_type_parameter"] m).
End TYPE_PARAMETERS.

(** Methods: which type a function belongs to *)
Definition receiver_type (U : unicode) (s w : text) : Prop :=
  exists stars rest, s = stars ++ rest /\ (forall c, In c stars -> c = 42%Z) /\ (forall r, rest <> 42%Z :: r) /\ bared U rest w.
Definition belongs (U : unicode) (lang : text) (up : list tree) (n : tree) (w : text) : Prop :=
  (lang = txt "go" /\ of_kind ["method_declaration"] n
     /\ exists r m, in_field "receiver" n r /\ through ["parameter_declaration"] (in_field "type") r m /\ receiver_type U (t_text m) w)
  \/ (lang = txt "rust" /\ exists p g rest m, up = p :: g :: rest /\ of_kind ["declaration_list"] p /\ of_kind ["impl_item"] g
     /\ in_field "type" g m /\ w = t_text m).
