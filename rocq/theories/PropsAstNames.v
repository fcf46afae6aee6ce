(** C113: which nodes are functions, classes and constants, their names and bodies. *)
From Verif Require Import Base Text FtsText FtsTextSpec Analysis AnalysisSpec AnalysisTree AnalysisText Qml QmlSpec QmlText Decls DeclsSpec DeclsProofs AstNames AstNamesSpec AstNamesProofs.
From Verif Require Import PropsAnalysis.
From Coq Require Import String.
Open Scope string_scope.
Open Scope nat_scope.
Open Scope list_scope.
Notation length := List.length.

Definition fld (f k s : string) (cs : list tree) : tree := Tree (txt k) (Some (txt f)) true (txt s) 0 0 cs.
Definition nd (k s : string) (cs : list tree) : tree := Tree (txt k) None true (txt s) 0 0 cs.

(** A node is called as its language prescribes, and not otherwise. *)
Theorem C113_names U lang n s : get_node_name U lang n = Some s <-> node_name U lang n s.
Proof. apply node_name_iff. Qed.
Print Assumptions C113_names.
Definition c_function : tree := nd "function_definition" "int f(void) {}" [fld "type" "primitive_type" "int" []; fld "declarator" "function_declarator" "f(void)" [fld "declarator" "identifier" "f" []]].
Definition css_rule : tree := nd "rule_set" "" [nd "selectors" (" a," ++ String (Ascii.ascii_of_nat 10) "  b:hover ")%string []; nd "block" "{}" []].
Definition css_media : tree := nd "media_statement" "" [nd "at_keyword" "@media" []; nd "keyword_query" "screen" []; nd "feature_query" "(min-width:  9px)" []; nd "block" "{}" []].
Example C113_names_example :
  get_node_name ascii_unicode (txt "c") c_function = Some (txt "f")
  /\ get_node_name ascii_unicode (txt "css") css_rule = Some (txt "a, b:hover")
  /\ get_node_name ascii_unicode (txt "css") css_media = Some (txt "@media screen (min-width: 9px)")
  /\ get_node_name ascii_unicode (txt "cpp") (nd "class_specifier" "" [nd "type_identifier" "Box" []]) = Some (txt "Box")
  /\ get_node_name ascii_unicode (txt "vue") (nd "method_definition" "" [fld "property" "identifier" "m" []]) = Some (txt "m")
  /\ get_node_name ascii_unicode (txt "vue") (nd "arrow_function" "" []) = None
  /\ find_class_body (txt "css") css_media = Some (nd "block" "{}" []).
Proof. repeat match goal with |- _ /\ _ => split end; vm_compute; reflexivity. Qed.

(** A name is never empty, except that of a C or C++ type. *)
Theorem C113_not_empty U lang n : get_node_name U lang n = Some [] -> (lang = txt "c" \/ lang = txt "cpp") /\ of_kind ["class_specifier"; "struct_specifier"; "union_specifier"; "enum_specifier"] n.
Proof.
  rewrite node_name_iff. intros [(_ & H)|[((l & I & ->) & K & _)|(_ & X & _)]]; [|split; [destruct I as [<-|[<-|[]]]; auto|exact K]|congruence].
  exfalso. remember (@nil Z) as e eqn:E. destruct H as [c s K C (l & Sp & N & ->)|c s K C (l & Sp & N & ->)|k a cs l I K X Ea|k a I K].
  - destruct Sp as [|g w r l G Nw W R Sp]; [congruence|]. destruct l; cbn [join] in E; [congruence|]. destruct w; [congruence|discriminate].
  - discriminate E.
  - destruct I as [Y|[Y|[]]]; injection Y as <- <-; destruct l; discriminate E.
  - destruct I as [Y|[Y|[Y|[]]]]; injection Y as <- <-; discriminate E.
Qed.
Print Assumptions C113_not_empty.
Example C113_not_empty_example : get_node_name ascii_unicode (txt "c") (nd "struct_specifier" "" [fld "name" "type_identifier" "" []]) = Some [] /\ get_node_name ascii_unicode (txt "rust") (nd "struct_item" "" [fld "name" "type_identifier" "" []]) = None.
Proof. split; vm_compute; reflexivity. Qed.

(** The name of a CSS rule is on one line: no blank but single spaces inside. *)
Theorem C113_one_line U n s c : u_ws U 32%Z = true -> get_node_name U (txt "css") n = Some s -> In c s -> u_ws U c = true -> (forall d, In d (txt "@mediasupportskeyframesimportcharsetnamespace") -> u_ws U d = false) -> c = 32%Z.
Proof.
  intros W H I B At. apply node_name_iff in H.
  assert (J : forall l, Forall (fun w => forall d, In d w -> u_ws U d = true -> d = 32%Z) l -> forall d, In d (join (txt " ") l) -> u_ws U d = true -> d = 32%Z).
  { intros l F. induction F as [|w l Hw F IH]; intros d J Bd; [destruct J|]. destruct l as [|w' l]; [exact (Hw d J Bd)|]. change (join (txt " ") (w :: w' :: l)) with (w ++ txt " " ++ join (txt " ") (w' :: l)) in J.
    apply in_app_or in J. destruct J as [J|J]; [exact (Hw d J Bd)|]. apply in_app_or in J. destruct J as [[<-|[]]|J]; [reflexivity|exact (IH d J Bd)]. }
  assert (Wd : forall m l, splits (u_ws U) m l -> Forall (fun w => forall d, In d w -> u_ws U d = true -> d = 32%Z) l).
  { intros m l Sp. induction Sp as [g G|g w r l G N Nw R Sp IH]; constructor; [|exact IH]. intros d K Bd. rewrite (N d K) in Bd. discriminate. }
  assert (In_words : forall m t, in_words U m t -> forall d, In d t -> u_ws U d = true -> d = 32%Z).
  { intros m t (l & Sp & _ & ->). apply J. exact (Wd _ _ Sp). }
  assert (Ats : forall a, (forallb (fun d => existsb (Z.eqb d) (32%Z :: txt "@mediasupportskeyframesimportcharsetnamespace")) a) = true -> forall d, In d a -> u_ws U d = true -> d = 32%Z).
  { intros a F d K Bd. rewrite forallb_forall in F. specialize (F d K). apply existsb_exists in F. destruct F as (x & X & E). apply Z.eqb_eq in E. subst x. destruct X as [<-|X]; [reflexivity|]. rewrite (At d X) in Bd. discriminate. }
  destruct H as [(_ & H)|[((l & [<-|[<-|[]]] & E) & _)|(_ & _ & m & H & _)]]; [|discriminate E|discriminate E|destruct (css_uncalled _ _ H)].
  destruct H as [x s K C V|x s K C V|k a cs l Ia K X Ea|k a Ia K].
  - exact (In_words _ _ V c I B).
  - apply in_app_or in I. destruct I as [I|I]; [|exact (In_words _ _ V c I B)]. apply (Ats (txt "@keyframes ")); [vm_compute; reflexivity|exact I|exact B].
  - revert I B. apply J. constructor.
    + apply Ats. destruct Ia as [Y|[Y|[]]]; injection Y as <- <-; vm_compute; reflexivity.
    + clear -Ea In_words. induction Ea as [|u v r t V Ea IH|u r t V Ea IH]; [constructor|constructor; [exact (In_words _ _ V)|exact IH]|exact IH].
  - revert I B. apply Ats. destruct Ia as [Y|[Y|[Y|[]]]]; injection Y as <- <-; vm_compute; reflexivity.
Qed.
Print Assumptions C113_one_line.
Example C113_one_line_example : u_ws ascii_unicode 32%Z = true /\ (forall d, In d (txt "@mediasupportskeyframesimportcharsetnamespace") -> u_ws ascii_unicode d = false) /\ get_node_name ascii_unicode (txt "css") css_rule = Some (txt "a, b:hover").
Proof.
  split; [reflexivity|split; [|vm_compute; reflexivity]]. apply Forall_forall.
  assert (B : forallb (fun d => negb (u_ws ascii_unicode d)) (txt "@mediasupportskeyframesimportcharsetnamespace") = true) by (vm_compute; reflexivity).
  apply Forall_forall. intros d I. rewrite forallb_forall in B. apply negb_true_iff. exact (B d I).
Qed.

(** The body of a class is where its language prescribes. *)
Theorem C113_bodies lang n m : find_class_body lang n = Some m <-> written lang bodies n m.
Proof. apply body_iff. Qed.
Print Assumptions C113_bodies.
Example C113_bodies_example : written (txt "cpp") bodies (nd "class_specifier" "" [nd "field_declaration_list" "{}" []]) (nd "field_declaration_list" "{}" []) /\ forall n m, ~ written (txt "sql") bodies n m.
Proof. split; [apply body_iff; vm_compute; reflexivity|]. intros n m H. apply body_iff in H. discriminate H. Qed.

(** No node is of two of the three kinds, except in Elixir, Haskell and OCaml. *)
Theorem C113_one_kind lang k : ~ spoken lang ["elixir"; "haskell"; "ocaml"] ->
  (is_function_node lang k = true -> is_class_node lang k = false /\ is_constant_node lang k = false)
  /\ (is_class_node lang k = true -> is_constant_node lang k = false).
Proof.
  intro N.
  set (all := ["python"; "rust"; "typescript"; "javascript"; "vue"; "svelte"; "go"; "java"; "c"; "cpp"; "ruby"; "csharp"; "kotlin"; "swift"; "scala"; "php"; "lua"; "r"; "zig"; "julia"; "sql"; "css"]).
  assert (D : forall a b, forallb (fun x => negb (one_of b (txt x))) a = true -> one_of a k = true -> one_of b k = false).
  { intros a b F H. unfold one_of in H at 1. apply mem_in, in_map_iff in H. destruct H as (x & <- & I). rewrite forallb_forall in F. apply negb_true_iff. exact (F x I). }
  destruct (is lang all) eqn:L.
  - apply is_spoken in L. destruct L as (l & I & ->). unfold all in I. cbn [In] in I.
    unfold is_function_node, is_class_node, is_constant_node.
    repeat (destruct I as [<-|I]; [split; [intro H; split; revert H|]; apply D; vm_compute; reflexivity|]). destruct I.
  - assert (O : forall ls, (forallb (fun l => one_of (all ++ ["elixir"; "haskell"; "ocaml"]) (txt l)) ls) = true -> is lang ls = false).
    { intros ls F. destruct (is lang ls) eqn:X; [|reflexivity]. apply is_spoken in X. destruct X as (l & I & ->). rewrite forallb_forall in F. specialize (F l I).
      unfold one_of in F. apply mem_in, in_map_iff in F. destruct F as (y & E & J). apply in_app_or in J. destruct J as [J|J].
      - exfalso. assert (is (txt l) all = true) by (apply is_spoken; exists y; auto). congruence.
      - destruct N. exists y. auto. }
    assert (P : forall (table : list (list string * list string)), forallb (fun row => forallb (fun l => one_of (all ++ ["elixir"; "haskell"; "ocaml"]) (txt l)) (fst row)) table = true -> pick lang table [] = []).
    { intros table F. induction table as [|(ls & a) r IH]; [reflexivity|]. cbn [forallb fst] in F. apply andb_true_iff in F. destruct F as (F1 & F2). cbn [pick]. rewrite (O _ F1). exact (IH F2). }
    unfold is_function_node, is_class_node, is_constant_node. rewrite !P by (vm_compute; reflexivity). split; discriminate.
Qed.
Print Assumptions C113_one_kind.
Example C113_one_kind_example : is_function_node (txt "go") (txt "method_declaration") = true /\ is_class_node (txt "css") (txt "rule_set") = true /\ ~ spoken (txt "go") ["elixir"; "haskell"; "ocaml"].
Proof. split; [vm_compute; reflexivity|split; [vm_compute; reflexivity|]]. intro X. apply is_spoken in X. discriminate X. Qed.

(** ** Not true of the code *)
(** In Elixir a node is a function and a class at once; in Haskell a function and a constant. *)
Theorem C113_one_kind_refuted : ~ forall lang k, is_function_node lang k = true -> is_class_node lang k = false /\ is_constant_node lang k = false.
Proof. intro H. destruct (H (txt "elixir") (txt "call")) as (X & _); [vm_compute; reflexivity|]. vm_compute in X. discriminate X. Qed.
Print Assumptions C113_one_kind_refuted.
(** Every function of an Elixir module is called by the word that defines it. *)
Definition elixir_def (name : string) : tree := nd "call" "" [fld "target" "identifier" "def" []; nd "arguments" "" [nd "call" "" [fld "target" "identifier" name []]]].
Theorem C113_elixir_refuted : ~ forall U a b, get_node_name U (txt "elixir") (elixir_def a) = get_node_name U (txt "elixir") (elixir_def b) -> a = b.
Proof. intro H. specialize (H ascii_unicode "push" "pop"). assert (E : "push" = "pop") by (apply H; vm_compute; reflexivity). discriminate E. Qed.
Print Assumptions C113_elixir_refuted.
(** A C function that returns a pointer is called by its whole declarator. *)
Definition c_pointer : tree :=
  nd "function_definition" "char *f(void) {}" [fld "declarator" "pointer_declarator" "*f(void)" [fld "declarator" "function_declarator" "f(void)" [fld "declarator" "identifier" "f" []]]].
Theorem C113_pointer_refuted : ~ forall U n s, get_node_name U (txt "c") n = Some s -> exists p m, at_place n p m /\ of_kind ["identifier"; "type_identifier"; "field_identifier"] m /\ t_text m = s.
Proof.
  intro H. destruct (H ascii_unicode c_pointer (txt "*f(void)")) as (p & m & A & K & T); [vm_compute; reflexivity|].
  assert (I : In m (nodes c_pointer)) by (apply in_nodes; eauto). apply of_kind_mem in K.
  assert (B : forallb (fun c => negb (one_of ["identifier"; "type_identifier"; "field_identifier"] (t_kind c) && text_eqb (t_text c) (txt "*f(void)"))) (nodes c_pointer) = true) by (vm_compute; reflexivity).
  rewrite forallb_forall in B. specialize (B m I). rewrite K, T in B. discriminate B.
Qed.
Print Assumptions C113_pointer_refuted.
(** A Go type has no name where it is looked for. *)
Theorem C113_go_type_refuted : ~ forall U n c m, is_class_node (txt "go") (t_kind n) = true -> In c (t_children n) -> of_kind ["type_spec"] c -> in_field "name" c m -> t_text m <> [] -> exists s, get_node_name U (txt "go") n = Some s.
Proof.
  intro H. set (m := fld "name" "type_identifier" "Stack" []). set (c := nd "type_spec" "Stack struct{}" [m; fld "type" "struct_type" "struct{}" []]).
  destruct (H ascii_unicode (nd "type_declaration" "type Stack struct{}" [nd "type" "type" []; c]) c m) as (s & E).
  - vm_compute. reflexivity.
  - right. left. reflexivity.
  - exists "type_spec". split; [left; reflexivity|reflexivity].
  - apply by_field_iff. reflexivity.
  - discriminate.
  - vm_compute in E. discriminate E.
Qed.
Print Assumptions C113_go_type_refuted.
