(** What a record of a piece of code should say: the places of a tree, what is read there, comments. *)
From Verif Require Import Base Text FtsText CallGraphSpec Analysis.
From Coq Require Import String.
Open Scope string_scope.
Open Scope nat_scope.
Open Scope list_scope.

(** The node at a place of a tree: the numbers of the children to go down by. *)
Inductive at_place : tree -> list nat -> tree -> Prop :=
| at_root t : at_place t [] t
| at_child t i c p n : nth_error (t_children t) i = Some c -> at_place c p n -> at_place t (i :: p) n.
(** The order in which places are read: a node before its children, children from left to right. *)
Inductive read_before : list nat -> list nat -> Prop :=
| above i q : read_before [] (i :: q)
| left_of i j p q : i < j -> read_before (i :: p) (j :: q)
| same_child i p q : read_before p q -> read_before (i :: p) (i :: q).
Definition of_kind (ks : list string) (n : tree) : Prop := exists k, In k ks /\ t_kind n = txt k.
(** [n] is the first node of these kinds, at most [depth] levels down. *)
Definition first_found (ks : list string) (depth : nat) (t n : tree) : Prop :=
  exists p, at_place t p n /\ List.length p <= depth /\ of_kind ks n
    /\ forall q m, at_place t q m -> List.length q <= depth -> of_kind ks m -> q = p \/ read_before p q.
(** the first child in a field; the first of several fields that is there, or else the first child *)
Definition in_field (f : string) (n c : tree) : Prop :=
  exists l r, t_children n = l ++ c :: r /\ t_field c = Some (txt f) /\ forall x, In x l -> t_field x <> Some (txt f).
Definition no_field (f : string) (n : tree) : Prop := forall x, In x (t_children n) -> t_field x <> Some (txt f).
Fixpoint in_fields (fs : list string) (n c : tree) : Prop :=
  match fs with
  | [] => exists r, t_children n = c :: r
  | f :: fs => in_field f n c \/ no_field f n /\ in_fields fs n c
  end.
(** [l] lists, in order and each once, the texts with a property. *)
Definition lists (l : list text) (P : text -> Prop) : Prop := StronglySorted comes_before l /\ forall s, In s l <-> P s.
(** the nodes of [t] with a property are [k] *)
Definition there_are (k : nat) (t : tree) (P : tree -> Prop) : Prop :=
  exists ps, NoDup ps /\ List.length ps = k /\ forall p, In p ps <-> exists n, at_place t p n /\ P n.
Definition somewhere (t : tree) (P : tree -> Prop) : Prop := exists p n, at_place t p n /\ P n.
Definition within (depth : nat) (t : tree) (P : tree -> Prop) : Prop := exists p n, at_place t p n /\ List.length p <= depth /\ P n.

(** Kinds of nodes counted: decisions and loops. *)
Definition decisions : list string :=
  ["if_statement"; "if_expression"; "match_expression"; "match_statement"; "switch_statement"; "case_statement"; "conditional_expression"; "ternary_expression"; "if"; "unless"; "when"].
Definition loops : list string :=
  ["for_statement"; "for_expression"; "while_statement"; "while_expression"; "loop_expression"; "for_in_statement"; "foreach_statement"; "do_statement"; "for"; "while"; "until"].
Definition failures : list string := ["try_statement"; "try_expression"; "catch_clause"; "rescue"; "except_clause"; "try"; "?"; "try_operator"].

(** Names: [s] is the last part of [full], cut at dots and double colons, without exclamation marks *)
Definition word_char (U : unicode) (c : Z) : Prop := u_alnum U c = true \/ c = 95%Z.
Definition initial (U : unicode) (s : text) : Prop := exists c r, s = c :: r /\ u_alpha U c = true.
Definition ends_name (full s : text) : Prop :=
  (forall a b, s <> a ++ [46%Z] ++ b) /\ (forall a b, s <> a ++ [58%Z; 58%Z] ++ b) /\ (forall a, s <> a ++ [33%Z])
  /\ exists before bangs, full = before ++ s ++ bangs /\ (forall c, In c bangs -> c = 33%Z)
    /\ (before = [] \/ (exists b, before = b ++ [46%Z]) \/ exists b, before = b ++ [58%Z; 58%Z]).
(** the same, with nothing doubtful: [s] is a plain word, and no third colon *)
Definition plain_name (U : unicode) (full s : text) : Prop :=
  initial U s /\ (forall c, In c s -> word_char U c)
  /\ exists before bangs, full = before ++ s ++ bangs /\ (forall c, In c bangs -> c = 33%Z)
    /\ (before = [] \/ (exists b, before = b ++ [46%Z])
        \/ exists b, before = b ++ [58%Z; 58%Z] /\ forall b', b <> b' ++ [58%Z]).

(** ** Comments *)
(** [t] is [s] without the blanks around it *)
Definition blanks (U : unicode) (s : text) : Prop := forall c, In c s -> u_ws U c = true.
Definition no_blank_around (U : unicode) (s : text) : Prop :=
  (forall c r, s = c :: r -> u_ws U c = false) /\ (forall c r, s = r ++ [c] -> u_ws U c = false).
Definition bared (U : unicode) (s t : text) : Prop := exists a b, s = a ++ t ++ b /\ blanks U a /\ blanks U b /\ no_blank_around U t.
(** a line that begins, after blanks, with a mark; a blank line *)
Definition marked (U : unicode) (mark : string) (l : text) : Prop := exists t r, bared U l t /\ t = txt mark ++ r.
Definition blank_line (U : unicode) (l : text) : Prop := blanks U l.
(** [s] is what a comment line says: the mark removed, as often as it is repeated, and blanks *)
Definition says (U : unicode) (mark : string) (l s : text) : Prop :=
  exists t k rest, bared U l t /\ t = List.concat (repeat (txt mark) k) ++ rest /\ 0 < k /\ starts_with (txt mark) rest = false /\ bared U rest s.
(** languages whose comment above is made of lines: the mark, and what may stand between *)
Definition line_style : list (string * (string * list string)) :=
  [("rust", ("///", ["//!"; "#["])); ("swift", ("///", [])); ("go", ("//", [])); ("ruby", ("#", []))].
Definition block_style : list string := ["javascript"; "typescript"; "vue"; "svelte"; "java"; "csharp"; "kotlin"; "scala"; "php"].
(** [block] is the run of lines above the code: comment lines, lines that may stand between, blank lines;
    [before] ends with a line that is none of these *)
Definition between (U : unicode) (skips : list string) (l : text) : Prop := blank_line U l \/ exists p, In p skips /\ marked U p l.
Definition run_above (U : unicode) (mark : string) (skips : list string) (before block : list text) : Prop :=
  (forall l, In l block -> marked U mark l \/ between U skips l)
  /\ (before = [] \/ exists b l, before = b ++ [l] /\ ~ marked U mark l /\ ~ between U skips l).
(** the comment lines of a run, in order, with what each says *)
Inductive comments (U : unicode) (mark : string) : list text -> list text -> Prop :=
| no_comment : comments U mark [] []
| comment_line l ls s ss : marked U mark l -> says U mark l s -> comments U mark ls ss -> comments U mark (l :: ls) (s :: ss)
| other_line l ls ss : ~ marked U mark l -> comments U mark ls ss -> comments U mark (l :: ls) ss.
(** ** Block comments *)
(** words that neither begin nor end with a star or a slash *)
Definition plain_words (w : text) : Prop :=
  w <> [] /\ (forall c r, w = c :: r -> c <> 42%Z /\ c <> 47%Z) /\ (forall c r, w = r ++ [c] -> c <> 42%Z /\ c <> 47%Z).
(** a line of a block comment: a star, then words *)
Definition starred (U : unicode) (l w : text) : Prop := exists r, bared U l (42%Z :: r) /\ bared U r w /\ plain_words w.
(** ** Python: the string that is the first statement of the body *)
Definition first_statement (t e : tree) : Prop :=
  exists b s bs ss, in_field "body" t b /\ t_children b = s :: bs /\ t_kind s = txt "expression_statement" /\ t_children s = e :: ss /\ t_kind e = txt "string".
(** [core] is [s] without the quotes around it *)
Definition unquoted (s core : text) : Prop :=
  exists a b, s = a ++ core ++ b /\ (forall c, In c (a ++ b) -> c = 34%Z \/ c = 39%Z)
    /\ (forall c r, core = c :: r -> c <> 34%Z /\ c <> 39%Z) /\ (forall c r, core = r ++ [c] -> c <> 34%Z /\ c <> 39%Z).
(** ** Imports: languages where the whole statement is read, and the kinds of nodes that are imports *)
Definition statement_imports : list (string * list string) :=
  [("python", ["import_statement"; "import_from_statement"]); ("rust", ["use_declaration"]); ("javascript", ["import_statement"]); ("typescript", ["import_statement"]);
   ("vue", ["import_statement"]); ("svelte", ["import_statement"]); ("java", ["import_declaration"]); ("swift", ["import_declaration"]); ("scala", ["import_declaration"]);
   ("csharp", ["using_directive"]); ("c", ["preproc_include"]); ("cpp", ["preproc_include"]); ("elixir", ["call"]); ("kotlin", ["import"]); ("haskell", ["import"]); ("php", ["namespace_use_declaration"])].
(** the part of a path that names the module: the last in the first four, the first elsewhere *)
Definition last_named : list string := ["java"; "kotlin"; "scala"; "csharp"].
(** kinds of calls, of variables, and of the parent class *)
Definition calls_of : list (string * list string) :=
  [("python", ["call"]); ("elixir", ["call"]); ("rust", ["call_expression"; "macro_invocation"]); ("go", ["call_expression"]); ("c", ["call_expression"]); ("cpp", ["call_expression"]);
   ("swift", ["call_expression"]); ("scala", ["call_expression"]); ("javascript", ["call_expression"]); ("typescript", ["call_expression"]); ("vue", ["call_expression"]); ("svelte", ["call_expression"]);
   ("java", ["method_invocation"; "object_creation_expression"]); ("csharp", ["method_invocation"; "object_creation_expression"]); ("ruby", ["call"; "method_call"]);
   ("kotlin", ["call_expression"; "navigation_expression"]); ("php", ["function_call_expression"; "method_call_expression"]); ("lua", ["function_call"]);
   ("haskell", ["function_application"]); ("ocaml", ["application_expression"])].
Definition variables_of : list (string * list string) :=
  [("python", ["assignment"; "named_expression"; "augmented_assignment"]); ("rust", ["let_declaration"]); ("javascript", ["variable_declarator"; "lexical_declaration"]);
   ("typescript", ["variable_declarator"; "lexical_declaration"]); ("vue", ["variable_declarator"; "lexical_declaration"]); ("svelte", ["variable_declarator"; "lexical_declaration"]);
   ("go", ["short_var_declaration"; "var_declaration"]); ("java", ["variable_declarator"; "local_variable_declaration"]); ("csharp", ["variable_declarator"; "local_variable_declaration"]);
   ("ruby", ["assignment"]); ("kotlin", ["property_declaration"; "variable_declaration"]); ("swift", ["property_declaration"; "constant_declaration"]); ("scala", ["val_definition"; "var_definition"]);
   ("php", ["simple_variable"]); ("lua", ["variable_declaration"; "local_variable_declaration"]); ("elixir", ["match"]); ("haskell", ["function_binding"])].
(** languages where the parent is in a field; where it is below a child of some kind *)
Definition parent_field : list (string * (string * string)) := [("java", ("superclass", "type_identifier")); ("ruby", ("superclass", "constant"))].
Definition parent_below : list (string * (list string * list string)) :=
  [("csharp", (["base_list"], ["identifier"])); ("kotlin", (["delegation_specifiers"], ["simple_identifier"; "identifier"]));
   ("swift", (["type_inheritance_clause"; "inheritance_specifier"], ["type_identifier"])); ("php", (["base_clause"], ["name"; "qualified_name"]));
   ("cpp", (["base_class_clause"], ["type_identifier"])); ("scala", (["extends_clause"], ["type_identifier"]))].
(** the word of an import statement that is read: the first that does not begin like a keyword *)
Definition like_keyword (w : text) : Prop := exists k, In k ["import"; "from"; "use"; "using"] /\ exists r, w = txt k ++ r.
Definition word_read (U : unicode) (stmt w : text) : Prop :=
  exists s, bared U stmt s
  /\ ((exists l r, split_whitespace (u_ws U) s = l ++ w :: r /\ (forall x, In x l -> like_keyword x) /\ ~ like_keyword w)
      \/ ((forall x, In x (split_whitespace (u_ws U) s) -> like_keyword x) /\ w = s)).
(** without the characters around it that are in no path *)
Definition path_char (U : unicode) (c : Z) : Prop := u_alnum U c = true \/ c = 95%Z \/ c = 46%Z.
Definition path_in (U : unicode) (w path : text) : Prop :=
  exists a b, w = a ++ path ++ b /\ (forall c, In c (a ++ b) -> ~ path_char U c)
    /\ (forall c r, path = c :: r -> path_char U c) /\ (forall c r, path = r ++ [c] -> path_char U c).
Definition last_component (path m : text) : Prop := exists before, path = before ++ m /\ (before = [] \/ exists b, before = b ++ [46%Z]) /\ ~ In 46%Z m.
Definition first_component (path m : text) : Prop :=
  exists after, path = m ++ after /\ (after = [] \/ (exists r, after = 46%Z :: r) \/ exists r, after = 58%Z :: 58%Z :: r) /\ ~ In 46%Z m /\ forall a b, m <> a ++ [58; 58]%Z ++ b.
Definition module_named (U : unicode) (lang : string) (stmt m : text) : Prop :=
  exists w path, word_read U stmt w /\ path_in U w path /\ if in_dec string_dec lang last_named then last_component path m else first_component path m.
(** the object of an attribute access, where it is a plain name: Python and JavaScript *)
Definition accesses : list (string * string) :=
  [("python", "attribute"); ("javascript", "member_expression"); ("typescript", "member_expression"); ("vue", "member_expression"); ("svelte", "member_expression")].
