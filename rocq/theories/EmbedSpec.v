(** What C103 says about the texts given to the model. *)
From Verif Require Import Base Text FtsTextSpec SqlModel MetaModel Units.
Open Scope nat_scope.

(** Words of a path: separated by / \ _ - . or white space, or where a lower-case letter is followed by
    an upper-case one, and nowhere else. *)
Section WORDS.
  Variables ws is_upper is_lower : Z -> bool.
  Definition gap (c : Z) : bool := ws c || existsb (Z.eqb c) (txt "/_-." ++ [92%Z]).
  Definition camel (a b : Z) : bool := is_lower a && is_upper b.
  (** no hump inside *)
  Fixpoint flat (w : text) : Prop := match w with a :: (b :: _) as r => camel a b = false /\ flat r | _ => True end.
  Inductive path_words : option Z -> text -> list text -> Prop :=
  | pw_end before g : all gap g -> path_words before g []
  | pw_word before g a w u b rest l : all gap g -> none gap (a :: w) -> flat (a :: w) -> a :: w = u ++ [b] ->
      (g = [] -> match before with Some c => camel c a = true | None => True end) ->
      path_words (Some b) rest l -> path_words before (g ++ (a :: w) ++ rest) ((a :: w) :: l).
End WORDS.

(** A regular expression, as far as it is a sequence of: plain characters, escaped characters, escapes
    such as \s and \b, alternations, quantifiers, anchors, groups and dots, repetitions in braces,
    classes in brackets without inner brackets and escapes. *)
Inductive item := Plain (c : Z) | Escaped (c : Z) | Class_escape (c : Z) | Alternation | Mark (c : Z) | Braces (body : text) | Brackets (body : text).
Definition item_ok (i : item) : Prop :=
  match i with
  | Plain c => ~ In c (txt "*+?^$().[|{" ++ [92%Z])
  | Escaped c => ~ In c (txt "sSwWdDbBnrt")
  | Class_escape c => In c (txt "sSwWdDbBnrt")
  | Alternation => True
  | Mark c => In c (txt "*+?^$().")
  | Braces body => ~ In (ch "}") body
  | Brackets body => ~ In (ch "[") body /\ ~ In (ch "]") body /\ ~ In 92%Z body
  end.
Definition written (i : item) : text :=
  match i with
  | Plain c => [c] | Escaped c => [92%Z; c] | Class_escape c => [92%Z; c] | Alternation => txt "|" | Mark c => [c]
  | Braces body => txt "{" ++ body ++ txt "}" | Brackets body => txt "[" ++ body ++ txt "]"
  end.
(** What it says in words: characters stand for themselves, \s and | separate, the rest is dropped. *)
Definition said (i : item) : text :=
  match i with Plain c => [c] | Escaped c => [c] | Class_escape _ | Alternation => [32%Z] | _ => [] end.

(** The description of a code unit: its lines before the code, without those that would be empty. *)
Definition some_text (o : option text) : text := match o with Some t => t | None => [] end.
Fixpoint commas (l : list text) : text := match l with [] => [] | [x] => x | x :: r => x ++ txt ", " ++ commas r end.
Definition kind_of_unit (t : text) : text :=
  some_text (option_map snd (find (fun p => text_eqb (fst p) t)
    [(txt "function", txt "Function"); (txt "method", txt "Method"); (txt "class", txt "Class"); (txt "constant", txt "Constant");
     (txt "document", txt "Document"); (txt "section", txt "Section"); (txt "rawcode", txt "Code block")])).
(** [always]: is the line written also if there is nothing to say *)
Definition described (u : code_unit) (file : text) : list (text * text * bool) :=
  [(kind_of_unit (cu_unit_type u) ++ txt ": ", cu_name u, true); (txt "Signature: ", cu_signature u, false); (txt "Extends: ", some_text (cu_extends u), false);
   (txt "Class: ", some_text (cu_parent_class u), false); (txt "Description: ", some_text (cu_docstring u), false);
   (txt "Parameters: ", commas (cu_parameters u), negb (match cu_parameters u with [] => true | _ => false end));
   (txt "Returns: ", some_text (cu_return_type u), false);
   (txt "Calls: ", commas (cu_calls u), negb (match cu_calls u with [] => true | _ => false end));
   (txt "Called by: ", commas (cu_called_by u), negb (match cu_called_by u with [] => true | _ => false end));
   (txt "Variables: ", commas (cu_variables u), negb (match cu_variables u with [] => true | _ => false end));
   (txt "Uses: ", commas (cu_imports u), negb (match cu_imports u with [] => true | _ => false end)); (txt "File: ", file, true)].
Definition description (u : code_unit) (file : text) : list text :=
  flat_map (fun p => match p with (label, value, always) => if always || negb (match value with [] => true | _ => false end) then [label ++ value] else [] end) (described u file).
