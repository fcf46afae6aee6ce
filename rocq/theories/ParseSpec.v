(** What a user expects of the units of a file. *)
From Verif Require Import Base Text FtsText Units Parse.
Open Scope nat_scope.

(** Lines [a] to [b] of a file, counted from 1. *)
Definition lines_of (a b : nat) (ls : list text) : list text := firstn (b - (a - 1)) (skipn (a - 1) ls).
(** Line [k] of the file has something else than white space. *)
Definition says_something (U : unicode) (ls : list text) (k : nat) : Prop :=
  1 <= k /\ exists l, nth_error ls (k - 1) = Some l /\ exists c, In c l /\ u_ws U c = false.
(** The code of a unit is the text of the lines it names. *)
Definition shows_its_lines (ls : list text) (u : code_unit) : Prop :=
  1 <= cu_line u <= cu_end_line u /\ cu_code u = join_lines (lines_of (cu_line u) (cu_end_line u) ls).
Definition has_line (u : code_unit) (k : nat) : Prop := cu_line u <= k <= cu_end_line u.
(** Every line that says something is in some unit. *)
Definition covers (U : unicode) (ls : list text) (units : list code_unit) : Prop :=
  forall k, says_something U ls k -> exists u, In u units /\ has_line u k.

(** Syntax trees: [inside n m]: [m] is [n] or below it.  The rows of nodes lie in the file. *)
Inductive inside : node -> node -> Prop :=
| in_here n : inside n n
| in_child n c m : In c (n_children n) -> inside c m -> inside n m.
Definition rows_ok (total : nat) (root : node) : Prop := forall m, inside root m -> n_first m <= n_last m /\ n_first m <= total.
Definition bodies_ok (G : grammar) : Prop := forall n b, g_body G n = Some b -> In b (n_children n).
Fixpoint height (n : node) : nat := let 'Node _ _ _ cs := n in list_max (map (fun c => S (height c)) cs).

(** The unit made of a node: the fields found by the analysis, and the lines from the attributes
    above the node to its last line. *)
Definition above_belongs (U : unicode) (G : grammar) (ls : list text) (k : nat) : Prop :=
  match nth_error ls (k - 1) with
  | Some l => (forall c, In c l -> u_ws U c = true) \/ g_attribute G (trim (u_ws U) l) = true
  | None => True
  end.
Definition unit_of_node (U : unicode) (G : grammar) (ls : list text) (n : node) (found u : code_unit) : Prop :=
  cu_name u = cu_name found /\ cu_unit_type u = cu_unit_type found /\ cu_docstring u = cu_docstring found /\ cu_parameters u = cu_parameters found
  /\ cu_calls u = cu_calls found /\ cu_imports u = cu_imports found /\ cu_qualified_name u = cu_qualified_name found
  /\ cu_end_line u = n_last n + 1 /\ cu_line u <= n_first n + 1
  /\ (forall k, cu_line u <= k <= n_first n -> above_belongs U G ls k).

(** The pieces in between: made of lines no unit has, from a line that says something to one that
    does, one after the other, a unit between any two. *)
Definition in_between (U : unicode) (ls : list text) (found : list code_unit) (r : code_unit) : Prop :=
  cu_unit_type r = txt "rawcode" /\ says_something U ls (cu_line r) /\ says_something U ls (cu_end_line r)
  /\ forall u k, In u found -> has_line u k -> ~ has_line r k.
Definition apart (found : list code_unit) (r1 r2 : code_unit) : Prop :=
  exists u k, In u found /\ has_line u k /\ cu_end_line r1 < k < cu_line r2.

(** ** Which nodes become units *)
Section UNITS.
  Variable G : grammar.
  (** scripts of HTML, Vue and Svelte files: every class body is entered *)
  Variable script : bool.
  (** A node of its own: a function or class with a name, or a constant that is not in a class. *)
  Definition is_function (n : node) : Prop := g_function G (n_kind n) = true.
  Definition is_class (n : node) : Prop := g_function G (n_kind n) = false /\ g_class G (n_kind n) = true.
  Definition is_constant (n : node) (owner : option text) : Prop :=
    g_function G (n_kind n) = false /\ g_class G (n_kind n) = false /\ owner = None /\ g_constant G (n_kind n) = true.
  Definition is_unit (n : node) (owner : option text) : Prop :=
    (is_function n /\ g_name G n <> None) \/ (is_class n /\ g_name G n <> None) \/ (is_constant n owner /\ g_constant_name G n <> None).
  (** [looked_at n o m q]: the search from [n], in class [o], comes to [m], in class [q].  It does not
      look into constants, nor into a class other than by a body with functions in it, nor, in a source
      file, into interfaces and the like. *)
  Inductive looked_at : node -> option text -> node -> option text -> Prop :=
  | la_here n o : looked_at n o n o
  | la_child n o c m q : (is_class n -> g_name G n = None) -> ~ is_constant n o -> In c (n_children n) -> looked_at c o m q -> looked_at n o m q
  | la_body n o name b c m q : is_class n -> g_name G n = Some name -> g_body G n = Some b ->
      (script = false -> g_abstract G (n_kind n) = false /\ exists y x, In y (n_children b) /\ inside y x /\ is_function x) ->
      In c (n_children b) -> looked_at c (Some name) m q -> looked_at n o m q.
End UNITS.
