(** Who calls whom. *)
From Verif Require Import Base Text Units.
Open Scope nat_scope.

(** [caller] calls by the name of [u] *)
Definition calls_it (caller u : code_unit) : Prop := In (cu_name u) (cu_calls caller).
Definition comes_before (a b : text) : Prop :=
  exists p x y, a = p ++ x /\ b = p ++ y /\ match x, y with [], _ :: _ => True | c :: _, d :: _ => (c < d)%Z | _, _ => False end.
(** The names in [l], in order and each once, are those of the callers of [u] among [units]. *)
Definition callers_listed (units : list code_unit) (u : code_unit) (l : list text) : Prop :=
  StronglySorted comes_before l /\ forall name, In name l <-> exists caller, In caller units /\ calls_it caller u /\ cu_name caller = name.
(** [v] is [u] with another list of callers. *)
Definition same_but_callers (u v : code_unit) : Prop :=
  cu_name v = cu_name u /\ cu_qualified_name v = cu_qualified_name u /\ cu_file v = cu_file u /\ cu_line v = cu_line u /\ cu_end_line v = cu_end_line u
  /\ cu_language v = cu_language u /\ cu_unit_type v = cu_unit_type u /\ cu_signature v = cu_signature u /\ cu_docstring v = cu_docstring u /\ cu_parameters v = cu_parameters u
  /\ cu_return_type v = cu_return_type u /\ cu_extends v = cu_extends u /\ cu_parent_class v = cu_parent_class u /\ cu_calls v = cu_calls u
  /\ cu_complexity v = cu_complexity u /\ cu_has_loops v = cu_has_loops u /\ cu_has_branches v = cu_has_branches u /\ cu_has_error_handling v = cu_has_error_handling u
  /\ cu_variables v = cu_variables u /\ cu_imports v = cu_imports u /\ cu_code v = cu_code u.
