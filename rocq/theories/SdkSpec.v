(** What a merged unit is. *)
From Verif Require Import Base Text Units Sdk.
Open Scope nat_scope.

(** [x] appears in [l] first at position [i]. *)
Definition first_at (l : list text) (i : nat) (x : text) : Prop := nth_error l i = Some x /\ forall j, j < i -> nth_error l j <> Some x.
(** [r] is every element of [l] once, in the order in which they first appear. *)
Definition once_each (l r : list text) : Prop :=
  (forall x, In x r <-> In x l) /\ StronglySorted (fun x y => exists i j, first_at l i x /\ first_at l j y /\ i < j) r.
(** The texts one after the other with a blank line between them. *)
Inductive glued : list text -> text -> Prop :=
| glued_one x : glued [x] x
| glued_more x l t : l <> [] -> glued l t -> glued (x :: l) (x ++ [10%Z; 10%Z] ++ t).
(** The units by their first line; those of one line as they were. *)
Definition in_line_order (units order : list py_unit) : Prop :=
  Permutation units order /\ StronglySorted (fun a b => py_line a <= py_line b) order
  /\ forall n, filter (fun u => py_line u =? n) order = filter (fun u => py_line u =? n) units.
(** [m] stands for the units [order] of a file. *)
Record stands_for (filename : text) (order : list py_unit) (m : py_unit) : Prop := {
  sf_name : py_name m = filename;
  sf_qualified : py_qualified_name m = filename ++ txt "::merged";
  sf_type : py_unit_type m = txt "Document";
  sf_first : exists u, hd_error order = Some u /\ py_file m = py_file u /\ py_line m = py_line u /\ py_language m = py_language u /\ py_signature m = py_signature u;
  sf_last : exists u l, order = l ++ [u] /\ py_end_line m = py_end_line u;
  sf_code : glued (map py_code order) (py_code m);
  sf_text : glued (map py_embedding_text order) (py_embedding_text m);
  sf_parameters : once_each (concat (map py_parameters order)) (py_parameters m);
  sf_calls : once_each (concat (map py_calls order)) (py_calls m);
  sf_called_by : once_each (concat (map py_called_by order)) (py_called_by m);
  sf_variables : once_each (concat (map py_variables order)) (py_variables m);
  sf_imports : once_each (concat (map py_imports order)) (py_imports m);
  sf_complexity : py_complexity m = list_sum (map py_complexity order);
  sf_loops : py_has_loops m = true <-> exists u, In u order /\ py_has_loops u = true;
  sf_branches : py_has_branches m = true <-> exists u, In u order /\ py_has_branches u = true;
  sf_handling : py_has_error_handling m = true <-> exists u, In u order /\ py_has_error_handling u = true;
  (** the descriptions that say something, each once *)
  sf_docstring : exists docs, once_each (flat_map (fun u => match py_docstring u with Some d => if text_eqb d [] then [] else [d] | None => [] end) order) docs
    /\ match py_docstring m with None => docs = [] | Some d => glued docs d end;
  sf_none : py_return_type m = None /\ py_extends m = None /\ py_parent_class m = None }.
