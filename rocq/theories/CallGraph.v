(** The call graph: colgrep/src/parser/call_graph.rs 8-61, and the runs it is built for. *)
From Verif Require Import Base Text Units.
From Verif Require ApiProgress.
Open Scope nat_scope.

Definition set_called_by (l : list text) (u : code_unit) : code_unit :=
  {| cu_name := cu_name u; cu_qualified_name := cu_qualified_name u; cu_file := cu_file u; cu_line := cu_line u; cu_end_line := cu_end_line u;
     cu_language := cu_language u; cu_unit_type := cu_unit_type u; cu_signature := cu_signature u; cu_docstring := cu_docstring u; cu_parameters := cu_parameters u;
     cu_return_type := cu_return_type u; cu_extends := cu_extends u; cu_parent_class := cu_parent_class u; cu_calls := cu_calls u; cu_called_by := l;
     cu_complexity := cu_complexity u; cu_has_loops := cu_has_loops u; cu_has_branches := cu_has_branches u; cu_has_error_handling := cu_has_error_handling u;
     cu_variables := cu_variables u; cu_imports := cu_imports u; cu_code := cu_code u |}.

(** call_graph.rs 9-16: [name_to_indices], asked for one name *)
Definition indices_of (units : list code_unit) (name : text) : list nat :=
  map fst (filter (fun p => text_eqb (cu_name (snd p)) name) (combine (seq 0 (length units)) units)).
(** call_graph.rs 19-46: [par_iter().map().flatten().collect()] keeps the order of the units *)
Definition edges (units : list code_unit) : list (nat * text) :=
  flat_map (fun caller => flat_map (fun callee => map (fun i => (i, cu_name caller)) (indices_of units callee)) (cu_calls caller)) units.
(** call_graph.rs 48-54: [called_by_map], asked for one index *)
Definition callers_in (es : list (nat * text)) (i : nat) : list text := map snd (filter (fun e => fst e =? i) es).
(** call_graph.rs 57-59 *)
Definition called_by_of (es : list (nat * text)) (i : nat) : list text := dedup text_eqb (isort ApiProgress.text_leb (callers_in es i)).
Fixpoint write_at {A} (i : nat) (f : A -> A) (l : list A) : res (list A) :=
  match l, i with
  | [], _ => Panic
  | x :: r, O => Ok (f x :: r)
  | x :: r, S i => bind (write_at i f r) (fun r => Ok (x :: r))
  end.
(** call_graph.rs 8-61; [order] is the order in which the map gives its keys *)
Definition build_call_graph (order : list nat) (units : list code_unit) : res (list code_unit) :=
  let es := edges units in
  foldM (fun us i => write_at i (set_called_by (called_by_of es i)) us) order units.
(** the orders a hash map can have: its keys, each once *)
Definition map_order (order : list nat) (units : list code_unit) : Prop :=
  NoDup order /\ forall i, In i order <-> In i (map fst (edges units)).
