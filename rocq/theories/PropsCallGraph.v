(** Who is said to call a unit. *)
From Verif Require Import Base Text Units Parse CallGraph CallGraphSpec CallGraphProofs.
From Coq Require Import Sorting.Sorted.
Open Scope nat_scope.

(** C91.  In the units of a run each unit names exactly the units of the run that call its name, in
    order and each once, and is otherwise as it was parsed; whatever the order of the hash map. *)
Theorem C91_callers_listed order units : map_order order units -> Forall (fun u => cu_called_by u = []) units ->
  exists units', build_call_graph order units = Ok units'
    /\ Forall2 (fun u v => same_but_callers u v /\ callers_listed units u (cu_called_by v)) units units'.
Proof.
  intros MO F. destruct (graph_ok order units MO) as (units' & E & K). exists units'. split; [exact E|]. apply forall2_nth. intro j. rewrite K.
  destruct (nth_error units j) as [u|] eqn:N; cbn [option_map].
  2:{ destruct (existsb _ _); exact I. }
  destruct (existsb (Nat.eqb j) (map fst (edges units))) eqn:Ex.
  - split; [repeat split; reflexivity|]. exact (called_by_listed units j u N).
  - split; [repeat split; reflexivity|]. rewrite Forall_forall in F. rewrite (F u (nth_error_In _ _ N)). split; [constructor|]. intro name. split; [intros []|].
    intros (c & H1 & H2 & _). assert (Q : existsb (Nat.eqb j) (map fst (edges units)) = true) by (apply (edge_exists units j u N); eauto). congruence.
Qed.
Print Assumptions C91_callers_listed.

Theorem C91_any_order order1 order2 units : map_order order1 units -> map_order order2 units -> build_call_graph order1 units = build_call_graph order2 units.
Proof.
  intros M1 M2. destruct (graph_ok order1 units M1) as (u1 & -> & K1). destruct (graph_ok order2 units M2) as (u2 & -> & K2). f_equal.
  assert (Q : Forall2 eq u1 u2). { apply forall2_nth. intro j. rewrite K1, K2. destruct (existsb _ _); destruct (nth_error units j); cbn; auto. }
  clear - Q. induction Q; congruence.
Qed.
Print Assumptions C91_any_order.

(** A caller found in no run with its callee is not listed: the graph is built for the units of the
    files that changed.  After [f] in one file was changed, it names nobody, though [main] in another
    file still calls it; a fresh index of the same two files says [main]. *)
Definition cg_unit (name : Coq.Strings.String.string) (calls : list text) : code_unit :=
  let u := plain_unit (txt "a.py") (txt name) (txt name) 1 2 (txt "python") (txt "function") [] [] [] in
  {| cu_name := cu_name u; cu_qualified_name := cu_qualified_name u; cu_file := cu_file u; cu_line := cu_line u; cu_end_line := cu_end_line u;
     cu_language := cu_language u; cu_unit_type := cu_unit_type u; cu_signature := cu_signature u; cu_docstring := None; cu_parameters := [];
     cu_return_type := None; cu_extends := None; cu_parent_class := None; cu_calls := calls; cu_called_by := [];
     cu_complexity := 1; cu_has_loops := false; cu_has_branches := false; cu_has_error_handling := false; cu_variables := []; cu_imports := []; cu_code := [] |}.
Theorem C91_update_forgets_callers_refuted : exists main f fresh1 fresh2 updated,
  calls_it main f /\ cu_called_by f = []
  /\ map_order [1] [main; f] /\ build_call_graph [1] [main; f] = Ok [fresh1; fresh2] /\ callers_listed [main; f] f (cu_called_by fresh2)
  /\ map_order [] [f] /\ build_call_graph [] [f] = Ok [updated] /\ ~ callers_listed [main; f] f (cu_called_by updated).
Proof.
  set (m := cg_unit "main"%string [txt "f"]). set (f := cg_unit "f"%string []).
  exists m, f, m, (set_called_by [txt "main"] f), f. split; [left; reflexivity|]. split; [reflexivity|].
  assert (M : map_order [1] [m; f]). { split; [repeat constructor; intros []|]. intro i. vm_compute. tauto. }
  split; [exact M|]. split; [vm_compute; reflexivity|]. split; [exact (called_by_listed [m; f] 1 f eq_refl)|].
  split; [split; [constructor|intro i; vm_compute; tauto]|]. split; [vm_compute; reflexivity|].
  intros (_ & K). destruct (proj2 (K (txt "main"))). exists m. split; [left; reflexivity|]. split; [left; reflexivity|reflexivity].
Qed.
Print Assumptions C91_update_forgets_callers_refuted.

Definition cg_units : list code_unit :=
  [cg_unit "main"%string [txt "f"; txt "g"; txt "print"]; cg_unit "f"%string [txt "g"; txt "f"]; cg_unit "g"%string []; cg_unit "f"%string [txt "g"]; cg_unit "a"%string [txt "g"; txt "g"]].
Example C91_example : map_order [3; 1; 2] cg_units /\ Forall (fun u => cu_called_by u = []) cg_units
  /\ bind (build_call_graph [3; 1; 2] cg_units) (fun us => Ok (map cu_called_by us)) = Ok [[]; [txt "f"; txt "main"]; [txt "a"; txt "f"; txt "main"]; [txt "f"; txt "main"]; []].
Proof.
  split; [|split; [repeat constructor|vm_compute; reflexivity]]. split; [repeat (constructor; [cbn; intuition discriminate|]); constructor|].
  intro i. vm_compute. tauto.
Qed.
