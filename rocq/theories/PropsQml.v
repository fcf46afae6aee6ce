(** C111: the units of a QML file. *)
From Verif Require Import Base Text FtsText CallGraphSpec CallGraphProofs Analysis AnalysisSpec AnalysisTree AnalysisProofs AnalysisText AnalysisMore PropsAnalysis Pattern Qml QmlSpec QmlText QmlProofs.
From Coq Require Import String.
Open Scope string_scope.
Open Scope nat_scope.
Open Scope list_scope.
Notation length := List.length.

(** If no node reached is nested deeper than the limit, the units are those of the nodes reached, each once, in
    the order of the file, each with the object around it. *)
Theorem C111_units U script_function script_constant script_class ls max_depth root :
  (forall place p d n, reaches U None 0 root place p d n -> d <= max_depth) ->
  exists places, StronglySorted read_before places
    /\ Forall2 (fun place u => exists p d n, reaches U None 0 root place p d n /\ gives U script_function script_constant script_class ls p n u)
         places (extract_qml_units U script_function script_constant script_class ls max_depth root)
    /\ (forall place p d n u, reaches U None 0 root place p d n -> gives U script_function script_constant script_class ls p n u -> In place places).
Proof.
  intro H. unfold extract_qml_units. destruct (visit_ok U script_function script_constant script_class ls (S max_depth) None 0 root) as (A & B).
  destruct (visit U script_function script_constant script_class ls (S max_depth) None root) as [us|] eqn:V.
  - destruct (A us eq_refl) as (ps & So & F & C). exists ps. split; [exact So|split].
    + clear -F. induction F as [|a b la lb (p & d & n & R & X) F IH]; constructor; [exists p, d, n; split; [exact R|apply here_gives; exact X]|exact IH].
    + intros place p d n u R G. apply (C place u). exists p, d, n. split; [exact R|apply gives_here; exact G].
  - destruct (proj1 B eq_refl) as (pl & p & d & n & R & L). apply H in R. lia.
Qed.
Print Assumptions C111_units.

(** A node gives at most one unit. *)
Theorem C111_one_unit U script_function script_constant script_class ls p n u u' :
  gives U script_function script_constant script_class ls p n u -> gives U script_function script_constant script_class ls p n u' -> u = u'.
Proof. intros G G'. apply gives_here in G. apply gives_here in G'. congruence. Qed.
Print Assumptions C111_one_unit.

(** A file nested deeper than the limit gives nothing at all. *)
Theorem C111_depth U script_function script_constant script_class ls max_depth root place p d n :
  reaches U None 0 root place p d n -> max_depth < d -> extract_qml_units U script_function script_constant script_class ls max_depth root = [].
Proof.
  intros R L. unfold extract_qml_units. assert (E : visit U script_function script_constant script_class ls (S max_depth) None root = None); [|rewrite E; reflexivity].
  apply (proj2 (visit_ok U script_function script_constant script_class ls (S max_depth) None 0 root)). exists place, p, d, n. split; [exact R|lia].
Qed.
Print Assumptions C111_depth.

(** What the import lines of the file name, each once, in order. *)
Theorem C111_imports U ls v : file_imports U ls v <-> v = extract_qml_imports U ls.
Proof. apply file_imports_iff. Qed.
Print Assumptions C111_imports.

(** ** A file: an item with an id, a property, a signal, a handler, a component and a function *)
Definition fld (f k s : string) (cs : list tree) : tree := Tree (txt k) (Some (txt f)) true (txt s) 0 0 cs.
Definition nd (k s : string) (a b : nat) (cs : list tree) : tree := Tree (txt k) None true (txt s) a b cs.
Definition example_file : tree :=
  nd "program" "" 0 9 [
    nd "ui_import" "import QtQuick 2.0 as Q" 0 0 [];
    nd "ui_object_definition" "Item { ... }" 1 9 [
      fld "type_name" "identifier" "Item" [];
      fld "initializer" "ui_object_initializer" "{ ... }" [
        nd "ui_binding" "id: root" 2 2 [fld "name" "identifier" "id" []; fld "value" "expression_statement" "root" []];
        nd "ui_property" "property int size: 3" 3 3 [fld "type" "type_identifier" "int" []; fld "name" "identifier" "size" []];
        nd "ui_signal" "signal moved(int x)" 4 4 [fld "name" "identifier" "moved" []; fld "parameters" "ui_signal_parameters" "(int x)" [nd "ui_signal_parameter" "int x" 4 4 []]];
        nd "ui_binding" "onClicked: f()" 5 5 [fld "name" "identifier" "onClicked" []; fld "value" "expression_statement" "f()" []];
        nd "ui_inline_component" "component B: Rect { property int w }" 6 6 [
          fld "name" "identifier" "B" [];
          fld "component" "ui_object_definition" "Rect { property int w }" [
            fld "type_name" "identifier" "Rect" [];
            fld "initializer" "ui_object_initializer" "{ property int w }" [nd "ui_property" "property int w" 6 6 [fld "type" "type_identifier" "int" []; fld "name" "identifier" "w" []]]]];
        nd "function_declaration" "function f() { Q.go() }" 7 7 []]]].
Definition a_function (n : tree) (p : option text) : option qunit :=
  Some {| q_name := txt "f"; q_line := t_first n + 1; q_end := t_last n + 1; q_kind := KMethod; q_parent := p; q_signature := t_text n; q_code := t_text n;
          q_vars := []; q_params := []; q_type := None; q_extends := None; q_imports := [] |}.
Definition example_lines : list text := map txt ["import QtQuick 2.0 as Q"; "Item {"; "  id: root"; "  property int size: 3"; "  signal moved(int x)"; "  onClicked: f()"].
Notation example_units d := (extract_qml_units ascii_unicode a_function (fun _ => None) (fun _ => None) example_lines d example_file).
Example C111_units_met :
  map q_name (example_units 7) = map txt ["Item"; "size"; "moved"; "onClicked"; "B"; "w"; "f"]
  /\ map q_parent (example_units 7) = map (option_map txt) [None; Some "Item"; Some "Item"; Some "Item"; Some "Item"; Some "B"; Some "Item"]
  /\ map q_vars (example_units 7) = map (map txt) [["root"; "size"]; []; []; []; ["component"]; []; []]
  /\ map q_imports (example_units 7) = map (map txt) [[]; []; []; []; []; []; ["Q"]]
  /\ map q_line (example_units 7) = [2; 4; 5; 6; 7; 7; 8]
  /\ extract_qml_imports ascii_unicode example_lines = map txt ["QtQuick"; "Q"].
Proof. vm_compute. auto 10. Qed.
Example C111_depth_met : length (example_units 5) = 7 /\ example_units 4 = [].
Proof. vm_compute. auto. Qed.
(** the hypothesis of [C111_units] holds of this file, with limit 7 *)
Example C111_units_hypothesis : forall place p d n, reaches ascii_unicode None 0 example_file place p d n -> d <= 7.
Proof.
  intros place p d n R. destruct (le_lt_dec d 7) as [L|L]; [exact L|exfalso]. pose proof (C111_depth _ a_function (fun _ => None) (fun _ => None) example_lines _ _ _ _ _ _ R L) as E. vm_compute in E. discriminate E.
Qed.

(** ** Not true of the code *)
(** An object that is the value of a binding or of a property is not found, nor what is declared in it. *)
Definition bound : tree :=
  nd "program" "" 0 3 [nd "ui_object_definition" "Page { header: Bar { signal closed } }" 0 3 [
    fld "type_name" "identifier" "Page" [];
    fld "initializer" "ui_object_initializer" "{ header: Bar { signal closed } }" [
      nd "ui_binding" "header: Bar { signal closed }" 1 2 [fld "name" "identifier" "header" [];
        fld "value" "ui_object_definition" "Bar { signal closed }" [fld "type_name" "identifier" "Bar" [];
          fld "initializer" "ui_object_initializer" "{ signal closed }" [nd "ui_signal" "signal closed" 2 2 [fld "name" "identifier" "closed" []]]]]]]].
Theorem C111_bound_objects_refuted :
  exists place o name, at_place bound place o /\ an_object ascii_unicode o (txt name)
    /\ forall sf sc sk ls d, ~ In (txt name) (map q_name (extract_qml_units ascii_unicode sf sc sk ls d bound)).
Proof.
  exists [0; 1; 0; 1], (fld "value" "ui_object_definition" "Bar { signal closed }" [fld "type_name" "identifier" "Bar" [];
          fld "initializer" "ui_object_initializer" "{ signal closed }" [nd "ui_signal" "signal closed" 2 2 [fld "name" "identifier" "closed" []]]]), "Bar".
  split; [repeat (eapply at_child; [reflexivity|]); constructor|split].
  - apply an_object_iff. split; [exists "ui_object_definition"; split; [left|]; reflexivity|]. exists None. eexists. split; [vm_compute; reflexivity|reflexivity].
  - intros sf sc sk ls d. unfold extract_qml_units. destruct d as [|[|[|[|d]]]]; vm_compute; intros H; repeat (destruct H as [H|H]; try discriminate H); destruct H.
Qed.
Print Assumptions C111_bound_objects_refuted.
(** A file without objects may give no unit at all: units do not cover a QML file. *)
Theorem C111_coverage_refuted : exists root, t_text root <> [] /\ forall sf sc sk ls d, extract_qml_units ascii_unicode sf sc sk ls d root = [].
Proof.
  exists (nd "program" "pragma Singleton" 0 0 [nd "ui_pragma" "pragma Singleton" 0 0 []]). split; [discriminate|]. intros sf sc sk ls d. destruct d as [|d]; reflexivity.
Qed.
Print Assumptions C111_coverage_refuted.
(** A function that only names FAQ is said to use the import Q. *)
Theorem C111_used_refuted : imports_used_in_code ascii_unicode [txt "import QtQuick 2.0 as Q"] (txt "return FAQ ") = [txt "Q"].
Proof. vm_compute. reflexivity. Qed.
Print Assumptions C111_used_refuted.
