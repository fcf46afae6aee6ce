(** Property C106: the Python package. *)
From Verif Require Import Base Text FtsText FtsTextSpec SqlModel MetaModel Units Embed EmbedSpec EmbedProofs Colgrep Walk Sdk SdkSpec SdkProofs.
Open Scope nat_scope.

(** C106. Without merging: the units of the file in their order, each with all its fields, the names of
    its language and kind, and the text colgrep gives to the model for it. *)
Theorem C106_units :
  forall U up lo components extract code filename us, parse_code U up lo components extract code filename false = Ok us ->
    exists lang, detect_language U (components filename) = Some lang /\ Forall2 (fun u p =>
      py_name p = cu_name u /\ py_qualified_name p = cu_qualified_name u /\ py_file p = cu_file u /\ py_line p = cu_line u /\ py_end_line p = cu_end_line u
      /\ py_signature p = cu_signature u /\ py_docstring p = cu_docstring u /\ py_parameters p = cu_parameters u /\ py_return_type p = cu_return_type u
      /\ py_extends p = cu_extends u /\ py_parent_class p = cu_parent_class u /\ py_calls p = cu_calls u /\ py_called_by p = cu_called_by u
      /\ py_complexity p = cu_complexity u /\ py_has_loops p = cu_has_loops u /\ py_has_branches p = cu_has_branches u
      /\ py_has_error_handling p = cu_has_error_handling u /\ py_variables p = cu_variables u /\ py_imports p = cu_imports u /\ py_code p = cu_code u
      /\ py_embedding_text p = build_embedding_text U up lo u (components (cu_file u))
      /\ (In (cu_language u) languages -> map to_lower1 (py_language p) = cu_language u)
      /\ (In (cu_unit_type u) unit_types -> map to_lower1 (py_unit_type p) = cu_unit_type u)) (extract filename code lang) us.
Proof.
  intros U up lo components extract code filename us H. unfold parse_code in H. destruct (detect_language U (components filename)) as [lang|]; [|discriminate].
  exists lang. split; [reflexivity|]. injection H as <-. unfold parsed. induction (extract filename code lang) as [|u l IH]; cbn [map]; constructor; [|exact IH].
  cbn [from_code_unit py_name py_qualified_name py_file py_line py_end_line py_language py_unit_type py_signature py_docstring py_parameters
    py_return_type py_extends py_parent_class py_calls py_called_by py_complexity py_has_loops py_has_branches py_has_error_handling py_variables py_imports
    py_code py_embedding_text].
  assert (A : forallb (fun l => text_eqb (map to_lower1 (debug_name l)) l) languages = true) by (vm_compute; reflexivity).
  assert (B : forallb (fun l => text_eqb (map to_lower1 (unit_type_name l)) l) unit_types = true) by (vm_compute; reflexivity).
  rewrite forallb_forall in A, B.
  repeat match goal with |- _ /\ _ => split end; try reflexivity; intros K; apply text_eqb_eq; [apply A|apply B]; exact K.
Qed.
Print Assumptions C106_units.

(** C106. With merging: a single unit, that stands for all of them in the order of their lines. *)
Theorem C106_merged :
  forall U up lo components extract code filename ms, parse_code U up lo components extract code filename true = Ok ms ->
    exists units m, parse_code U up lo components extract code filename false = Ok units /\ ms = [m] /\
      match units with
      | [] => py_code m = [] /\ py_embedding_text m = [] /\ py_name m = filename
      | [u] => m = u
      | _ => exists order, in_line_order units order /\ stands_for filename order m
      end.
Proof.
  intros U up lo components extract code filename ms H. unfold parse_code, parsed in *. destruct (detect_language U (components filename)) as [lang|]; [|discriminate].
  injection H as <-. set (units := map (from_code_unit U up lo components) (extract filename code lang)).
  exists units, (merge_units units filename). split; [reflexivity|]. split; [reflexivity|].
  destruct units as [|a [|b r]]; [repeat split|reflexivity|]. rewrite merged_many. eexists. split; [apply line_order_ok|].
  apply merge_sorted_stands. intro E. apply (f_equal (@length py_unit)) in E. rewrite isort_length in E. discriminate.
Qed.
Print Assumptions C106_merged.
(** Nothing of any unit is lost in it. *)
Theorem C106_nothing_lost :
  forall U up lo components extract code filename m units, parse_code U up lo components extract code filename true = Ok [m] ->
    parse_code U up lo components extract code filename false = Ok units -> forall u, In u units ->
      (exists a b, py_code m = a ++ py_code u ++ b) /\ (exists a b, py_embedding_text m = a ++ py_embedding_text u ++ b)
      /\ incl (py_parameters u) (py_parameters m) /\ incl (py_calls u) (py_calls m) /\ incl (py_called_by u) (py_called_by m)
      /\ incl (py_variables u) (py_variables m) /\ incl (py_imports u) (py_imports m)
      /\ py_line m <= py_line u /\ py_complexity u <= py_complexity m
      /\ (py_has_loops u = true -> py_has_loops m = true) /\ (py_has_branches u = true -> py_has_branches m = true)
      /\ (py_has_error_handling u = true -> py_has_error_handling m = true)
      /\ (forall d, py_docstring u = Some d -> d <> [] -> exists a b, py_docstring m = Some (a ++ d ++ b)).
Proof.
  intros U up lo components extract code filename m units H K u I. destruct (C106_merged _ _ _ _ _ _ _ _ H) as (us & m' & K' & E & C).
  rewrite K in K'. injection K' as <-. injection E as <-. destruct units as [|a [|b r]]; [destruct I| |].
  - destruct I as [<-|[]]. subst m. repeat match goal with |- _ /\ _ => split end; try (intros x X; exact X); try lia; auto.
    + exists [], []. rewrite app_nil_r. reflexivity.
    + exists [], []. rewrite app_nil_r. reflexivity.
    + intros d D _. exists [], []. rewrite app_nil_r. exact D.
  - destruct C as (order & (P & S & _) & F). assert (J : In u order) by (eapply Permutation_in; [exact P|exact I]). clear I P H K.
    assert (L : forall (f : py_unit -> list text) l, once_each (concat (map f order)) l -> incl (f u) l).
    { intros f l (O & _) x X. apply O. apply in_concat. exists (f u). split; [apply in_map; exact J|exact X]. }
    repeat match goal with |- _ /\ _ => split end.
    + apply (glued_has _ _ (py_code u) (sf_code _ _ _ F)). apply in_map. exact J.
    + apply (glued_has _ _ (py_embedding_text u) (sf_text _ _ _ F)). apply in_map. exact J.
    + apply (L py_parameters), (sf_parameters _ _ _ F).
    + apply (L py_calls), (sf_calls _ _ _ F).
    + apply (L py_called_by), (sf_called_by _ _ _ F).
    + apply (L py_variables), (sf_variables _ _ _ F).
    + apply (L py_imports), (sf_imports _ _ _ F).
    + destruct (sf_first _ _ _ F) as (v & Q & _ & -> & _). destruct order as [|w order]; [discriminate|]. injection Q as ->.
      destruct J as [->|J]; [lia|]. inversion S as [|? ? _ G]; subst. rewrite Forall_forall in G. apply G, J.
    + rewrite (sf_complexity _ _ _ F). clear -J. induction order as [|v order IH]; [destruct J|].
      change (list_sum (map py_complexity (v :: order))) with (py_complexity v + list_sum (map py_complexity order)).
      destruct J as [->|J]; [lia|]. specialize (IH J). lia.
    + intros Q. apply (sf_loops _ _ _ F). exists u. split; [exact J|exact Q].
    + intros Q. apply (sf_branches _ _ _ F). exists u. split; [exact J|exact Q].
    + intros Q. apply (sf_handling _ _ _ F). exists u. split; [exact J|exact Q].
    + intros d D N. destruct (sf_docstring _ _ _ F) as (docs & (O & _) & M).
      assert (X : In d docs). { apply O. apply in_flat_map. exists u. split; [exact J|]. rewrite D. apply text_eqb_neq in N. rewrite N. left. reflexivity. }
      destruct (py_docstring m) as [t|]; [|subst docs; destruct X]. destruct (glued_has _ _ d M X) as (x & y & ->). exists x, y. reflexivity.
Qed.
Print Assumptions C106_nothing_lost.

(** C106. Naming the language that was detected changes nothing. *)
Theorem C106_named_language :
  forall U up lo components extract code filename merge name, good_unicode U -> py_detect_language U components filename = Some name ->
    parse_code_with_language U up lo components extract code filename name merge = parse_code U up lo components extract code filename merge.
Proof.
  intros U up lo components extract code filename merge name G H. unfold py_detect_language in H. unfold parse_code_with_language, parse_code.
  destruct (detect_language U (components filename)) as [l|] eqn:D; [|discriminate]. injection H as <-.
  rewrite debug_reads_back; [reflexivity|exact G|]. eapply detected_known. exact D.
Qed.
Print Assumptions C106_named_language.
(** Every language listed is accepted, in any case, and they are all different. *)
Theorem C106_listed :
  forall U up lo components extract, good_unicode U ->
    (forall code filename merge w, ascii_text w -> In (map to_lower1 w) supported_languages ->
      exists us, parse_code_with_language U up lo components extract code filename w merge = Ok us)
    /\ (forall v w, In v supported_languages -> In w supported_languages -> from_str U v = from_str U w -> v = w).
Proof.
  intros U up lo components extract G.
  assert (A : forall l, In l supported_languages -> forallb is_ascii l = true /\ map to_lower1 l = l /\ assoc words l = Some l).
  { assert (B : forallb (fun l => forallb is_ascii l && text_eqb (map to_lower1 l) l && is_word l l) supported_languages = true) by (vm_compute; reflexivity).
    rewrite forallb_forall in B. intros l K. specialize (B _ K). rewrite !andb_true_iff in B. destruct B as ((B1 & B2) & B3).
    apply text_eqb_eq in B2. apply is_word_eq in B3. tauto. }
  split.
  - intros code filename merge w W K. unfold parse_code_with_language, from_str. rewrite (gu_lower U G) by exact W.
    destruct (A _ K) as (_ & _ & ->). eexists. reflexivity.
  - intros v w V W E. destruct (A _ V) as (V1 & V2 & V3), (A _ W) as (W1 & W2 & W3). unfold from_str in E.
    rewrite forallb_forall in V1, W1.
    rewrite !(gu_lower U G) in E by assumption. rewrite V2, W2, V3, W3 in E. injection E as E. exact E.
Qed.
Print Assumptions C106_listed.

(** ** A file for the examples: a class with two methods *)
Definition a_unit (name : text) (kind : text) (line end_line : nat) (calls : list text) (code : text) : code_unit :=
  {| cu_name := name; cu_qualified_name := name; cu_file := txt "a.py"; cu_line := line; cu_end_line := end_line; cu_language := txt "python";
     cu_unit_type := kind; cu_signature := []; cu_docstring := None; cu_parameters := []; cu_return_type := None; cu_extends := None; cu_parent_class := None;
     cu_calls := calls; cu_called_by := []; cu_complexity := 1; cu_has_loops := false; cu_has_branches := false; cu_has_error_handling := false;
     cu_variables := []; cu_imports := []; cu_code := code |}.
Definition a_file : list code_unit :=
  [a_unit (txt "f") (txt "method") 2 3 [txt "open"; txt "read"] (txt "f"); a_unit (txt "A") (txt "class") 1 6 [txt "read"] (txt "f g rest");
   a_unit (txt "g") (txt "method") 4 5 [txt "close"; txt "open"] (txt "g")].
Definition a_path (f : text) : list text := [f].
Definition a_parse (us : list code_unit) := parse_code ascii_unicode a_upper a_lower a_path (fun _ _ _ => us) [] (txt "a.py").
Example C106_example :
  exists m, a_parse a_file true = Ok [m] /\ py_calls m = [txt "read"; txt "open"; txt "close"] /\ py_line m = 1 /\ py_complexity m = 3
    /\ py_code m = txt "f g rest" ++ [10%Z; 10%Z] ++ txt "f" ++ [10%Z; 10%Z] ++ txt "g" /\ py_language m = txt "Python".
Proof. eexists. split; [vm_compute; reflexivity|]. repeat split. Qed.
Example C106_example_named : py_detect_language ascii_unicode a_path (txt "Makefile") = Some (txt "Makefile")
  /\ py_detect_language ascii_unicode a_path (txt "x.CS") = Some (txt "CSharp") /\ from_str ascii_unicode (txt "C#") = Some (txt "csharp").
Proof. repeat split. Qed.

(** ** What does not hold *)
(** Not true: that the lines of the merged unit reach to the end of every unit.  The last unit is the one
    that begins last: with a class around it the end of the class is lost. *)
Theorem C106_end_line_refuted :
  ~ forall units m u, a_parse units true = Ok [m] -> In u units -> cu_end_line u <= py_end_line m.
Proof.
  intro H. specialize (H a_file _ (nth 1 a_file (a_unit [] [] 0 0 [] [])) ltac:(vm_compute; reflexivity)).
  assert (I : In (nth 1 a_file (a_unit [] [] 0 0 [] [])) a_file) by (right; left; reflexivity). specialize (H I). vm_compute in H. lia.
Qed.
Print Assumptions C106_end_line_refuted.
(** Not true: that each line is in the merged code once.  The code of a method stands there as part of its class and again. *)
Theorem C106_code_once_refuted :
  exists units m u v, a_parse units true = Ok [m] /\ In u units /\ In v units /\ u <> v /\ cu_line v < cu_line u /\ cu_end_line u < cu_end_line v
    /\ (exists a b, cu_code v = a ++ cu_code u ++ b) /\ exists a b c, py_code m = a ++ cu_code u ++ b ++ cu_code u ++ c.
Proof.
  exists a_file. eexists. exists (nth 0 a_file (a_unit [] [] 0 0 [] [])), (nth 1 a_file (a_unit [] [] 0 0 [] [])).
  split; [vm_compute; reflexivity|]. split; [left; reflexivity|]. split; [right; left; reflexivity|]. split; [discriminate|]. split; [vm_compute; lia|]. split; [vm_compute; lia|].
  split; [exists [], (txt " g rest"); reflexivity|]. exists [], (txt " g rest" ++ [10%Z; 10%Z]), ([10%Z; 10%Z] ++ txt "g"). reflexivity.
Qed.
Print Assumptions C106_code_once_refuted.
(** Not true: that merging names the result after the file.  With one unit it is that unit as it was. *)
Theorem C106_single_refuted :
  ~ forall units m, a_parse units true = Ok [m] -> py_name m = txt "a.py" /\ py_unit_type m = txt "Document".
Proof. intro H. specialize (H [a_unit (txt "f") (txt "function") 1 2 [] (txt "f")] _ ltac:(vm_compute; reflexivity)). destruct H as (H & _). discriminate. Qed.
Print Assumptions C106_single_refuted.
(** Not true: that a file without units keeps its language. *)
Theorem C106_empty_language_refuted :
  ~ forall units m name, a_parse units true = Ok [m] -> py_detect_language ascii_unicode a_path (txt "a.py") = Some name -> py_language m = name.
Proof. intro H. specialize (H [] _ _ ltac:(vm_compute; reflexivity) ltac:(vm_compute; reflexivity)). discriminate. Qed.
Print Assumptions C106_empty_language_refuted.
(** Not true: that the text of a merged unit has at most 8192 characters, as every other. *)
Theorem C106_bounded_refuted :
  ~ forall units m, a_parse units true = Ok [m] -> length (py_embedding_text m) <= 8 * 1024.
Proof.
  intro H. set (c := repeat 97%Z (64 * 70)). set (u := fun n => a_unit (txt "raw") (txt "rawcode") n n [] c).
  specialize (H [u 1; u 2] (merge_units (map (from_code_unit ascii_unicode a_upper a_lower a_path) [u 1; u 2]) (txt "a.py")) eq_refl).
  assert (T : build_embedding_text ascii_unicode a_upper a_lower (u 1) (a_path (txt "a.py")) = c).
  { unfold build_embedding_text, full_text. cbn [u a_unit cu_unit_type]. change (text_eqb (txt "rawcode") (txt "rawcode") || text_eqb (txt "rawcode") (txt "constant")) with true. cbv iota.
    apply truncate_short. cbn [cu_code]. unfold c. rewrite repeat_length. unfold max_chars. lia. }
  assert (E : py_embedding_text (merge_units (map (from_code_unit ascii_unicode a_upper a_lower a_path) [u 1; u 2]) (txt "a.py")) = c ++ [10%Z; 10%Z] ++ c).
  { change (build_embedding_text ascii_unicode a_upper a_lower (u 1) (a_path (txt "a.py")) ++ [10%Z; 10%Z] ++ build_embedding_text ascii_unicode a_upper a_lower (u 1) (a_path (txt "a.py")) = c ++ [10%Z; 10%Z] ++ c).
    rewrite T. reflexivity. }
  rewrite E, !app_length in H. unfold c in H. rewrite repeat_length in H. cbn [length] in H. lia.
Qed.
Print Assumptions C106_bounded_refuted.
(** Not true: that every language that can be parsed is listed. *)
Theorem C106_all_listed_refuted :
  ~ forall filename name, py_detect_language ascii_unicode a_path filename = Some name -> In (map to_lower1 name) supported_languages.
Proof.
  intro H. specialize (H (txt "a.css") _ eq_refl). apply seen_spec in H. vm_compute in H. discriminate.
Qed.
Print Assumptions C106_all_listed_refuted.
