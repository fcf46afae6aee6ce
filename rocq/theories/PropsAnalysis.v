(** C107: what is recorded of a piece of code. *)
From Verif Require Import Base Text FtsText CallGraphSpec CallGraphProofs Analysis AnalysisSpec AnalysisTree AnalysisProofs AnalysisText AnalysisMore.
From Coq Require Import String.
Open Scope string_scope.
Open Scope nat_scope.
Open Scope list_scope.
Notation length := List.length.

(** Small trees for the examples: a leaf with a text; a node; a field. *)
Definition leaf (k s : string) : tree := Tree (txt k) None true (txt s) 0 0 [].
Definition branch (k s : string) (cs : list tree) : tree := Tree (txt k) None true (txt s) 0 0 cs.
Definition at_field (f : string) (t : tree) : tree := let 'Tree k _ b s x y cs := t in Tree k (Some (txt f)) b s x y cs.
Definition token (k : string) : tree := Tree (txt k) None false (txt k) 0 0 [].
Definition on_rows (a b : nat) (t : tree) : tree := let 'Tree k f n s _ _ cs := t in Tree k f n s a b cs.

(** ** Control flow *)
Theorem C107_control_flow t c lo br er : extract_control_flow t = (c, lo, br, er) ->
  there_are (c - 1) t (fun n => of_kind decisions n \/ of_kind loops n) /\ 1 <= c
  /\ (lo = true <-> somewhere t (of_kind loops)) /\ (br = true <-> somewhere t (of_kind decisions)) /\ (er = true <-> somewhere t (of_kind failures)).
Proof.
  unfold extract_control_flow. rewrite fold_flow. cbn [orb]. intro E. injection E as <- <- <- <-. cbn [plus].
  split; [|split; [lia|split; [apply seen_somewhere|split; apply seen_somewhere]]].
  rewrite Nat.sub_succ, Nat.sub_0_r. apply counted. intro n. rewrite orb_true_iff. change decisions with branch_kinds. change loops with loop_kinds. rewrite !of_kind_mem. tauto.
Qed.
Print Assumptions C107_control_flow.
(** a loop with a decision in it, and a handler *)
Example C107_control_flow_example :
  extract_control_flow (branch "block" "" [branch "while_expression" "" [branch "if_expression" "" []]; branch "try_expression" "" []]) = (3, true, true, true).
Proof. reflexivity. Qed.
(** ... but the keyword of a statement is a node too, with a kind of its own: [if] counts twice. *)
Theorem C107_complexity_refuted :
  ~ (forall t k, there_are k t (fun n => t_named n = true /\ (of_kind decisions n \/ of_kind loops n)) -> fst (fst (fst (extract_control_flow t))) = 1 + k).
Proof.
  intro H. set (t := branch "if_statement" "" [token "if"; leaf "identifier" "x"]). specialize (H t 1). assert (C : fst (fst (fst (extract_control_flow t))) = 3) by reflexivity. rewrite C in H.
  assert (X : 3 = 1 + 1); [apply H|discriminate X]. exists [[]]. split; [constructor; [intros []|constructor]|split; [reflexivity|]]. intro p. split.
  - intros [<-|[]]. exists t. split; [constructor|split; [reflexivity|left; exists "if_statement"; split; [left; reflexivity|reflexivity]]].
  - intros (n & A & N & K). left. inversion A as [|? i c q ? E A']; subst; [reflexivity|]. exfalso. destruct i as [|[|i]]; cbn in E; [| |destruct i; discriminate E].
    + injection E as <-. inversion A' as [|? j d r ? E' _]; subst; [discriminate N|]. destruct j; discriminate E'.
    + injection E as <-. inversion A' as [|? j d r ? E' _]; subst; [|destruct j; discriminate E']. rewrite !of_kind_mem in K. destruct K as [K|K]; vm_compute in K; discriminate K.
Qed.

(** ** Calls: at any depth, in order, each once *)
Theorem C107_calls U lang ks t : In (lang, ks) calls_of ->
  exists name, (forall full, ends_name full (name full)) /\ (good_unicode U -> forall full s, plain_name U full s -> name full = s)
  /\ lists (extract_function_calls U (txt lang) t) (fun s => initial U s /\ somewhere t (fun n => of_kind ks n /\ exists c, in_fields ["function"; "name"; "method"] n c /\ s = name (t_text c))).
Proof.
  intro I. exists called. split; [apply called_sound|split; [intros G full s P; apply (called_complete U full s G P)|]].
  unfold extract_function_calls. rewrite (call_kinds_of lang ks I). apply sorted_once_lists. intro s. rewrite collected. unfold somewhere. split.
  - intros (p & n & A & K & X). apply call_name_iff in X. destruct X as (c & C & E & J). split; [exact J|]. exists p, n. split; [exact A|split; [exact K|exists c; split; [apply callee_iff; exact C|exact E]]].
  - intros (J & p & n & A & K & c & C & E). exists p, n. split; [exact A|split; [exact K|]]. apply call_name_iff. exists c. split; [apply callee_iff; exact C|split; [exact E|exact J]].
Qed.
Print Assumptions C107_calls.
Definition call_to (s : string) : tree := branch "call_expression" "" [at_field "function" (leaf "field_expression" s); leaf "arguments" ""].
Example C107_calls_example :
  extract_function_calls ascii_unicode (txt "rust") (branch "block" "" [call_to "self.items.push"; branch "block" "" [call_to "std::mem::swap"; branch "macro_invocation" "" [leaf "identifier" "println!"]]; call_to "other.push"])
  = map txt ["println"; "push"; "swap"].
Proof. reflexivity. Qed.
(** ... but a call can go unrecorded: a name that begins with an underscore, a method with its types given. *)
Theorem C107_calls_refuted :
  ~ (forall U t n c s, good_unicode U -> at_place t [] n -> of_kind ["call_expression"] n -> in_field "function" n c -> t_text c = s -> s <> [] -> (forall x, In x s -> word_char U x)
     -> In s (extract_function_calls U (txt "rust") t)).
Proof.
  intro H. set (t := call_to "_helper"). specialize (H ascii_unicode t t (at_field "function" (leaf "field_expression" "_helper")) (txt "_helper") ascii_good).
  assert (X : In (txt "_helper") (extract_function_calls ascii_unicode (txt "rust") t)); [|exact X].
  apply H; [constructor|apply of_kind_mem; reflexivity|apply by_field_iff; reflexivity|reflexivity|discriminate|].
  intros x I. unfold word_char. cbn in I. repeat (destruct I as [<-|I]; [vm_compute; auto|]). destruct I.
Qed.
Theorem C107_calls_with_types_refuted :
  ~ (forall U lang ks t, good_unicode U -> In (lang, ks) calls_of -> (exists n, at_place t [] n /\ of_kind ks n /\ exists c x r, in_field "function" n c /\ t_text c = x :: r /\ u_alpha U x = true) -> extract_function_calls U (txt lang) t <> []).
Proof.
  intro H. set (t := call_to "it.collect::<Vec<_>>"). apply (H ascii_unicode "rust" ["call_expression"; "macro_invocation"] t ascii_good); [do 2 right; left; reflexivity| |reflexivity].
  exists t. split; [constructor|split; [apply of_kind_mem; reflexivity|]]. exists (at_field "function" (leaf "field_expression" "it.collect::<Vec<_>>")), 105%Z, (txt "t.collect::<Vec<_>>"). split; [apply by_field_iff; reflexivity|split; reflexivity].
Qed.

(** ** Variables *)
Theorem C107_variables U max_depth lang ks t : In (lang, ks) variables_of ->
  lists (extract_variables U max_depth (txt lang) t)
    (fun s => somewhere t (fun n => of_kind ks n /\ exists c, in_fields ["left"; "name"; "pattern"] n c /\ bared U (t_text c) s /\ byte_len s < 50 /\ exists x r, s = x :: r /\ (u_alpha U x = true \/ x = 95%Z))).
Proof.
  intro I. unfold extract_variables. rewrite (variable_kinds_of lang ks I). apply sorted_once_lists. intro s. rewrite collected. unfold somewhere.
  split; intros (p & n & A & K & X); exists p, n; (split; [exact A|split; [exact K|]]); apply (variable_iff U max_depth lang ks n s I); exact X.
Qed.
Print Assumptions C107_variables.
Example C107_variables_example :
  extract_variables ascii_unicode 10 (txt "python") (branch "block" "" [branch "assignment" "" [at_field "left" (leaf "identifier" "total"); token "="]; branch "assignment" "" [at_field "left" (leaf "identifier" "_n "); token "="]; branch "assignment" "" [at_field "left" (leaf "list" "[a, b]")]])
  = map txt ["_n"; "total"].
Proof. reflexivity. Qed.

(** ** Imports of a file, down to the depth allowed *)
Theorem C107_imports U max_depth lang ks t : In (lang, ks) statement_imports ->
  exists name, (forall stmt, module_named U lang stmt (name stmt))
  /\ lists (extract_file_imports U max_depth (txt lang) t) (fun m => m <> [] /\ within max_depth t (fun n => of_kind ks n /\ m = name (t_text n))).
Proof.
  intro I. exists (import_module U (txt lang)). split; [apply module_ok|]. apply sorted_once_lists. intro m. rewrite (import_visit_iff U max_depth lang ks m I). unfold within. split.
  - intros (p & n & A & L & K & E & N). split; [exact N|]. exists p, n. auto.
  - intros (N & p & n & A & L & K & E). exists p, n. auto.
Qed.
Print Assumptions C107_imports.
Example C107_imports_example :
  extract_file_imports ascii_unicode 10 (txt "python") (branch "module" "" [leaf "import_statement" "import os.path"; leaf "import_from_statement" "from json import loads"; branch "if_statement" "" [leaf "import_statement" "import re"]])
  = map txt ["json"; "os"; "re"]
  /\ extract_file_imports ascii_unicode 10 (txt "java") (branch "program" "" [leaf "import_declaration" "import java.util.Arrays;"]) = [txt "Arrays"]
  /\ extract_file_imports ascii_unicode 10 (txt "rust") (branch "source_file" "" [leaf "use_declaration" "use std::collections::HashMap;"]) = [txt "std"].
Proof. repeat split; vm_compute; reflexivity. Qed.
(** ... but only one module of a statement is recorded, and a module whose name begins like a keyword is not. *)
Theorem C107_imports_all_refuted :
  ~ (forall U a b t, good_unicode U -> t_kind t = txt "import_statement" -> t_text t = txt "import " ++ a ++ txt ", " ++ b -> a <> [] -> b <> [] -> (forall c, In c (a ++ b) -> a_lower c = true)
     -> In b (extract_file_imports U 100 (txt "python") t)).
Proof.
  intro H. assert (X : In (txt "sys") (extract_file_imports ascii_unicode 100 (txt "python") (leaf "import_statement" "import os, sys"))).
  { apply (H ascii_unicode (txt "os") (txt "sys")); [exact ascii_good|reflexivity|reflexivity|discriminate|discriminate|]. intros c I. cbn in I. repeat (destruct I as [<-|I]; [reflexivity|]). destruct I. }
  vm_compute in X. destruct X as [X|[]]. discriminate X.
Qed.
Theorem C107_imports_named_refuted :
  ~ (forall U m t, good_unicode U -> t_kind t = txt "import_statement" -> t_text t = txt "import " ++ m -> m <> [] -> (forall c, In c m -> a_lower c = true) -> In m (extract_file_imports U 100 (txt "python") t)).
Proof.
  intro H. assert (X : In (txt "users") (extract_file_imports ascii_unicode 100 (txt "python") (leaf "import_statement" "import users"))).
  { apply (H ascii_unicode (txt "users")); [exact ascii_good|reflexivity|reflexivity|discriminate|]. intros c I. cbn in I. repeat (destruct I as [<-|I]; [reflexivity|]). destruct I. }
  vm_compute in X. destruct X as [X|[]]. discriminate X.
Qed.

(** ** Modules a piece of code uses *)
Theorem C107_used_modules U max_depth lang k t : In (lang, k) accesses ->
  lists (extract_used_modules U max_depth (txt lang) t)
    (fun s => within max_depth t (fun n => t_kind n = txt k /\ exists o, in_field "object" n o /\ of_kind ["identifier"; "constant"; "simple_identifier"; "module_name"] o
              /\ bared U (t_text o) s /\ initial U s /\ ~ In s (map txt ["self"; "this"; "super"]))).
Proof.
  intro I. apply sorted_once_lists. intro s. rewrite module_visit_iff.
  assert (K : forall n, of_kind (attribute_kinds (txt lang)) n <-> t_kind n = txt k).
  { assert (E : attribute_kinds (txt lang) = [k]). { cbn [In accesses] in I. repeat (destruct I as [E|I]; [injection E as <- <-; vm_compute; reflexivity|]). destruct I. }
    intro n. rewrite E. unfold of_kind. cbn [In]. split; [intros (x & [<-|[]] & Y); exact Y|intro Y; exists k; auto]. }
  split; apply within_mono; intros n (A & B); [apply K in A|]; (split; [first [exact A|apply K; exact A]|apply (module_here_iff U max_depth lang k n s I A); exact B]).
Qed.
Print Assumptions C107_used_modules.
Example C107_used_modules_example :
  extract_used_modules ascii_unicode 10 (txt "python") (branch "block" "" [branch "attribute" "" [at_field "object" (leaf "identifier" "os")]; branch "call" "" [branch "attribute" "" [at_field "object" (leaf "identifier" "json")]]; branch "attribute" "" [at_field "object" (leaf "identifier" "self")]])
  = map txt ["json"; "os"].
Proof. reflexivity. Qed.

(** ** The imports of a unit: some of those of the file, in the same order *)
Theorem C107_unit_imports U file used calls :
  (StronglySorted comes_before file -> StronglySorted comes_before (unit_imports U file used calls))
  /\ (forall i, In i (unit_imports U file used calls) <-> In i file /\
       ((exists m, In m used /\ u_lower U m = u_lower U i)
        \/ exists c a b, In c calls /\ (u_lower U c = a ++ u_lower U i ++ b \/ u_lower U i = a ++ u_lower U c ++ b))).
Proof.
  split.
  - intro S. unfold unit_imports. induction S as [|x l S IH F]; [constructor|]. cbn [filter]. destruct (_ || _); [|exact IH]. constructor; [exact IH|]. rewrite Forall_forall in *. intros y I. apply F. apply filter_In in I. apply I.
  - intro i. unfold unit_imports. rewrite filter_In, orb_true_iff, !existsb_exists. split; intros (I & X); (split; [exact I|]).
    + destruct X as [(m & Im & E)|(c & Ic & E)]; [left; exists m; split; [exact Im|apply text_eqb_eq; exact E]|right]. apply orb_true_iff in E. destruct E as [E|E]; apply contains_spec in E; destruct E as (a & b & E); exists c, a, b; auto.
    + destruct X as [(m & Im & E)|(c & a & b & Ic & E)]; [left; exists m; split; [exact Im|apply text_eqb_eq; exact E]|right]. exists c. split; [exact Ic|]. apply orb_true_iff. destruct E as [E|E]; [left|right]; apply contains_spec; eauto.
Qed.
Print Assumptions C107_unit_imports.
Example C107_unit_imports_example : unit_imports ascii_unicode (map txt ["Json"; "os"; "re"]) [txt "json"] [txt "compile_re"] = map txt ["Json"; "re"].
Proof. reflexivity. Qed.
(** ... but a module is taken for used when its name is inside that of a call. *)
Theorem C107_unit_imports_refuted : ~ (forall U file used calls i, good_unicode U -> In i (unit_imports U file used calls) -> In i used \/ In i calls).
Proof.
  intro H. destruct (H ascii_unicode [txt "os"] [txt "handle"] [txt "close"] (txt "os") ascii_good) as [[X|[]]|[X|[]]]; [left; reflexivity|discriminate X|discriminate X].
Qed.

(** ** Parent class *)
Theorem C107_parent max_depth t s :
  (extract_parent_class max_depth (txt "python") t = Some s <-> exists a l n r, in_field "superclasses" t a /\ t_children a = l ++ n :: r /\ t_kind n = txt "identifier" /\ (forall x, In x l -> t_kind x <> txt "identifier") /\ s = t_text n)
  /\ (forall lang f k, In (lang, (f, k)) parent_field ->
      (extract_parent_class max_depth (txt lang) t = Some s <-> exists a n, in_field f t a /\ first_found [k] max_depth a n /\ s = t_text n))
  /\ (forall lang above ks, In (lang, (above, ks)) parent_below ->
      (extract_parent_class max_depth (txt lang) t = Some s <->
       exists l c r n, t_children t = l ++ c :: r /\ of_kind above c /\ first_found ks max_depth c n /\ s = t_text n
         /\ forall x, In x l -> of_kind above x -> ~ within max_depth x (of_kind ks))).
Proof.
  assert (M : forall o, option_map t_text o = Some s <-> exists n, o = Some n /\ s = t_text n).
  { intros [n|]; cbn [option_map]; split; [intro E; injection E as <-; eauto|intros (m & E & ->); injection E as ->; reflexivity|discriminate|intros (n & X & _); discriminate X]. }
  split; [|split].
  - unfold extract_parent_class. langs. rewrite M. split.
    + intros (n & E & ->). destruct (by_field "superclasses" t) as [a|] eqn:F; [|discriminate E]. cbn [and_then] in E. apply find_split in E. destruct E as (l & r & E & K & N). exists a, l, n, r.
      split; [apply by_field_iff; exact F|split; [exact E|split; [apply text_eqb_eq; exact K|split; [|reflexivity]]]]. intros x I X. apply N in I. rewrite X in I. discriminate I.
    + intros (a & l & n & r & F & E & K & N & ->). apply by_field_iff in F. rewrite F. exists n. split; [|reflexivity]. cbn [and_then]. apply find_split. exists l, r. split; [exact E|split; [apply text_eqb_eq; exact K|]].
      intros y I. destruct (text_eqb (t_kind y) (txt "identifier")) eqn:X; [|reflexivity]. apply text_eqb_eq in X. destruct (N y I X).
  - intros lang f k I. assert (E : extract_parent_class max_depth (txt lang) t = option_map t_text (and_then (by_field f t) (find_first_by_kinds [k] max_depth))).
    { cbn [In parent_field] in I. repeat (destruct I as [E|I]; [injection E as <- <- <-; unfold extract_parent_class; langs; reflexivity|]). destruct I. }
    rewrite E, M. split.
    + intros (n & X & ->). destruct (by_field f t) as [a|] eqn:F; [|discriminate X]. exists a, n. split; [apply by_field_iff; exact F|split; [apply find_first_iff; exact X|reflexivity]].
    + intros (a & n & F & X & ->). apply by_field_iff in F. rewrite F. exists n. split; [apply find_first_iff; exact X|reflexivity].
  - intros lang ab ks I. assert (E : extract_parent_class max_depth (txt lang) t = option_map t_text (heritage max_depth ab ks t)).
    { cbn [In parent_below] in I. repeat (destruct I as [E|I]; [injection E as <- <- <-; unfold extract_parent_class; langs; reflexivity|]). destruct I. }
    rewrite E, M. unfold heritage. split.
    + intros (n & X & ->). apply first_some_iff in X. destruct X as (l & c & r & Ec & X & N). destruct (one_of ab (t_kind c)) eqn:K; [|discriminate X].
      exists l, c, r, n. split; [exact Ec|split; [apply of_kind_mem; exact K|split; [apply find_first_iff; exact X|split; [reflexivity|]]]]. intros x Ix Kx. apply N in Ix. apply of_kind_mem in Kx. rewrite Kx in Ix. apply find_first_none. exact Ix.
    + intros (l & c & r & n & Ec & K & X & -> & N). exists n. split; [|reflexivity]. apply first_some_iff. exists l, c, r. apply of_kind_mem in K. split; [exact Ec|split; [rewrite K; apply find_first_iff; exact X|]].
      intros y Iy. destruct (one_of ab (t_kind y)) eqn:Ky; [|reflexivity]. apply find_first_none. apply (N y Iy). apply of_kind_mem. exact Ky.
Qed.
Print Assumptions C107_parent.
Example C107_parent_example :
  extract_parent_class 10 (txt "python") (branch "class_definition" "" [at_field "superclasses" (branch "argument_list" "" [token "("; leaf "identifier" "Animal"; leaf "identifier" "Named"])]) = Some (txt "Animal")
  /\ extract_parent_class 10 (txt "java") (branch "class_declaration" "" [at_field "superclass" (branch "superclass" "" [token "extends"; branch "generic_type" "" [leaf "type_identifier" "Base"]])]) = Some (txt "Base")
  /\ extract_parent_class 1 (txt "csharp") (branch "class_declaration" "" [branch "base_list" "" [branch "generic_name" "" [branch "name" "" [leaf "identifier" "Deep"]]]; branch "base_list" "" [leaf "identifier" "Near"]]) = Some (txt "Near").
Proof. repeat split; reflexivity. Qed.

(** ** Comments made of lines: exactly the run of comment lines above the code *)
Theorem C107_line_comments U before block after t :
  (forall lang mark skips, In (lang, (mark, skips)) line_style -> run_above U mark skips before block -> t_first t = length (before ++ block) ->
     exists ss, comments U mark block ss /\ extract_docstring U (txt lang) (before ++ block ++ after) t = Ok (match ss with [] => None | _ => Some (join [32%Z] ss) end))
  /\ (forall lang ss, In lang ["c"; "cpp"] -> run_above U "///" [] before block -> t_first t = length (before ++ block) -> comments U "///" block ss -> ss <> [] ->
     extract_docstring U (txt lang) (before ++ block ++ after) t = Ok (Some (join [32%Z] ss))).
Proof. split; [intros lang mark skips; apply line_doc|intros lang ss; apply c_line_doc]. Qed.
Print Assumptions C107_line_comments.
Example C107_line_comments_example :
  extract_docstring ascii_unicode (txt "rust") (map txt ["}"; "/// Adds two"; ""; "  /// numbers. "; "#[inline]"; "fn add() {}"]) (on_rows 5 5 (leaf "function_item" "")) = Ok (Some (txt "Adds two numbers."))
  /\ run_above ascii_unicode "///" ["//!"; "#["] [txt "}"] (map txt ["/// Adds two"; ""; "  /// numbers. "; "#[inline]"]).
Proof.
  split; [reflexivity|]. split.
  - intros l I. cbn [map In] in I. rewrite marked_iff, between_iff. repeat (destruct I as [<-|I]; [vm_compute; auto|]). destruct I.
  - right. exists [], (txt "}"). rewrite marked_iff, between_iff. split; [reflexivity|split; discriminate].
Qed.

(** ** Block comments: the words of each line, then the slash of the last *)
Theorem C107_block_comments U lang before after o t : good_unicode U -> In lang ("c" :: "cpp" :: block_style) ->
  (forall r w, bared U o (txt "/**" ++ r ++ txt "*/") -> bared U r w -> plain_words w -> t_first t = length (before ++ [o]) ->
     extract_docstring U (txt lang) (before ++ [o] ++ after) t = Ok (Some w))
  /\ (forall mids z ws, bared U o (txt "/**") -> Forall2 (starred U) mids ws -> bared U z (txt "*/") -> t_first t = length (before ++ o :: mids ++ [z]) ->
     extract_docstring U (txt lang) (before ++ (o :: mids ++ [z]) ++ after) t = Ok (Some (join [32%Z] (ws ++ [txt "/"])))).
Proof.
  intros G I. split.
  - intros r w Bo Br P F. eapply block_doc_above; [exact I|exact F| |rewrite app_assoc, firstn_whole, rev_app_distr; reflexivity| | |].
    + rewrite !app_length. lia.
    + rewrite (bared_neat U _ _ Bo). reflexivity.
    + rewrite (bared_neat U _ _ Bo). reflexivity.
    + cbn [rev app]. pose proof (block_one U G before o r w Bo Br P) as B. rewrite rev_app_distr in B. exact B.
  - intros mids z ws Bo Fm Bz F. pose proof (block_words U G before o mids z ws Bo Bz Fm) as B.
    assert (E : rev (before ++ o :: mids ++ [z]) = z :: rev (before ++ o :: mids)). { change (o :: mids ++ [z]) with ((o :: mids) ++ [z]). rewrite app_assoc, rev_app_distr. reflexivity. }
    rewrite E in B. eapply block_doc_above; [exact I|exact F| |rewrite app_assoc, firstn_whole; exact E| | |exact B].
    + rewrite !app_length. lia.
    + rewrite (bared_neat U _ _ Bz). reflexivity.
    + rewrite (bared_neat U _ _ Bz). reflexivity.
Qed.
Print Assumptions C107_block_comments.
Example C107_block_comments_example :
  extract_docstring ascii_unicode (txt "java") (map txt ["class A {"; "  /**"; "   * Adds two"; "   * numbers."; "   */"; "  int add();"]) (on_rows 5 5 (leaf "method_declaration" "")) = Ok (Some (txt "Adds two numbers. /"))
  /\ extract_docstring ascii_unicode (txt "javascript") (map txt ["/** Adds. */"; "function add() {}"]) (on_rows 1 1 (leaf "function_declaration" "")) = Ok (Some (txt "Adds.")).
Proof. split; reflexivity. Qed.
(** so the comment recorded is not what the comment says *)
Theorem C107_block_words_refuted :
  ~ (forall U before o mids z ws t, good_unicode U -> bared U o (txt "/**") -> Forall2 (starred U) mids ws -> bared U z (txt "*/") -> t_first t = length (before ++ o :: mids ++ [z]) ->
     extract_docstring U (txt "java") (before ++ o :: mids ++ [z]) t = Ok (Some (join [32%Z] ws))).
Proof.
  intro H. assert (B : forall s t, neat ascii_unicode s = t -> bared ascii_unicode s t) by (intros s t <-; apply neat_bared).
  assert (S : Forall2 (starred ascii_unicode) [txt " * Adds."] [txt "Adds."]).
  { constructor; [|constructor]. exists (txt " Adds."). split; [apply B; reflexivity|split; [apply B; reflexivity|]]. split; [discriminate|split]; intros c r E.
    - injection E as <- _. split; discriminate.
    - change (txt "Adds.") with (txt "Adds" ++ [46%Z]) in E. apply app_inj_tail in E. destruct E as (_ & <-). split; discriminate. }
  assert (X := H ascii_unicode [] (txt "/**") [txt " * Adds."] (txt " */") [txt "Adds."] (on_rows 3 3 (leaf "method_declaration" "")) ascii_good (B _ _ eq_refl) S (B _ _ eq_refl) eq_refl).
  vm_compute in X. discriminate X.
Qed.
(** a comment at the end of the line above the code makes code part of the comment *)
Theorem C107_block_code_refuted :
  ~ (forall U lang above ls t d, good_unicode U -> In lang block_style -> t_first t = S (length above) -> extract_docstring U (txt lang) (above ++ ls) t = Ok (Some d) ->
     exists l r, ls = l :: r /\ (marked U "/*" l \/ marked U "*" l)).
Proof.
  intro H. destruct (H ascii_unicode "javascript" [txt "/* licence */"] [txt "let x = 1; /* note */"] (on_rows 2 2 (leaf "function_declaration" "")) (txt "licence let x = 1; /* note") ascii_good) as (l & r & E & M).
  - left. reflexivity.
  - reflexivity.
  - reflexivity.
  - injection E as <- <-. rewrite !marked_iff in M. destruct M as [M|M]; vm_compute in M; discriminate M.
Qed.
(** a Haddock comment that goes on for a line is lost *)
Theorem C107_haddock_refuted :
  ~ (forall U first rest t, good_unicode U -> marked U "-- |" first -> (forall l, In l rest -> marked U "--" l) -> t_first t = S (length rest) -> extract_docstring U (txt "haskell") (first :: rest) t <> Ok None).
Proof.
  intro H. apply (H ascii_unicode (txt "-- | Adds two") [txt "-- numbers."] (on_rows 2 2 (leaf "function" "")) ascii_good); [apply marked_iff; reflexivity| |reflexivity|reflexivity].
  intros l [<-|[]]. apply marked_iff. reflexivity.
Qed.

(** ** Python: the rows of the string, without the quotes at the two ends *)
Theorem C107_python_doc U pre mid post t e : first_statement t e -> length pre = t_first e -> t_first e <= t_last e -> length mid = S (t_last e - t_first e) ->
  exists core d, unquoted (join [10%Z] mid) core /\ bared U core d /\ extract_docstring U (txt "python") (pre ++ mid ++ post) t = Ok (Some d).
Proof. intros F L1 L2 L3. eapply python_doc_ok; eauto. Qed.
Print Assumptions C107_python_doc.
Definition python_function (a b : nat) : tree :=
  branch "function_definition" "" [token "def"; at_field "body" (branch "block" "" [branch "expression_statement" "" [on_rows a b (leaf "string" "")]])].
Definition three_quotes : text := [34; 34; 34]%Z.
Example C107_python_doc_example :
  first_statement (python_function 0 0) (on_rows 0 0 (leaf "string" "")) /\
  extract_docstring ascii_unicode (txt "python") [three_quotes ++ txt "Adds." ++ three_quotes] (python_function 0 0) = Ok (Some (txt "Adds.")).
Proof.
  split; [|reflexivity]. exists (at_field "body" (branch "block" "" [branch "expression_statement" "" [on_rows 0 0 (leaf "string" "")]])), (branch "expression_statement" "" [on_rows 0 0 (leaf "string" "")]), [], [].
  split; [apply by_field_iff; reflexivity|repeat split].
Qed.
(** ... but the rows begin with the indentation: the quotes that open the string stay *)
Theorem C107_python_quotes_refuted :
  ~ (forall U ls t d, good_unicode U -> extract_docstring U (txt "python") ls t = Ok (Some d) -> forall c r, d = c :: r -> c <> 34%Z).
Proof.
  intro H. apply (H ascii_unicode [txt "def add():"; txt "    " ++ three_quotes ++ txt "Adds." ++ three_quotes] (python_function 1 1) (three_quotes ++ txt "Adds.") ascii_good eq_refl 34%Z ([34; 34]%Z ++ txt "Adds.")); reflexivity.
Qed.
(** and on the line of the definition the definition is part of it *)
Theorem C107_python_one_line_refuted :
  ~ (forall U ls t d, good_unicode U -> extract_docstring U (txt "python") ls t = Ok (Some d) -> starts_with (txt "def ") d = false).
Proof. intro H. assert (X := H ascii_unicode [txt "def add(): 'Adds.'"] (python_function 0 0) (txt "def add(): 'Adds.") ascii_good eq_refl). vm_compute in X. discriminate X. Qed.

(** ** Parameters *)
Theorem C107_parameters max_depth lang t :
  (forall s, In s (extract_parameters max_depth (txt lang) t) -> s <> [] /\ (~ In lang ["go"; "python"] -> ~ In s (map txt ["self"; "this"; "cls"])))
  /\ (forall p c, In lang ["python"; "rust"; "go"; "java"; "csharp"; "ruby"; "php"; "lua"; "elixir"; "haskell"; "javascript"; "typescript"; "kotlin"] -> in_field "parameters" t p -> In c (t_children p) ->
      t_kind c = txt "identifier" -> t_children c = [] -> t_text c <> [] -> ~ In (t_text c) (map txt ["self"; "this"; "cls"]) -> In (t_text c) (extract_parameters max_depth (txt lang) t)).
Proof.
  split.
  - intros s I. unfold extract_parameters in I. destruct (params_node (txt lang) t) as [p|]; [|destruct I]. apply in_flat_map in I. destruct I as (c & _ & I). unfold params_of in I.
    assert (Id : forall x, In s (filter non_empty x) -> s <> []). { intros x J. apply filter_In in J. destruct J as (_ & J). intros ->. discriminate J. }
    assert (Nl : forall a, is (txt lang) [a] = true -> lang = a).
    { intros a E. unfold is, one_of in E. apply mem_in in E. destruct E as [E|[]]. symmetry. revert a E. clear. induction lang as [|x b IH]; intros [|y a] E; cbn [txt] in E; try discriminate E; [reflexivity|]. injection E as E1 E2. rewrite (IH a E2). f_equal. apply Nat2Z.inj in E1. rewrite <- (Ascii.ascii_nat_embedding x), <- E1. symmetry. apply Ascii.ascii_nat_embedding. }
    destruct (contains (txt "parameter") (t_kind c) || one_of ["identifier"] (t_kind c) || is (txt lang) ["ocaml"] && one_of ["typed"] (t_kind c)).
    + destruct (is (txt lang) ["go"] && one_of ["parameter_declaration"] (t_kind c)) eqn:Go.
      * apply andb_true_iff in Go. destruct Go as (Go & _). apply Nl in Go. subst lang. split; [apply (Id _ I)|]. intro N. exfalso. apply N. left. reflexivity.
      * destruct (param_name max_depth (txt lang) c) as [n|]; [|destruct I]. destruct (non_empty (t_text n) && negb (one_of ["self"; "this"; "cls"] (t_text n))) eqn:X; [|destruct I]. destruct I as [<-|[]].
        apply andb_true_iff in X. destruct X as (X1 & X2). split; [intros E; rewrite E in X1; discriminate X1|]. intros _ J. apply negb_true_iff in X2. unfold one_of in X2. apply mem_in in J. congruence.
    + destruct (is (txt lang) ["python"] && one_of ["list_splat_pattern"; "dictionary_splat_pattern"] (t_kind c)) eqn:Py; [|destruct I]. apply andb_true_iff in Py. destruct Py as (Py & _). apply Nl in Py. subst lang.
      destruct (by_kind "identifier" c) as [n|]; [|destruct I]. destruct (non_empty (t_text n)) eqn:X; [|destruct I]. destruct I as [<-|[]]. split; [intros E; rewrite E in X; discriminate X|]. intro N. exfalso. apply N. right. left. reflexivity.
  - intros p c L F Ic K Ch Ne Ns. unfold extract_parameters. assert (P : params_node (txt lang) t = Some p).
    { apply by_field_iff in F. cbn [In] in L. repeat (destruct L as [<-|L]; [unfold params_node; langs; rewrite F; reflexivity|]). destruct L. }
    rewrite P. apply in_flat_map. exists c. split; [exact Ic|]. unfold params_of. rewrite K. change (one_of ["identifier"] (txt "identifier")) with true. rewrite orb_true_r. cbn [orb].
    change (one_of ["parameter_declaration"] (txt "identifier")) with false. rewrite andb_false_r. unfold param_name, by_field. rewrite Ch. cbn [find or_else]. rewrite K. change (one_of ["identifier"] (txt "identifier")) with true. cbv iota.
    assert (X : non_empty (t_text c) && negb (one_of ["self"; "this"; "cls"] (t_text c)) = true). { apply andb_true_iff. split; [destruct (t_text c); [congruence|reflexivity]|]. apply negb_true_iff. destruct (one_of _ (t_text c)) eqn:E; [|reflexivity]. exfalso. apply Ns. apply mem_in. exact E. }
    rewrite X. left. reflexivity.
Qed.
Print Assumptions C107_parameters.
Example C107_parameters_example :
  extract_parameters 10 (txt "python") (branch "function_definition" "" [at_field "parameters" (branch "parameters" "" [token "("; leaf "identifier" "self"; leaf "identifier" "a"; branch "typed_parameter" "" [leaf "identifier" "b"; token ":"]; branch "list_splat_pattern" "" [token "*"; leaf "identifier" "rest"]])])
  = map txt ["a"; "b"; "rest"].
Proof. reflexivity. Qed.
