(** Property C103: the texts colgrep gives to the model. *)
From Verif Require Import Base Text FtsText FtsTextSpec SqlModel MetaModel Units Embed EmbedSpec EmbedProofs.
Open Scope nat_scope.

(** C103. The text of a code unit has at most 8192 characters. *)
Theorem C103_bounded : forall U up lo u names, length (build_embedding_text U up lo u names) <= 8 * 1024.
Proof. intros. apply truncate_length. Qed.
Print Assumptions C103_bounded.
(** Below that it is complete: the code alone for constants and raw code, else the description, one
    line for each thing known, and the code at the end. *)
Theorem C103_short_complete :
  forall U up lo u names, In (cu_unit_type u) unit_types ->
    let lines := description u (normalize_path U up lo (shorten_path names)) in
    let whole := if text_eqb (cu_unit_type u) (txt "rawcode") || text_eqb (cu_unit_type u) (txt "constant") then cu_code u
                 else join [10%Z] lines ++ match cu_code u with [] => [] | c => [10%Z] ++ txt "Code:" ++ [10%Z] ++ c end in
    full_text U up lo u names = whole /\ (length whole <= 8 * 1024 -> build_embedding_text U up lo u names = whole).
Proof.
  intros U up lo u names T lines whole.
  assert (E : full_text U up lo u names = whole).
  { unfold whole, full_text. destruct (text_eqb (cu_unit_type u) (txt "rawcode") || text_eqb (cu_unit_type u) (txt "constant")); [reflexivity|].
    rewrite before_code_described by exact T. fold lines. destruct (cu_code u) as [|c r]; cbn [opt_part]; [rewrite !app_nil_r; reflexivity|].
    rewrite join_app by (unfold lines, description, described; cbn [flat_map orb app]; discriminate). reflexivity. }
  split; [exact E|]. intros L. unfold build_embedding_text. rewrite E. apply truncate_short. exact L.
Qed.
Print Assumptions C103_short_complete.
(** Beyond, it is the beginning of it, cut after 8173 characters and before white space, and a marker. *)
Theorem C103_long_is_beginning :
  forall U up lo u names, 8 * 1024 < length (full_text U up lo u names) ->
    exists kept dropped, build_embedding_text U up lo u names = kept ++ [10%Z] ++ txt "[...truncated...]" ++ [10%Z]
      /\ firstn (8 * 1024 - 19) (full_text U up lo u names) = kept ++ dropped /\ all (u_ws U) dropped
      /\ (kept = [] \/ exists a c, kept = a ++ [c] /\ u_ws U c = false).
Proof. intros U up lo u names L. apply truncate_long; [exact L|]. unfold max_chars. change (length marker) with 19. lia. Qed.
Print Assumptions C103_long_is_beginning.
(** The code is what is lost: a description that fits is there, with the file. *)
Theorem C103_description_kept :
  forall U up lo u names, good_unicode U -> In (cu_unit_type u) unit_types -> cu_unit_type u <> txt "rawcode" -> cu_unit_type u <> txt "constant" ->
    let lines := description u (normalize_path U up lo (shorten_path names)) in
    length (join [10%Z] lines) + 21 <= 8 * 1024 -> exists rest, build_embedding_text U up lo u names = join [10%Z] lines ++ rest.
Proof.
  intros U up lo u names G T N1 N2 lines L. destruct (C103_short_complete U up lo u names T) as (E & S). fold lines in E, S.
  apply text_eqb_neq in N1, N2. rewrite N1, N2 in E, S. cbn [orb] in E, S. destruct (cu_code u) as [|c r].
  - exists []. rewrite S by (rewrite app_nil_r; lia). reflexivity.
  - unfold build_embedding_text. rewrite E. change ([10%Z] ++ txt "Code:" ++ [10%Z] ++ c :: r) with ([10%Z] ++ (ch "C" :: (txt "ode:" ++ [10%Z] ++ c :: r))).
    rewrite app_assoc. destruct (truncate_keeps U (join [10%Z] lines ++ [10%Z]) (ch "C") (txt "ode:" ++ [10%Z] ++ c :: r) max_chars) as (r' & R).
    + rewrite (gu_ws U G) by reflexivity. reflexivity.
    + rewrite app_length. change (length marker) with 19. cbn [length]. unfold max_chars. lia.
    + exists ([10%Z] ++ ch "C" :: r'). rewrite R, <- app_assoc. reflexivity.
Qed.
Print Assumptions C103_description_kept.

(** C103. The file in it: the words of the last four components up to the last dot, in lower case, and
    the name of the file. *)
Theorem C103_file_words :
  forall U up lo path, good_unicode U ->
    exists stem words name dirs, normalize_path U up lo path = u_lower U (join (txt " ") words) ++ txt " " ++ name
      /\ path_words (u_ws U) up lo None stem words
      /\ ((stem = path /\ ~ In (ch ".") path) \/ exists ext, path = stem ++ txt "." ++ ext /\ ~ In (ch ".") ext)
      /\ path = dirs ++ name /\ none (fun c => (c =? ch "/")%Z || (c =? 92)%Z) name
      /\ (dirs = [] \/ exists d c, dirs = d ++ [c] /\ (c = ch "/" \/ c = 92%Z)).
Proof.
  intros U up lo path G. destruct (after_last_spec path) as (d & D1 & D2 & D3).
  exists (before_last_dot path), (split_whitespace (u_ws U) (spread up lo [] None (before_last_dot path))), (after_last_sep path), d.
  split; [reflexivity|]. split; [apply spread_words; rewrite (gu_ws U G) by reflexivity; reflexivity|]. split; [exact (before_last_spec path)|].
  split; [exact D1|]. split; [exact D2|]. destruct D3 as [->|(d' & c & -> & C)]; [left; reflexivity|right]. exists d', c. split; [reflexivity|].
  unfold is_sep in C. apply orb_true_iff in C. rewrite !Z.eqb_eq in C. exact C.
Qed.
Print Assumptions C103_file_words.

(** It is made of the name of the file and at most three directories above it. *)
Theorem C103_file_components :
  forall names, exists before after, names = before ++ after /\ length after = Nat.min 4 (length names) /\ shorten_path names = join (txt "/") after.
Proof.
  intros names. exists (firstn (length names - 4) names), (skipn (length names - 4) names). split; [symmetry; apply firstn_skipn|].
  split; [rewrite skipn_length; lia|reflexivity].
Qed.
Print Assumptions C103_file_components.

(** C103. The query that is encoded when a pattern is given starts with the query; the words after it
    are those the pattern says, without those of the query. *)
Theorem C103_query_words :
  forall U q items, good_unicode U -> Forall item_ok items ->
    let words := split_whitespace (u_ws U) in
    words (semantic_query U q (flat_map written items))
      = words q ++ filter (fun t => negb (existsb (text_eqb (u_lower U t)) (map (u_lower U) (words q)))) (words (flat_map said items))
    /\ exists r, semantic_query U q (flat_map written items) = q ++ r.
Proof.
  intros U q items G F words. assert (S : u_ws U 32%Z = true) by (rewrite (gu_ws U G) by reflexivity; reflexivity).
  unfold words, semantic_query. destruct (merge_words U S q (strip_regex U (flat_map written items))) as (A & B). split; [|exact B].
  rewrite A, (strip_words U S items F). reflexivity.
Qed.
Print Assumptions C103_query_words.
(** In general, for any pattern at all, nothing of the query is lost and no word of it repeated. *)
Theorem C103_query_kept :
  forall U q p, good_unicode U ->
    let words := split_whitespace (u_ws U) in
    exists r new, semantic_query U q p = q ++ r /\ words (semantic_query U q p) = words q ++ new
      /\ forall t, In t new -> ~ In (u_lower U t) (map (u_lower U) (words q)).
Proof.
  intros U q p G words. assert (S : u_ws U 32%Z = true) by (rewrite (gu_ws U G) by reflexivity; reflexivity).
  destruct (merge_words U S q (strip_regex U p)) as (A & (r & B)). exists r. eexists. split; [exact B|]. split; [exact A|].
  intros t T H. apply filter_In in T. destruct T as (_ & T). apply negb_true_iff in T.
  assert (X : existsb (text_eqb (u_lower U t)) (map (u_lower U) (words q)) = true) by (apply existsb_exists; exists (u_lower U t); split; [exact H|apply text_eqb_refl]).
  unfold words in X. congruence.
Qed.
Print Assumptions C103_query_kept.

Notation A_ := ascii_unicode.
Definition ex_unit : code_unit := {| cu_name := txt "parse"; cu_qualified_name := txt "f::parse"; cu_file := txt "src/lib/deep/parser/HttpParser.rs"; cu_line := 1; cu_end_line := 3;
  cu_language := txt "rust"; cu_unit_type := txt "function"; cu_signature := txt "fn parse()"; cu_docstring := None; cu_parameters := [txt "a"; txt "b"]; cu_return_type := Some [];
  cu_extends := None; cu_parent_class := None; cu_calls := []; cu_called_by := [txt "main"]; cu_complexity := 1; cu_has_loops := false; cu_has_branches := false;
  cu_has_error_handling := false; cu_variables := []; cu_imports := []; cu_code := txt "fn parse() {}" |}.
Definition ex_names := map txt ["src"; "lib"; "deep"; "my_parser"; "HttpParser.rs"]%string.
Example C103_example :
  build_embedding_text A_ a_upper a_lower ex_unit ex_names
  = txt "Function: parse" ++ [10%Z] ++ txt "Signature: fn parse()" ++ [10%Z] ++ txt "Parameters: a, b" ++ [10%Z] ++ txt "Called by: main" ++ [10%Z]
    ++ txt "File: lib deep my parser http parser HttpParser.rs" ++ [10%Z] ++ txt "Code:" ++ [10%Z] ++ txt "fn parse() {}"
  /\ In (cu_unit_type ex_unit) unit_types
  /\ strip_regex A_ (txt "pub\s+(async\s+)?fn|x[a-z]{2}y") = txt "pub async fn xy"
  /\ semantic_query A_ (txt "Async work") (txt "pub\s+(async\s+)?fn") = txt "Async work pub fn".
Proof. vm_compute. repeat split; auto. Qed.
(** a pattern made of items: the hypotheses of C103_query_words *)
Definition ex_items : list item :=
  [Plain (ch "f"); Plain (ch "n"); Class_escape (ch "s"); Mark (ch "+"); Mark (ch "("); Plain (ch "g"); Escaped (ch "."); Brackets (txt "a-z"); Braces (txt "2,3");
   Mark (ch ")"); Alternation; Plain (ch "h")].
Example C103_items_example :
  Forall item_ok ex_items /\ flat_map written ex_items = txt "fn\s+(g\.[a-z]{2,3})|h" /\ semantic_query A_ (txt "all FN") (flat_map written ex_items) = txt "all FN g. h".
Proof. split; [|vm_compute; auto]. unfold ex_items. repeat constructor; cbn -[ch]; unfold ch; cbn; intuition discriminate. Qed.
Example C103_path_example :
  shorten_path ex_names = txt "lib/deep/my_parser/HttpParser.rs" /\ normalize_path A_ a_upper a_lower (shorten_path ex_names) = txt "lib deep my parser http parser HttpParser.rs".
Proof. vm_compute. auto. Qed.
Definition ex_long : code_unit := {| cu_name := txt "f"; cu_qualified_name := []; cu_file := []; cu_line := 1; cu_end_line := 3;
  cu_language := txt "rust"; cu_unit_type := txt "function"; cu_signature := []; cu_docstring := Some (repeat (ch "x") (8 * 1024)); cu_parameters := []; cu_return_type := None;
  cu_extends := None; cu_parent_class := None; cu_calls := []; cu_called_by := []; cu_complexity := 1; cu_has_loops := false; cu_has_branches := false;
  cu_has_error_handling := false; cu_variables := []; cu_imports := []; cu_code := txt "fn f() {}" |}.

Example C103_long_example :
  8 * 1024 < length (full_text A_ a_upper a_lower ex_long [txt "a.rs"]) /\ length (build_embedding_text A_ a_upper a_lower ex_long [txt "a.rs"]) = 8 * 1024
  /\ In (cu_unit_type ex_long) unit_types.
Proof. split; [apply Nat.ltb_lt; vm_compute; reflexivity|]. split; [vm_compute; reflexivity|vm_compute; auto]. Qed.

(** Not so: "the file path is preserved while only the tail of the source code is lost".  With a long
    description the file is lost too. *)
Theorem C103_file_lost_refuted : exists u names, length (cu_code u) < 10 /\ contains (txt "File: ") (build_embedding_text A_ a_upper a_lower u names) = false.
Proof. exists ex_long, [txt "a.rs"]. split; [cbn; lia|]. vm_compute. reflexivity. Qed.
Print Assumptions C103_file_lost_refuted.
(** Not so: the words of all directories are there.  The text is cut at the last dot of the path, which
    may be in a directory. *)
Theorem C103_dot_refuted : normalize_path A_ a_upper a_lower (txt "v1.2/notes/Makefile") = txt "v1 Makefile" /\ normalize_path A_ a_upper a_lower (txt ".github/owners/TEAMS") = txt " TEAMS".
Proof. vm_compute. auto. Qed.
Print Assumptions C103_dot_refuted.
(** Not so: words of a pattern stay words.  What stands between them may be dropped without a trace,
    and flags and group names become letters of the words. *)
Theorem C103_glued_refuted :
  strip_regex A_ (txt "error.*handler") = txt "errorhandler" /\ strip_regex A_ (txt "(?i)error") = txt "ierror" /\ strip_regex A_ (txt "(?:get|set)") = txt ":get set"
  /\ strip_regex A_ (txt "\p{Lu}word") = txt "pword".
Proof. vm_compute. auto. Qed.
Print Assumptions C103_glued_refuted.
(** Not so: a bracketed class is dropped.  A class that starts with ] leaks. *)
Theorem C103_class_refuted : strip_regex A_ (txt "x[]abc]y") = txt "xabc]y".
Proof. vm_compute. reflexivity. Qed.
Print Assumptions C103_class_refuted.
(** Not so with -F: the pattern is a text, but is stripped like a regular expression. *)
Theorem C103_fixed_refuted : semantic_query A_ (txt "length") (txt "args[i].len()") = txt "length argslen".
Proof. vm_compute. reflexivity. Qed.
Print Assumptions C103_fixed_refuted.
