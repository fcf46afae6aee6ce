(** Properties C83-C84: the text patterns of option -e. *)
From Verif Require Import Base Text Regex RegexProofs Glob GlobSpec GlobProofs GlobMore.
From Verif Require Import Pattern PatternSpec PatternProofs PatternMore PatternLines PatternOld.
Open Scope nat_scope.

(** * C83: which units a pattern selects *)
(** No pattern makes the search fail, whatever the engine thinks of it; nothing is given twice;
    and, unless the fixed mode is asked for, a unit that contains the pattern exactly as typed is
    found whatever the pattern means as a regular expression. *)
Theorem C83_always : forall E hash_order rows p extended fixed word cs, faithful E -> (forall l, Permutation (hash_order l) l) ->
  NoDup (map fst rows) ->
  exists l, filter_by_text_pattern E hash_order rows p extended fixed word cs = Ok l /\ NoDup l /\ incl l (map fst rows) /\
    forall id code, p <> [] -> In (id, code) rows -> (if word then whole_word true (e_fold E) (e_word E) p code else literally p code) -> In id l.
Proof.
  intros E h rows p extended fixed word cs HE HH ND. destruct (list_eq_dec Z.eq_dec p []) as [->|N].
  - exists []. split; [reflexivity|]. split; [constructor|]. split; [intros x []|]. intros; congruence.
  - destruct fixed.
    + destruct (literal_parse E p word N) as (r & P & HR). destruct (regexp_spec E HE _ _ _ rows P) as (l & EL & HL & keep & EK & HK).
      exists l. split; [|split; [|split]].
      * rewrite fixed_unfold by exact N. rewrite EL. reflexivity.
      * subst l. clear -ND. induction rows as [|x rows IH]; cbn [filter map]; [constructor|]. inversion ND; subst.
        destruct (keep (snd x)); cbn [map]; [|auto]. constructor; [|auto]. intros I. match goal with K : ~ In _ _ |- _ => apply K end.
        apply in_map_iff in I. destruct I as (y & <- & I). apply in_map. apply filter_In in I. apply I.
      * intros id I. apply HL in I. destruct I as (code & I & _). apply in_map_iff. exists (id, code). auto.
      * intros id code _ I H. apply HL. exists code. split; [exact I|]. apply HR. exact H.
    + destruct (select_spec E h HE HH rows p extended word cs N) as (l & EL & HN & HL). exists l. split; [exact EL|]. split; [auto|]. split.
      * intros id I. apply HL in I. destruct I as (code & I & _). apply in_map_iff. exists (id, code). auto.
      * intros id code _ I H. apply HL. exists code. split; [exact I|]. left. exact H.
Qed.
Print Assumptions C83_always.

(** Fixed mode (-F): exactly the units that contain the pattern, in the order of the index.  The
    letter case counts, whether or not -s is given. *)
Theorem C83_fixed : forall E hash_order rows p extended word cs, faithful E -> p <> [] ->
  exists keep, filter_by_text_pattern E hash_order rows p extended true word cs = Ok (map fst (filter (fun r => keep (snd r)) rows)) /\
    forall code, keep code = true <-> if word then whole_word true (e_fold E) (e_word E) p code else literally p code.
Proof.
  intros E h rows p extended word cs HE N. destruct (literal_parse E p word N) as (r & P & HR).
  destruct (regexp_spec E HE _ _ _ rows P) as (l & EL & _ & keep & EK & HK). exists keep. split.
  - rewrite fixed_unfold by exact N. rewrite EL, EK. reflexivity.
  - intros code. rewrite HK. apply HR.
Qed.
Print Assumptions C83_fixed.

(** Without regular expressions (not -E, not -F; not reachable from the command line today): the
    pattern as it is, letter case aside unless -s. *)
Theorem C83_basic : forall E hash_order rows p cs, faithful E -> (forall l, Permutation (hash_order l) l) -> p <> [] ->
  exists l, filter_by_text_pattern E hash_order rows p false false false cs = Ok l /\
    forall id, In id l <-> exists pre mid post, In (id, pre ++ mid ++ post) rows /\ alike cs (e_fold E) p mid.
Proof.
  intros E h rows p cs HE HH N. destruct (select_spec E h HE HH rows p false false cs N) as (l & EL & _ & HL). exists l. split; [exact EL|].
  assert (R : read (escape p) [] [] [] = Some (alternatives [] (rev (map Lit p)))).
  { rewrite <- (app_nil_r (escape p)), read_escape, app_nil_r. reflexivity. }
  pose proof (typed_found E HE p false false cs _ _ (parse_inline cs _ _ R)) as T.
  assert (F : forall code, found (e_fold E) (e_word E) {| multi_line := true; any_case := negb cs |} (alternatives [] (rev (map Lit p))) code <->
    exists pre mid post, code = pre ++ mid ++ post /\ alike cs (e_fold E) p mid).
  { intros code. unfold alternatives. cbn [fold_left]. rewrite sequence_chain, rev_involutive. unfold found.
    assert (K : forall q pre mid post, matches (e_fold E) (e_word E) {| multi_line := true; any_case := negb cs |} (chain (map Lit q) Eps) pre mid post <-> alike cs (e_fold E) q mid).
    { induction q as [|c q IH]; intros pre mid post; cbn [map chain].
      - rewrite eps_inv. unfold alike. destruct cs; cbn [map]; split; intros H; try congruence; [subst; reflexivity|destruct mid; [auto|discriminate]].
      - rewrite cat_inv. split.
        + intros (a & b & -> & H1 & H2). apply IH in H2. inversion H1; subst. cbn [app]. apply (alike_cons (e_fold E) cs). split; [|exact H2].
          apply (same_alike (e_fold E) cs). assumption.
        + intros H. destruct mid as [|d mid]; [apply alike_length in H; discriminate|]. apply (alike_cons (e_fold E) cs) in H. destruct H as (H1 & H2).
          exists [d], mid. split; [reflexivity|]. split; [constructor; apply (same_alike (e_fold E) cs); exact H1|]. apply IH. exact H2. }
    split; intros (pre & mid & post & H1 & H2); exists pre, mid, post; (split; [exact H1|]); apply (K p pre mid post); exact H2. }
  intros id. rewrite HL. split.
  - intros (code & I & [(pre & post & ->)|H]).
    + exists pre, p, post. split; [exact I|]. unfold alike. destruct cs; reflexivity.
    + apply T, F in H. destruct H as (pre & mid & post & -> & H). eauto.
  - intros (pre & mid & post & I & H). eexists. split; [exact I|]. right. apply T, F. eauto.
Qed.
Print Assumptions C83_basic.

(** The default mode, for patterns made of plain texts separated by bars, each perhaps tied to the
    beginning or the end of a line, braces included: a unit is found if one of the pieces occurs in
    it, or the whole pattern as typed. *)
Theorem C83_grep : forall E hash_order rows p l cs, faithful E -> (forall l, Permutation (hash_order l) l) ->
  Forall (fun x => plain (body x) /\ no_repetition (body x)) (p :: map snd l) -> write_pattern p l <> [] ->
  exists ids, filter_by_text_pattern E hash_order rows (write_pattern p l) true false false cs = Ok ids /\
    forall id, In id ids <-> exists code, In (id, code) rows /\
      ((exists x, In x (p :: map snd l) /\ occurs cs (e_fold E) x code) \/ literally (write_pattern p l) code).
Proof.
  intros E h rows p l cs HE HH F N. destruct (select_spec E h HE HH rows (write_pattern p l) true false cs N) as (ids & EL & _ & HL).
  exists ids. split; [exact EL|].
  assert (F1 : Forall (fun x => plain (body x)) (p :: map snd l)) by (eapply Forall_impl; [|exact F]; cbn; tauto).
  destruct (read_bars l p [] F1) as (r & R & HR).
  assert (P : parse (typed (write_pattern p l) true false cs) = Some ({| multi_line := true; any_case := negb cs |}, r)).
  { unfold typed. rewrite ere_bars by exact F. apply parse_inline. exact R. }
  intros id. rewrite HL. split; intros (code & I & H); exists code; (split; [exact I|]).
  - destruct H as [H|H]; [right; exact H|left]. apply (typed_found E HE _ _ _ _ _ _ P) in H. apply HR in H. destruct H as [(a & [] & _)|(b & J & H)].
    exists b. split; [exact J|]. apply found_piece in H. exact H.
  - destruct H as [(b & J & H)|H]; [right|left; exact H]. apply (typed_found E HE _ _ _ _ _ _ P). apply HR. right. exists b. split; [exact J|].
    apply found_piece. exact H.
Qed.
Print Assumptions C83_grep.

(** One plain text: the units that contain it, letter case aside unless -s. *)
Theorem C83_plain : forall E hash_order rows p cs, faithful E -> (forall l, Permutation (hash_order l) l) ->
  plain p -> no_repetition p -> p <> [] ->
  exists ids, filter_by_text_pattern E hash_order rows p true false false cs = Ok ids /\
    forall id, In id ids <-> exists pre mid post, In (id, pre ++ mid ++ post) rows /\ alike cs (e_fold E) p mid.
Proof.
  intros E h rows p cs HE HH PL NR N. pose (x := {| at_start := false; body := p; at_end := false |}).
  assert (W : write_pattern x [] = p) by (cbn; apply app_nil_r).
  destruct (C83_grep E h rows x [] cs HE HH) as (ids & E1 & H).
  - constructor; [split; assumption|constructor].
  - rewrite W. exact N.
  - rewrite W in E1, H. exists ids. split; [exact E1|]. intros id. rewrite H. split.
    + intros (code & I & [(y & [<-|[]] & pre & mid & post & -> & A & _)|(pre & post & ->)]); [eauto|].
      exists pre, p, post. split; [exact I|]. unfold alike. destruct cs; reflexivity.
    + intros (pre & mid & post & I & A). eexists. split; [exact I|]. left. exists x. split; [left; reflexivity|]. exists pre, mid, post.
      split; [reflexivity|]. split; [exact A|]. split; discriminate.
Qed.
Print Assumptions C83_plain.

(** Whole words (-w), one plain text. *)
Theorem C83_word : forall E hash_order rows p extended cs, faithful E -> (forall l, Permutation (hash_order l) l) ->
  plain p -> no_repetition p -> p <> [] ->
  exists ids, filter_by_text_pattern E hash_order rows p extended false true cs = Ok ids /\
    forall id, In id ids <-> exists code, In (id, code) rows /\ whole_word cs (e_fold E) (e_word E) p code.
Proof.
  intros E h rows p extended cs HE HH PL NR N. destruct (select_spec E h HE HH rows p extended true cs N) as (ids & EL & _ & HL).
  exists ids. split; [exact EL|].
  assert (B : escape_literal_braces (bre_to_ere p) = flat_map brace p).
  { rewrite bre_none by (apply (plain_no p (ch "\")); [exact PL|left; reflexivity]). apply escape_braces_plain; auto.
    - apply (plain_no p (ch "\")); [exact PL|left; reflexivity].
    - apply (plain_no p (ch "[")); [exact PL|cbn; auto 20]. }
  assert (P : parse (typed p extended true cs) = Some ({| multi_line := true; any_case := negb cs |}, chain (WordB :: map atom p ++ [WordB]) Eps)).
  { unfold typed. rewrite B. apply parse_inline.
    change (read (txt "\b" ++ flat_map brace p ++ txt "\b") [] [] []) with (read (flat_map brace p ++ txt "\b") [] [] [WordB]).
    rewrite read_atoms by exact PL.
    change (read (txt "\b") [] [] (rev (map atom p) ++ [WordB])) with (Some (alternatives [] (WordB :: rev (map atom p) ++ [WordB]))).
    unfold alternatives. cbn [fold_left]. rewrite sequence_chain. cbn [rev]. rewrite rev_app_distr, rev_involutive. reflexivity. }
  intros id. rewrite HL. split.
  - intros (code & I & [H|H]); exists code; (split; [exact I|]).
    + destruct H as (pre & mid & post & -> & A & B1 & B2). exists pre, mid, post. split; [reflexivity|]. split; [|auto].
      cbn [alike] in A. subst mid. unfold alike. destruct cs; reflexivity.
    + apply (typed_found E HE _ _ _ _ _ _ P) in H. apply found_word in H. exact H.
  - intros (code & I & H). exists code. split; [exact I|]. right. apply (typed_found E HE _ _ _ _ _ _ P). apply found_word. exact H.
Qed.
Print Assumptions C83_word.

(** Examples: a faithful engine, and the order of the index as the order of the hash set. *)
Definition codes : list row :=
  [(1, txt "fn parse(x) { y }"); (2, txt "struct Foo;" ++ [10%Z] ++ txt "impl Foo"); (3, txt "let foobar = x[0]"); (4, txt "bar foo|bar")]%Z.
Definition select := filter_by_text_pattern fragment_engine (fun l => l) codes.
Definition piece_of (s : bool) (b : text) (e : bool) : piece := {| at_start := s; body := b; at_end := e |}.
Lemma same_order (l : list Z) : Permutation ((fun l => l) l) l.
Proof. apply Permutation_refl. Qed.
Example C83_example :
  write_pattern (piece_of true (txt "impl") false) [(true, piece_of false (txt " { y") false)] = txt "^impl\| { y" /\
  Forall (fun x => plain (body x) /\ no_repetition (body x)) [piece_of true (txt "impl") false; piece_of false (txt " { y") false] /\
  select (txt "^impl\| { y") true false false false = Ok [1; 2]%Z /\
  occurs false to_lower1 (piece_of true (txt "IMPL") false) (txt "struct Foo;" ++ [10%Z] ++ txt "impl Foo") /\
  select (txt "FOO") true false false false = Ok [2; 3; 4]%Z /\ select (txt "FOO") true false false true = Ok [] /\
  select (txt "foo") true false true false = Ok [2; 4]%Z /\ select (txt "x[0]") true false false false = Ok [3]%Z /\
  select (txt "parse(x)") true true false false = Ok [1]%Z /\ faithful fragment_engine /\ NoDup (map fst codes).
Proof.
  assert (NB : forall s, ~ In (ch "{") s \/ ~ In (ch "}") s -> no_repetition s).
  { intros s N a b c -> _. destruct N as [N|N]; apply N; [apply in_or_app; right; left; reflexivity|].
    apply in_or_app; right. apply in_or_app; right. apply in_or_app; right. left. reflexivity. }
  split; [reflexivity|]. split; [|repeat split].
  - repeat constructor; cbn [body piece_of]; try (intros c I J; vm_compute in I, J; intuition congruence).
    + apply NB. left. vm_compute. intuition discriminate.
    + apply NB. right. vm_compute. intuition discriminate.
  - exists (txt "struct Foo;" ++ [10%Z]), (txt "impl"), (txt " Foo"). split; [reflexivity|]. split; [reflexivity|]. split; [|discriminate].
    intros _. right. eauto.
  - apply fragment_faithful.
  - cbn [codes map fst]. repeat (constructor; [cbn; intuition discriminate|]). constructor.
Qed.

(** -F does not follow the documented default "matches case-insensitively": the option -s, absent
    here, makes no difference. *)
Theorem C83_fixed_case_refuted : ~ (forall E hash_order rows p, faithful E -> (forall l, Permutation (hash_order l) l) -> p <> [] ->
  exists ids, filter_by_text_pattern E hash_order rows p true true false false = Ok ids /\
    forall id pre mid post, In (id, pre ++ mid ++ post) rows -> alike false (e_fold E) p mid -> In id ids).
Proof.
  intros H. destruct (H fragment_engine (fun l => l) [(1%Z, txt "foo")] (txt "FOO") fragment_faithful same_order ltac:(discriminate)) as (ids & E & K).
  vm_compute in E. injection E as <-. exact (K 1%Z [] (txt "foo") [] (or_introl eq_refl) eq_refl).
Qed.
Print Assumptions C83_fixed_case_refuted.
(** -w with a bar: the two boundaries belong to different pieces, so that a part of a word is
    accepted. *)
Theorem C83_word_bar_refuted : ~ (forall E hash_order rows a b, faithful E -> (forall l, Permutation (hash_order l) l) ->
  plain a -> plain b -> no_repetition a -> no_repetition b -> a <> [] -> b <> [] ->
  exists ids, filter_by_text_pattern E hash_order rows (a ++ txt "|" ++ b) true false true false = Ok ids /\
    forall id, In id ids -> exists code, In (id, code) rows /\
      (whole_word false (e_fold E) (e_word E) a code \/ whole_word false (e_fold E) (e_word E) b code \/
       whole_word false (e_fold E) (e_word E) (a ++ txt "|" ++ b) code)).
Proof.
  intros H.
  assert (NB : forall s, ~ In (ch "{") s -> no_repetition s).
  { intros s N a b c -> _. apply N. apply in_or_app. right. left. reflexivity. }
  destruct (H fragment_engine (fun l => l) [(1%Z, txt "food")] (txt "foo") (txt "bar") fragment_faithful same_order) as (ids & E & K);
    try discriminate; try (apply NB; vm_compute; intuition discriminate); try (intros c I J; vm_compute in I, J; intuition congruence).
  vm_compute in E. injection E as <-. destruct (K 1%Z (or_introl eq_refl)) as (code & [EC|[]] & W). injection EC as <-.
  assert (L : forall p, length p = 3 \/ length p = 7 -> ~ whole_word false (e_fold fragment_engine) (e_word fragment_engine) p (txt "food")).
  { intros p LP (pre & mid & post & EQ & A & B1 & B2). apply alike_length in A. rewrite <- A in LP. clear A.
    destruct LP as [LP|LP].
    - destruct mid as [|m1 [|m2 [|m3 [|]]]]; try discriminate. destruct pre as [|q1 [|q2 pre]].
      + vm_compute in EQ. injection EQ as <- <- <- <-. apply B2. reflexivity.
      + vm_compute in EQ. injection EQ as <- <- <- <- <-. apply B1. reflexivity.
      + apply (f_equal (@length Z)) in EQ. rewrite !app_length in EQ. cbn [length] in EQ. change (length (txt "food")) with 4 in EQ. lia.
    - apply (f_equal (@length Z)) in EQ. rewrite !app_length, LP in EQ. change (length (txt "food")) with 4 in EQ. lia. }
  destruct W as [W|[W|W]]; revert W; apply L; auto.
Qed.
Print Assumptions C83_word_bar_refuted.
(** A pattern with an escaped pair of parentheses does not find the parentheses: the pair is read
    as a group, as in basic regular expressions, although the bars, braces and dots around it are
    read as in extended ones. *)
Theorem C83_escaped_parentheses_refuted : ~ (forall E hash_order rows a b, faithful E -> (forall l, Permutation (hash_order l) l) ->
  plain a -> plain b -> a <> [] ->
  exists ids, filter_by_text_pattern E hash_order rows (a ++ txt "\(" ++ b ++ txt "\)") true false false true = Ok ids /\
    forall id code, In (id, code) rows -> literally (a ++ txt "(" ++ b ++ txt ")") code -> In id ids).
Proof.
  intros H. destruct (H fragment_engine (fun l => l) [(1%Z, txt "f(x)")] (txt "f") (txt "x") fragment_faithful same_order) as (ids & E & K);
    try discriminate; try (intros c I J; vm_compute in I, J; intuition congruence).
  vm_compute in E. injection E as <-. refine (K 1%Z _ (or_introl eq_refl) _). exists [], []. reflexivity.
Qed.
Print Assumptions C83_escaped_parentheses_refuted.
(** Files with carriage returns: an end of line is not recognised. *)
Theorem C83_crlf_refuted : ~ (forall E hash_order rows p, faithful E -> (forall l, Permutation (hash_order l) l) ->
  plain p -> no_repetition p -> p <> [] ->
  exists ids, filter_by_text_pattern E hash_order rows (p ++ txt "$") true false false true = Ok ids /\
    forall id pre post, In (id, pre ++ p ++ [13%Z; 10%Z] ++ post) rows -> In id ids).
Proof.
  intros H. destruct (H fragment_engine (fun l => l) [(1%Z, txt "end;" ++ [13%Z; 10%Z])] (txt "end;") fragment_faithful same_order) as (ids & E & K);
    try discriminate; try (intros c I J; vm_compute in I, J; intuition congruence).
  - intros a b c EQ _. assert (I : In (ch "{") (txt "end;")) by (rewrite EQ; apply in_or_app; right; left; reflexivity).
    vm_compute in I. intuition discriminate.
  - vm_compute in E. injection E as <-. exact (K 1%Z [] [] (or_introl eq_refl)).
Qed.
Print Assumptions C83_crlf_refuted.

(** * C84: which lines are shown *)
(** The lines of a text: put together again they are the text, up to a line feed at its end. *)
Theorem C84_text : forall s, no_cr s -> (s = unlines (lines s) \/ s = unlines (lines s) ++ [10%Z]) /\ forall l, In l (lines s) -> ~ In 10%Z l.
Proof. intros s N. split; [apply lines_text; exact N|]. intros l I. apply (lines_sound s [] l N) in I; [apply I|intros []]. Qed.
Print Assumptions C84_text.
(** Every line shown is a line of the text with its number, counted from the number of the first;
    they come in order. *)
Theorem C84_numbers : forall lower m cs first s,
  (forall n l, In (n, l) (find_matches lower m cs first s) -> first <= n /\ nth_error (lines s) (n - first) = Some l) /\
  StronglySorted lt (map fst (find_matches lower m cs first s)).
Proof. intros. split; [apply shown_numbers|apply shown_sorted]. Qed.
Print Assumptions C84_numbers.

(** For a pattern of the fragment that matches no line feed and never the empty text: if a part of
    the text, made of whole lines, was selected by it, then lines are shown, and they are the ones
    on which the pattern is found. *)
Theorem C84_shown : forall E lower p r cs first part s, faithful E -> e_word E 10%Z = false ->
  read (escape_literal_braces (bre_to_ere p)) [] [] [] = Some r ->
  inside (e_fold E) (negb cs) r = true -> solid r = true -> no_cr s -> whole_lines part s ->
  found (e_fold E) (e_word E) {| multi_line := true; any_case := negb cs |} r part ->
  let shown := find_matches lower (new_matcher E lower p true false false cs) cs first s in
  shown <> [] /\ forall n l, In (n, l) shown <-> In (n, l) (numbered first s) /\ found (e_fold E) (e_word E) {| multi_line := false; any_case := negb cs |} r l.
Proof. intros E lower p r cs first part s HE HW. exact (shown_spec E lower HE HW p r cs first part s). Qed.
Print Assumptions C84_shown.
(** For plain texts separated by bars: a line is shown if one of them occurs on it. *)
Theorem C84_pieces : forall E lower p l cs first part s, faithful E -> e_word E 10%Z = false ->
  Forall (fun x => (plain (body x) /\ no_repetition (body x)) /\ body x <> [] /\ on_one_line cs (e_fold E) (body x)) (p :: map snd l) ->
  no_cr s -> whole_lines part s -> (exists x, In x (p :: map snd l) /\ occurs cs (e_fold E) x part) ->
  let shown := find_matches lower (new_matcher E lower (write_pattern p l) true false false cs) cs first s in
  shown <> [] /\ forall n line, In (n, line) shown <-> In (n, line) (numbered first s) /\ exists x, In x (p :: map snd l) /\ occurs cs (e_fold E) x line.
Proof. intros E lower p l cs first part s HE HW. exact (shown_pieces E lower HE HW p l cs first part s). Qed.
Print Assumptions C84_pieces.
(** A plain text that selects a unit is shown in its file. *)
Theorem C84_plain : forall E lower hash_order rows p cs first id part s ids, faithful E -> (forall l, Permutation (hash_order l) l) -> e_word E 10%Z = false ->
  plain p -> no_repetition p -> p <> [] -> on_one_line cs (e_fold E) p -> no_cr s -> whole_lines part s ->
  NoDup (map fst rows) -> In (id, part) rows ->
  filter_by_text_pattern E hash_order rows p true false false cs = Ok ids -> In id ids ->
  find_matches lower (new_matcher E lower p true false false cs) cs first s <> [].
Proof.
  intros E lower h rows p cs first id part s ids HE HH HW PL NR N OL NC WL ND I EF J.
  destruct (C83_plain E h rows p cs HE HH PL NR N) as (ids' & EF' & K). rewrite EF in EF'. injection EF' as <-. apply K in J.
  destruct J as (pre & mid & post & I' & A).
  assert (EP : part = pre ++ mid ++ post).
  { clear -ND I I'. induction rows as [|(i, c) rows IH]; [destruct I|]. cbn [map fst] in ND. inversion ND as [|x y NI ND']; subst.
    destruct I as [I|I], I' as [I'|I'].
    - congruence.
    - injection I as -> _. exfalso. apply NI. apply in_map_iff. eexists. split; [|exact I']. reflexivity.
    - injection I' as -> _. exfalso. apply NI. apply in_map_iff. eexists. split; [|exact I]. reflexivity.
    - apply IH; auto. }
  pose (x := {| at_start := false; body := p; at_end := false |}). assert (W : write_pattern x [] = p) by (cbn; apply app_nil_r).
  rewrite <- W. apply (shown_pieces E lower HE HW x [] cs first part s).
  - constructor; [|constructor]. cbn [body x]. auto.
  - exact NC.
  - exact WL.
  - exists x. split; [left; reflexivity|]. exists pre, mid, post. split; [exact EP|]. split; [exact A|]. split; discriminate.
Qed.
Print Assumptions C84_plain.
(** Fixed mode. *)
Theorem C84_fixed : forall E lower p cs first extended part s, p <> [] -> ~ In 10%Z p -> no_cr s -> whole_lines part s ->
  (forall a b, lower (a ++ b) = lower a ++ lower b) -> literally p part ->
  find_matches lower (new_matcher E lower p extended true false cs) cs first s <> [].
Proof. apply shown_fixed. Qed.
Print Assumptions C84_fixed.

Definition a_file : text := txt "use x;" ++ [10%Z] ++ txt "struct Foo;" ++ [10%Z] ++ txt "impl Foo" ++ [10%Z].
Definition show (p : text) (fixed cs : bool) := find_matches (map to_lower1) (new_matcher fragment_engine (map to_lower1) p true fixed false cs) cs 1 a_file.
Example C84_example :
  lines a_file = [txt "use x;"; txt "struct Foo;"; txt "impl Foo"] /\ no_cr a_file /\
  show (txt "foo$|^USE") false false = [(1, txt "use x;"); (3, txt "impl Foo")] /\ show (txt "foo") false true = [] /\
  show (txt "FOO") true false = [(2, txt "struct Foo;"); (3, txt "impl Foo")] /\
  whole_lines (txt "struct Foo;" ++ [10%Z] ++ txt "impl Foo") a_file /\ e_word fragment_engine 10%Z = false /\
  on_one_line false (e_fold fragment_engine) (txt "foo") /\
  (exists r, read (escape_literal_braces (bre_to_ere (txt "fo+\|u.e"))) [] [] [] = Some r /\ inside (e_fold fragment_engine) true r = true /\ solid r = true) /\
  (forall a b, map to_lower1 (a ++ b) = map to_lower1 a ++ map to_lower1 b).
Proof.
  split; [reflexivity|]. split; [vm_compute; intuition discriminate|]. repeat split.
  - exists (txt "use x;" ++ [10%Z]), [10%Z]. split; [reflexivity|]. split; right; [eexists|exists []]; reflexivity.
  - intros c I. vm_compute in I. intros K. vm_compute in K. repeat (destruct I as [<-|I]; [discriminate K|]). destruct I.
  - eexists. split; [vm_compute; reflexivity|]. split; reflexivity.
  - intros. apply map_app.
Qed.

(** A unit that was selected because it contains the pattern as typed need not be shown: the
    literal fallback looks for the text of the regular expression, with its flag, not for the
    pattern. *)
Theorem C84_literal_refuted : ~ (forall E lower hash_order rows p cs first id s, faithful E -> (forall l, Permutation (hash_order l) l) -> e_word E 10%Z = false ->
  no_cr s -> ~ In 10%Z p -> In (id, s) rows -> NoDup (map fst rows) ->
  (exists ids, filter_by_text_pattern E hash_order rows p true false false cs = Ok ids /\ In id ids) ->
  find_matches lower (new_matcher E lower p true false false cs) cs first s <> []).
Proof.
  intros H. apply (H fragment_engine (map to_lower1) (fun l => l) [(1%Z, txt "y = x[0]")] (txt "x[0]") false 1 1%Z (txt "y = x[0]") fragment_faithful same_order).
  - reflexivity.
  - vm_compute. intuition discriminate.
  - vm_compute. intuition discriminate.
  - left. reflexivity.
  - repeat constructor. intros [].
  - exists [1%Z]. split; [vm_compute; reflexivity|left; reflexivity].
  - vm_compute. reflexivity.
Qed.
Print Assumptions C84_literal_refuted.

(** * C83 again: the rewritings of the pattern, whole *)
(** In the older notation escaped bars, groups and pairs of braces become operators, however they
    are nested; everything else, escaped characters included, is left as it is. *)
Theorem C83_old_notation : forall p, ok_old p -> ~ begins_with_brace p -> bre_to_ere (write_old p) = write_new p.
Proof. exact old_notation. Qed.
Print Assumptions C83_old_notation.
(** Of the braces, repetitions reach the engine whole, and escaped braces as literal ones. *)
Theorem C83_braces : forall l, Forall ok_part l -> escape_literal_braces (flat_map typed_part l) = flat_map engine_part l.
Proof. intros l F. apply escape_parts. exact F. Qed.
Print Assumptions C83_braces.
Example C83_old_example : let p := OGroup (OChar (ch "a") (OEsc (ch "+") (OBar (OEsc (ch "\") ONil)))) (OBrace (OChar (ch "2") ONil) ONil) in
  ok_old p /\ ~ begins_with_brace p /\ write_old p = txt "\(a\+\|\\\)\{2\}" /\ write_new p = txt "(a\+|\\){2}" /\
  let l := [PText (txt "a"); PRep (txt "2,3"); POpen; PEsc (ch "w"); PClose] in
  Forall ok_part l /\ flat_map typed_part l = txt "a{2,3}\{\w\}" /\ flat_map engine_part l = txt "a{2,3}[{]\w[}]".
Proof.
  cbv zeta. split; [vm_compute; intuition discriminate|]. split; [intros []|]. split; [reflexivity|]. split; [reflexivity|]. split; [|split; reflexivity].
  constructor; [|constructor; [|constructor; [exact I|constructor; [|constructor; [exact I|constructor]]]]].
  - intros c [<-|[]]. vm_compute. intuition discriminate.
  - right. exists (txt "2"), (txt "3"). split; [reflexivity|]. repeat split; [| | | |left; discriminate]; try (destruct H as [<-|[]]; vm_compute; discriminate).
  - vm_compute. intuition discriminate.
Qed.
