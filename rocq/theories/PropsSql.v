(** Properties C26 and C27: the filter-condition validator. *)
From Verif Require Import Base Text SqlModel SqlSpec SqlProofs SqlValid.
Open Scope nat_scope.

(** C26. An accepted condition is a comparison of two numbers, or a sentence of the
    documented grammar over existing columns; then it has no character outside letters,
    digits, underscore, white space, the double quote and ?(),=!<> (so no single quote, semicolon, minus, slash or
    star), its identifiers name columns, and it has no statement keyword. *)
Theorem C26_accepted_conditions_are_grammatical :
  forall U columns s,
    good_unicode U -> (forall k, In k columns -> valid_name k) ->
    validate_condition U columns s = Ok tt ->
    numeric_equality U s
    \/ (exists ts a, lexes U s ts /\ expr (column_of U columns) ts a)
       /\ (forall c, In c s -> is_ascii c = true -> harmless c)
       /\ (ascii_text s ->
             (exists ts a, lexes U s ts /\ expr (names_column columns) ts a)
             /\ forall k, In k statement_words -> ~ whole_word_in k (map to_upper1 s)).
Proof. exact validate_sound_full. Qed.
Print Assumptions C26_accepted_conditions_are_grammatical.

(** The validator always answers. *)
Theorem C26_validator_never_panics :
  forall U columns s, good_unicode U -> validate_condition U columns s <> Panic.
Proof. exact validate_condition_nopanic. Qed.
Print Assumptions C26_validator_never_panics.

Definition ex_columns : list text := map txt ["file"; "year"; "_subset_"]%string.
Lemma ex_columns_valid : forall k, In k ex_columns -> valid_name k.
Proof. intros k H. apply is_valid_column_name_iff. cbn [In ex_columns map] in H. repeat (destruct H as [<-|H]; [reflexivity|]). destruct H. Qed.
Example C26_example :
  good_unicode ascii_unicode /\ (forall k, In k ex_columns -> valid_name k)
  /\ validate_condition ascii_unicode ex_columns
       (txt "NOT (year >= ? and FILE not like ?) OR year IN (?,? , ?) or file is not null") = Ok tt
  /\ validate_condition ascii_unicode ex_columns (txt " 1 = 1 ") = Ok tt
  /\ validate_condition ascii_unicode ex_columns (txt "year = ? OR 'a' = 'a'") = Err
  /\ validate_condition ascii_unicode ex_columns (txt "year = ?; DROP TABLE METADATA") = Err
  /\ validate_condition ascii_unicode ex_columns (txt "year = ? -- x") = Err
  /\ validate_condition ascii_unicode ex_columns (txt "secret = ?") = Err
  /\ validate_condition ascii_unicode ex_columns (txt "year = ?)") = Err.
Proof. split; [exact ascii_good|]. split; [exact ex_columns_valid|]. repeat split; vm_compute; reflexivity. Qed.

(** Beyond ASCII the claim about identifiers fails: the Kelvin sign (U+212A) is a letter
    whose lower-case form is "k", so it is accepted in place of the column "k", which
    SQLite does not do (there a double-quoted unknown name is a string literal). *)
Definition kelvin : Z := 8490%Z.
Definition kelvin_unicode : unicode :=
  {| u_ws := a_ws; u_alpha := fun c => a_alpha c || (c =? kelvin)%Z; u_alnum := fun c => a_alnum c || (c =? kelvin)%Z;
     u_digit := a_digit; u_space := a_ws; u_word := fun c => a_alnum c || under c || (c =? kelvin)%Z;
     u_upper := map to_upper1; u_lower := map (fun c => if (c =? kelvin)%Z then 107%Z else to_lower1 c) |}.
Lemma kelvin_good : good_unicode kelvin_unicode.
Proof.
  assert (K : forall c, is_ascii c = true -> (c =? kelvin)%Z = false) by (unfold kelvin, is_ascii; lia).
  constructor; cbn [kelvin_unicode u_ws u_alpha u_alnum u_digit u_space u_word u_upper u_lower]; auto.
  - intros c H. rewrite (K c H), orb_false_r. auto.
  - intros c H. rewrite (K c H), orb_false_r. auto.
  - intros c H. rewrite (K c H), orb_false_r. auto.
  - intros s H. apply map_ext_in. intros c Hc. rewrite (K c (H c Hc)). auto.
  - intros c H. apply orb_true_iff in H. apply orb_true_iff. destruct H; auto. left. apply alpha_alnum; auto.
  - intros c H. unfold kelvin, a_ws, a_alnum, a_alpha, a_upper, a_lower, a_digit in *. lia.
  - intros c s H1 H2 H3. apply in_map_iff. exists c. split; auto. rewrite (K c H1). unfold to_lower1.
    apply orb_false_iff in H2. destruct H2 as (-> & _). auto.
Qed.
Theorem C26_identifiers_are_columns_refuted :
  exists U columns s, good_unicode U /\ (forall k, In k columns -> valid_name k)
    /\ validate_condition U columns s = Ok tt
    /\ ~ numeric_equality U s
    /\ forall ts, lexes U s ts -> exists c, In (TIdent c) ts /\ ~ names_column columns c.
Proof.
  exists kelvin_unicode, [txt "k"], (34%Z :: kelvin :: 34%Z :: txt " = ?").
  split; [exact kelvin_good|]. split; [intros k [<-|[]]; apply is_valid_column_name_iff; reflexivity|].
  split; [vm_compute; reflexivity|]. split.
  - intros (w1 & d1 & w2 & w3 & d2 & w4 & E & N1 & _ & Hd & Hw & _).
    destruct w1 as [|x w1]; [|injection E as <- _; specialize (Hw 34%Z (or_introl (or_introl eq_refl))); discriminate].
    destruct d1 as [|x d1]; [congruence|]. injection E as <- _. specialize (Hd 34%Z (or_introl (or_introl eq_refl))). discriminate.
  - intros ts L. exists [kelvin]. assert (E : ts = [TIdent [kelvin]; TCmp OEq; TPlaceholder]).
    { apply (tokenize_iff _ kelvin_good) in L.
      assert (F : tokenize kelvin_unicode (34%Z :: kelvin :: 34%Z :: txt " = ?") = Ok ([TIdent [kelvin]; TCmp OEq; TPlaceholder] ++ [TEof])) by (vm_compute; reflexivity).
      rewrite F in L. injection L as L. change [TIdent [kelvin]; TCmp OEq; TPlaceholder; TEof] with ([TIdent [kelvin]; TCmp OEq; TPlaceholder] ++ [TEof]) in L.
      apply app_inj_tail in L. symmetry. apply L. }
    rewrite E. split; [left; auto|]. intros (k & [<-|[]] & H). discriminate.
Qed.
Print Assumptions C26_identifiers_are_columns_refuted.

(** C27. Every ASCII text that is a sentence of the documented grammar over the columns is
    accepted, at any depth, provided no column is named like one of the statement keywords;
    so is every comparison of two numbers. *)
Theorem C27_documented_conditions_are_accepted :
  forall U columns s ts a,
    good_unicode U -> (forall k, In k columns -> valid_name k) ->
    (forall c k, In c columns -> In k statement_words -> map to_upper1 c <> k) ->
    ascii_text s -> lexes U s ts -> expr (column_of U columns) ts a ->
    validate_condition U columns s = Ok tt.
Proof. exact validate_complete. Qed.
Print Assumptions C27_documented_conditions_are_accepted.
Theorem C27_numeric_equalities_are_accepted :
  forall U columns s, good_unicode U -> ascii_text s -> numeric_equality U s -> validate_condition U columns s = Ok tt.
Proof. exact numeric_accepted. Qed.
Print Assumptions C27_numeric_equalities_are_accepted.
(** The parser itself decides the grammar, for every token sequence. *)
Theorem C27_parser_decides_the_grammar :
  forall U columns ts, ~ In TEof ts ->
    (validate U columns (ts ++ [TEof]) = Ok tt <-> exists a, expr (column_of U columns) ts a).
Proof. exact validate_iff. Qed.
Print Assumptions C27_parser_decides_the_grammar.
Theorem C27_tokenizer_reads_the_words :
  forall U, good_unicode U -> forall s ts, tokenize U s = Ok (ts ++ [TEof]) <-> lexes U s ts.
Proof. exact tokenize_iff. Qed.
Print Assumptions C27_tokenizer_reads_the_words.

Example C27_example :
  (forall c k, In c ex_columns -> In k statement_words -> map to_upper1 c <> k)
  /\ ascii_text (txt "year between ? and ? or not file = ?")
  /\ lexes ascii_unicode (txt "year between ? and ? or not file = ?")
       ([TIdent (txt "year"); TBetween; TPlaceholder; TAnd; TPlaceholder] ++ TOr :: [TNot; TIdent (txt "file"); TCmp OEq; TPlaceholder])
  /\ expr (column_of ascii_unicode ex_columns)
       ([TIdent (txt "year"); TBetween; TPlaceholder; TAnd; TPlaceholder] ++ TOr :: [TNot; TIdent (txt "file"); TCmp OEq; TPlaceholder])
       (COr (CBetween false (txt "year")) (CNot (CCmp (txt "file") OEq))).
Proof.
  split; [|split; [|split]].
  - intros c k Hc Hk. assert (E : existsb (text_eqb (map to_upper1 c)) statement_words = false).
    { cbn [In ex_columns map] in Hc. repeat (destruct Hc as [<-|Hc]; [reflexivity|]). destruct Hc. }
    intro F. rewrite <- not_true_iff_false in E. apply E. apply existsb_exists. exists k. split; auto. apply text_eqb_eq; auto.
  - intros c Hc. cbn in Hc. repeat (destruct Hc as [<-|Hc]; [reflexivity|]). destruct Hc.
  - apply (tokenize_iff _ ascii_good). vm_compute. reflexivity.
  - apply ex_or.
    + apply ex_one, an_one, un_pos. apply (pr_between _ false). exists (txt "year"). cbn; auto.
    + apply an_one, un_neg, pr_cmp. exists (txt "file"). cbn; auto.
Qed.

(** A column may be called "update"; then conditions on it are always rejected. *)
Theorem C27_keyword_named_column_refuted :
  exists U columns s ts a, good_unicode U /\ (forall k, In k columns -> valid_name k) /\ ascii_text s
    /\ lexes U s ts /\ expr (column_of U columns) ts a /\ validate_condition U columns s = Err.
Proof.
  exists ascii_unicode, [txt "update"], (txt "update = ?"), [TIdent (txt "update"); TCmp OEq; TPlaceholder], (CCmp (txt "update") OEq).
  split; [exact ascii_good|]. split; [intros k [<-|[]]; apply is_valid_column_name_iff; reflexivity|].
  split; [intros c Hc; cbn in Hc; repeat (destruct Hc as [<-|Hc]; [reflexivity|]); destruct Hc|].
  split; [apply (tokenize_iff _ ascii_good); vm_compute; reflexivity|].
  split; [apply ex_one, an_one, un_pos, pr_cmp; exists (txt "update"); cbn; auto|vm_compute; reflexivity].
Qed.
Print Assumptions C27_keyword_named_column_refuted.
