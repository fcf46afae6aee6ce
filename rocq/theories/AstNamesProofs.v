(** Proofs about names of nodes. *)
From Verif Require Import Base Text FtsText FtsTextSpec FtsTextProofs.
From Verif Require EmbedProofs.
From Verif Require Import CallGraphSpec CallGraphProofs Analysis AnalysisSpec AnalysisTree AnalysisProofs AnalysisText AnalysisMore Qml QmlSpec QmlText Decls DeclsSpec DeclsProofs AstNames AstNamesSpec.
From Coq Require Import String.
Open Scope string_scope.
Open Scope nat_scope.
Open Scope list_scope.
Notation length := List.length.

Lemma pick_lookup lang table n : pick lang table (fun _ => None) n = lookup lang table n.
Proof. induction table as [|(ls & f) r IH]; cbn [pick lookup]; [reflexivity|]. destruct (is lang ls); [reflexivity|exact IH]. Qed.
Lemma called_iff lang n m : pick lang AstNames.name_table (fun _ => None) n = Some m <-> written lang called n m.
Proof.
  rewrite pick_lookup. apply lookup_iff; [|vm_compute; reflexivity].
  unfold AstNames.name_table, called. repeat (constructor; [split; [reflexivity|intros x y; cbn [snd]]|]); [..|constructor]; try (apply by_field_iff).
  - apply (or_else_iff (by_field "name") (by_field "property")); intro c; apply by_field_iff.
  - rewrite and_then_iff. unfold declared_in. split.
    + intros (d & F & H). exists d. apply by_field_iff in F. split; [exact F|]. destruct (one_of ["function_declarator"] (t_kind d)) eqn:K.
      * left. split; [apply of_kind_mem; exact K|apply by_field_iff; exact H].
      * right. injection H as ->. split; [intro X; apply of_kind_mem in X; congruence|reflexivity].
    + intros (d & F & H). exists d. split; [apply by_field_iff; exact F|]. destruct H as [(K & H)|(K & ->)].
      * apply of_kind_mem in K. rewrite K. apply by_field_iff. exact H.
      * destruct (one_of ["function_declarator"] (t_kind d)) eqn:E; [apply of_kind_mem in E; contradiction|reflexivity].
  - apply (or_else_iff (by_field "target") (by_field "name")); intro c; apply by_field_iff.
  - apply (or_else_iff (by_field "name") (by_field "pattern")); intro c; apply by_field_iff.
Qed.

(** ** Words *)
Section WORDS.
  Variable U : unicode.
  Let ws := u_ws U.
  Lemma sw_blank_end b : all ws b -> forall x cur, EmbedProofs.sw ws cur (x ++ b) = EmbedProofs.sw ws cur x.
  Proof.
    intro B. induction x as [|c x IH]; intro cur; cbn [app EmbedProofs.sw].
    - destruct b as [|c b]; [reflexivity|]. cbn [EmbedProofs.sw]. rewrite (B c) by (left; reflexivity). rewrite <- (app_nil_r b), EmbedProofs.sw_gap by (intros y I; apply B; right; exact I). cbn. rewrite app_nil_r. reflexivity.
    - destruct (ws c); rewrite ?IH; reflexivity.
  Qed.
  Lemma split_neat s : split_whitespace ws (neat U s) = split_whitespace ws s.
  Proof.
    rewrite !EmbedProofs.split_ws_sw. destruct (trim_cut ws s) as (a & b & E & B & _). unfold neat. rewrite E at 2.
    rewrite EmbedProofs.sw_gap by (intros c I; apply B, in_or_app; auto). symmetry. apply sw_blank_end. intros c I. apply B, in_or_app. auto.
  Qed.
  Lemma sw_some c s : ws c = false -> EmbedProofs.sw ws [] (c :: s) <> [].
  Proof.
    intro W. cbn [EmbedProofs.sw app]. rewrite W. assert (G : forall s cur, cur <> [] -> EmbedProofs.sw ws cur s <> []).
    { clear. induction s as [|c s IH]; intros cur N; cbn [EmbedProofs.sw]; [destruct cur; [congruence|discriminate]|]. destruct (ws c); [destruct cur; [congruence|discriminate]|apply IH; destruct cur; discriminate]. }
    apply G. discriminate.
  Qed.
  Lemma text_of_iff n s : in_words U n s <-> text_of U n = Some s.
  Proof.
    assert (E : split_whitespace ws (neat U (t_text n)) <> [] <-> non_empty (neat U (t_text n)) = true).
    { rewrite EmbedProofs.split_ws_sw. destruct (neat_bared U (t_text n)) as (a & b & _ & _ & _ & H & _). destruct (neat U (t_text n)) as [|c r]; [split; [intro X; destruct X; reflexivity|discriminate]|]. split; [reflexivity|]. intros _. apply sw_some. apply (H c r). reflexivity. }
    assert (Sp : forall l, splits ws (t_text n) l <-> l = split_whitespace ws (t_text n)).
    { intro l. split; [intro H; apply EmbedProofs.splits_sw in H; rewrite EmbedProofs.split_ws_sw; auto|]. intros ->. apply split_ws_splits. lia. }
    unfold in_words, text_of. split.
    - intros (l & H & N & ->). apply Sp in H. rewrite <- split_neat in H. subst l. apply E in N. rewrite N. reflexivity.
    - destruct (non_empty (neat U (t_text n))) eqn:N; [|discriminate]. intros [= <-]. exists (split_whitespace ws (t_text n)). split; [apply Sp; reflexivity|]. rewrite <- split_neat. split; [apply E; reflexivity|reflexivity].
  Qed.
  Lemma kind_in k n : of_kind [k] n <-> one_of [k] (t_kind n) = true.
  Proof. apply of_kind_mem. Qed.
  Lemma kind_eq k n : one_of [k] (t_kind n) = true <-> t_kind n = txt k.
  Proof. rewrite <- of_kind_mem. apply one_kind. Qed.
  Lemma join_cons (a : text) l : join (txt " ") (a :: l) = match l with [] => a | _ => a ++ txt " " ++ join (txt " ") l end.
  Proof. destruct l; reflexivity. Qed.
  Lemma query_same : query_kinds = queries. Proof. reflexivity. Qed.
  Lemma type_same : type_kinds = specifiers. Proof. reflexivity. Qed.
  Lemma css_iff n s : css_unit_name U n = Some s <-> rule_name U n s.
  Proof.
    assert (W : forall k, t_kind n = txt k -> forall ks, one_of ks (t_kind n) = one_of ks (txt k)) by (intros k -> ks; reflexivity).
    assert (Q : forall at_word l, each (in_words U) (filter (fun c => one_of queries (t_kind c)) (t_children n)) l ->
      match flat_map (fun c => match text_of U c with Some s => [s] | None => [] end) (filter (fun c => one_of queries (t_kind c)) (t_children n)) with
      | [] => Some (txt at_word)
      | _ => Some (txt at_word ++ txt " " ++ join (txt " ") (flat_map (fun c => match text_of U c with Some s => [s] | None => [] end) (filter (fun c => one_of queries (t_kind c)) (t_children n)))) end
      = Some (join (txt " ") (txt at_word :: l))).
    { intros at_word l H. apply (each_iff _ (text_of U)) in H; [|intros a b; apply text_of_iff]. rewrite join_cons. subst l. change (fun a => as_list (text_of U a)) with (fun c => match text_of U c with Some s => [s] | None => [] end).
      destruct (flat_map _ _); reflexivity. }
    split.
    - unfold css_unit_name. destruct (one_of ["rule_set"] (t_kind n)) eqn:K1.
      { intro H. apply and_then_iff in H. destruct H as (c & F & H). apply by_kind_iff in F. apply text_of_iff in H. eapply selector_rule; eauto. apply kind_in. exact K1. }
      destruct (one_of ["keyframes_statement"] (t_kind n)) eqn:K2.
      { intro H. apply and_then_iff in H. destruct H as (w & H & [= <-]). apply and_then_iff in H. destruct H as (c & F & H). apply by_kind_iff in F. apply text_of_iff in H. eapply keyframes_rule; eauto. apply kind_in. exact K2. }
      destruct (one_of ["media_statement"; "supports_statement"] (t_kind n)) eqn:K3.
      { pose proof (proj2 (each_iff (in_words U) (text_of U) (fun a b => text_of_iff a b) (filter (fun c => one_of queries (t_kind c)) (t_children n)) _) eq_refl) as E.
        destruct (one_of ["media_statement"] (t_kind n)) eqn:K4; cbv zeta; rewrite (Q _ _ E); intros [= <-].
        - eapply (query_rule U n "media_statement" "@media"); [left; reflexivity|apply kind_in; exact K4|reflexivity|exact E].
        - eapply (query_rule U n "supports_statement" "@supports"); [right; left; reflexivity| |reflexivity|exact E].
          apply of_kind_mem in K3. destruct K3 as (k & [<-|[<-|[]]] & Ek); [apply kind_eq in Ek; congruence|]. apply one_kind. exact Ek. }
      destruct (one_of ["import_statement"] (t_kind n)) eqn:K5; [intros [= <-]; apply (line_rule U n "import_statement" "@import"); [left; reflexivity|apply kind_in; exact K5]|].
      destruct (one_of ["charset_statement"] (t_kind n)) eqn:K6; [intros [= <-]; apply (line_rule U n "charset_statement" "@charset"); [right; left; reflexivity|apply kind_in; exact K6]|].
      destruct (one_of ["namespace_statement"] (t_kind n)) eqn:K7; [intros [= <-]; apply (line_rule U n "namespace_statement" "@namespace"); [right; right; left; reflexivity|apply kind_in; exact K7]|discriminate].
    - unfold css_unit_name. intros [c w K C I|c w K C I|k at_word cs l I K -> E|k at_word I K].
      + apply one_kind in K. rewrite !(W _ K). change (one_of ["rule_set"] (txt "rule_set")) with true. cbv iota. apply by_kind_iff in C. rewrite C. cbn [and_then]. apply text_of_iff. exact I.
      + apply one_kind in K. rewrite !(W _ K). change (one_of ["rule_set"] (txt "keyframes_statement")) with false. change (one_of ["keyframes_statement"] (txt "keyframes_statement")) with true. cbv iota.
        apply by_kind_iff in C. rewrite C. cbn [and_then]. apply text_of_iff in I. rewrite I. reflexivity.
      + apply one_kind in K. rewrite !(W _ K). cbv zeta. destruct I as [X|[X|[]]]; injection X as <- <-.
        * repeat match goal with |- context [one_of ?a (txt "media_statement")] => let v := eval vm_compute in (one_of a (txt "media_statement")) in change (one_of a (txt "media_statement")) with v end. cbv iota. apply Q. exact E.
        * repeat match goal with |- context [one_of ?a (txt "supports_statement")] => let v := eval vm_compute in (one_of a (txt "supports_statement")) in change (one_of a (txt "supports_statement")) with v end. cbv iota. apply Q. exact E.
      + apply one_kind in K. rewrite !(W _ K). destruct I as [X|[X|[X|[]]]]; injection X as <- <-; reflexivity.
  Qed.
  Lemma css_uncalled n m : ~ written (txt "css") called n m.
  Proof. rewrite <- called_iff. discriminate. Qed.
  Lemma node_name_iff lang n s : get_node_name U lang n = Some s <-> node_name U lang n s.
  Proof.
    unfold get_node_name, node_name. rewrite type_same. destruct (is lang ["css"]) eqn:C.
    - apply is_one in C. subst lang. rewrite css_iff. split; [auto|]. intros [(_ & H)|[(X & _)|(_ & _ & m & H & _)]]; [exact H| |destruct (css_uncalled _ _ H)].
      apply is_spoken in X. discriminate X.
    - assert (NC : lang <> txt "css") by (intro X; apply is_one in X; congruence). destruct (is lang ["c"; "cpp"] && one_of specifiers (t_kind n)) eqn:Sp.
      + apply andb_true_iff in Sp. destruct Sp as (L & K). apply is_spoken in L. apply of_kind_mem in K.
        assert (O : forall m, or_else (by_field "name" n) (by_kind "type_identifier" n) = Some m <-> otherwise (in_field "name") (child_of ["type_identifier"]) n m).
        { intro m. apply (or_else_iff (by_field "name") (by_kind "type_identifier")); intro c; [apply by_field_iff|apply by_kind_iff]. }
        split.
        * intro H. right. left. split; [exact L|split; [exact K|]]. destruct (or_else _ _) as [m|] eqn:E; [|discriminate]. injection H as <-. exists m. split; [apply O; reflexivity|reflexivity].
        * intros [(X & _)|[(_ & _ & m & H & ->)|(X & _)]]; [congruence| |destruct (X (conj L K))]. apply O in H. rewrite H. reflexivity.
      + assert (N : ~ (spoken lang ["c"; "cpp"] /\ of_kind specifiers n)). { intros (L & K). apply is_spoken in L. apply of_kind_mem in K. rewrite L, K in Sp. discriminate. }
        rewrite and_then_iff. split.
        * intros (m & H & T). destruct (t_text m) as [|c r] eqn:E; [discriminate|]. injection T as <-. right. right. split; [exact N|split; [discriminate|]]. exists m. split; [apply called_iff; exact H|auto].
        * intros [(X & _)|[(L & K & _)|(_ & Ne & m & H & ->)]]; [congruence|destruct (N (conj L K))|]. exists m. split; [apply called_iff; exact H|]. destruct (t_text m); [congruence|reflexivity].
  Qed.
End WORDS.

(** ** Bodies *)
Definition bodies_by_row : list (list string * (tree -> tree -> Prop)) :=
  [ (["python"; "rust"; "typescript"; "javascript"; "vue"; "svelte"; "java"; "csharp"], in_field "body");
    (["go"], in_field "type");
    (["cpp"], child_of ["field_declaration_list"]);
    (["ruby"; "kotlin"; "swift"; "scala"; "php"; "elixir"; "haskell"; "ocaml"], in_field "body");
    (["r"], fun _ _ => False);
    (["zig"; "julia"], in_field "body");
    (["sql"], fun _ _ => False);
    (["c"], child_of ["field_declaration_list"]);
    (["css"], fun n m => of_kind ["keyframes_statement"] n /\ child_of ["keyframe_block_list"] n m \/ ~ of_kind ["keyframes_statement"] n /\ child_of ["block"] n m) ].
Lemma body_rows lang n m : written lang bodies_by_row n m <-> written lang bodies n m.
Proof.
  split; intros (ls & R & I & (l & J & ->) & H); unfold bodies_by_row, bodies in *; cbn [In] in I.
  - repeat (destruct I as [E|I]; [injection E as <- <-; first [destruct H; fail | idtac];
      cbn [In] in J; first
      [ exists ["python"; "rust"; "typescript"; "javascript"; "vue"; "svelte"; "java"; "csharp"; "ruby"; "kotlin"; "swift"; "scala"; "php"; "elixir"; "haskell"; "ocaml"; "zig"; "julia"], (in_field "body"); split; [left; reflexivity|split; [exists l; split; [cbn [In]; tauto|reflexivity]|exact H]]
      | exists ["go"], (in_field "type"); split; [right; left; reflexivity|split; [exists l; split; [exact J|reflexivity]|exact H]]
      | exists ["c"; "cpp"], (child_of ["field_declaration_list"]); split; [right; right; left; reflexivity|split; [exists l; split; [cbn [In]; tauto|reflexivity]|exact H]]
      | eexists ["css"], _; split; [right; right; right; left; reflexivity|split; [exists l; split; [exact J|reflexivity]|exact H]]
      | destruct H ]|]). destruct I.
  - repeat (destruct I as [E|I]; [injection E as <- <-; cbn [In] in J;
      repeat (destruct J as [<-|J]; [first
        [ eexists _, _; split; [left; reflexivity|split; [eexists; split; [|reflexivity]; solve [repeat (first [left; reflexivity | right])]|exact H]]
        | eexists _, _; split; [right; left; reflexivity|split; [eexists; split; [|reflexivity]; solve [repeat (first [left; reflexivity | right])]|exact H]]
        | eexists _, _; split; [right; right; left; reflexivity|split; [eexists; split; [|reflexivity]; solve [repeat (first [left; reflexivity | right])]|exact H]]
        | eexists _, _; split; [right; right; right; left; reflexivity|split; [eexists; split; [|reflexivity]; solve [repeat (first [left; reflexivity | right])]|exact H]]
        | eexists _, _; split; [do 5 right; left; reflexivity|split; [eexists; split; [|reflexivity]; solve [repeat (first [left; reflexivity | right])]|exact H]]
        | eexists _, _; split; [do 7 right; left; reflexivity|split; [eexists; split; [|reflexivity]; solve [repeat (first [left; reflexivity | right])]|exact H]]
        | eexists _, _; split; [do 8 right; left; reflexivity|split; [eexists; split; [|reflexivity]; solve [repeat (first [left; reflexivity | right])]|exact H]] ]|]); destruct J|]). destruct I.
Qed.
Lemma body_iff lang n m : find_class_body lang n = Some m <-> written lang bodies n m.
Proof.
  rewrite <- body_rows. unfold find_class_body. rewrite pick_lookup. apply lookup_iff; [|vm_compute; reflexivity].
  unfold body_table, bodies_by_row. repeat (constructor; [split; [reflexivity|intros x y; cbn [snd]]|]); [..|constructor]; try (apply by_field_iff); try (apply by_kind_iff); try (split; [discriminate|intros []]).
  destruct (one_of ["keyframes_statement"] (t_kind x)) eqn:K; rewrite by_kind_iff; split.
  - intro H. left. split; [apply of_kind_mem; exact K|exact H].
  - intros [(_ & H)|(N & _)]; [exact H|]. apply of_kind_mem in K. contradiction.
  - intro H. right. split; [|exact H]. intro X. apply of_kind_mem in X. congruence.
  - intros [(X & _)|(_ & H)]; [apply of_kind_mem in X; congruence|exact H].
Qed.
