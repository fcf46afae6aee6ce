(** Proofs about variables, imports, used modules, parameters and the parent class. *)
From Verif Require Import Base Text FtsText CallGraphSpec CallGraphProofs Analysis AnalysisSpec AnalysisTree AnalysisProofs AnalysisText.
From Coq Require Import String.
Open Scope string_scope.
Open Scope nat_scope.
Open Scope list_scope.
Notation length := List.length.

Lemma within_zero t P : within 0 t P <-> P t.
Proof. split; [intros ([|i p] & n & A & L & H); [inversion A; subst; exact H|cbn in L; lia]|intro H; exists [], t; split; [constructor|split; [auto|exact H]]]. Qed.
Lemma within_succ d t P : within (S d) t P <-> P t \/ exists c, In c (t_children t) /\ within d c P.
Proof.
  split.
  - intros (p & n & A & L & H). inversion A as [|? i c p' ? E A']; subst; [left; exact H|]. right. exists c. split; [eapply nth_error_In; eauto|]. exists p', n. split; [exact A'|split; [cbn in L; lia|exact H]].
  - intros [H|(c & I & p & n & A & L & H)]; [exists [], t; split; [constructor|split; [cbn; lia|exact H]]|]. destruct (In_nth_error _ _ I) as (i & E). exists (i :: p), n. split; [econstructor; eauto|split; [cbn; lia|exact H]].
Qed.
Lemma within_mono d t (P Q : tree -> Prop) : (forall n, P n -> Q n) -> within d t P -> within d t Q.
Proof. intros H (p & n & A & L & X). exists p, n. auto. Qed.
Lemma in_named_text s x : In x (named_text s) <-> x = s /\ s <> [].
Proof. unfold named_text. destruct s; cbn; split; intuition congruence. Qed.

(** ** Imports *)
Section IMPORTS.
  Variable U : unicode.
  Variable max_depth : nat.
  Lemma statement_kinds lang ks : In (lang, ks) statement_imports -> import_kinds (txt lang) = ks /\ forall t, import_here U max_depth (txt lang) t = (named_text (import_module U (txt lang) (t_text t)), true).
  Proof.
    intro I. cbn [In statement_imports] in I.
    repeat (destruct I as [E|I]; [injection E as <- <-; split; [vm_compute; reflexivity|intro t; unfold import_here; langs; reflexivity]|]). destruct I.
  Qed.
  Lemma import_visit_iff lang ks s : In (lang, ks) statement_imports -> forall d t,
    In s (import_visit U max_depth (txt lang) (S d) t) <-> within d t (fun n => of_kind ks n /\ s = import_module U (txt lang) (t_text n) /\ s <> []).
  Proof.
    intro I. destruct (statement_kinds lang ks I) as (K & H). 
    assert (Here : forall t, In s (fst (if one_of (import_kinds (txt lang)) (t_kind t) then import_here U max_depth (txt lang) t else ([], true))) <-> of_kind ks t /\ s = import_module U (txt lang) (t_text t) /\ s <> []).
    { intro t. rewrite K, H, of_kind_mem. destruct (one_of ks (t_kind t)); cbn [fst]; [rewrite in_named_text|split; [intros []|intros (X & _); discriminate]]. split; [intros (-> & N); auto|intros (_ & -> & N); auto]. }
    assert (On : forall t, snd (if one_of (import_kinds (txt lang)) (t_kind t) then import_here U max_depth (txt lang) t else ([], true)) = true).
    { intro t. rewrite H. destruct (one_of _ _); reflexivity. }
    induction d as [|d IH]; intro t.
    - rewrite within_zero, <- Here. cbn [import_visit]. specialize (On t). destruct (if one_of _ _ then _ else _) as (found & on). cbn [snd] in On. subst on. cbn [fst]. rewrite in_app_iff.
      split; [|auto]. intros [X|X]; [exact X|]. apply in_flat_map in X. destruct X as (c & _ & []).
    - rewrite within_succ, <- Here. remember (S d) as sd. cbn [import_visit]. specialize (On t). destruct (if one_of _ _ then _ else _) as (found & on). cbn [snd] in On. subst on. cbn [fst]. rewrite in_app_iff, in_flat_map. subst sd.
      split; (intros [X|(c & Ic & X)]; [left; exact X|right; exists c; split; [exact Ic|apply IH; exact X]]).
  Qed.
  Lemma first_part_spec sep s : txt sep <> [] -> exists after, s = first_part sep s ++ after /\ (after = [] \/ exists r, after = txt sep ++ r) /\ contains (txt sep) (first_part sep s) = false.
  Proof.
    intro NE. unfold first_part, split. pose proof (join_split (length s) (txt sep) s) as J. pose proof (split_pure (txt sep) NE (length s) s (le_n _)) as P.
    destruct (split_fuel (length s) (txt sep) s) as [|h l] eqn:E; [destruct (split_nonempty _ _ _ E)|]. cbn [hd]. destruct l as [|y l].
    - exists []. rewrite app_nil_r. split; [symmetry; exact J|split; [left; reflexivity|apply P; left; reflexivity]].
    - rewrite join_cons in J by discriminate. exists (txt sep ++ join (txt sep) (y :: l)). split; [symmetry; exact J|split; [right; eauto|apply P; left; reflexivity]].
  Qed.
  Lemma keyword_iff w : keyword_word w = true <-> like_keyword w.
  Proof.
    unfold keyword_word, like_keyword. rewrite existsb_exists. split; intros (k & I & H); exists k; (split; [exact I|]); [apply starts_with_spec in H; exact H|apply starts_with_spec; exact H].
  Qed.
  Lemma outside_iff c : outside_path U c = true <-> ~ path_char U c.
  Proof.
    unfold outside_path, path_char, under. destruct (u_alnum U c); cbn [negb andb]; [split; [discriminate|intro X; exfalso; apply X; auto]|].
    destruct (Z.eqb_spec c 95) as [->|N1]; cbn [negb andb]; [split; [discriminate|intro X; exfalso; apply X; auto]|]. destruct (Z.eqb_spec c 46) as [->|N2]; cbn [negb]; split; try discriminate; auto; try (intro X; exfalso; apply X; auto; fail).
    intros _ [X|[X|X]]; congruence.
  Qed.
  Lemma one_char c (s : text) : contains [c] s = false -> ~ In c s.
  Proof. intros H I. apply in_split in I. destruct I as (a & b & ->). assert (contains [c] (a ++ c :: b) = true); [|congruence]. apply contains_spec. exists a, b. reflexivity. Qed.
  Lemma module_ok lang stmt : module_named U lang stmt (import_module U (txt lang) stmt).
  Proof.
    unfold module_named. set (s := neat U stmt).
    set (w := match find (fun w => negb (keyword_word w)) (split_whitespace (u_ws U) s) with Some w => w | None => s end).
    exists w, (import_path U stmt). split; [|split].
    - exists s. split; [apply neat_bared|]. subst w. destruct (find _ _) as [w|] eqn:F.
      + left. apply find_split in F. destruct F as (a & b & E & K & N). exists a, b. split; [exact E|split].
        * intros x Ix. apply keyword_iff. apply N in Ix. apply negb_false_iff in Ix. exact Ix.
        * rewrite <- keyword_iff. apply negb_true_iff in K. congruence.
      + right. split; [|reflexivity]. intros x Ix. apply keyword_iff. apply (find_none _ _ F) in Ix. apply negb_false_iff in Ix. exact Ix.
    - unfold import_path. fold s. fold w. destruct (trim_cut (outside_path U) w) as (a & b & E & H & N1 & N2). exists a, b. split; [exact E|split; [|split]].
      + intros c I. apply outside_iff, H. exact I.
      + intros c r X. apply N1 in X. destruct (u_alnum U c) eqn:A; [left; exact A|]. unfold outside_path, under in X. rewrite A in X. cbn [negb andb] in X. destruct (Z.eqb_spec c 95); [right; left; auto|]. destruct (Z.eqb_spec c 46); [right; right; auto|]. discriminate X.
      + intros c r X. apply N2 in X. destruct (u_alnum U c) eqn:A; [left; exact A|]. unfold outside_path, under in X. rewrite A in X. cbn [negb andb] in X. destruct (Z.eqb_spec c 95); [right; left; auto|]. destruct (Z.eqb_spec c 46); [right; right; auto|]. discriminate X.
    - set (path := import_path U stmt). unfold import_module. fold path.
      assert (L : (if in_dec string_dec lang last_named then true else false) = is (txt lang) ["java"; "kotlin"; "scala"; "csharp"]).
      { destruct (in_dec string_dec lang last_named) as [I|N]; symmetry.
        - cbn [In last_named] in I. repeat (destruct I as [<-|I]; [reflexivity|]). destruct I.
        - destruct (is (txt lang) _) eqn:E; [|reflexivity]. exfalso. apply N. unfold is, one_of in E. apply mem_in, in_map_iff in E. destruct E as (x & Ex & Ix).
          assert (Inj : forall a b, txt a = txt b -> a = b); [|apply Inj in Ex; subst x; exact Ix].
          clear. induction a as [|x a IH]; intros [|y b] E; cbn [txt] in E; try discriminate E; [reflexivity|]. injection E as E1 E2. f_equal; [|apply IH; exact E2]. apply Nat2Z.inj in E1. rewrite <- (Ascii.ascii_nat_embedding x), E1. apply Ascii.ascii_nat_embedding. }
      destruct (in_dec string_dec lang last_named); rewrite <- L.
      + destruct (last_part_spec "." path) as (b & E & H & C); [discriminate|]. exists b. split; [exact E|split; [exact H|apply one_char; exact C]].
      + destruct (first_part_spec "::" path) as (a1 & E1 & H1 & C1); [discriminate|]. destruct (first_part_spec "." (first_part "::" path)) as (a2 & E2 & H2 & C2); [discriminate|].
        set (y := first_part "::" path) in *. set (m := first_part "." y) in *. exists (a2 ++ a1). split; [rewrite app_assoc, <- E2; exact E1|split; [|split]].
        * destruct H2 as [->|(r & ->)]; [|right; left; exists (r ++ a1); reflexivity]. cbn [app]. destruct H1 as [->|(r & ->)]; [left; reflexivity|right; right; exists r; reflexivity].
        * apply one_char. exact C2.
        * intros a b Em. assert (contains (txt "::") y = true); [|congruence]. apply contains_spec. exists a, (b ++ a2). rewrite E2, Em, <- !app_assoc. reflexivity.
  Qed.

  (** ** Used modules *)
  Lemma module_visit_iff lang s : forall d t, In s (module_visit U max_depth (txt lang) (S d) t) <-> within d t (fun n => of_kind (attribute_kinds (txt lang)) n /\ In s (module_here U max_depth (txt lang) n)).
  Proof.
    assert (Here : forall t, In s (if one_of (attribute_kinds (txt lang)) (t_kind t) then module_here U max_depth (txt lang) t else []) <-> of_kind (attribute_kinds (txt lang)) t /\ In s (module_here U max_depth (txt lang) t)).
    { intro t. rewrite of_kind_mem. destruct (one_of _ _); split; [auto|intros (_ & X); exact X|intros []|intros (X & _); discriminate X]. }
    induction d as [|d IH]; intro t.
    - rewrite within_zero, <- Here. cbn [module_visit]. rewrite in_app_iff. split; [|auto]. intros [X|X]; [exact X|]. apply in_flat_map in X. destruct X as (c & _ & []).
    - rewrite within_succ, <- Here. remember (S d) as sd. cbn [module_visit]. rewrite in_app_iff, in_flat_map. subst sd. split; (intros [X|(c & Ic & X)]; [left; exact X|right; exists c; split; [exact Ic|apply IH; exact X]]).
  Qed.
  Lemma begins_iff s : begins (u_alpha U) s = true <-> initial U s.
  Proof. unfold begins, initial. destruct s as [|c r]; split; [discriminate|intros (c & r & X & _); discriminate X|eauto|intros (c' & r' & X & H); injection X as -> _; exact H]. Qed.
  Lemma module_here_iff lang k n s : In (lang, k) accesses -> t_kind n = txt k ->
    (In s (module_here U max_depth (txt lang) n) <-> exists o, in_field "object" n o /\ of_kind ["identifier"; "constant"; "simple_identifier"; "module_name"] o /\ bared U (t_text o) s /\ initial U s /\ ~ In s (map txt ["self"; "this"; "super"])).
  Proof.
    intros I K. unfold module_here. rewrite K.
    assert (E1 : one_of ["object_creation_expression"] (txt k) = false /\ object_node max_depth (txt lang) n = by_field "object" n).
    { cbn [In accesses] in I. repeat (destruct I as [E|I]; [injection E as <- <-; split; [reflexivity|unfold object_node; langs; reflexivity]|]). destruct I. }
    destruct E1 as (-> & ->). destruct (by_field "object" n) as [o|] eqn:F.
    - destruct (one_of ["identifier"; "constant"; "simple_identifier"; "module_name"] (t_kind o)) eqn:Ko.
      + destruct (one_of ["self"; "this"; "super"] (neat U (t_text o))) eqn:Sf; cbn [negb andb].
        * split; [intros []|]. intros (o' & Fo & _ & B & _ & N). exfalso. apply by_field_iff in Fo. rewrite F in Fo. injection Fo as <-. rewrite (bared_neat _ _ _ B) in Sf. apply N. apply mem_in. exact Sf.
        * destruct (begins (u_alpha U) (neat U (t_text o))) eqn:Bg.
          -- split.
             ++ intros [<-|[]]. exists o. split; [apply by_field_iff; exact F|split; [apply of_kind_mem; exact Ko|split; [apply neat_bared|split; [apply begins_iff; exact Bg|]]]]. rewrite <- mem_in. unfold one_of in Sf. congruence.
             ++ intros (o' & Fo & _ & B & _ & N). apply by_field_iff in Fo. rewrite F in Fo. injection Fo as <-. rewrite (bared_neat _ _ _ B). left. reflexivity.
          -- split; [intros []|]. intros (o' & Fo & _ & B & Ini & N). exfalso. apply by_field_iff in Fo. rewrite F in Fo. injection Fo as <-. rewrite (bared_neat _ _ _ B) in Bg. apply begins_iff in Ini. congruence.
      + split; [intros []|]. intros (o' & Fo & Ko' & _). exfalso. apply by_field_iff in Fo. rewrite F in Fo. injection Fo as <-. apply of_kind_mem in Ko'. congruence.
    - split; [intros []|]. intros (o & Fo & _). apply by_field_iff in Fo. congruence.
  Qed.
End IMPORTS.

(** ** Variables *)
Lemma variable_iff U m lang ks n s : In (lang, ks) variables_of ->
  (In s (variable_name U m (txt lang) n) <-> exists c, in_fields ["left"; "name"; "pattern"] n c /\ bared U (t_text c) s /\ byte_len s < 50 /\ exists x r, s = x :: r /\ (u_alpha U x = true \/ x = 95%Z)).
Proof.
  intro I. assert (V : forall c, variable_node m (txt lang) n = Some c <-> in_fields ["left"; "name"; "pattern"] n c).
  { intro c. assert (E : variable_node m (txt lang) n = or_else (by_field "left" n) (or_else (by_field "name" n) (or_else (by_field "pattern" n) (child 0 n)))).
    { cbn [In variables_of] in I. repeat (destruct I as [E|I]; [injection E as <- <-; unfold variable_node; langs; reflexivity|]). destruct I. }
    rewrite E. apply or_else_field, or_else_field, or_else_field, child0_iff. }
  unfold variable_name. destruct (variable_node m (txt lang) n) as [c|].
  - assert (Bg : forall x, begins (fun c => u_alpha U c || under c) x = true <-> exists y r, x = y :: r /\ (u_alpha U y = true \/ y = 95%Z)).
    { intros [|y r]; cbn [begins]; [split; [discriminate|intros (y & r & X & _); discriminate X]|]. rewrite orb_true_iff. unfold under. rewrite Z.eqb_eq. split; [eauto|]. intros (y' & r' & X & H). injection X as -> _. exact H. }
    destruct (byte_len (neat U (t_text c)) <? 50) eqn:L; cbn [andb].
    + destruct (begins _ (neat U (t_text c))) eqn:B.
      * split.
        -- intros [<-|[]]. exists c. split; [apply V; reflexivity|split; [apply neat_bared|split; [apply Nat.ltb_lt; exact L|apply Bg; exact B]]].
        -- intros (c' & F & B' & _). apply V in F. injection F as <-. rewrite (bared_neat _ _ _ B'). left. reflexivity.
      * split; [intros []|]. intros (c' & F & B' & _ & X). apply V in F. injection F as <-. rewrite (bared_neat _ _ _ B') in B. apply Bg in X. congruence.
    + split; [intros []|]. intros (c' & F & B' & X & _). apply V in F. injection F as <-. rewrite (bared_neat _ _ _ B') in L. apply Nat.ltb_ge in L. lia.
  - split; [intros []|]. intros (c & F & _). apply V in F. discriminate F.
Qed.

(** ** Parents *)
Lemma first_some_iff {A B} (f : A -> option B) l b : first_some f l = Some b <-> exists a x r, l = a ++ x :: r /\ f x = Some b /\ forall y, In y a -> f y = None.
Proof.
  unfold first_some. assert (K : forall l0 o, o <> None -> fold_left (fun a x => or_else a (f x)) l0 o = o).
  { induction l0 as [|x l' IH]; intros o N; cbn [fold_left]; [reflexivity|]. destruct o; [|congruence]. cbn [or_else]. apply IH. discriminate. }
  induction l as [|x l IH]; cbn [fold_left].
  - split; [discriminate|]. intros (a & y & r & E & _). destruct a; discriminate E.
  - cbn [or_else]. destruct (f x) as [c|] eqn:F.
    + rewrite K by discriminate. split.
      * intro E. injection E as ->. exists [], x, l. split; [reflexivity|split; [exact F|intros y []]].
      * intros ([|y a] & z & r & E & Fz & N); [injection E as -> _; congruence|]. injection E as -> _. rewrite (N y) in F by (left; reflexivity). discriminate.
    + rewrite IH. split.
      * intros (a & z & r & -> & Fz & N). exists (x :: a), z, r. split; [reflexivity|split; [exact Fz|]]. intros y [<-|Iy]; auto.
      * intros ([|y a] & z & r & E & Fz & N); [injection E as -> _; congruence|]. injection E as -> ->. exists a, z, r. split; [reflexivity|split; [exact Fz|]]. intros y' Iy. apply N. right. exact Iy.
Qed.
Lemma find_first_none ks d t : find_first_by_kinds ks d t = None <-> ~ within d t (of_kind ks).
Proof.
  split.
  - intros H (p & n & A & L & K). rewrite find_first_eq in H. apply find_none with (x := n) in H; [|apply in_down_to; eauto]. apply of_kind_mem in K. congruence.
  - intro H. destruct (find_first_by_kinds ks d t) as [n|] eqn:E; [|reflexivity]. exfalso. apply find_first_iff in E. destruct E as (p & A & L & K & _). apply H. exists p, n. auto.
Qed.
(** ** Calls *)
Lemma call_kinds_of lang ks : In (lang, ks) calls_of -> call_kinds (txt lang) = ks.
Proof. intro I. cbn [In calls_of] in I. repeat (destruct I as [E|I]; [injection E as <- <-; vm_compute; reflexivity|]). destruct I. Qed.
Lemma variable_kinds_of lang ks : In (lang, ks) variables_of -> variable_kinds (txt lang) = ks.
Proof. intro I. cbn [In variables_of] in I. repeat (destruct I as [E|I]; [injection E as <- <-; vm_compute; reflexivity|]). destruct I. Qed.
Lemma callee_iff n c : callee n = Some c <-> in_fields ["function"; "name"; "method"] n c.
Proof. unfold callee. apply or_else_field, or_else_field, or_else_field, child0_iff. Qed.
Lemma call_name_iff U n s : In s (call_name U n) <-> exists c, callee n = Some c /\ s = called (t_text c) /\ initial U s.
Proof.
  unfold call_name, called. destruct (callee n) as [c|]; [|split; [intros []|intros (c & X & _); discriminate X]]. destruct (begins (u_alpha U) _) eqn:B.
  - split; [intros [<-|[]]; exists c; split; [reflexivity|split; [reflexivity|apply begins_iff; exact B]]|]. intros (c' & E & -> & _). injection E as <-. left. reflexivity.
  - split; [intros []|]. intros (c' & E & -> & X). injection E as <-. apply begins_iff in X. congruence.
Qed.
