(** Proofs about QML units: which nodes are reached. *)
From Verif Require Import Base Text FtsText CallGraphSpec CallGraphProofs Analysis AnalysisSpec AnalysisTree AnalysisProofs AnalysisText AnalysisMore Pattern Qml QmlSpec QmlText.
From Coq Require Import String.
Open Scope string_scope.
Open Scope nat_scope.
Open Scope list_scope.
Notation length := List.length.

Section ALL.
  Variable U : unicode.
  Variable sf : tree -> option text -> option qunit.
  Variable sc sk : tree -> option qunit.
  Variable ls : list text.
  Notation visit := (visit U sf sc sk ls).
  Notation member_unit := (member_unit U sf sc sk ls).
  Notation gives := (gives U sf sc sk ls).
  Notation reaches := (reaches U).

  (** ** The unit of a node *)
  Definition unit_here (p : option text) (n : tree) : option qunit :=
    if one_of ["ui_inline_component"] (t_kind n) then inline_component U p n
    else if one_of ["ui_object_definition"] (t_kind n) then object_definition U p n
    else match member_unit p n with Some (u :: _) => Some u | _ => None end.
  Ltac kind H := rewrite one_kind in H; unfold unit_here, Qml.member_unit; rewrite H;
    repeat match goal with |- context [one_of ?l (txt ?k)] => let b := eval vm_compute in (one_of l (txt k)) in change (one_of l (txt k)) with b end; cbv iota.
  Lemma two_kinds a b n : of_kind [a; b] n <-> of_kind [a] n \/ of_kind [b] n.
  Proof.
    unfold of_kind. cbn [In]. split.
    - intros (k & [<-|[<-|[]]] & E); [left|right]; eexists; eauto.
    - intros [(k & [<-|[]] & E)|(k & [<-|[]] & E)]; [exists a|exists b]; auto.
  Qed.
  Lemma gives_here p n u : gives p n u -> unit_here p n = Some u.
  Proof.
    intro G. destruct G as [name code s v K N C L V|name code s ex K N C L E|name code s v K N C L V|name code s ty K N C L T|name code s K N Hn C L|u v K E V|u K E|u K E].
    - kind K. apply field_text_iff in N. apply node_text_iff in C. unfold object_definition. rewrite N. cbn [and_then]. rewrite C. cbn [and_then]. apply first_line_iff in L. apply object_variables_iff in V. subst. reflexivity.
    - kind K. apply field_text_iff in N. apply node_text_iff in C. unfold inline_component. rewrite N. cbn [and_then]. rewrite C. cbn [and_then]. apply first_line_iff in L. subst s. do 2 f_equal.
      destruct E as [(E & ->)|(c & E & M)]; [apply by_field_none in E; rewrite E; reflexivity|]. apply by_field_iff in E. rewrite E. apply may_say_iff in M. subst ex. reflexivity.
    - kind K. apply field_text_iff in N. apply node_text_iff in C. unfold signal. rewrite N. cbn [and_then]. rewrite C. cbn [and_then as_list]. apply own_line_iff in L. apply signal_parameters_iff in V. subst. reflexivity.
    - kind K. apply field_text_iff in N. apply node_text_iff in C. unfold property. rewrite N. cbn [and_then]. rewrite C. cbn [and_then as_list]. apply own_line_iff in L. apply may_say_iff in T. subst. reflexivity.
    - kind K. apply field_text_iff in N. apply node_text_iff in C. unfold handler. rewrite N. cbn [and_then]. apply handler_iff in Hn. rewrite Hn, C. cbn [and_then as_list]. apply own_line_iff in L. subst. reflexivity.
    - apply imports_mentioned_iff in V. subst v. apply two_kinds in K. destruct K as [K|K]; kind K; rewrite E; reflexivity.
    - kind K. rewrite E. reflexivity.
    - kind K. rewrite E. reflexivity.
  Qed.
  Lemma here_gives p n u : unit_here p n = Some u -> gives p n u.
  Proof.
    unfold unit_here. destruct (one_of ["ui_inline_component"] (t_kind n)) eqn:K1.
    - apply of_kind_mem in K1. unfold inline_component. destruct (field_text U "name" n) as [name|] eqn:N; [|discriminate]. cbn [and_then]. destruct (node_text U n) as [code|] eqn:C; [|discriminate]. cbn [and_then]. intro E. injection E as <-.
      apply gives_component; [exact K1|apply field_text_iff; exact N|apply node_text_iff; exact C|apply first_line_iff; reflexivity|].
      destruct (by_field "component" n) as [c|] eqn:F; [right; exists c; split; [apply by_field_iff; exact F|apply may_say_iff; reflexivity]|left; split; [apply by_field_none; exact F|reflexivity]].
    - destruct (one_of ["ui_object_definition"] (t_kind n)) eqn:K2.
      + apply of_kind_mem in K2. unfold object_definition. destruct (field_text U "type_name" n) as [name|] eqn:N; [|discriminate]. cbn [and_then]. destruct (node_text U n) as [code|] eqn:C; [|discriminate]. cbn [and_then]. intro E. injection E as <-.
        apply gives_object; [exact K2|apply field_text_iff; exact N|apply node_text_iff; exact C|apply first_line_iff; reflexivity|apply object_variables_iff; reflexivity].
      + unfold Qml.member_unit. destruct (one_of ["function_declaration"; "generator_function_declaration"] (t_kind n)) eqn:K3.
        { apply of_kind_mem in K3. destruct (sf n p) as [v|] eqn:E; [|discriminate]. cbn [option_map as_list]. intro X. injection X as <-. apply gives_function; [exact K3|exact E|apply imports_mentioned_iff; reflexivity]. }
        destruct (one_of ["variable_declaration"] (t_kind n)) eqn:K4.
        { apply of_kind_mem in K4. destruct (sc n) as [v|] eqn:E; [|discriminate]. cbn [option_map as_list]. intro X. injection X as <-. apply gives_constant; assumption. }
        destruct (one_of ["enum_declaration"] (t_kind n)) eqn:K5.
        { apply of_kind_mem in K5. destruct (sk n) as [v|] eqn:E; [|discriminate]. cbn [option_map as_list]. intro X. injection X as <-. apply gives_enum; assumption. }
        destruct (one_of ["ui_signal"] (t_kind n)) eqn:K6.
        { apply of_kind_mem in K6. unfold signal. destruct (field_text U "name" n) as [name|] eqn:N; [|discriminate]. cbn [and_then]. destruct (node_text U n) as [code|] eqn:C; [|discriminate]. cbn [and_then as_list]. intro E. injection E as <-.
          apply gives_signal; [exact K6|apply field_text_iff; exact N|apply node_text_iff; exact C|apply own_line_iff; reflexivity|apply signal_parameters_iff; reflexivity]. }
        destruct (one_of ["ui_property"] (t_kind n)) eqn:K7.
        { apply of_kind_mem in K7. unfold property. destruct (field_text U "name" n) as [name|] eqn:N; [|discriminate]. cbn [and_then]. destruct (node_text U n) as [code|] eqn:C; [|discriminate]. cbn [and_then as_list]. intro E. injection E as <-.
          apply gives_property; [exact K7|apply field_text_iff; exact N|apply node_text_iff; exact C|apply own_line_iff; reflexivity|apply may_say_iff; reflexivity]. }
        destruct (one_of ["ui_binding"] (t_kind n)) eqn:K8; [|discriminate].
        apply of_kind_mem in K8. unfold handler. destruct (field_text U "name" n) as [name|] eqn:N; [|discriminate]. cbn [and_then]. destruct (looks_like_signal_handler name) eqn:Hn; [|discriminate]. destruct (node_text U n) as [code|] eqn:C; [|discriminate]. cbn [and_then as_list]. intro E. injection E as <-.
        apply gives_handler; [exact K8|apply field_text_iff; exact N|apply handler_iff; exact Hn|apply node_text_iff; exact C|apply own_line_iff; reflexivity].
  Qed.

  (** ** Places found, in order *)
  Definition found (R : list nat -> qunit -> Prop) (us : list qunit) : Prop :=
    exists ps, StronglySorted read_before ps /\ Forall2 R ps us /\ forall pl u, R pl u -> In pl ps.
  Lemma found_ext (R R' : list nat -> qunit -> Prop) us : (forall pl u, R pl u <-> R' pl u) -> found R us -> found R' us.
  Proof.
    intros H (ps & S & F & C). exists ps. split; [exact S|split]; [|intros pl u X; apply (C pl u), H, X].
    clear -H F. induction F; constructor; auto. apply H. assumption.
  Qed.
  Lemma found_nil (R : list nat -> qunit -> Prop) : (forall pl u, ~ R pl u) -> found R [].
  Proof. intro H. exists []. split; [constructor|split; [constructor|intros pl u X; destruct (H _ _ X)]]. Qed.
  Lemma sorted_map_cons i ps : StronglySorted read_before ps -> StronglySorted read_before (map (cons i) ps).
  Proof. induction 1 as [|p ps S IH F]; cbn [map]; constructor; [exact IH|]. rewrite Forall_forall in *. intros x I. apply in_map_iff in I. destruct I as (q & <- & I). apply same_child, F, I. Qed.
  Lemma found_shift R us i : found R us -> found (fun pl u => exists q, pl = i :: q /\ R q u) us.
  Proof.
    intros (ps & S & F & C). exists (map (cons i) ps). split; [apply sorted_map_cons; exact S|split].
    - clear -F. induction F; cbn [map]; constructor; eauto.
    - intros pl u (q & -> & X). apply in_map. apply (C q u X).
  Qed.
  Lemma found_cons (R : list nat -> qunit -> Prop) us u0 : (forall u, ~ R [] u) -> found R us -> found (fun pl u => (pl = [] /\ u = u0) \/ R pl u) (u0 :: us).
  Proof.
    intros N (ps & S & F & C). exists ([] :: ps). split; [|split].
    - constructor; [exact S|]. rewrite Forall_forall. intros q I. assert (Q : exists u, R q u) by (clear -F I; induction F; [destruct I|]; destruct I as [<-|I]; eauto). destruct Q as (u & X). destruct q as [|i q]; [destruct (N _ X)|constructor].
    - constructor; [left; auto|]. clear -F. induction F; constructor; auto.
    - intros pl u [(-> & _)|X]; [left; reflexivity|right; apply (C pl u X)].
  Qed.
  Lemma gather_found (V : tree -> option (list qunit)) (R : tree -> list nat -> qunit -> Prop) l :
    (forall c us, In c l -> V c = Some us -> found (R c) us) -> forall us k, gather (map V l) = Some us ->
    found (fun pl u => exists i c q, pl = (k + i) :: q /\ nth_error l i = Some c /\ R c q u) us.
  Proof.
    induction l as [|c l IH]; intros H us k G; cbn [map gather] in G.
    - injection G as <-. apply found_nil. intros pl u (i & c & q & _ & E & _). destruct i; discriminate E.
    - destruct (V c) as [us1|] eqn:Vc; [|discriminate G]. destruct (gather (map V l)) as [us2|] eqn:G2; [|discriminate G]. cbn [option_map] in G. injection G as <-.
      destruct (found_shift _ _ k (H c us1 (or_introl eq_refl) Vc)) as (ps1 & S1 & F1 & C1). destruct (IH (fun c us I => H c us (or_intror I)) us2 (S k) eq_refl) as (ps2 & S2 & F2 & C2).
      assert (H1 : forall p, In p ps1 -> exists q, p = k :: q). { intros p I. clear -F1 I. induction F1 as [|a b la lb (q & E & _) F IH]; [destruct I|]; destruct I as [<-|I]; eauto. }
      assert (H2 : forall p, In p ps2 -> exists i q, p = (S k + i) :: q). { intros p I. clear -F2 I. induction F2 as [|a b la lb (i & c & q & E & _) F IH]; [destruct I|]; destruct I as [<-|I]; eauto. }
      exists (ps1 ++ ps2). split; [|split].
      + clear -S1 S2 H1 H2. induction S1 as [|p ps1 S IH F]; cbn [app]; [exact S2|]. constructor; [apply IH; intros q I; apply H1; right; exact I|]. apply Forall_app. split; [exact F|]. rewrite Forall_forall. intros q I.
        destruct (H1 p (or_introl eq_refl)) as (a & ->). destruct (H2 q I) as (i & b & ->). apply left_of. lia.
      + apply Forall2_app; [clear -F1; induction F1 as [|a b la lb (q & -> & X) F IH]; constructor; auto; exists 0, c, q; rewrite Nat.add_0_r; auto|].
        clear -F2. induction F2 as [|a b la lb (i & c' & q & -> & E & X) F IH]; constructor; auto. exists (S i), c', q. split; [f_equal; lia|auto].
      + intros pl u (i & c' & q & -> & E & X). apply in_or_app. destruct i as [|i].
        * injection E as <-. left. apply (C1 _ u). exists q. rewrite Nat.add_0_r. auto.
        * right. apply (C2 _ u). exists i, c', q. split; [f_equal; lia|auto].
  Qed.
  Lemma gather_none (V : tree -> option (list qunit)) l : gather (map V l) = None <-> exists i c, nth_error l i = Some c /\ V c = None.
  Proof.
    induction l as [|c l IH]; cbn [map gather].
    - split; [discriminate|intros (i & c & E & _); destruct i; discriminate E].
    - destruct (V c) as [us|] eqn:Vc.
      + destruct (gather (map V l)); cbn [option_map].
        * split; [discriminate|]. intros (i & c' & E & X). destruct i; [injection E as <-; congruence|]. exfalso. assert (Y : Some l0 = None) by (apply IH; exists i, c'; auto). discriminate Y.
        * split; [intros _|reflexivity]. destruct (proj1 IH eq_refl) as (i & c' & E & X). exists (S i), c'. auto.
      + split; [intros _; exists 0, c; auto|reflexivity].
  Qed.

  (** ** Which nodes are reached *)
  Lemma field_at_iff f n i c : field_at f n i c -> by_field f n = Some c.
  Proof.
    intros (E & F & N). apply by_field_iff. destruct (nth_error_split _ _ E) as (l & r & El & L). exists l, r. split; [exact El|split; [exact F|]]. intros x I. destruct (In_nth_error _ _ I) as (j & Ej). apply (N j x); [rewrite <- L; apply nth_error_Some; congruence|].
    rewrite El, nth_error_app1; [exact Ej|apply nth_error_Some; congruence].
  Qed.
  Lemma field_at_ex f n c : by_field f n = Some c -> exists i, field_at f n i c.
  Proof.
    intro E. apply by_field_iff in E. destruct E as (l & r & E & F & N). exists (length l). split; [rewrite E, nth_error_app2, Nat.sub_diag by auto; reflexivity|split; [exact F|]].
    intros j x L Ej. apply N. rewrite E, nth_error_app1 in Ej by exact L. eapply nth_error_In; eauto.
  Qed.
  Lemma field_at_fun f n i c i' c' : field_at f n i c -> field_at f n i' c' -> i = i' /\ c = c'.
  Proof.
    intros (E & F & N) (E' & F' & N'). assert (i = i'). { destruct (lt_eq_lt_dec i i') as [[L|L]|L]; [destruct (N' i c L E F)|exact L|destruct (N i' c' L E' F')]. } subst i'. split; [reflexivity|congruence].
  Qed.
  Lemma an_object_iff n name : an_object U n name <-> of_kind ["ui_object_definition"] n /\ exists p u, object_definition U p n = Some u /\ q_name u = name.
  Proof.
    unfold an_object, object_definition. split.
    - intros (K & N & code & C). split; [exact K|]. apply field_text_iff in N. apply node_text_iff in C. exists None. rewrite N, C. cbn [and_then]. eexists. split; reflexivity.
    - intros (K & p & u & E & Q). split; [exact K|]. destruct (field_text U "type_name" n) as [x|] eqn:N; [|discriminate E]. destruct (node_text U n) as [code|] eqn:C; [|discriminate E]. cbn [and_then] in E. injection E as <-. cbn in Q. subst x.
      split; [apply field_text_iff; exact N|exists code; apply node_text_iff; exact C].
  Qed.
  Lemma a_component_iff n name : a_component U n name <-> of_kind ["ui_inline_component"] n /\ exists p u, inline_component U p n = Some u /\ q_name u = name.
  Proof.
    unfold a_component, inline_component. split.
    - intros (K & N & code & C). split; [exact K|]. apply field_text_iff in N. apply node_text_iff in C. exists None. rewrite N, C. cbn [and_then]. eexists. split; reflexivity.
    - intros (K & p & u & E & Q). split; [exact K|]. destruct (field_text U "name" n) as [x|] eqn:N; [|discriminate E]. destruct (node_text U n) as [code|] eqn:C; [|discriminate E]. cbn [and_then] in E. injection E as <-. cbn in Q. subst x.
      split; [apply field_text_iff; exact N|exists code; apply node_text_iff; exact C].
  Qed.
  Lemma object_name p n u : object_definition U p n = Some u -> field_text U "type_name" n = Some (q_name u).
  Proof. unfold object_definition. destruct (field_text U "type_name" n); [|discriminate]. destruct (node_text U n); [|discriminate]. cbn [and_then]. intro E. injection E as <-. reflexivity. Qed.
  Lemma component_name p n u : inline_component U p n = Some u -> field_text U "name" n = Some (q_name u).
  Proof. unfold inline_component. destruct (field_text U "name" n); [|discriminate]. destruct (node_text U n); [|discriminate]. cbn [and_then]. intro E. injection E as <-. reflexivity. Qed.
  Lemma object_none p p' n : object_definition U p n = None -> object_definition U p' n = None.
  Proof. unfold object_definition. destruct (field_text U "type_name" n); [|reflexivity]. destruct (node_text U n); [discriminate|reflexivity]. Qed.
  Lemma component_none p p' n : inline_component U p n = None -> inline_component U p' n = None.
  Proof. unfold inline_component. destruct (field_text U "name" n); [|reflexivity]. destruct (node_text U n); [discriminate|reflexivity]. Qed.
  Lemma member_none p n : member_unit p n = None <-> ~ of_kind members n.
  Proof.
    rewrite of_kind_mem. assert (E : one_of members (t_kind n) = one_of ["function_declaration"; "generator_function_declaration"] (t_kind n) || one_of ["variable_declaration"] (t_kind n) || one_of ["enum_declaration"] (t_kind n)
      || one_of ["ui_signal"] (t_kind n) || one_of ["ui_property"] (t_kind n) || one_of ["ui_binding"] (t_kind n)).
    { unfold one_of, mem, members. cbn [map existsb]. rewrite !orb_false_r, <- !orb_assoc. reflexivity. }
    rewrite E. unfold Qml.member_unit.
    destruct (one_of ["function_declaration"; "generator_function_declaration"] (t_kind n)); [cbn [orb]; split; [discriminate|intro X; destruct (X eq_refl)]|].
    do 5 (match goal with |- context [if ?b then _ else _] => destruct b end; [cbn [orb]; split; [discriminate|intro X; destruct (X eq_refl)]|]). cbn [orb]. split; [discriminate|reflexivity].
  Qed.
  Lemma members_list p n us : member_unit p n = Some us -> us = as_list (match us with u :: _ => Some u | [] => None end).
  Proof.
    unfold Qml.member_unit. repeat (match goal with |- context [if ?b then _ else _] => destruct b end; [intro E; injection E as <-; match goal with |- context [as_list ?o] => destruct o; reflexivity end|]). discriminate.
  Qed.

  Definition at_ (p : option text) (d : nat) (t : tree) (pl : list nat) (u : qunit) : Prop := exists p' d' n, reaches p d t pl p' d' n /\ unit_here p' n = Some u.
  Definition deep (p : option text) (d lim : nat) (t : tree) : Prop := exists pl p' d' n, reaches p d t pl p' d' n /\ lim <= d'.
  Lemma reaches_le p d t pl p' d' n : reaches p d t pl p' d' n -> d <= d'.
  Proof. induction 1; lia. Qed.
  (** the children of an initializer *)
  Lemma inner_found V name d n i us : (forall c us, V c = Some us -> found (at_ (Some name) d c) us) ->
    by_field "initializer" n = Some i -> gather (map V (t_children i)) = Some us ->
    found (fun pl u => exists k j c q, pl = k :: j :: q /\ field_at "initializer" n k i /\ nth_error (t_children i) j = Some c /\ at_ (Some name) d c q u) us.
  Proof.
    intros H B G. destruct (field_at_ex _ _ _ B) as (k & Fk). apply (gather_found V (at_ (Some name) d) _ (fun c us _ => H c us) us 0) in G. apply (found_shift _ _ k) in G. revert G. apply found_ext. intros pl u. split.
    - intros (q & -> & j & c & q' & -> & E & X). exists k, j, c, q'. auto.
    - intros (k' & j & c & q & -> & F & E & X). destruct (field_at_fun _ _ _ _ _ _ Fk F) as (<- & _). eexists. split; [reflexivity|]. exists j, c, q. auto.
  Qed.

  Lemma visit_ok fuel : forall p d t,
    (forall us, visit fuel p t = Some us -> found (at_ p d t) us) /\ (visit fuel p t = None <-> deep p d (d + fuel) t).
  Proof.
    induction fuel as [fuel IH] using lt_wf_ind. intros p d t. destruct fuel as [|f].
    { split; [discriminate|]. split; [intros _|reflexivity]. exists [], p, d, t. split; [constructor|lia]. }
    cbn [Qml.visit]. destruct (one_of ["ui_annotated_object"] (t_kind t)) eqn:K1.
    { apply of_kind_mem in K1. pose proof K1 as Kt. rewrite one_kind in Kt.
      assert (NU : forall p', unit_here p' t = None). { intro p'. unfold unit_here, Qml.member_unit. rewrite Kt. reflexivity. }
      assert (NO : forall k, k <> "ui_annotated_object" -> (txt k = txt "ui_annotated_object" -> False) -> ~ of_kind [k] t) by (intros k _ X Y; rewrite one_kind in Y; congruence).
      assert (Inv : forall pl p' d' n, reaches p d t pl p' d' n -> (pl = [] /\ p' = p /\ d' = d /\ n = t) \/ exists i c q, pl = i :: q /\ field_at "definition" t i c /\ reaches p (d + 1) c q p' d' n).
      { intros pl p' d' n R. inversion R; subst; [left; auto|right; eauto 10| | |].
        - exfalso. match goal with H : an_object _ _ _ |- _ => destruct H as (X & _) end. rewrite one_kind, Kt in X. discriminate X.
        - exfalso. match goal with H : a_component _ _ _ |- _ => destruct H as (X & _) end. rewrite one_kind, Kt in X. discriminate X.
        - exfalso. match goal with H : plain _ _ |- _ => destruct H as (X & _) end. apply X. exists "ui_annotated_object". split; [left; reflexivity|exact Kt]. }
      destruct (by_field "definition" t) as [c|] eqn:B.
      - destruct (field_at_ex _ _ _ B) as (i & Fi). destruct (IH f (Nat.lt_succ_diag_r _) p (d + 1) c) as (H1 & H2). split.
        + intros us E. apply H1, (found_shift _ _ i) in E. revert E. apply found_ext. intros pl u. split.
          * intros (q & -> & p' & d' & n & R & X). exists p', d', n. split; [eapply r_annotated; eauto|exact X].
          * intros (p' & d' & n & R & X). destruct (Inv _ _ _ _ R) as [(-> & -> & -> & ->)|(i' & c' & q & -> & F' & R')]; [rewrite NU in X; discriminate X|]. destruct (field_at_fun _ _ _ _ _ _ Fi F') as (<- & <-). exists q. split; [reflexivity|exists p', d', n; auto].
        + rewrite H2. unfold deep. split.
          * intros (pl & p' & d' & n & R & L). exists (i :: pl), p', d', n. split; [eapply r_annotated; eauto|lia].
          * intros (pl & p' & d' & n & R & L). destruct (Inv _ _ _ _ R) as [(-> & -> & -> & ->)|(i' & c' & q & -> & F' & R')]; [lia|]. destruct (field_at_fun _ _ _ _ _ _ Fi F') as (<- & <-). exists q, p', d', n. split; [exact R'|lia].
      - assert (NF : forall i c, ~ field_at "definition" t i c) by (intros i c F; apply field_at_iff in F; congruence). split.
        + intros us E. injection E as <-. apply found_nil. intros pl u (p' & d' & n & R & X). destruct (Inv _ _ _ _ R) as [(-> & -> & -> & ->)|(i' & c' & q & -> & F' & R')]; [rewrite NU in X; discriminate X|destruct (NF _ _ F')].
        + split; [discriminate|]. intros (pl & p' & d' & n & R & L). destruct (Inv _ _ _ _ R) as [(-> & -> & -> & ->)|(i' & c' & q & -> & F' & R')]; [lia|destruct (NF _ _ F')]. }
    assert (NA : ~ of_kind ["ui_annotated_object"] t) by (rewrite of_kind_mem, K1; discriminate).
    (** going through the children *)
    assert (Kids : plain U t -> (forall p', unit_here p' t = None) ->
      (forall us, gather (map (visit f p) (t_children t)) = Some us -> found (at_ p d t) us) /\ (gather (map (visit f p) (t_children t)) = None <-> deep p d (d + S f) t)).
    { intros Pl NU. assert (Inv : forall pl p' d' n, reaches p d t pl p' d' n -> (pl = [] /\ p' = p /\ d' = d /\ n = t) \/ exists i c q, pl = i :: q /\ nth_error (t_children t) i = Some c /\ reaches p (d + 1) c q p' d' n).
      { destruct Pl as (P1 & P2). intros pl p' d' n R. inversion R; subst; [left; auto|contradiction| | |right; eauto 10].
        - exfalso. match goal with H : an_object _ _ _ |- _ => apply (P2 _ H) end.
        - exfalso. match goal with H : a_component _ _ _ |- _ => destruct H as ((k & [<-|[]] & Y) & _) end. apply P1. exists "ui_inline_component". split; [right; left; reflexivity|exact Y]. }
      split.
      - intros us G. apply (gather_found _ (at_ p (d + 1)) _ (fun c us _ => proj1 (IH f (Nat.lt_succ_diag_r _) p (d + 1) c) us) us 0) in G. revert G. apply found_ext. intros pl u. split.
        + intros (i & c & q & -> & E & p' & d' & n & R & X). exists p', d', n. split; [eapply r_child; eauto|exact X].
        + intros (p' & d' & n & R & X). destruct (Inv _ _ _ _ R) as [(-> & -> & -> & ->)|(i & c & q & -> & E & R')]; [rewrite NU in X; discriminate X|]. exists i, c, q. split; [reflexivity|split; [exact E|exists p', d', n; auto]].
      - rewrite gather_none. split.
        + intros (i & c & E & X). apply (proj2 (IH f (Nat.lt_succ_diag_r _) p (d + 1) c)) in X. destruct X as (q & p' & d' & n & R & L). exists (i :: q), p', d', n. split; [eapply r_child; eauto|lia].
        + intros (pl & p' & d' & n & R & L). destruct (Inv _ _ _ _ R) as [(-> & -> & -> & ->)|(i & c & q & -> & E & R')]; [lia|]. exists i, c. split; [exact E|]. apply (proj2 (IH f (Nat.lt_succ_diag_r _) p (d + 1) c)). exists q, p', d', n. split; [exact R'|lia]. }
    set (g := fun o : option text => match f with S g => visit g o | O => fun _ => None end).
    assert (Hg : forall name c, (forall us, g (Some name) c = Some us -> found (at_ (Some name) (d + 2) c) us) /\ (g (Some name) c = None <-> deep (Some name) (d + 2) (d + S f) c)).
    { intros name c. unfold g. destruct f as [|f'].
      - split; [discriminate|]. split; [intros _|reflexivity]. exists [], (Some name), (d + 2), c. split; [constructor|lia].
      - destruct (IH f' ltac:(lia) (Some name) (d + 2) c) as (A & B). split; [exact A|]. rewrite B. replace (d + 2 + f') with (d + S (S f')) by lia. reflexivity. }
    destruct (one_of ["ui_inline_component"] (t_kind t)) eqn:K2.
    { assert (UH : forall p', unit_here p' t = inline_component U p' t) by (intro p'; unfold unit_here; rewrite K2; reflexivity).
      apply of_kind_mem in K2. pose proof K2 as Kt. rewrite one_kind in Kt.
      assert (Inv : forall pl p' d' n, reaches p d t pl p' d' n -> (pl = [] /\ p' = p /\ d' = d /\ n = t)
        \/ exists name h comp i init j c q, pl = h :: i :: j :: q /\ a_component U t name /\ field_at "component" t h comp /\ field_at "initializer" comp i init /\ nth_error (t_children init) j = Some c /\ reaches (Some name) (d + 2) c q p' d' n).
      { intros pl p' d' n R. inversion R; subst; [left; auto|contradiction| |right; do 8 eexists; eauto 10|].
        - exfalso. match goal with H : an_object _ _ _ |- _ => destruct H as (X & _) end. rewrite one_kind, Kt in X. discriminate X.
        - exfalso. match goal with H : plain _ _ |- _ => destruct H as (X & _) end. apply X. exists "ui_inline_component". split; [right; left; reflexivity|exact Kt]. }
      destruct (inline_component U p t) as [u|] eqn:IC.
      - assert (Nm : forall name, a_component U t name -> name = q_name u). { intros name (_ & X & _). apply field_text_iff in X. rewrite (component_name _ _ _ IC) in X. congruence. }
        assert (Ac : a_component U t (q_name u)) by (apply a_component_iff; split; [exact K2|eauto]).
        destruct (by_field "component" t) as [comp|] eqn:Bc; [destruct (by_field "initializer" comp) as [init|] eqn:Bi|].
        + destruct (field_at_ex _ _ _ Bc) as (h & Fh). destruct (field_at_ex _ _ _ Bi) as (k & Fk). change (match f with O => fun _ : tree => None | S g0 => visit g0 (Some (q_name u)) end) with (g (Some (q_name u))). split.
          * intros us E. destruct (gather (map (g (Some (q_name u))) (t_children init))) as [us'|] eqn:G; [|discriminate E]. cbn [option_map] in E. injection E as <-.
            apply (inner_found _ _ (d + 2) comp init us' (fun c us => proj1 (Hg (q_name u) c) us) Bi) in G. apply (found_shift _ _ h) in G. apply (found_cons _ _ u) in G; [|intros u' (q & X & _); discriminate X]. revert G. apply found_ext. intros pl v. split.
            -- intros [(-> & ->)|(q & -> & k' & j & c & q' & -> & F' & E & p' & d' & n & R & X)]; [exists p, d, t; split; [constructor|rewrite UH; exact IC]|]. exists p', d', n. split; [eapply r_component; eauto|exact X].
            -- intros (p' & d' & n & R & X). destruct (Inv _ _ _ _ R) as [(-> & -> & -> & ->)|(name & h' & comp' & i & init' & j & c & q & -> & An & F1 & F2 & E & R')].
               ++ left. rewrite UH, IC in X. injection X as <-. auto.
               ++ right. destruct (field_at_fun _ _ _ _ _ _ Fh F1) as (<- & <-). destruct (field_at_fun _ _ _ _ _ _ Fk F2) as (<- & <-). apply Nm in An. subst name. eexists. split; [reflexivity|]. exists k, j, c, q. split; [reflexivity|split; [exact F2|split; [exact E|exists p', d', n; auto]]].
          * split.
            -- intro E. destruct (gather (map (g (Some (q_name u))) (t_children init))) as [us'|] eqn:G; [discriminate E|]. apply gather_none in G. destruct G as (j & c & E' & X). apply Hg in X. destruct X as (q & p' & d' & n & R & L). exists (h :: k :: j :: q), p', d', n. split; [eapply r_component; eauto|exact L].
            -- intros (pl & p' & d' & n & R & L). destruct (Inv _ _ _ _ R) as [(-> & -> & -> & ->)|(name & h' & comp' & i & init' & j & c & q & -> & An & F1 & F2 & E & R')]; [lia|].
               destruct (field_at_fun _ _ _ _ _ _ Fh F1) as (<- & <-). destruct (field_at_fun _ _ _ _ _ _ Fk F2) as (<- & <-). apply Nm in An. subst name.
               assert (G : gather (map (g (Some (q_name u))) (t_children init)) = None); [|rewrite G; reflexivity]. apply gather_none. exists j, c. split; [exact E|]. apply Hg. exists q, p', d', n. auto.
        + assert (NF : forall h comp' i init, field_at "component" t h comp' -> ~ field_at "initializer" comp' i init) by (intros h comp' i init F1 F2; apply field_at_iff in F1; apply field_at_iff in F2; congruence). cbn [option_map]. split.
          * intros us E. injection E as <-. assert (G : found (fun _ _ => False) []) by (apply found_nil; auto). apply (found_cons _ _ u) in G; [|auto]. revert G. apply found_ext. intros pl v. split.
            -- intros [(-> & ->)|[]]. exists p, d, t. split; [constructor|rewrite UH; exact IC].
            -- intros (p' & d' & n & R & X). destruct (Inv _ _ _ _ R) as [(-> & -> & -> & ->)|(name & h' & comp' & i & init' & j & c & q & -> & An & F1 & F2 & E & R')]; [left; rewrite UH, IC in X; injection X as <-; auto|destruct (NF _ _ _ _ F1 F2)].
          * split; [discriminate|]. intros (pl & p' & d' & n & R & L). destruct (Inv _ _ _ _ R) as [(-> & -> & -> & ->)|(name & h' & comp' & i & init' & j & c & q & -> & An & F1 & F2 & E & R')]; [lia|destruct (NF _ _ _ _ F1 F2)].
        + assert (NF : forall h comp', ~ field_at "component" t h comp') by (intros h comp' F1; apply field_at_iff in F1; congruence). cbn [option_map]. split.
          * intros us E. injection E as <-. assert (G : found (fun _ _ => False) []) by (apply found_nil; auto). apply (found_cons _ _ u) in G; [|auto]. revert G. apply found_ext. intros pl v. split.
            -- intros [(-> & ->)|[]]. exists p, d, t. split; [constructor|rewrite UH; exact IC].
            -- intros (p' & d' & n & R & X). destruct (Inv _ _ _ _ R) as [(-> & -> & -> & ->)|(name & h' & comp' & i & init' & j & c & q & -> & An & F1 & F2 & E & R')]; [left; rewrite UH, IC in X; injection X as <-; auto|destruct (NF _ _ F1)].
          * split; [discriminate|]. intros (pl & p' & d' & n & R & L). destruct (Inv _ _ _ _ R) as [(-> & -> & -> & ->)|(name & h' & comp' & i & init' & j & c & q & -> & An & F1 & F2 & E & R')]; [lia|destruct (NF _ _ F1)].
      - assert (NC : forall name, ~ a_component U t name). { intros name X. apply a_component_iff in X. destruct X as (_ & p' & u & X & _). rewrite (component_none _ p' _ IC) in X. discriminate X. } split.
        + intros us E. injection E as <-. apply found_nil. intros pl v (p' & d' & n & R & X). destruct (Inv _ _ _ _ R) as [(-> & -> & -> & ->)|(name & h' & comp' & i & init' & j & c & q & -> & An & _)]; [rewrite UH, IC in X; discriminate X|destruct (NC _ An)].
        + split; [discriminate|]. intros (pl & p' & d' & n & R & L). destruct (Inv _ _ _ _ R) as [(-> & -> & -> & ->)|(name & h' & comp' & i & init' & j & c & q & -> & An & _)]; [lia|destruct (NC _ An)]. }
    assert (NI : ~ of_kind ["ui_inline_component"] t) by (rewrite of_kind_mem, K2; discriminate).
    destruct (one_of ["ui_object_definition"] (t_kind t)) eqn:K3.
    { assert (UH : forall p', unit_here p' t = object_definition U p' t) by (intro p'; unfold unit_here; rewrite K2, K3; reflexivity).
      apply of_kind_mem in K3. pose proof K3 as Kt. rewrite one_kind in Kt.
      assert (NM : ~ of_kind ("ui_annotated_object" :: "ui_inline_component" :: members) t). { rewrite of_kind_mem, Kt. vm_compute. discriminate. }
      destruct (object_definition U p t) as [u|] eqn:OD.
      - assert (Nm : forall name, an_object U t name -> name = q_name u). { intros name (_ & X & _). apply field_text_iff in X. rewrite (object_name _ _ _ OD) in X. congruence. }
        assert (Ao : an_object U t (q_name u)) by (apply an_object_iff; split; [exact K3|eauto]).
        assert (Inv : forall pl p' d' n, reaches p d t pl p' d' n -> (pl = [] /\ p' = p /\ d' = d /\ n = t)
          \/ exists i init j c q, pl = i :: j :: q /\ field_at "initializer" t i init /\ nth_error (t_children init) j = Some c /\ reaches (Some (q_name u)) (d + 2) c q p' d' n).
        { intros pl p' d' n R. inversion R; subst; [left; auto|contradiction| | |].
          - match goal with H : an_object _ _ _ |- _ => apply Nm in H; subst end. right. do 5 eexists. eauto 10.
          - exfalso. match goal with H : a_component _ _ _ |- _ => destruct H as (X & _) end. contradiction.
          - exfalso. match goal with H : plain _ _ |- _ => destruct H as (_ & X) end. exact (X _ Ao). }
        destruct (by_field "initializer" t) as [init|] eqn:Bi.
        + destruct (field_at_ex _ _ _ Bi) as (k & Fk). change (match f with O => fun _ : tree => None | S g0 => visit g0 (Some (q_name u)) end) with (g (Some (q_name u))). split.
          * intros us E. destruct (gather (map (g (Some (q_name u))) (t_children init))) as [us'|] eqn:G; [|discriminate E]. cbn [option_map] in E. injection E as <-.
            apply (inner_found _ _ (d + 2) t init us' (fun c us => proj1 (Hg (q_name u) c) us) Bi) in G. apply (found_cons _ _ u) in G; [|intros u' (q1 & q2 & q3 & q & X & _); discriminate X]. revert G. apply found_ext. intros pl v. split.
            -- intros [(-> & ->)|(k' & j & c & q' & -> & F' & E & p' & d' & n & R & X)]; [exists p, d, t; split; [constructor|rewrite UH; exact OD]|]. exists p', d', n. split; [eapply r_object; eauto|exact X].
            -- intros (p' & d' & n & R & X). destruct (Inv _ _ _ _ R) as [(-> & -> & -> & ->)|(i & init' & j & c & q & -> & F2 & E & R')].
               ++ left. rewrite UH, OD in X. injection X as <-. auto.
               ++ right. destruct (field_at_fun _ _ _ _ _ _ Fk F2) as (<- & <-). exists k, j, c, q. split; [reflexivity|split; [exact F2|split; [exact E|exists p', d', n; auto]]].
          * split.
            -- intro E. destruct (gather (map (g (Some (q_name u))) (t_children init))) as [us'|] eqn:G; [discriminate E|]. apply gather_none in G. destruct G as (j & c & E' & X). apply Hg in X. destruct X as (q & p' & d' & n & R & L). exists (k :: j :: q), p', d', n. split; [eapply r_object; eauto|exact L].
            -- intros (pl & p' & d' & n & R & L). destruct (Inv _ _ _ _ R) as [(-> & -> & -> & ->)|(i & init' & j & c & q & -> & F2 & E & R')]; [lia|]. destruct (field_at_fun _ _ _ _ _ _ Fk F2) as (<- & <-).
               assert (G : gather (map (g (Some (q_name u))) (t_children init)) = None); [|rewrite G; reflexivity]. apply gather_none. exists j, c. split; [exact E|]. apply Hg. exists q, p', d', n. auto.
        + assert (NF : forall i init, ~ field_at "initializer" t i init) by (intros i init F1; apply field_at_iff in F1; congruence). cbn [option_map]. split.
          * intros us E. injection E as <-. assert (G : found (fun _ _ => False) []) by (apply found_nil; auto). apply (found_cons _ _ u) in G; [|auto]. revert G. apply found_ext. intros pl v. split.
            -- intros [(-> & ->)|[]]. exists p, d, t. split; [constructor|rewrite UH; exact OD].
            -- intros (p' & d' & n & R & X). destruct (Inv _ _ _ _ R) as [(-> & -> & -> & ->)|(i & init' & j & c & q & -> & F2 & E & R')]; [left; rewrite UH, OD in X; injection X as <-; auto|destruct (NF _ _ F2)].
          * split; [discriminate|]. intros (pl & p' & d' & n & R & L). destruct (Inv _ _ _ _ R) as [(-> & -> & -> & ->)|(i & init' & j & c & q & -> & F2 & E & R')]; [lia|destruct (NF _ _ F2)].
      - apply Kids; [split; [exact NM|]|].
        + intros name X. apply an_object_iff in X. destruct X as (_ & p' & u & X & _). rewrite (object_none _ p' _ OD) in X. discriminate X.
        + intro p'. rewrite UH. apply (object_none p). exact OD. }
    assert (NO : ~ of_kind ["ui_object_definition"] t) by (rewrite of_kind_mem, K3; discriminate).
    assert (UH : forall p', unit_here p' t = match member_unit p' t with Some (u :: _) => Some u | _ => None end) by (intro p'; unfold unit_here; rewrite K2, K3; reflexivity).
    destruct (member_unit p t) as [us|] eqn:MU.
    - assert (M : of_kind members t). { destruct (one_of members (t_kind t)) eqn:X; [apply of_kind_mem; exact X|]. assert (member_unit p t = None) by (apply member_none; rewrite of_kind_mem, X; discriminate). congruence. }
      assert (Inv : forall pl p' d' n, reaches p d t pl p' d' n -> pl = [] /\ p' = p /\ d' = d /\ n = t).
      { intros pl p' d' n R. inversion R; subst; [auto|contradiction| | |]; exfalso.
        - match goal with H : an_object _ _ _ |- _ => destruct H as (X & _) end. contradiction.
        - match goal with H : a_component _ _ _ |- _ => destruct H as (X & _) end. contradiction.
        - match goal with H : plain _ _ |- _ => destruct H as (X & _) end. apply X. destruct M as (k & I & E). exists k. split; [right; right; exact I|exact E]. }
      split.
      + intros us' E. injection E as <-. rewrite (members_list _ _ _ MU). specialize (UH p). rewrite MU in UH. destruct us as [|u us]; cbn [as_list].
        * apply found_nil. intros pl v (p' & d' & n & R & X). destruct (Inv _ _ _ _ R) as (-> & -> & -> & ->). congruence.
        * assert (G : found (fun _ _ => False) []) by (apply found_nil; auto). apply (found_cons _ _ u) in G; [|auto]. revert G. apply found_ext. intros pl v. split.
          -- intros [(-> & ->)|[]]. exists p, d, t. split; [constructor|exact UH].
          -- intros (p' & d' & n & R & X). destruct (Inv _ _ _ _ R) as (-> & -> & -> & ->). left. split; [reflexivity|congruence].
      + split; [discriminate|]. intros (pl & p' & d' & n & R & L). destruct (Inv _ _ _ _ R) as (-> & -> & -> & ->). lia.
    - assert (NM : ~ of_kind members t) by (apply (member_none p); exact MU). apply Kids.
      + split; [|intros name (X & _); contradiction]. intros (k & [<-|[<-|I]] & E); [apply NA|apply NI|apply NM]; eexists; split; eauto; left; reflexivity.
      + intro p'. rewrite UH. rewrite (proj2 (member_none p' t) NM). reflexivity.
  Qed.
End ALL.
