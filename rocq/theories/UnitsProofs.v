(** Units come back from the metadata. *)
From Verif Require Import Base Text SqlModel MetaModel MetaSpec MetaProofs MetaCreate MetaContent MetaRead Units UnitsSpec.
Open Scope nat_scope.

Section BACK.
  Variable E : engine.
  Variable parse : text -> option json.
  Hypothesis GJ : good_json E parse.
  Definition taken (t : text) : bool := starts_with (txt "[") t && match parse t with Some (JArr _) => true | _ => false end.
  Lemma taken_iff t : taken t = true <-> is_array_text parse t.
  Proof using.
    unfold taken, is_array_text. rewrite Bool.andb_true_iff. split.
    - intros (H1 & H2). split.
      + destruct t as [|c r]; [discriminate|]. exists r. f_equal. cbn in H1. apply Bool.andb_true_iff in H1. destruct H1 as (H1 & _). apply Z.eqb_eq in H1. symmetry. exact H1.
      + destruct (parse t) as [[| | | | |l|]|]; try discriminate. exists l. reflexivity.
    - intros ((r & ->) & l & ->). split; [|reflexivity]. vm_compute. reflexivity.
  Qed.
  Lemma lookup_fix o k : lookup (map (fun p => (fst p, fix_value parse (fst p) (snd p))) o) k = option_map (fix_value parse k) (lookup o k).
  Proof using.
    unfold lookup. induction o as [|[k' v] o IH]; [reflexivity|]. cbn [map find fst snd]. destruct (text_eqb k' k) eqn:T; [|exact IH].
    apply text_eqb_eq in T. subst. reflexivity.
  Qed.
  Definition plain_key (k : text) : Prop := starts_with (txt "has_") k || starts_with (txt "is_") k = false.
  Lemma fix_str k t : plain_key k -> d_str (Some (fix_value parse k (JStr t))) = if taken t then None else Some t.
  Proof using.
    unfold plain_key, fix_value, taken. intros ->. destruct (starts_with (txt "[") t); [|reflexivity]. cbn [andb].
    destruct (parse t) as [[| | | | |l|]|]; reflexivity.
  Qed.
  Lemma fix_opt k o : plain_key k -> d_opt (Some (fix_value parse k (j_opt o))) = match o with Some t => if taken t then None else Some (Some t) | None => Some None end.
  Proof using.
    unfold plain_key, fix_value, taken. intros ->. destruct o as [t|]; [|reflexivity]. cbn [j_opt]. destruct (starts_with (txt "[") t); [|reflexivity]. cbn [andb].
    destruct (parse t) as [[| | | | |l|]|]; reflexivity.
  Qed.
  Lemma strings_map l : strings (map JStr l) = Some l.
  Proof using. induction l as [|x l IH]; [reflexivity|]. cbn. rewrite IH. reflexivity. Qed.
  Lemma fix_list k l : plain_key k -> d_list (Some (fix_value parse k (JStr (e_json E (j_list l))))) = Some l.
  Proof using GJ.
    unfold plain_key, fix_value. intros ->. destruct (GJ l) as ((r & H1) & H2). unfold j_list. rewrite H2. rewrite H1.
    change (starts_with (txt "[") (ch "[" :: r)) with (starts_with (txt "[") ([ch "["] ++ r)).
    replace (starts_with (txt "[") ([ch "["] ++ r)) with true by (vm_compute; reflexivity). apply strings_map.
  Qed.
  Lemma fix_nat k n : plain_key k -> d_nat (Some (fix_value parse k (j_nat n))) = Some n.
  Proof using.
    unfold plain_key, fix_value. intros ->. cbn [j_nat d_nat]. replace (0 <=? Z.of_nat n)%Z with true by lia. rewrite Nat2Z.id. reflexivity.
  Qed.
  Lemma fix_bool k (b : bool) : starts_with (txt "has_") k || starts_with (txt "is_") k = true -> d_bool (Some (fix_value parse k (JInt (if b then 1 else 0)))) = Some b.
  Proof using. unfold fix_value. intros ->. destruct b; reflexivity. Qed.
  Lemma fix_enum k names t : plain_key k -> In t names -> (forall x, In x names -> starts_with (txt "[") x = false) -> d_enum names (Some (fix_value parse k (JStr t))) = Some t.
  Proof using.
    intros PK I N. unfold d_enum. rewrite fix_str by exact PK. unfold taken. rewrite (N t I). cbn [andb].
    replace (mem t names) with true; [reflexivity|]. symmetry. unfold mem. apply existsb_exists. exists t. split; [exact I|]. apply text_eqb_eq. reflexivity.
  Qed.
  Lemma no_array_names names : forallb (fun x => negb (starts_with (txt "[") x)) names = true -> forall x, In x names -> starts_with (txt "[") x = false.
  Proof using. rewrite forallb_forall. intros H x Hx. apply Bool.negb_true_iff. apply H. exact Hx. Qed.

  (** what a row holds for a unit *)
  Definition holds (f : list (text * json)) (u : code_unit) : Prop :=
    forall k x y, In (k, x) (unit_fields u) -> comes_back E x y -> lookup f k = Some y.
  Lemma cons_lookup i f k : text_eqb subset_column k = false -> lookup ((subset_column, JInt i) :: f) k = lookup f k.
  Proof using. intro H. unfold lookup. cbn [find fst]. rewrite H. reflexivity. Qed.
  Theorem row_unit i f u : holds f u -> proper u ->
    unit_of_row parse (JObj ((subset_column, JInt i) :: f)) = if existsb taken (texts_of u) then None else Some u.
  Proof using GJ.
    intros H (PL & PT & PN). inversion PN as [|? ? N1 PN']; subst. inversion PN' as [|? ? N2 PN'']; subst. inversion PN'' as [|? ? N3 _]; subst. clear PN PN' PN''.
    unfold unit_of_row, fix_sqlite_types, from_value.
    set (row := (subset_column, JInt i) :: f).
    assert (S0 : forall k t, In (k, JStr t) (unit_fields u) -> text_eqb subset_column k = false -> lookup row k = Some (JStr t)).
    { intros k t I D. unfold row. rewrite cons_lookup by exact D. apply (H k (JStr t)); [exact I|constructor]. }
    assert (O0 : forall k o, In (k, j_opt o) (unit_fields u) -> text_eqb subset_column k = false -> lookup row k = Some (j_opt o)).
    { intros k o I D. unfold row. rewrite cons_lookup by exact D. apply (H k (j_opt o)); [exact I|destruct o; constructor]. }
    assert (L0 : forall k l, In (k, j_list l) (unit_fields u) -> text_eqb subset_column k = false -> lookup row k = Some (JStr (e_json E (j_list l)))).
    { intros k l I D. unfold row. rewrite cons_lookup by exact D. apply (H k (j_list l)); [exact I|constructor]. }
    assert (N0 : forall k n, In (k, j_nat n) (unit_fields u) -> (Z.of_nat n < 2 ^ 63)%Z -> text_eqb subset_column k = false -> lookup row k = Some (j_nat n)).
    { intros k n I B D. unfold row. rewrite cons_lookup by exact D. apply (H k (j_nat n)); [exact I|]. unfold j_nat. constructor. lia. }
    assert (B0 : forall k (b : bool), In (k, JBool b) (unit_fields u) -> text_eqb subset_column k = false -> lookup row k = Some (JInt (if b then 1 else 0)%Z)).
    { intros k b I D. unfold row. rewrite cons_lookup by exact D. apply (H k (JBool b)); [exact I|constructor]. }
    clearbody row. unfold from_fields. rewrite !lookup_fix.
    rewrite (S0 (txt "name") (cu_name u)), (S0 (txt "qualified_name") (cu_qualified_name u)), (S0 (txt "file") (cu_file u)),
      (N0 (txt "line") (cu_line u)), (N0 (txt "end_line") (cu_end_line u)), (S0 (txt "language") (cu_language u)), (S0 (txt "unit_type") (cu_unit_type u)),
      (S0 (txt "signature") (cu_signature u)), (O0 (txt "docstring") (cu_docstring u)), (L0 (txt "parameters") (cu_parameters u)),
      (O0 (txt "return_type") (cu_return_type u)), (O0 (txt "extends") (cu_extends u)), (O0 (txt "parent_class") (cu_parent_class u)),
      (L0 (txt "calls") (cu_calls u)), (L0 (txt "called_by") (cu_called_by u)), (N0 (txt "complexity") (cu_complexity u)),
      (B0 (txt "has_loops") (cu_has_loops u)), (B0 (txt "has_branches") (cu_has_branches u)), (B0 (txt "has_error_handling") (cu_has_error_handling u)),
      (L0 (txt "variables") (cu_variables u)), (L0 (txt "imports") (cu_imports u)), (S0 (txt "code") (cu_code u));
      try assumption; try reflexivity; try (unfold unit_fields; cbn [In]; tauto).
    cbn [option_map].
    rewrite !fix_nat, !fix_list, !fix_bool, !fix_opt by reflexivity.
    rewrite (fix_enum (txt "language")), (fix_enum (txt "unit_type")); try assumption; try reflexivity; try (apply no_array_names; vm_compute; reflexivity).
    rewrite !fix_str by reflexivity.
    unfold texts_of. destruct u as [name qname file line end_line lang ut sig doc params ret ext parent calls called cx lo br er vars imps code]; cbn.
    destruct (taken name), (taken qname), (taken file), (taken sig), doc as [doc|], ret as [ret|], ext as [ext|], parent as [parent|]; cbn; try reflexivity;
      repeat match goal with |- context [taken ?t] => destruct (taken t); cbn; try reflexivity end.
  Qed.
  Lemma existsb_taken l : (existsb taken l = true <-> exists t, In t l /\ is_array_text parse t) /\ (existsb taken l = false <-> forall t, In t l -> ~ is_array_text parse t).
  Proof using.
    assert (K : existsb taken l = true <-> exists t, In t l /\ is_array_text parse t).
    { rewrite existsb_exists. split; intros (t & H1 & H2); exists t; (split; [exact H1|apply taken_iff; exact H2]). }
    split; [exact K|]. split.
    - intros H t Ht A. assert (existsb taken l = true) by (apply K; eauto). congruence.
    - intro H. destruct (existsb taken l); [|reflexivity]. destruct K as (K & _). destruct (K eq_refl) as (t & Ht & A). exfalso. exact (H t Ht A).
  Qed.
End BACK.
