(** The boosts of ranking.rs. *)
From Verif Require Import Base Text FtsRank FtsRankSpec FtsRankProofs FtsRankOps FtsText FtsTextSpec FtsMatch Results ResultsSpec ResultsProofs.
Open Scope nat_scope.

Section BOOST.
  Variable A : arith.
  Notation F := (num A).
  Notation hit := (hit A).
  Notation file_of := (file_of A).
  Notation score_of := (score_of A).
  Variable T : tuning A.
  Hypothesis GO : good_order A.
  Hypothesis GM : good_minmax A.
  Notation number x := (is_number A x).

  Lemma max_top (l : list hit) : l <> [] -> Forall (fun h => number (score_of h)) l -> top_score A l (max_score A l).
  Proof using GO GM.
    intros N NB. destruct l as [|h l]; [contradiction|]. inversion NB as [|? ? N1 N2]; subst. unfold max_score. cbn [fold_left].
    change (h_score A h) with (score_of h). rewrite (gm_ninf A GM _ N1).
    assert (E : forall l a, fold_left (fun m h => f_max A m (h_score A h)) l a = fold_left (f_max A) (map score_of l) a).
    { clear. induction l as [|x l IH]; intro a; [reflexivity|]. cbn [fold_left map]. apply IH. }
    rewrite E. assert (N2' : Forall (is_number A) (map score_of l)) by (rewrite Forall_map; exact N2).
    destruct (max_spec A GO GM (map score_of l) (score_of h) N1 N2') as (M1 & M2). split.
    - destruct M1 as [M1|M1]; [exists h; split; [left; reflexivity|exact M1]|].
      apply in_map_iff in M1. destruct M1 as (x & E1 & H1). exists x. split; [right; exact H1|exact E1].
    - intros x [<-|Hx]; apply M2; [left; reflexivity|right; apply in_map; exact Hx].
  Qed.
  Lemma not_none x y : number x -> number y -> f_cmp A x y <> None.
  Proof using GO.
    intros Nx Ny E. destruct (go_total A GO x y Nx Ny) as [[H|H]|[H|H]]; try congruence.
    - apply (go_opp A GO) in H; [congruence|assumption|assumption].
    - apply (go_sym A GO) in H. congruence.
  Qed.
  Lemma worth_spec m : number m -> number (f_0 A) -> useless A T m = false <-> worth A T m.
  Proof using GO.
    intros Nm N0. unfold useless, worth. destruct (t_finite A T m); cbn [negb orb]; [|split; [discriminate|intros (H & _); discriminate]].
    destruct (f_cmp A m (f_0 A)) as [[]|] eqn:E; cbn [negb orb].
    - split; [discriminate|intros (_ & H); discriminate].
    - split; [discriminate|intros (_ & H); discriminate].
    - split; auto.
    - exfalso. exact (not_none _ _ Nm N0 E).
  Qed.
  Lemma tmem_in x l : tmem x l = true <-> In x l.
  Proof using.
    unfold tmem. rewrite existsb_exists. split.
    - intros (y & Hy & E). apply text_eqb_eq in E. subst. exact Hy.
    - intro H. exists x. split; [exact H|apply text_eqb_refl].
  Qed.
  (** the units stay what they are *)
  Lemma map_units f (l : list hit) : (forall h, h_unit A (f h) = h_unit A h) -> map (h_unit A) (map f l) = map (h_unit A) l.
  Proof using. intro H. rewrite map_map. apply map_ext. exact H. Qed.
  Lemma definition_units q l : map (h_unit A) (apply_definition_boost A T q l) = map (h_unit A) l.
  Proof using.
    unfold apply_definition_boost. destruct (useless A T _); [reflexivity|]. destruct (tokenize_identifiers q); [reflexivity|].
    apply map_units. intro h. destruct (_ && _ && _); reflexivity.
  Qed.
  Lemma stem_units q l : map (h_unit A) (apply_path_stem_boost A T q l) = map (h_unit A) l.
  Proof using.
    unfold apply_path_stem_boost. destruct (useless A T _); [reflexivity|]. destruct (filter _ _); [reflexivity|].
    apply map_units. intro h. destruct (text_eqb _ _); [reflexivity|]. destruct (existsb _ _); [reflexivity|]. destruct (existsb _ _); reflexivity.
  Qed.
  Lemma set_at_units l : forall i s, map (h_unit A) (set_at A l i s) = map (h_unit A) l.
  Proof using. induction l as [|h l IH]; intros [|i] s; cbn [set_at map]; rewrite ?IH; reflexivity. Qed.
  Lemma set_all_units ups : forall l, map (h_unit A) (fold_left (fun l u => set_at A l (fst u) (snd u)) ups l) = map (h_unit A) l.
  Proof using. induction ups as [|u ups IH]; intro l; cbn [fold_left]; [reflexivity|]. rewrite IH. apply set_at_units. Qed.
  Lemma coherence_units l : map (h_unit A) (apply_file_coherence_boost A T l) = map (h_unit A) l.
  Proof using.
    unfold apply_file_coherence_boost. destruct (useless A T _); [reflexivity|]. destruct (useless A T _); [reflexivity|]. apply set_all_units.
  Qed.
  Lemma boosted_units q l : map (h_unit A) (boosted A T q (map (penalised A T q) l)) = map (h_unit A) l.
  Proof using.
    unfold boosted. rewrite coherence_units, definition_units, stem_units. apply map_units. intro h. unfold penalised.
    destruct (should_apply_path_penalty A T q); reflexivity.
  Qed.
  (** ** definition boost *)
  Lemma def_hit q t : existsb (fun x => tmem x (tokenize_identifiers q)) (tokenize_identifiers t) = true <-> shares (fun _ => true) q t.
  Proof using.
    rewrite existsb_exists. split.
    - intros (x & H1 & H2). apply tmem_in in H2. apply tokens_iff in H1, H2. destruct H1 as (j & J1 & J2), H2 as (i & I1 & I2).
      exists i, j, x. auto 6.
    - intros (i & j & x & I1 & I2 & _ & J1 & J2). exists x. split; [apply tokens_iff; exists j; auto|]. apply tmem_in, tokens_iff. exists i. auto.
  Qed.
  Lemma no_identifier_in_empty j : ~ identifier_in [] j.
  Proof using.
    intros (a & ds & b & E & _ & _ & (c & r & -> & _) & _). destruct a; [|discriminate]. destruct ds; discriminate.
  Qed.
  Theorem definition_exact q l : Forall (fun h => number (score_of h)) l -> number (f_0 A) -> l <> [] ->
    exists m, top_score A l m /\ Forall2 (fun x y =>
      h_unit A y = h_unit A x
      /\ (worth A T m /\ u_definition (h_unit A x) = true /\ shares (fun _ => true) q (t_lower A T (u_name (h_unit A x))) ->
          score_of y = f_add A (score_of x) (f_mul A m (t_definition A T)))
      /\ (~ (worth A T m /\ u_definition (h_unit A x) = true /\ shares (fun _ => true) q (t_lower A T (u_name (h_unit A x)))) ->
          score_of y = score_of x)) l (apply_definition_boost A T q l).
  Proof using GO GM.
    intros NB N0 NE. exists (max_score A l). pose proof (max_top l NE NB) as TS. split; [exact TS|].
    assert (Nm : number (max_score A l)).
    { destruct TS as ((h & Hh & <-) & _). rewrite Forall_forall in NB. apply NB. exact Hh. }
    set (m := max_score A l) in *. unfold apply_definition_boost. fold m.
    assert (SAME : forall k : list hit, (forall x, In x k -> ~ (worth A T m /\ u_definition (h_unit A x) = true /\ shares (fun _ => true) q (t_lower A T (u_name (h_unit A x))))) ->
      Forall2 (fun x y => h_unit A y = h_unit A x
      /\ (worth A T m /\ u_definition (h_unit A x) = true /\ shares (fun _ => true) q (t_lower A T (u_name (h_unit A x))) ->
          score_of y = f_add A (score_of x) (f_mul A m (t_definition A T)))
      /\ (~ (worth A T m /\ u_definition (h_unit A x) = true /\ shares (fun _ => true) q (t_lower A T (u_name (h_unit A x)))) ->
          score_of y = score_of x)) k k).
    { induction k as [|x k IH]; intro H; constructor; [|apply IH; intros y Hy; apply H; right; exact Hy].
      split; [reflexivity|]. split; [intro X; exfalso; apply (H x); [left; reflexivity|exact X]|reflexivity]. }
    destruct (useless A T m) eqn:EU.
    { apply SAME. intros x _ (W & _). apply (proj2 (worth_spec _ Nm N0)) in W. congruence. }
    apply (worth_spec _ Nm N0) in EU.
    destruct (tokenize_identifiers q) as [|w0 ws] eqn:ET.
    { apply SAME. intros x _ (_ & _ & (i & j & y & I1 & I2 & _)).
      assert (K : In y (tokenize_identifiers q)) by (apply tokens_iff; exists i; auto). rewrite ET in K. destruct K. }
    rewrite <- ET. clear SAME NB NE TS. clearbody m. induction l as [|x l IH]; cbn [map]; constructor; [|exact IH].
    destruct (u_definition (h_unit A x)) eqn:ED; cbn [andb].
    2:{ split; [reflexivity|]. split; [intros (_ & H & _); discriminate|reflexivity]. }
    destruct (text_eqb (t_lower A T (u_name (h_unit A x))) []) eqn:EN; cbn [negb andb].
    { apply text_eqb_eq in EN. rewrite EN. split; [reflexivity|]. split; [|reflexivity].
      intros (_ & _ & (i & j & y & _ & _ & _ & J1 & _)). exfalso. exact (no_identifier_in_empty _ J1). }
    destruct (existsb _ (tokenize_identifiers (t_lower A T (u_name (h_unit A x))))) eqn:EX.
    - split; [reflexivity|]. split; [reflexivity|]. intro H. exfalso. apply H. split; [exact EU|]. split; [reflexivity|]. apply def_hit. exact EX.
    - split; [reflexivity|]. split; [|reflexivity]. intros (_ & _ & H). apply def_hit in H. congruence.
  Qed.
  (** ** stem boost *)
  Theorem stem_exact q l : Forall (fun h => number (score_of h)) l -> number (f_0 A) -> l <> [] ->
    exists m, top_score A l m /\ Forall2 (fun x y =>
      h_unit A y = h_unit A x
      /\ (worth A T m -> shares (fun w => negb (t_stopword A T w)) q (t_lower A T (t_stem A T (file_of x))) ->
          score_of y = f_add A (score_of x) (f_mul A m (t_exact A T)))
      /\ (score_of y = score_of x \/ worth A T m /\ (score_of y = f_add A (score_of x) (f_mul A m (t_exact A T))
          \/ score_of y = f_add A (score_of x) (f_mul A m (t_prefix A T))))) l (apply_path_stem_boost A T q l).
  Proof using GO GM.
    intros NB N0 NE. exists (max_score A l). pose proof (max_top l NE NB) as TS. split; [exact TS|].
    assert (Nm : number (max_score A l)).
    { destruct TS as ((h & Hh & <-) & _). rewrite Forall_forall in NB. apply NB. exact Hh. }
    set (m := max_score A l) in *. unfold apply_path_stem_boost. fold m.
    assert (SAME : forall k : list hit, (forall x, worth A T m -> ~ shares (fun w => negb (t_stopword A T w)) q (t_lower A T (t_stem A T (file_of x)))) ->
      Forall2 (fun x y => h_unit A y = h_unit A x
      /\ (worth A T m -> shares (fun w => negb (t_stopword A T w)) q (t_lower A T (t_stem A T (file_of x))) ->
          score_of y = f_add A (score_of x) (f_mul A m (t_exact A T)))
      /\ (score_of y = score_of x \/ worth A T m /\ (score_of y = f_add A (score_of x) (f_mul A m (t_exact A T))
          \/ score_of y = f_add A (score_of x) (f_mul A m (t_prefix A T))))) k k).
    { induction k as [|x k IH]; intro H; constructor; [|apply IH; exact H].
      split; [reflexivity|]. split; [intros W S0; exfalso; exact (H x W S0)|left; reflexivity]. }
    destruct (useless A T m) eqn:EU.
    { apply SAME. intros x W _. apply (proj2 (worth_spec _ Nm N0)) in W. congruence. }
    apply (worth_spec _ Nm N0) in EU.
    assert (WORD : forall i x, identifier_in q i -> identifier_token i x -> negb (t_stopword A T x) = true ->
       In x (filter (fun t => negb (t_stopword A T t)) (tokenize_identifiers q))).
    { intros i x I1 I2 K. apply filter_In. split; [apply tokens_iff; exists i; auto|exact K]. }
    destruct (filter (fun t => negb (t_stopword A T t)) (tokenize_identifiers q)) as [|w0 ws] eqn:ET.
    { apply SAME. intros x _ (i & j & y & I1 & I2 & K & _). destruct (WORD i y I1 I2 K). }
    rewrite <- ET in *. clear SAME NB NE TS. clearbody m. induction l as [|x l IH]; cbn [map]; constructor; [|exact IH].
    change (u_file (h_unit A x)) with (file_of x).
    destruct (text_eqb (t_lower A T (t_stem A T (file_of x))) []) eqn:EN.
    { apply text_eqb_eq in EN. rewrite EN. split; [reflexivity|]. split; [|left; reflexivity].
      intros _ (i & j & y & _ & _ & _ & J1 & _). exfalso. exact (no_identifier_in_empty _ J1). }
    destruct (existsb (fun q0 => existsb (exact_pair A T q0) _) _) eqn:EX.
    { split; [reflexivity|]. split; [intros _ _; reflexivity|]. right. split; [exact EU|]. left. reflexivity. }
    assert (NS : ~ shares (fun w => negb (t_stopword A T w)) q (t_lower A T (t_stem A T (file_of x)))).
    { intros (i & j & y & I1 & I2 & K & J1 & J2).
      assert (X : existsb (fun q0 => existsb (exact_pair A T q0) (tokenize_identifiers (t_lower A T (t_stem A T (file_of x)))))
        (filter (fun t => negb (t_stopword A T t)) (tokenize_identifiers q)) = true); [|discriminate (eq_trans (eq_sym X) EX)].
      apply existsb_exists. exists y. split; [apply (WORD i y I1 I2 K)|]. apply existsb_exists. exists y. split; [apply tokens_iff; exists j; auto|].
      unfold exact_pair. apply existsb_exists. exists y. split; [unfold normalize; destruct (t_plural A T); left; reflexivity|].
      apply tmem_in. unfold normalize; destruct (t_plural A T); left; reflexivity. }
    destruct (existsb (fun q0 => existsb (prefix_pair A T q0) _) _) eqn:EP.
    - split; [reflexivity|]. split; [intros _ H; contradiction|]. right. split; [exact EU|]. right. reflexivity.
    - split; [reflexivity|]. split; [intros _ H; contradiction|left; reflexivity].
  Qed.
End BOOST.

Section COHERENCE.
  Variable A : arith.
  Notation F := (num A).
  Notation hit := (hit A).
  Notation file_of := (file_of A).
  Notation score_of := (score_of A).
  Variable T : tuning A.
  Hypothesis GO : good_order A.
  Hypothesis GM : good_minmax A.
  Notation number x := (is_number A x).
  Notation entry := (text * (F * nat))%type.

  Lemma gt_below x y : number x -> number y -> f_cmp A x y = Some Gt -> not_above A y x.
  Proof using GO. intros Nx Ny H. left. apply (go_opp A GO x y Nx Ny). exact H. Qed.
  Lemma not_gt x y : number x -> number y -> f_above A x y = false -> not_above A x y.
  Proof using GO.
    intros Nx Ny H. unfold f_above in H. unfold not_above. destruct (f_cmp A x y) as [[]|] eqn:E; auto; try discriminate.
    exfalso. exact (not_none A GO x y Nx Ny E).
  Qed.
  Lemma gt_trans x y z : number x -> number y -> number z -> f_cmp A x y = Some Gt -> not_above A z y -> f_cmp A x z = Some Gt.
  Proof using GO.
    intros Nx Ny Nz H L. destruct (f_cmp A x z) as [[]|] eqn:E; [| |reflexivity|].
    - exfalso. assert (K : not_above A x y) by (apply (go_trans A GO) with z; [| | |right|]; assumption).
      unfold not_above in K. rewrite H in K. destruct K; discriminate.
    - exfalso. assert (K : not_above A x y) by (apply (go_trans A GO) with z; [| | |left|]; assumption).
      unfold not_above in K. rewrite H in K. destruct K; discriminate.
    - exfalso. exact (not_none A GO x z Nx Nz E).
  Qed.
  (** [all] = the hits seen + the rest *)
  Definition scores_in (f : text) (l : list hit) : list F := map score_of (filter (fun h => text_eqb f (file_of h)) l).
  Lemma scores_snoc f l h : scores_in f (l ++ [h]) = scores_in f l ++ (if text_eqb f (file_of h) then [score_of h] else []).
  Proof using. unfold scores_in. rewrite filter_app, map_app. cbn [filter]. destruct (text_eqb f (file_of h)); reflexivity. Qed.
  Lemma sum_from_snoc l x : l <> [] -> sum_from A (l ++ [x]) = f_add A (sum_from A l) x.
  Proof using. destruct l as [|y l]; [contradiction|]. intros _. cbn [app sum_from]. rewrite fold_left_app. reflexivity. Qed.
  Definition entry_ok (l : list hit) (e : entry) : Prop :=
    scores_in (fst e) l <> [] /\ fst (snd e) = sum_from A (scores_in (fst e) l)
    /\ exists h, nth_error l (snd (snd e)) = Some h /\ file_of h = fst e /\ first_best A l (snd (snd e)).
  Definition entries_ok (l : list hit) (m : list entry) : Prop :=
    NoDup (map fst m) /\ (forall e, In e m -> entry_ok l e) /\ forall h, In h l -> In (file_of h) (map fst m).
  Lemma note_files all i h m : map fst (note A m all i h) = if tmem (file_of h) (map fst m) then map fst m else map fst m ++ [file_of h].
  Proof using.
    induction m as [|[f [s t]] m IH]; [reflexivity|]. cbn [note map fst]. unfold tmem. cbn [existsb].
    change (u_file (h_unit A h)) with (file_of h). destruct (text_eqb f (file_of h)) eqn:E.
    - apply text_eqb_eq in E. subst f. rewrite text_eqb_refl. reflexivity.
    - assert (E' : text_eqb (file_of h) f = false) by (apply text_eqb_neq; apply text_eqb_neq in E; congruence).
      rewrite E'. cbn [orb map fst]. rewrite IH. unfold tmem. destruct (existsb _ _); reflexivity.
  Qed.
  Lemma note_entries all i h m e : NoDup (map fst m) -> In e (note A m all i h) ->
    (In e m /\ fst e <> file_of h)
    \/ (fst e = file_of h /\ exists s t, In (file_of h, (s, t)) m
        /\ snd e = (f_add A s (score_of h), match nth_error all t with Some b => if f_above A (score_of h) (score_of b) then i else t | None => t end))
    \/ (e = (file_of h, (score_of h, i)) /\ ~ In (file_of h) (map fst m)).
  Proof using.
    induction m as [|[f [s t]] m IH]; intros N H; cbn [note] in H.
    - destruct H as [<-|[]]. right. right. split; [reflexivity|intros []].
    - change (u_file (h_unit A h)) with (file_of h) in H. inversion N as [|? ? N1 N2]; subst. cbn [fst] in N1. destruct (text_eqb f (file_of h)) eqn:E.
      + apply text_eqb_eq in E. subst f. destruct H as [<-|H].
        * right. left. split; [reflexivity|]. exists s, t. split; [left; reflexivity|reflexivity].
        * left. split; [right; exact H|]. intro X. apply N1. rewrite <- X. apply in_map. exact H.
      + apply text_eqb_neq in E. destruct H as [<-|H].
        * left. split; [left; reflexivity|exact E].
        * destruct (IH N2 H) as [(K1 & K2)|[(K1 & s' & t' & K2 & K3)|(K1 & K2)]].
          -- left. split; [right; exact K1|exact K2].
          -- right. left. split; [exact K1|]. exists s', t'. split; [right; exact K2|exact K3].
          -- right. right. split; [exact K1|]. cbn [map fst]. intros [X|X]; [contradiction|contradiction].
  Qed.
  Lemma first_best_other l h i b : nth_error l i = Some b -> first_best A l i -> file_of h <> file_of b -> first_best A (l ++ [h]) i.
  Proof using.
    intros E (b' & E' & Q) D. rewrite E in E'. injection E' as <-. exists b. split; [rewrite nth_error_app1; [exact E|apply nth_error_Some; congruence]|].
    intros j c Hc F0. destruct (Nat.lt_ge_cases j (length l)) as [L|L].
    - rewrite nth_error_app1 in Hc by exact L. apply Q; assumption.
    - rewrite nth_error_app2 in Hc by exact L. destruct (j - length l) as [|n]; cbn in Hc; [injection Hc as <-; contradiction|destruct n; discriminate].
  Qed.
  Lemma note_ok l r h m : Forall (fun x => number (score_of x)) (l ++ h :: r) -> entries_ok l m ->
    entries_ok (l ++ [h]) (note A m (l ++ h :: r) (length l) h).
  Proof using GO.
    intros NB (M1 & M2 & M3). rewrite Forall_forall in NB.
    assert (NH : number (score_of h)) by (apply NB, in_or_app; right; left; reflexivity).
    split; [|split].
    - rewrite note_files. destruct (tmem (file_of h) (map fst m)) eqn:E; [exact M1|].
      eapply Permutation_NoDup; [apply Permutation_cons_append|]. constructor; [|exact M1].
      intro X. apply tmem_in in X. congruence.
    - intros e He. destruct (note_entries _ _ _ _ _ M1 He) as [(K1 & K2)|[(K1 & s & t & K2 & K3)|(K1 & K2)]].
      + destruct (M2 e K1) as (E1 & E2 & (b & E3 & E4 & E5)). unfold entry_ok. rewrite scores_snoc.
        assert (X : text_eqb (fst e) (file_of h) = false) by (apply text_eqb_neq; exact K2). rewrite X, app_nil_r.
        split; [exact E1|]. split; [exact E2|]. exists b. split; [rewrite nth_error_app1; [exact E3|apply nth_error_Some; congruence]|].
        split; [exact E4|]. apply first_best_other with (b := b); [exact E3|exact E5|congruence].
      + destruct (M2 _ K2) as (E1 & E2 & (b & E3 & E4 & E5)). cbn [fst snd] in E1, E2, E3, E4, E5.
        unfold entry_ok. rewrite K1, K3. cbn [fst snd]. rewrite scores_snoc, text_eqb_refl.
        split; [intro X; apply (app_cons_not_nil _ _ _ (eq_sym X))|].
        split; [rewrite sum_from_snoc by exact E1; rewrite E2; reflexivity|].
        assert (EA : nth_error (l ++ h :: r) t = Some b) by (rewrite nth_error_app1; [exact E3|apply nth_error_Some; congruence]).
        rewrite EA. destruct E5 as (b' & E5 & Q). rewrite E3 in E5. injection E5 as <-.
        assert (NT : number (score_of b)) by (apply NB; eapply nth_error_In; exact EA).
        assert (NL : forall j c, nth_error l j = Some c -> number (score_of c)) by (intros j c Hc; apply NB, in_or_app; left; eapply nth_error_In; exact Hc).
        destruct (f_above A (score_of h) (score_of b)) eqn:AB.
        * assert (AB' : f_cmp A (score_of h) (score_of b) = Some Gt) by (unfold f_above in AB; destruct (f_cmp A _ _) as [[]|]; try discriminate; reflexivity).
          exists h. split; [rewrite nth_error_app2, Nat.sub_diag by lia; reflexivity|]. split; [reflexivity|].
          exists h. split; [rewrite nth_error_app2, Nat.sub_diag by lia; reflexivity|]. intros j c Hc F0.
          destruct (Nat.lt_ge_cases j (length l)) as [L|L].
          -- rewrite nth_error_app1 in Hc by exact L. destruct (Q j c Hc ltac:(congruence)) as (Q1 & _).
             assert (G : f_cmp A (score_of h) (score_of c) = Some Gt) by (apply gt_trans with (score_of b); auto; apply (NL j); exact Hc).
             split; [apply gt_below; auto; apply (NL j); exact Hc|intros _; exact G].
          -- rewrite nth_error_app2 in Hc by exact L. destruct (j - length l) as [|n] eqn:EJ; cbn in Hc; [injection Hc as <-|destruct n; discriminate].
             split; [right; exact NH|lia].
        * exists b. split; [rewrite nth_error_app1; [exact E3|apply nth_error_Some; congruence]|]. split; [exact E4|].
          exists b. split; [rewrite nth_error_app1; [exact E3|apply nth_error_Some; congruence]|]. intros j c Hc F0.
          destruct (Nat.lt_ge_cases j (length l)) as [L|L].
          -- rewrite nth_error_app1 in Hc by exact L. apply Q; assumption.
          -- rewrite nth_error_app2 in Hc by exact L. destruct (j - length l) as [|n] eqn:EJ; cbn in Hc; [injection Hc as <-|destruct n; discriminate].
             split; [apply not_gt; assumption|]. intro X. assert (t < length l) by (apply nth_error_Some; congruence). lia.
      + subst e. unfold entry_ok. cbn [fst snd]. rewrite scores_snoc, text_eqb_refl.
        assert (Z0 : scores_in (file_of h) l = []).
        { unfold scores_in. destruct (filter _ l) as [|x k] eqn:EF; [reflexivity|]. exfalso. apply K2.
          assert (X : In x (filter (fun h0 => text_eqb (file_of h) (file_of h0)) l)) by (rewrite EF; left; reflexivity).
          apply filter_In in X. destruct X as (X1 & X2). apply text_eqb_eq in X2. rewrite X2. apply M3. exact X1. }
        rewrite Z0. cbn [app]. split; [discriminate|]. split; [reflexivity|]. exists h. split; [rewrite nth_error_app2, Nat.sub_diag by lia; reflexivity|].
        split; [reflexivity|]. exists h. split; [rewrite nth_error_app2, Nat.sub_diag by lia; reflexivity|]. intros j c Hc F0.
        destruct (Nat.lt_ge_cases j (length l)) as [L|L].
        * rewrite nth_error_app1 in Hc by exact L. exfalso. apply K2. rewrite <- F0. apply M3. eapply nth_error_In; exact Hc.
        * rewrite nth_error_app2 in Hc by exact L. destruct (j - length l) as [|n] eqn:EJ; cbn in Hc; [injection Hc as <-|destruct n; discriminate].
          split; [right; exact NH|lia].
    - intros x Hx. rewrite note_files. apply in_app_iff in Hx. destruct (tmem (file_of h) (map fst m)) eqn:E.
      + apply tmem_in in E. destruct Hx as [Hx|[<-|[]]]; [apply M3; exact Hx|exact E].
      + apply in_or_app. destruct Hx as [Hx|[<-|[]]]; [left; apply M3; exact Hx|right; left; reflexivity].
  Qed.
  Lemma per_file_gen r : forall l m, Forall (fun x => number (score_of x)) (l ++ r) -> entries_ok l m ->
    entries_ok (l ++ r) (fold_left (fun m ih => note A m (l ++ r) (fst ih) (snd ih)) (combine (seq (length l) (length r)) r) m).
  Proof using GO.
    induction r as [|h r IH]; intros l m NB OK; cbn [length seq combine fold_left]; [rewrite app_nil_r; exact OK|]. cbn [fst snd].
    pose proof (note_ok l r h m NB OK) as OK'.
    replace (l ++ h :: r) with ((l ++ [h]) ++ r) in * by (rewrite <- app_assoc; reflexivity).
    specialize (IH (l ++ [h]) _ NB OK'). rewrite app_length, Nat.add_comm in IH. exact IH.
  Qed.
  Lemma per_file_ok l : Forall (fun x => number (score_of x)) l -> entries_ok l (per_file A l).
  Proof using GO.
    intro NB. apply (per_file_gen l [] []); [exact NB|]. split; [constructor|]. split; [intros e []|intros h []].
  Qed.
  Lemma entries_perm l m m' : Permutation m' m -> entries_ok l m -> entries_ok l m'.
  Proof using.
    intros P (M1 & M2 & M3). split; [|split].
    - eapply Permutation_NoDup; [apply Permutation_map; symmetry; exact P|exact M1].
    - intros e He. apply M2. eapply Permutation_in; [exact P|exact He].
    - intros h Hh. eapply Permutation_in; [apply Permutation_map; symmetry; exact P|]. apply M3. exact Hh.
  Qed.
  (** positions are distinct, so that the order of the updates does not matter *)
  Lemma entries_positions l m : entries_ok l m -> NoDup (map (fun e => snd (snd e)) m).
  Proof using.
    intros (M1 & M2 & _). induction m as [|e m IH]; [constructor|]. inversion M1 as [|? ? N1 N2]; subst. cbn [map]. constructor.
    - intro X. apply in_map_iff in X. destruct X as (e' & E & H').
      destruct (M2 e (or_introl eq_refl)) as (_ & _ & (b & B1 & B2 & _)). destruct (M2 e' (or_intror H')) as (_ & _ & (b' & C1 & C2 & _)).
      rewrite E, B1 in C1. injection C1 as <-. apply N1. rewrite <- B2, C2. apply in_map. exact H'.
    - apply IH; [exact N2|]. intros x Hx. apply M2. right. exact Hx.
  Qed.
  Lemma set_at_nth l : forall i s j, nth_error (set_at A l i s) j = if j =? i then option_map (fun h => with_score A h s) (nth_error l j) else nth_error l j.
  Proof using.
    induction l as [|h l IH]; intros [|i] s [|j]; cbn [set_at nth_error Nat.eqb option_map]; try reflexivity.
    - destruct (j =? i); reflexivity.
    - apply IH.
  Qed.
  Lemma set_all_nth ups : forall l j, NoDup (map fst ups) -> nth_error (fold_left (fun l u => set_at A l (fst u) (snd u)) ups l) j =
    match find (fun u => fst u =? j) ups with Some u => option_map (fun h => with_score A h (snd u)) (nth_error l j) | None => nth_error l j end.
  Proof using.
    induction ups as [|u ups IH]; intros l j N; cbn [fold_left find]; [reflexivity|]. inversion N as [|? ? N1 N2]; subst. rewrite IH by exact N2.
    rewrite set_at_nth. destruct (fst u =? j) eqn:E.
    - apply Nat.eqb_eq in E. subst j. rewrite Nat.eqb_refl. destruct (find _ ups) as [v|] eqn:EF; [|reflexivity].
      apply find_some in EF. destruct EF as (V1 & V2). apply Nat.eqb_eq in V2. exfalso. apply N1. rewrite <- V2. apply in_map. exact V1.
    - rewrite Nat.eqb_sym, E. reflexivity.
  Qed.
  Lemma top_of_entries l m : entries_ok l m -> l <> [] -> (forall h, In h l -> number (file_sum A l (file_of h))) ->
    top_sum A l (fold_left (fun x p => f_max A x (fst (snd p))) m (f_ninf A)).
  Proof using GO GM.
    intros (M1 & M2 & M3) NE NS.
    assert (SE : forall e, In e m -> exists h, In h l /\ file_of h = fst e /\ fst (snd e) = file_sum A l (file_of h)).
    { intros e He. destruct (M2 e He) as (_ & E2 & (b & E3 & E4 & _)). exists b. split; [eapply nth_error_In; exact E3|]. split; [exact E4|].
      rewrite E4. exact E2. }
    destruct m as [|e m].
    { destruct l as [|h l]; [contradiction|]. destruct (M3 h (or_introl eq_refl)). }
    cbn [fold_left].
    assert (NA : forall x, In x (e :: m) -> number (fst (snd x))).
    { intros x Hx. destruct (SE x Hx) as (h & H1 & _ & ->). apply NS. exact H1. }
    rewrite (gm_ninf A GM _ (NA e (or_introl eq_refl))).
    assert (E : forall m a, fold_left (fun x p => f_max A x (fst (snd p))) m a = fold_left (f_max A) (map (fun p : entry => fst (snd p)) m) a).
    { clear. induction m as [|x m IH]; intro a; [reflexivity|]. cbn [fold_left map]. apply IH. }
    rewrite E. assert (N2 : Forall (is_number A) (map (fun p : entry => fst (snd p)) m)).
    { rewrite Forall_map, Forall_forall. intros x Hx. apply NA. right. exact Hx. }
    destruct (max_spec A GO GM _ (fst (snd e)) (NA e (or_introl eq_refl)) N2) as (X1 & X2). split.
    - assert (K : exists x, In x (e :: m) /\ fst (snd x) = fold_left (f_max A) (map (fun p : entry => fst (snd p)) m) (fst (snd e))).
      { destruct X1 as [X1|X1]; [exists e; split; [left; reflexivity|exact X1]|]. apply in_map_iff in X1. destruct X1 as (x & Y1 & Y2).
        exists x. split; [right; exact Y2|exact Y1]. }
      destruct K as (x & K1 & K2). destruct (SE x K1) as (h & H1 & _ & H2). exists h. split; [exact H1|]. congruence.
    - intros h Hh. pose proof (M3 h Hh) as K. apply in_map_iff in K. destruct K as (x & K1 & K2).
      destruct (SE x K2) as (h' & H1 & H2 & H3). rewrite K1 in H2. rewrite <- H2, <- H3. apply X2.
      destruct K2 as [<-|K2]; [left; reflexivity|right; apply (in_map (fun p : entry => fst (snd p))); exact K2].
  Qed.
  Hypothesis TI : forall m, Permutation (t_iter A T m) m.
  Theorem coherence_exact l : Forall (fun h => number (score_of h)) l -> number (f_0 A) -> l <> [] ->
    (forall h, In h l -> number (file_sum A l (file_of h))) ->
    exists m t, top_score A l m /\ top_sum A l t
      /\ length (apply_file_coherence_boost A T l) = length l
      /\ forall i h, nth_error l i = Some h -> exists h', nth_error (apply_file_coherence_boost A T l) i = Some h' /\ h_unit A h' = h_unit A h
         /\ (worth A T m /\ worth A T t /\ first_best A l i ->
             score_of h' = f_add A (score_of h) (f_div A (f_mul A (f_mul A m (t_coherence A T)) (file_sum A l (file_of h))) t))
         /\ (~ (worth A T m /\ worth A T t /\ first_best A l i) -> score_of h' = score_of h).
  Proof using GO GM TI.
    intros NB N0 NE NS. pose proof (max_top A GO GM l NE NB) as TS.
    pose proof (entries_perm _ _ _ (TI (per_file A l)) (per_file_ok l NB)) as OK.
    pose proof (top_of_entries l _ OK NE NS) as TT.
    set (m := max_score A l) in *. set (fs := t_iter A T (per_file A l)) in *. set (t := fold_left (fun x p => f_max A x (fst (snd p))) fs (f_ninf A)) in *.
    exists m, t. split; [exact TS|]. split; [exact TT|].
    assert (Nm : number m) by (destruct TS as ((h & Hh & <-) & _); rewrite Forall_forall in NB; apply NB; exact Hh).
    assert (Nt : number t) by (destruct TT as ((h & Hh & ->) & _); apply NS; exact Hh).
    split.
    { rewrite <- (map_length (h_unit A)), coherence_units, map_length. reflexivity. }
    intros i h Hi. unfold apply_file_coherence_boost. fold m fs t.
    destruct (useless A T m) eqn:U1.
    { exists h. split; [exact Hi|]. split; [reflexivity|]. split; [|reflexivity]. intros (W & _). apply (proj2 (worth_spec A T GO _ Nm N0)) in W. congruence. }
    destruct (useless A T t) eqn:U2.
    { exists h. split; [exact Hi|]. split; [reflexivity|]. split; [|reflexivity]. intros (_ & W & _). apply (proj2 (worth_spec A T GO _ Nt N0)) in W. congruence. }
    apply (worth_spec A T GO _ Nm N0) in U1. apply (worth_spec A T GO _ Nt N0) in U2.
    set (ups := map _ fs).
    assert (UP : map fst ups = map (fun e => snd (snd e)) fs).
    { unfold ups. rewrite map_map. apply map_ext. intros [f [s n]]. reflexivity. }
    rewrite set_all_nth by (rewrite UP; apply entries_positions with (l := l); exact OK).
    rewrite Hi. destruct (find (fun u => fst u =? i) ups) as [u|] eqn:EF.
    - apply find_some in EF. destruct EF as (V1 & V2). apply Nat.eqb_eq in V2. unfold ups in V1. apply in_map_iff in V1. destruct V1 as ([f [s n]] & Eu & He).
      cbn [snd] in Eu. subst u. cbn [fst] in V2. subst n. rewrite Hi. cbn [option_map snd]. eexists. split; [reflexivity|]. split; [reflexivity|].
      destruct OK as (_ & M2 & _). destruct (M2 _ He) as (_ & E2 & (b & E3 & E4 & E5)). cbn [fst snd] in E2, E3, E4, E5. rewrite Hi in E3. injection E3 as <-.
      split; [|intro X; exfalso; apply X; auto]. intros _. unfold file_sum. fold (scores_in (file_of h) l). rewrite E4, <- E2. reflexivity.
    - exists h. split; [reflexivity|]. split; [reflexivity|]. split; [|reflexivity]. intros (_ & _ & FB). exfalso.
      destruct OK as (_ & M2 & M3). pose proof (M3 h (nth_error_In _ _ Hi)) as K. apply in_map_iff in K. destruct K as ([f [s n]] & K1 & K2). cbn [fst] in K1. subst f.
      destruct (M2 _ K2) as (_ & _ & (b & E3 & E4 & (b' & E5 & Q))). cbn [fst snd] in E3, E4, E5, Q. rewrite E3 in E5. injection E5 as <-.
      destruct FB as (h0 & E0 & P). rewrite Hi in E0. injection E0 as <-.
      assert (NI : n <> i).
      { intros ->. pose proof (find_none _ _ EF) as FN.
        assert (X : In i (map fst ups)) by (rewrite UP; apply (in_map (fun e : entry => snd (snd e)) _ _ K2)).
        apply in_map_iff in X. destruct X as (u & X1 & X2). specialize (FN u X2). cbn in FN. rewrite X1, Nat.eqb_refl in FN. discriminate. }
      assert (Nb : number (score_of b)) by (rewrite Forall_forall in NB; apply NB; eapply nth_error_In; exact E3).
      assert (Nh : number (score_of h)) by (rewrite Forall_forall in NB; apply NB; eapply nth_error_In; exact Hi).
      destruct (P n b E3 E4) as (P1 & P2). destruct (Q i h Hi ltac:(congruence)) as (Q1 & Q2).
      destruct (Nat.lt_ge_cases n i) as [L|L].
      + specialize (P2 L). unfold not_above in Q1. rewrite P2 in Q1. destruct Q1; discriminate.
      + specialize (Q2 ltac:(lia)). unfold not_above in P1. rewrite Q2 in P1. destruct P1; discriminate.
  Qed.
  Lemma first_best_dec l i : Forall (fun h => number (score_of h)) l -> first_best A l i \/ ~ first_best A l i.
  Proof using GO.
    intro NB. destruct (nth_error l i) as [h|] eqn:Hi.
    2:{ right. intros (h & E & _). congruence. }
    destruct (per_file_ok l NB) as (_ & M2 & M3). pose proof (M3 h (nth_error_In _ _ Hi)) as K. apply in_map_iff in K. destruct K as ([f [s n]] & K1 & K2). cbn [fst] in K1. subst f.
    destruct (M2 _ K2) as (_ & _ & (b & E3 & E4 & FB)). cbn [fst snd] in E3, E4, FB.
    destruct (Nat.eq_dec n i) as [->|NI]; [left; exact FB|]. right. intros (h0 & E0 & P). rewrite Hi in E0. injection E0 as <-.
    destruct FB as (b' & E5 & Q). rewrite E3 in E5. injection E5 as <-.
    assert (Nb : number (score_of b)) by (rewrite Forall_forall in NB; apply NB; eapply nth_error_In; exact E3).
    assert (Nh : number (score_of h)) by (rewrite Forall_forall in NB; apply NB; eapply nth_error_In; exact Hi).
    destruct (P n b E3 E4) as (P1 & P2). destruct (Q i h Hi ltac:(congruence)) as (Q1 & Q2).
    destruct (Nat.lt_ge_cases n i) as [L|L].
    - specialize (P2 L). unfold not_above in Q1. rewrite P2 in Q1. destruct Q1; discriminate.
    - specialize (Q2 ltac:(lia)). unfold not_above in P1. rewrite Q2 in P1. destruct P1; discriminate.
  Qed.
End COHERENCE.

(** The order in which the hash map lists the files does not matter. *)
Section ORDER.
  Variable A : arith.
  Notation hit := (hit A).
  Notation score_of := (score_of A).
  Hypothesis GO : good_order A.
  Hypothesis GM : good_minmax A.
  (** positive numbers that compare equal are equal (not so for 0 and -0) *)
  Hypothesis PA : forall x y, f_cmp A x (f_0 A) = Some Gt -> f_cmp A x y = Some Eq -> x = y.
  Definition with_iter (T : tuning A) (it : list (text * (num A * nat)) -> list (text * (num A * nat))) : tuning A :=
    {| t_penalty := t_penalty A T; t_lower := t_lower A T; t_stem := t_stem A T; t_bytes := t_bytes A T; t_stopword := t_stopword A T;
       t_plural := t_plural A T; t_definition := t_definition A T; t_exact := t_exact A T; t_prefix := t_prefix A T; t_coherence := t_coherence A T;
       t_finite := t_finite A T; t_iter := it |}.
  Lemma below_antisym x y : is_number A x -> is_number A y -> not_above A x y -> not_above A y x -> f_cmp A x y = Some Eq.
  Proof using GO.
    intros Nx Ny [H|H] K; [|exact H]. apply (go_opp A GO y x Ny Nx) in H. unfold not_above in K. rewrite H in K. destruct K; discriminate.
  Qed.
  Lemma list_nth_ext {X} (l l' : list X) : (forall i, nth_error l i = nth_error l' i) -> l = l'.
  Proof using.
    revert l'. induction l as [|x l IH]; intros [|y l'] H; [reflexivity|specialize (H 0); discriminate|specialize (H 0); discriminate|].
    pose proof (H 0) as H0. injection H0 as ->. f_equal. apply IH. intro i. exact (H (Datatypes.S i)).
  Qed.
  Lemma hit_ext (x y : hit) : h_unit A x = h_unit A y -> score_of x = score_of y -> x = y.
  Proof using. destruct x, y. cbn. intros -> ->. reflexivity. Qed.
  Theorem coherence_order T it l : (forall m, Permutation (t_iter A T m) m) -> (forall m, Permutation (it m) m) ->
    Forall (fun h => is_number A (score_of h)) l -> is_number A (f_0 A) -> (forall h, In h l -> is_number A (file_sum A l (file_of A h))) ->
    apply_file_coherence_boost A (with_iter T it) l = apply_file_coherence_boost A T l.
  Proof using GO GM PA.
    intros TI TI' NB N0 NS. destruct l as [|h0 l0].
    { unfold apply_file_coherence_boost. cbn [max_score fold_left]. change (useless A (with_iter T it) (f_ninf A)) with (useless A T (f_ninf A)).
      assert (NIL : forall tu, fold_left (fun (l : list hit) u => set_at A l (fst u) (snd u)) tu [] = []).
      { clear. induction tu as [|u tu IH]; [reflexivity|]. cbn [fold_left]. destruct (fst u); exact IH. }
      rewrite !NIL. repeat match goal with |- context [if ?c then _ else _] => destruct c end; reflexivity. }
    set (l := h0 :: l0) in *. assert (NE : l <> []) by discriminate.
    pose proof (coherence_exact A T GO GM TI l NB N0 NE NS) as (m & t & X1 & X2 & X3 & X4).
    pose proof (coherence_exact A (with_iter T it) GO GM TI' l NB N0 NE NS) as (m' & t' & Y1 & Y2 & Y3 & Y4).
    rewrite Forall_forall in NB.
    assert (Nm : is_number A m) by (destruct X1 as ((h & Hh & <-) & _); apply NB; exact Hh).
    assert (Nm' : is_number A m') by (destruct Y1 as ((h & Hh & <-) & _); apply NB; exact Hh).
    assert (Nt : is_number A t) by (destruct X2 as ((h & Hh & ->) & _); apply NS; exact Hh).
    assert (Nt' : is_number A t') by (destruct Y2 as ((h & Hh & ->) & _); apply NS; exact Hh).
    assert (CM : f_cmp A m m' = Some Eq).
    { apply below_antisym; try assumption; [destruct X1 as ((h & Hh & <-) & _); apply Y1; exact Hh|destruct Y1 as ((h & Hh & <-) & _); apply X1; exact Hh]. }
    assert (CT : f_cmp A t t' = Some Eq).
    { apply below_antisym; try assumption; [destruct X2 as ((h & Hh & ->) & _); apply Y2; exact Hh|destruct Y2 as ((h & Hh & ->) & _); apply X2; exact Hh]. }
    assert (WM : worth A T m -> m = m') by (intros (_ & P); apply PA; assumption).
    assert (WM' : worth A T m' -> m' = m) by (intros (_ & P); apply PA; [exact P|apply (go_sym A GO); exact CM]).
    assert (WT : worth A T t -> t = t') by (intros (_ & P); apply PA; assumption).
    assert (WT' : worth A T t' -> t' = t) by (intros (_ & P); apply PA; [exact P|apply (go_sym A GO); exact CT]).
    assert (WD : forall x, worth A T x \/ ~ worth A T x).
    { intro x. unfold worth. destruct (t_finite A T x); [|right; intros (H & _); discriminate].
      destruct (f_cmp A x (f_0 A)) as [[]|]; try (right; intros (_ & H); discriminate). left. auto. }
    apply list_nth_ext. intro i. destruct (nth_error l i) as [h|] eqn:Hi.
    2:{ apply nth_error_None in Hi. transitivity (@None hit); [apply nth_error_None; lia|symmetry; apply nth_error_None; lia]. }
    destruct (X4 i h Hi) as (x & A1 & A2 & A3 & A4). destruct (Y4 i h Hi) as (y & B1 & B2 & B3 & B4). rewrite A1, B1. f_equal.
    change (worth A (with_iter T it)) with (worth A T) in *.
    assert (DEC : (worth A T m /\ worth A T t /\ first_best A l i) \/ ~ (worth A T m /\ worth A T t /\ first_best A l i)).
    { destruct (WD m); [|right; tauto]. destruct (WD t); [|right; tauto].
      destruct (first_best_dec A GO l i); [rewrite Forall_forall; exact NB|left; auto|right; tauto]. }
    apply hit_ext; [congruence|]. destruct DEC as [D|D].
    - rewrite (A3 D). destruct D as (D1 & D2 & D3). pose proof (WM D1). pose proof (WT D2). subst m' t'. apply B3. auto.
    - rewrite (A4 D). apply B4. intros (D1 & D2 & D3). apply D. pose proof (WM' D1). pose proof (WT' D2). subst m' t'. auto.
  Qed.
End ORDER.
