(** Scores are not lowered; filters; merging; the whole command. *)
From Verif Require Import Base Text FtsRank FtsRankSpec FtsRankProofs FtsRankOps FtsText FtsTextSpec FtsMatch Results ResultsSpec ResultsProofs ResultsBoost.
Open Scope nat_scope.

Section RAISED.
  Variable A : arith.
  Notation F := (num A).
  Notation hit := (hit A).
  Notation file_of := (file_of A).
  Notation score_of := (score_of A).
  Variable T : tuning A.
  Hypothesis GO : good_order A.
  Hypothesis GM : good_minmax A.
  Hypothesis GBo : good_boosts A T.
  Hypothesis TI : forall m, Permutation (t_iter A T m) m.

  Definition up (l l' : list hit) : Prop := Forall2 (raised A) l l' /\ Forall (fun h => nonneg A (score_of h)) l'.
  Lemma raised_refl h : nonneg A (score_of h) -> raised A h h.
  Proof using. intros (N & _). split; [reflexivity|right; exact N]. Qed.
  Lemma up_refl l : Forall (fun h => nonneg A (score_of h)) l -> up l l.
  Proof using. intro H. split; [|exact H]. induction H; constructor; [apply raised_refl; assumption|assumption]. Qed.
  Lemma raised_trans x y z : nonneg A (score_of x) -> nonneg A (score_of y) -> nonneg A (score_of z) -> raised A x y -> raised A y z -> raised A x z.
  Proof using GO.
    intros (N1 & _) (N2 & _) (N3 & _) (U1 & L1) (U2 & L2). split; [congruence|]. apply (go_trans A GO) with (score_of y); assumption.
  Qed.
  Lemma up_trans l1 l2 l3 : Forall (fun h => nonneg A (score_of h)) l1 -> up l1 l2 -> up l2 l3 -> up l1 l3.
  Proof using GO.
    intros N1 (R1 & N2) (R2 & N3). split; [|exact N3]. revert l3 R2 N3. induction R1 as [|x y l l' Rx R IH]; intros l3 R2 N3; inversion R2 as [|? z ? l3' Ry R2']; subst; constructor.
    - inversion N1; inversion N2; inversion N3; subst. apply raised_trans with y; assumption.
    - inversion N1; inversion N2; inversion N3; subst. apply IH; assumption.
  Qed.
  Lemma up_add h b : nonneg A (score_of h) -> nonneg A b ->
    raised A h (with_score A h (f_add A (h_score A h) b)) /\ nonneg A (score_of (with_score A h (f_add A (h_score A h) b))).
  Proof using GBo.
    intros N Nb. destruct (bo_add A T GBo (score_of h) b N Nb) as (H1 & H2). split; [split; [reflexivity|exact H2]|exact H1].
  Qed.
  Lemma up_map l f : Forall (fun h => nonneg A (score_of h)) l ->
    (forall h, f h = h \/ exists b, nonneg A b /\ f h = with_score A h (f_add A (h_score A h) b)) -> up l (map f l).
  Proof using GBo.
    intros N Q. induction N as [|h l Nh N IH]; [split; constructor|]. destruct IH as (I1 & I2). cbn [map].
    assert (K : raised A h (f h) /\ nonneg A (score_of (f h))).
    { destruct (Q h) as [E|(b & Nb & E)]; rewrite E; [split; [apply raised_refl|]; exact Nh|apply up_add; assumption]. }
    destruct K. split; constructor; assumption.
  Qed.
  Lemma max_nonneg l : l <> [] -> Forall (fun h => nonneg A (score_of h)) l -> nonneg A (max_score A l).
  Proof using GO GM.
    intros NE N. assert (NB : Forall (fun h => is_number A (score_of h)) l) by (eapply Forall_impl; [|exact N]; intros h (H & _); exact H).
    destruct (max_top A GO GM l NE NB) as ((h & Hh & <-) & _). rewrite Forall_forall in N. apply N. exact Hh.
  Qed.
  Lemma useless_finite m : useless A T m = false -> t_finite A T m = true.
  Proof using. unfold useless. destruct (t_finite A T m); [reflexivity|discriminate]. Qed.
  Lemma definition_up q l : Forall (fun h => nonneg A (score_of h)) l -> up l (apply_definition_boost A T q l).
  Proof using GO GM GBo.
    intro N. destruct l as [|h0 l0]; [unfold apply_definition_boost; destruct (useless A T _), (tokenize_identifiers q); apply up_refl; constructor|].
    set (l := h0 :: l0) in *. pose proof (max_nonneg l ltac:(discriminate) N) as NM. unfold apply_definition_boost.
    destruct (useless A T (max_score A l)) eqn:U; [apply up_refl; exact N|]. destruct (tokenize_identifiers q); [apply up_refl; exact N|].
    destruct (bo_fraction A T GBo (max_score A l) (t_definition A T) ltac:(cbn; auto) (useless_finite _ U) NM) as (B & _).
    apply up_map; [exact N|]. intro h. destruct (_ && _ && _); [right; eexists; split; [exact B|reflexivity]|left; reflexivity].
  Qed.
  Lemma stem_up q l : Forall (fun h => nonneg A (score_of h)) l -> up l (apply_path_stem_boost A T q l).
  Proof using GO GM GBo.
    intro N. destruct l as [|h0 l0]; [unfold apply_path_stem_boost; destruct (useless A T _); [|destruct (filter _ (tokenize_identifiers q))]; apply up_refl; constructor|].
    set (l := h0 :: l0) in *. pose proof (max_nonneg l ltac:(discriminate) N) as NM. unfold apply_path_stem_boost.
    destruct (useless A T (max_score A l)) eqn:U; [apply up_refl; exact N|]. destruct (filter _ (tokenize_identifiers q)); [apply up_refl; exact N|].
    destruct (bo_fraction A T GBo (max_score A l) (t_exact A T) ltac:(cbn; auto) (useless_finite _ U) NM) as (B1 & _).
    destruct (bo_fraction A T GBo (max_score A l) (t_prefix A T) ltac:(cbn; auto) (useless_finite _ U) NM) as (B2 & _).
    apply up_map; [exact N|]. intro h. destruct (text_eqb _ _); [left; reflexivity|]. destruct (existsb _ _); [right; eexists; split; [exact B1|reflexivity]|].
    destruct (existsb _ _); [right; eexists; split; [exact B2|reflexivity]|left; reflexivity].
  Qed.
  Lemma sum_nonneg l : Forall (nonneg A) l -> nonneg A (sum_from A l).
  Proof using GBo.
    intro N. assert (Z0 : nonneg A (f_0 A)) by (split; [apply (bo_zero A T GBo)|right; apply (bo_zero A T GBo)]).
    destruct N as [|x l Nx N]; [exact Z0|]. cbn [sum_from]. revert x Nx. induction N as [|y l Ny N IH]; intros x Nx; [exact Nx|].
    cbn [fold_left]. apply IH. apply (bo_add A T GBo); assumption.
  Qed.
  Lemma file_sum_nonneg l f : Forall (fun h => nonneg A (score_of h)) l -> nonneg A (file_sum A l f).
  Proof using GBo.
    intro N. apply sum_nonneg. rewrite Forall_map, Forall_forall. intros h Hh. apply filter_In in Hh. rewrite Forall_forall in N. apply N. apply Hh.
  Qed.
  Lemma Forall2_nth (R : hit -> hit -> Prop) l l' : length l' = length l -> (forall i x, nth_error l i = Some x -> exists y, nth_error l' i = Some y /\ R x y) -> Forall2 R l l'.
  Proof using.
    revert l'. induction l as [|x l IH]; intros [|y l'] L Q; cbn in L; try lia; constructor.
    - destruct (Q 0 x eq_refl) as (z & E & H). injection E as <-. exact H.
    - apply IH; [lia|]. intros i z Hz. exact (Q (Datatypes.S i) z Hz).
  Qed.
  Lemma coherence_up l : Forall (fun h => nonneg A (score_of h)) l -> up l (apply_file_coherence_boost A T l).
  Proof using GO GM GBo TI.
    intro N. destruct l as [|h0 l0].
    { assert (E : apply_file_coherence_boost A T [] = []); [|rewrite E; apply up_refl; constructor].
      apply length_zero_iff_nil. rewrite <- (map_length (h_unit A)), coherence_units. reflexivity. }
    set (l := h0 :: l0) in *.
    assert (NB : Forall (fun h => is_number A (score_of h)) l) by (eapply Forall_impl; [|exact N]; intros h (H & _); exact H).
    assert (NS : forall h, In h l -> is_number A (file_sum A l (file_of h))) by (intros h _; apply file_sum_nonneg; exact N).
    destruct (coherence_exact A T GO GM TI l NB (bo_zero A T GBo) ltac:(discriminate) NS) as (m & t & X1 & X2 & X3 & X4).
    assert (NM : nonneg A m) by (destruct X1 as ((h & Hh & <-) & _); rewrite Forall_forall in N; apply N; exact Hh).
    assert (Q : forall i x, nth_error l i = Some x -> exists y, nth_error (apply_file_coherence_boost A T l) i = Some y /\ raised A x y /\ nonneg A (score_of y)).
    { intros i x Hx. destruct (X4 i x Hx) as (y & Y1 & Y2 & Y3 & Y4). exists y. split; [exact Y1|].
      assert (Nx : nonneg A (score_of x)) by (rewrite Forall_forall in N; apply N; eapply nth_error_In; exact Hx).
      assert (DEC : (worth A T m /\ worth A T t /\ first_best A l i) \/ ~ (worth A T m /\ worth A T t /\ first_best A l i)).
      { assert (WD : forall x, worth A T x \/ ~ worth A T x).
        { intro z. unfold worth. destruct (t_finite A T z); [|right; intros (H & _); discriminate].
          destruct (f_cmp A z (f_0 A)) as [[]|]; try (right; intros (_ & H); discriminate). left. auto. }
        destruct (WD m); [|right; tauto]. destruct (WD t); [|right; tauto]. destruct (first_best_dec A GO l i NB); [left; auto|right; tauto]. }
      destruct DEC as [D|D].
      - pose proof D as ((W1 & _) & (W2 & W3) & _).
        destruct (bo_fraction A T GBo m (t_coherence A T) ltac:(cbn; auto) W1 NM) as (B1 & B2).
        pose proof (file_sum_nonneg l (file_of x) N) as NF.
        assert (FF : t_finite A T (file_sum A l (file_of x)) = true).
        { apply (bo_finite A T GBo) with t; [exact NF| |exact W2]. apply (proj2 X2). eapply nth_error_In; exact Hx. }
        pose proof (bo_share A T GBo _ _ _ B1 B2 NF FF W3 W2) as SH.
        destruct (bo_add A T GBo _ _ Nx SH) as (P1 & P2). unfold raised. rewrite (Y3 D). split; [split; [exact Y2|exact P2]|exact P1].
      - unfold raised. rewrite (Y4 D). split; [split; [exact Y2|right; apply Nx]|exact Nx]. }
    split.
    - apply Forall2_nth; [exact X3|]. intros i x Hx. destruct (Q i x Hx) as (y & Y1 & Y2 & _). exists y. auto.
    - rewrite Forall_forall. intros y Hy. apply In_nth_error in Hy. destruct Hy as (i & Hi).
      destruct (nth_error l i) as [x|] eqn:Hx; [destruct (Q i x Hx) as (y' & Y1 & _ & Y3); congruence|].
      apply nth_error_None in Hx. assert (i < length (apply_file_coherence_boost A T l)) by (apply nth_error_Some; congruence). lia.
  Qed.
  Theorem boosted_up q l : Forall (fun h => nonneg A (score_of h)) l -> up l (boosted A T q l).
  Proof using GO GM GBo TI.
    intro N. unfold boosted. pose proof (stem_up q l N) as U1. pose proof (definition_up q _ (proj2 U1)) as U2. pose proof (coherence_up _ (proj2 U2)) as U3.
    eapply up_trans; [exact N|exact U1|]. eapply up_trans; [exact (proj2 U1)|exact U2|exact U3].
  Qed.
End RAISED.

(** ** Filters *)
Section FILTERS.
  Variable hash_order : list Z -> list Z.
  Hypothesis HO : forall l, Permutation (hash_order l) l.
  Notation combined := (combined hash_order).
  Definition given (l : option (list Z)) (i : Z) : Prop := match l with Some ids => In i ids | None => True end.
  Definition stands (c : option (list Z)) (P : Z -> Prop) (any : bool) : Prop :=
    match c with Some l => any = true /\ forall i, In i l <-> P i | None => any = false end.
  Definition is_some (l : option (list Z)) : bool := match l with Some _ => true | None => false end.
  Lemma narrow_stands c ids (P : Z -> Prop) any : stands c P any -> (any = false -> forall i, P i) -> stands (narrow c ids) (fun i => P i /\ In i ids) true.
  Proof using.
    destruct c as [e|]; cbn [stands narrow]; intros H K; (split; [reflexivity|]); intro i.
    - rewrite filter_In, zmem_in. rewrite (proj2 H i). tauto.
    - specialize (K H i). tauto.
  Qed.
  Lemma exclude_stands c ids (P : Z -> Prop) any : stands c P any -> (any = false -> forall i, P i) -> stands (exclude hash_order c ids) (fun i => P i /\ In i ids) true.
  Proof using HO.
    destruct c as [e|]; cbn [stands exclude]; intros H K; (split; [reflexivity|]); intro i.
    - rewrite filter_In, zmem_in. rewrite (proj2 H i). tauto.
    - specialize (K H i). split; intro X.
      + split; [exact K|]. apply (Permutation_in _ (HO _)) in X. apply nodup_In in X. exact X.
      + eapply Permutation_in; [symmetry; apply HO|]. apply nodup_In. tauto.
  Qed.
  Lemma step_stands (f : option (list Z) -> list Z -> option (list Z)) c l (P : Z -> Prop) any :
    (forall c ids (P : Z -> Prop) any, stands c P any -> (any = false -> forall i, P i) -> stands (f c ids) (fun i => P i /\ In i ids) true) ->
    stands c P any -> (any = false -> forall i, P i) ->
    stands (match l with Some ids => f c ids | None => c end) (fun i => P i /\ given l i) (any || is_some l).
  Proof using.
    intros S0 H K. destruct l as [ids|]; cbn [given is_some].
    - rewrite Bool.orb_true_r. apply S0 with any; assumption.
    - rewrite Bool.orb_false_r. destruct c as [e|]; cbn [stands] in *; [|exact H]. destruct H as (H1 & H2). split; [exact H1|]. intro i. rewrite H2. tauto.
  Qed.
  Definition any_given (o : options) : bool :=
    is_some (o_subdirectory o) || is_some (o_pattern o) || is_some (o_include o) || is_some (o_file o) || is_some (o_exclude o) || is_some (o_exclude_dir o).
  Lemma none_given (l : option (list Z)) i : is_some l = false -> given l i.
  Proof using. destruct l; [discriminate|intros _; exact Logic.I]. Qed.
  Theorem combined_ok o :
    match combined o with
    | Some (Some l) => l <> [] /\ forall i, In i l <-> passes o i
    | Some None => no_options o
    | None => forall i, ~ passes o i
    end.
  Proof using HO.
    unfold combined. destruct (stop_if_empty (o_subdirectory o) || stop_if_empty (o_pattern o) || stop_if_empty (o_file o)) eqn:ST.
    { intros i (P1 & P2 & P3 & P4 & _). apply Bool.orb_true_iff in ST. rewrite Bool.orb_true_iff in ST.
      destruct ST as [[ST|ST]|ST]; [destruct (o_subdirectory o) as [[|]|]|destruct (o_pattern o) as [[|]|]|destruct (o_file o) as [[|]|]]; try discriminate; contradiction. }
    cbv zeta.
    set (c1 := match o_pattern o with Some ids => narrow (o_subdirectory o) ids | None => o_subdirectory o end).
    set (c2 := match o_include o with Some ids => narrow c1 ids | None => c1 end).
    set (c3 := match o_file o with Some ids => narrow c2 ids | None => c2 end).
    set (c4 := match o_exclude o with Some ids => exclude hash_order c3 ids | None => c3 end).
    set (c5 := match o_exclude_dir o with Some ids => exclude hash_order c4 ids | None => c4 end).
    assert (H0 : stands (o_subdirectory o) (fun i => given (o_subdirectory o) i) (is_some (o_subdirectory o))).
    { destruct (o_subdirectory o); cbn; [split; [reflexivity|tauto]|reflexivity]. }
    assert (K0 : is_some (o_subdirectory o) = false -> forall i, given (o_subdirectory o) i) by (intros E i; apply none_given; exact E).
    pose proof (step_stands narrow (o_subdirectory o) (o_pattern o) _ _ narrow_stands H0 K0) as H1. fold c1 in H1.
    assert (K1 : is_some (o_subdirectory o) || is_some (o_pattern o) = false -> forall i, given (o_subdirectory o) i /\ given (o_pattern o) i).
    { intros E i. apply Bool.orb_false_iff in E. destruct E. split; apply none_given; assumption. }
    pose proof (step_stands narrow c1 (o_include o) _ _ narrow_stands H1 K1) as H2. fold c2 in H2.
    assert (K2 : is_some (o_subdirectory o) || is_some (o_pattern o) || is_some (o_include o) = false ->
      forall i, (given (o_subdirectory o) i /\ given (o_pattern o) i) /\ given (o_include o) i).
    { intros E i. apply Bool.orb_false_iff in E. destruct E. split; [apply K1; assumption|apply none_given; assumption]. }
    pose proof (step_stands narrow c2 (o_file o) _ _ narrow_stands H2 K2) as H3. fold c3 in H3.
    assert (K3 : is_some (o_subdirectory o) || is_some (o_pattern o) || is_some (o_include o) || is_some (o_file o) = false ->
      forall i, ((given (o_subdirectory o) i /\ given (o_pattern o) i) /\ given (o_include o) i) /\ given (o_file o) i).
    { intros E i. apply Bool.orb_false_iff in E. destruct E. split; [apply K2; assumption|apply none_given; assumption]. }
    pose proof (step_stands (exclude hash_order) c3 (o_exclude o) _ _ exclude_stands H3 K3) as H4. fold c4 in H4.
    assert (K4 : is_some (o_subdirectory o) || is_some (o_pattern o) || is_some (o_include o) || is_some (o_file o) || is_some (o_exclude o) = false ->
      forall i, (((given (o_subdirectory o) i /\ given (o_pattern o) i) /\ given (o_include o) i) /\ given (o_file o) i) /\ given (o_exclude o) i).
    { intros E i. apply Bool.orb_false_iff in E. destruct E. split; [apply K3; assumption|apply none_given; assumption]. }
    pose proof (step_stands (exclude hash_order) c4 (o_exclude_dir o) _ _ exclude_stands H4 K4) as H5. fold c5 in H5.
    assert (EQ : forall i, passes o i <-> ((((given (o_subdirectory o) i /\ given (o_pattern o) i) /\ given (o_include o) i) /\ given (o_file o) i) /\ given (o_exclude o) i) /\ given (o_exclude_dir o) i).
    { intro i. unfold passes. fold (given (o_subdirectory o) i) (given (o_pattern o) i) (given (o_include o) i) (given (o_file o) i) (given (o_exclude o) i) (given (o_exclude_dir o) i). tauto. }
    clearbody c5. destruct c5 as [[|x l]|]; cbn [stop_if_empty stands] in *.
    - intros i P. apply EQ in P. apply (proj2 H5 i) in P. destruct P.
    - split; [discriminate|]. intro i. rewrite EQ. apply (proj2 H5 i).
    - clear -H5. unfold no_options. destruct (o_subdirectory o), (o_pattern o), (o_include o), (o_file o), (o_exclude o), (o_exclude_dir o); cbn in H5; try discriminate. auto 6.
  Qed.
End FILTERS.
