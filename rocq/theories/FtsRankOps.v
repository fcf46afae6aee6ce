(** Fusion and filtered search: the results. *)
From Verif Require Import Base FtsRank FtsRankSpec FtsRankProofs.
Open Scope nat_scope.

Lemma map_fst_combine {S' T} (l : list S') (m : list T) : length l = length m -> map fst (combine l m) = l.
Proof.
  revert m. induction l as [|x l IH]; intros [|y m] E; cbn in E; try discriminate; [reflexivity|].
  cbn [combine map fst]. rewrite IH by (injection E; auto). reflexivity.
Qed.

Lemma filter_map_swap {S' T} (f : S' -> T) (p : T -> bool) l : filter p (map f l) = map f (filter (fun x => p (f x)) l).
Proof. induction l as [|x l IH]; cbn [map filter]; [reflexivity|]. destruct (p (f x)); cbn [map]; rewrite IH; reflexivity. Qed.

Lemma selects_ext (A : arith) k l l' s s' ids sc : l = l' -> (forall i, s i = s' i) -> selects A k l s ids sc -> selects A k l' s' ids sc.
Proof. intros <- E [H1 H2 H3 H4]. split; auto. rewrite H4. apply map_ext. exact E. Qed.
Lemma best_ext (A : arith) k l l' s s' ids sc : l = l' -> (forall i, s i = s' i) -> best_by A k l s ids sc -> best_by A k l' s' ids sc.
Proof.
  intros <- E [H1 H2 H3]. split; [eapply selects_ext; eauto|exact H2|].
  intros i j Hi Hj Nj. rewrite <- !E. auto.
Qed.

Section RRF.
  Variable A : arith.
  Variable iter : list (Z * num A) -> list (Z * num A).
  Hypothesis IT : forall l, Permutation (iter l) l.

  Lemma rrf_ids w ids : map fst (rrf_terms A w ids) = ids.
  Proof using.
    unfold rrf_terms. rewrite map_map. cbn [fst].
    rewrite <- (map_fst_combine ids (seq 0 (length ids))) at 3 by (rewrite seq_length; reflexivity).
    reflexivity.
  Qed.
  Lemma rrf_of w ids id : of_id A id (rrf_terms A w ids) = map (reciprocal A w) (ranks id ids).
  Proof using.
    unfold of_id, rrf_terms, ranks. rewrite filter_map_swap, !map_map. reflexivity.
  Qed.
  Lemma rrf_terms_score sem kw alpha id :
    sum A (of_id A id (rrf_terms A alpha sem ++ rrf_terms A (f_sub A (f_1 A) alpha) kw)) = rrf_score A sem kw alpha id.
  Proof using. rewrite of_id_app, !rrf_of. reflexivity. Qed.

  Lemma fuse_rrf_selects sem kw alpha k :
    selects A k (sem ++ kw) (rrf_score A sem kw alpha) (fst (fuse_rrf A iter sem kw alpha k)) (snd (fuse_rrf A iter sem kw alpha k)).
  Proof using IT.
    eapply selects_ext; [| |apply (ranked_selects A iter IT)].
    - rewrite map_app, !rrf_ids. reflexivity.
    - intro i. apply rrf_terms_score.
  Qed.
  Lemma fuse_rrf_best sem kw alpha k : good_order A ->
    (forall id, In id (sem ++ kw) -> is_number A (rrf_score A sem kw alpha id)) ->
    best_by A k (sem ++ kw) (rrf_score A sem kw alpha) (fst (fuse_rrf A iter sem kw alpha k)) (snd (fuse_rrf A iter sem kw alpha k)).
  Proof using IT.
    intros GO NB. eapply best_ext; [| |apply (ranked_best A GO iter IT)].
    - rewrite map_app, !rrf_ids. reflexivity.
    - intro i. apply rrf_terms_score.
    - intros id H. rewrite map_app, !rrf_ids in H. rewrite rrf_terms_score. auto.
  Qed.

  (** normalisation *)
  Lemma weighted_ids w l : map fst (weighted A w l) = map fst l.
  Proof using. unfold weighted. rewrite map_map. reflexivity. Qed.
  Lemma weighted_of w l id : of_id A id (weighted A w l) = map (f_mul A w) (of_id A id l).
  Proof using. unfold of_id, weighted. rewrite filter_map_swap, !map_map. reflexivity. Qed.

  Definition lowest (scores : list (num A)) : num A := fold_left (f_min A) scores (f_inf A).
  Definition highest (scores : list (num A)) : num A := fold_left (f_max A) scores (f_ninf A).

  Lemma normalize_eq ids scores : length ids = length scores ->
    min_max_normalize A ids scores = map (fun p => (fst p, minmax A (lowest scores) (highest scores) (snd p))) (combine ids scores).
  Proof using.
    intro L. unfold min_max_normalize. fold (lowest scores). fold (highest scores).
    destruct scores as [|s0 scores]; [destruct ids; [reflexivity|discriminate]|].
    assert (E : map (fun id => (id, f_1 A)) ids = map (fun p => (fst p, f_1 A)) (combine ids (s0 :: scores))).
    { rewrite <- (map_fst_combine ids (s0 :: scores)) at 1 by exact L. rewrite map_map. reflexivity. }
    unfold minmax. cbv zeta.
    destruct (f_cmp A (f_sub A (highest (s0 :: scores)) (lowest (s0 :: scores))) (f_0 A)) as [[| |]|]; [exact E|reflexivity..].
  Qed.
  Lemma normalize_ids ids scores : length ids = length scores -> map fst (min_max_normalize A ids scores) = ids.
  Proof using.
    intro L. rewrite normalize_eq by exact L. rewrite map_map. cbn [fst]. apply map_fst_combine. exact L.
  Qed.
  Lemma normalize_of ids scores id : length ids = length scores ->
    of_id A id (min_max_normalize A ids scores) = map (minmax A (lowest scores) (highest scores)) (given id ids scores).
  Proof using.
    intro L. rewrite normalize_eq by exact L. unfold of_id, given. rewrite filter_map_swap, !map_map. reflexivity.
  Qed.

  Lemma min_spec : good_order A -> good_minmax A -> forall scores a, is_number A a -> Forall (is_number A) scores ->
    let r := fold_left (f_min A) scores a in
    In r (a :: scores) /\ (forall s, In s (a :: scores) -> not_above A r s).
  Proof using.
    intros GO GM. induction scores as [|b l IH]; cbn [fold_left]; intros a Ha Hl; cbv zeta.
    - split; [left; reflexivity|]. intros s [<-|[]]. right. exact Ha.
    - inversion Hl as [|? ? Hb Hl']; subst.
      destruct (gm_min A GM a b Ha Hb) as [[E L]|[E L]]; rewrite E.
      + destruct (IH a Ha Hl') as [I1 I2]. split.
        * destruct I1 as [I1|I1]; [left; exact I1|right; right; exact I1].
        * intros s [<-|[<-|Hs]]; [apply I2; left; reflexivity| |apply I2; right; exact Hs].
          assert (Nr : is_number A (fold_left (f_min A) l a)).
          { destruct I1 as [<-|I1]; [exact Ha|]. rewrite Forall_forall in Hl'. auto. }
          eapply (go_trans A GO); [exact Nr|exact Ha|exact Hb|apply I2; left; reflexivity|exact L].
      + destruct (IH b Hb Hl') as [I1 I2]. split; [right; exact I1|].
        intros s [<-|Hs]; [|apply I2; exact Hs].
        assert (Nr : is_number A (fold_left (f_min A) l b)).
        { destruct I1 as [<-|I1]; [exact Hb|]. rewrite Forall_forall in Hl'. auto. }
        eapply (go_trans A GO); [exact Nr|exact Hb|exact Ha|apply I2; left; reflexivity|exact L].
  Qed.
  Lemma max_spec : good_order A -> good_minmax A -> forall scores a, is_number A a -> Forall (is_number A) scores ->
    let r := fold_left (f_max A) scores a in
    In r (a :: scores) /\ (forall s, In s (a :: scores) -> not_above A s r).
  Proof using.
    intros GO GM. induction scores as [|b l IH]; cbn [fold_left]; intros a Ha Hl; cbv zeta.
    - split; [left; reflexivity|]. intros s [<-|[]]. right. exact Ha.
    - inversion Hl as [|? ? Hb Hl']; subst.
      destruct (gm_max A GM a b Ha Hb) as [[E L]|[E L]]; rewrite E.
      + destruct (IH a Ha Hl') as [I1 I2]. split.
        * destruct I1 as [I1|I1]; [left; exact I1|right; right; exact I1].
        * intros s [<-|[<-|Hs]]; [apply I2; left; reflexivity| |apply I2; right; exact Hs].
          assert (Nr : is_number A (fold_left (f_max A) l a)).
          { destruct I1 as [<-|I1]; [exact Ha|]. rewrite Forall_forall in Hl'. auto. }
          eapply (go_trans A GO); [exact Hb|exact Ha|exact Nr|exact L|apply I2; left; reflexivity].
      + destruct (IH b Hb Hl') as [I1 I2]. split; [right; exact I1|].
        intros s [<-|Hs]; [|apply I2; exact Hs].
        assert (Nr : is_number A (fold_left (f_max A) l b)).
        { destruct I1 as [<-|I1]; [exact Hb|]. rewrite Forall_forall in Hl'. auto. }
        eapply (go_trans A GO); [exact Ha|exact Hb|exact Nr|exact L|apply I2; left; reflexivity].
  Qed.
  Lemma span_ok : good_order A -> good_minmax A -> forall scores, scores <> [] -> Forall (is_number A) scores ->
    span A scores (lowest scores) (highest scores).
  Proof using.
    intros GO GM [|a l] N F; [contradiction|]. inversion F as [|? ? Ha Hl]; subst.
    unfold lowest, highest. cbn [fold_left]. rewrite (gm_inf A GM a Ha), (gm_ninf A GM a Ha).
    destruct (min_spec GO GM l a Ha Hl) as [I1 I2]. destruct (max_spec GO GM l a Ha Hl) as [J1 J2].
    split; [exact I1|]. split; [exact J1|]. auto.
  Qed.

  Lemma relative_terms sem ss kw ks alpha id : length sem = length ss -> length kw = length ks ->
    sum A (of_id A id (weighted A alpha (min_max_normalize A sem ss)
             ++ weighted A (f_sub A (f_1 A) alpha) (min_max_normalize A kw ks)))
    = relative_score A sem ss (lowest ss) (highest ss) kw ks (lowest ks) (highest ks) alpha id.
  Proof using.
    intros L1 L2. rewrite of_id_app, !weighted_of, !normalize_of, !map_map by assumption. reflexivity.
  Qed.
  Lemma relative_ids sem ss kw ks alpha : length sem = length ss -> length kw = length ks ->
    map fst (weighted A alpha (min_max_normalize A sem ss) ++ weighted A (f_sub A (f_1 A) alpha) (min_max_normalize A kw ks)) = sem ++ kw.
  Proof using. intros L1 L2. rewrite map_app, !weighted_ids, !normalize_ids by assumption. reflexivity. Qed.

  Lemma fuse_relative_best sem ss kw ks alpha k : good_order A -> good_minmax A ->
    length sem = length ss -> length kw = length ks -> Forall (is_number A) ss -> Forall (is_number A) ks ->
    exists slo shi klo khi, (ss <> [] -> span A ss slo shi) /\ (ks <> [] -> span A ks klo khi)
      /\ let score := relative_score A sem ss slo shi kw ks klo khi alpha in
         let r := fuse_relative_score A iter sem ss kw ks alpha k in
         selects A k (sem ++ kw) score (fst r) (snd r)
         /\ ((forall id, In id (sem ++ kw) -> is_number A (score id)) -> best_by A k (sem ++ kw) score (fst r) (snd r)).
  Proof using IT.
    intros GO GM L1 L2 F1 F2. exists (lowest ss), (highest ss), (lowest ks), (highest ks).
    split; [intro N; apply span_ok; assumption|]. split; [intro N; apply span_ok; assumption|].
    cbv zeta. split.
    - eapply selects_ext; [| |apply (ranked_selects A iter IT)].
      + apply relative_ids; assumption.
      + intro i. apply relative_terms; assumption.
    - intro NB. eapply best_ext; [| |apply (ranked_best A GO iter IT)].
      + apply relative_ids; assumption.
      + intro i. apply relative_terms; assumption.
      + intros id H. rewrite relative_ids in H by assumption. rewrite relative_terms by assumption. auto.
  Qed.
End RRF.

Section PREFIX.
  Variable A : arith.
  Hypothesis GO : good_order A.
  Notation above s x y := (f_cmp A (s y) (s x) = Some Lt).

  (** A sorted choice of ids starts with the ids that are strictly best, in their order. *)
  Lemma strict_prefix (score : Z -> num A) T1 L R :
    (forall x, In x L -> is_number A (score x)) ->
    Permutation L (T1 ++ R) -> StronglySorted (fun x y => not_above A (score y) (score x)) L ->
    StronglySorted (fun x y => above score x y) T1 -> (forall x y, In x T1 -> In y R -> above score x y) ->
    exists R', L = T1 ++ R' /\ Permutation R' R.
  Proof using GO.
    revert L. induction T1 as [|x T1 IH]; intros L N P Ss St Sr.
    - exists L. split; [reflexivity|exact P].
    - destruct L as [|y L]; [apply Permutation_length in P; discriminate|].
      inversion Ss as [|? ? Ss' Sy]; subst. inversion St as [|? ? St' Sx]; subst.
      assert (E : y = x).
      { assert (Hy : In y ((x :: T1) ++ R)) by (eapply Permutation_in; [exact P|left; reflexivity]).
        destruct Hy as [Hy|Hy]; [auto|].
        assert (Hx : In x (y :: L)) by (eapply Permutation_in; [symmetry; exact P|left; reflexivity]).
        destruct Hx as [Hx|Hx]; [auto|exfalso].
        assert (B : above score x y).
        { apply in_app_or in Hy. destruct Hy as [Hy|Hy].
          - rewrite Forall_forall in Sx. auto.
          - apply Sr; [left; reflexivity|exact Hy]. }
        rewrite Forall_forall in Sy. pose proof (Sy _ Hx) as [Q|Q];
          apply (go_opp A GO) in B; try (apply N; cbn; auto); rewrite B in Q; discriminate. }
      subst y. destruct (IH L) as (R' & E' & P').
      + intros z Hz. apply N. right. exact Hz.
      + apply Permutation_cons_inv in P. exact P.
      + exact Ss'.
      + exact St'.
      + intros a b Ha Hb. apply Sr; [right; exact Ha|exact Hb].
      + exists R'. split; [rewrite E'; reflexivity|exact P'].
  Qed.
End PREFIX.
