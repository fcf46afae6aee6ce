(** Proofs about the index together with its metadata. *)
From Verif Require Import Base F32 CodecModel CodecSpec IndexModel IndexSpec IndexLemmas IndexAccess.
From Verif Require Import Text MetaModel MetaSpec MetaProofs MetaCreate MetaContent MetaRead SyncModel SyncSpec.
Open Scope nat_scope.

Lemma exec_all_app V s o r : forall ops outs s1, exec_all (v_fsub V) (v_dot V) (v_mem V) (v_kmeans V) (v_quantile V) (v_threshold V) (v_next V) (v_outlier V) s ops = Ok (outs, s1) ->
  step V s1 o = Ok r -> exec_all (v_fsub V) (v_dot V) (v_mem V) (v_kmeans V) (v_quantile V) (v_threshold V) (v_next V) (v_outlier V) s (ops ++ [o]) = Ok (outs ++ [fst r], snd r).
Proof.
  intros ops. revert s. induction ops as [|p ops IH]; intros s outs s1 H St.
  - cbn in H. injection H as <- <-. cbn [app exec_all]. fold (step V s o). rewrite St. destruct r; reflexivity.
  - cbn [exec_all app] in *. apply bind_Ok in H. destruct H as ((out, s2) & H1 & H2). apply bind_Ok in H2. destruct H2 as ((outs2, s3) & H2 & H3).
    injection H3 as <- <-. rewrite H1. cbn [bind]. rewrite (IH _ _ _ H2 St). reflexivity.
Qed.
Lemma run_app V docs0 g0 ops outs s o out s' : run V docs0 g0 ops = Ok (outs, s) -> step V s o = Ok (out, s') ->
  run V docs0 g0 (ops ++ [o]) = Ok (outs ++ [out], s').
Proof.
  unfold run, history. intros H St. apply bind_Ok in H. destruct H as ((x, d) & H1 & H2). rewrite H1. cbn [bind].
  exact (exec_all_app _ _ _ _ _ _ _ H2 St).
Qed.
Lemma spec_ops_app ops o : forall L, spec_ops L (ops ++ [o]) = (fst (spec_ops L ops) ++ [fst (spec_op (snd (spec_ops L ops)) o)], snd (spec_op (snd (spec_ops L ops)) o)).
Proof.
  induction ops as [|p ops IH]; intro L; cbn [app spec_ops].
  - destruct (spec_op L o) as (a, b) eqn:E. cbn [spec_ops fst snd app]. rewrite E. reflexivity.
  - destruct (spec_op L p) as (a, b). rewrite IH. destruct (spec_ops b ops) as (c, e). reflexivity.
Qed.
Lemma disciplined_app ops more : forall f p, disciplined f p (ops ++ more) -> disciplined f p ops.
Proof.
  induction ops as [|o ops IH]; intros f p H; [exact I|]. destruct o; cbn [app disciplined] in *; try (destruct H as (H1 & H2); split; eauto); eauto.
Qed.
Lemma reached_app V D docs0 g0 ops outs d h o out s' : reached V D docs0 g0 ops outs d h -> op_ok D o -> disciplined true false (ops ++ [o]) ->
  step V (d, h) o = Ok (out, s') ->
  reached V D docs0 g0 (ops ++ [o]) (outs ++ [out]) (fst s') (snd s')
  /\ out = fst (spec_op (documents docs0 ops) o) /\ documents docs0 (ops ++ [o]) = snd (spec_op (documents docs0 ops) o).
Proof.
  intros R Ho Hd St. assert (R' : reached V D docs0 g0 (ops ++ [o]) (outs ++ [out]) (fst s') (snd s')).
  { destruct R as (a & b & c & e & _ & f). split; auto. split; auto. split; auto. split; [apply Forall_app; auto|]. split; auto.
    destruct s'. cbn [fst snd]. eapply run_app; eauto. }
  split; auto. unfold documents in *. rewrite spec_ops_app. cbn [fst snd]. split; auto.
  destruct (history_list _ _ _ _ _ _ _ _ R') as (H1 & _). rewrite spec_ops_app in H1. cbn [fst snd] in H1.
  apply app_inj_tail in H1. tauto.
Qed.

Lemma positions_zseq a n : positions a n = zseq (Z.of_nat a) n.
Proof.
  unfold positions, zseq. replace a with (a + 0) at 1 by lia. generalize 0. induction n as [|n IH]; intro k; cbn; auto.
  f_equal; [lia|]. rewrite <- IH. do 2 f_equal. lia.
Qed.
Lemma map_fst_bare docs : map fst (bare docs) = docs.
Proof. unfold bare. rewrite map_map. apply map_id. Qed.
Lemma map_snd_bare docs : map snd (bare docs) = repeat None (length docs).
Proof. unfold bare. rewrite map_map. induction docs; cbn; f_equal; auto. Qed.
Lemma map_fst_with docs md : length md = length docs -> map fst (with_items docs md) = docs.
Proof. intro H. apply map_fst_combine. rewrite map_length; auto. Qed.
Lemma map_snd_with docs md : length md = length docs -> map snd (with_items docs md) = map Some md.
Proof. intro H. apply map_snd_combine. rewrite map_length; auto. Qed.
Lemma delete_positions_map {A B} (f : A -> B) ids l : map f (delete_positions ids l) = delete_positions ids (map f l).
Proof.
  unfold delete_positions. rewrite map_length. generalize (map Z.of_nat (seq 0 (length l))). intro zs. revert zs.
  induction l as [|x l IH]; intros [|z zs]; cbn [combine filter map]; auto. cbn [fst]. destruct (existsb _ _); cbn [negb map snd]; [|f_equal]; apply IH.
Qed.
Lemma filter_le {A} (p : A -> bool) l : length (filter p l) <= length l.
Proof. induction l as [|x l IH]; cbn; auto. destruct (p x); cbn; lia. Qed.
Lemma filter_all {A} (p : A -> bool) l : length (filter p l) = length l -> filter p l = l.
Proof.
  induction l as [|x l IH]; auto. cbn. destruct (p x); cbn; intro H; [f_equal; apply IH; lia|].
  pose proof (filter_le p l). lia.
Qed.
Lemma delete_positions_same {A} ids (l : list A) : length (delete_positions ids l) = length l -> delete_positions ids l = l.
Proof.
  unfold delete_positions. rewrite map_length. intro H.
  assert (L : length (combine (map Z.of_nat (seq 0 (length l))) l) = length l) by (rewrite combine_length, map_length, seq_length; lia).
  rewrite filter_all by lia. apply map_snd_combine. rewrite map_length, seq_length; auto.
Qed.

Lemma all_none {A} (M : list (option A)) : (forall i, at_pos M i = None) -> M = repeat None (length M).
Proof.
  intro H. assert (N : forall n o, nth_error M n = Some o -> o = None).
  { intros n o Hn. specialize (H (Z.of_nat n)). unfold at_pos in H. destruct (Z.ltb_spec (Z.of_nat n) 0); [lia|]. rewrite Nat2Z.id, Hn in H. auto. }
  clear H. induction M as [|x M IH]; auto. cbn. rewrite (N 0 x) by auto. f_equal. apply IH. intros n o Hn. apply (N (S n) o). auto.
Qed.
Lemma items_nodb E M : items E NoDb M -> M = repeat None (length M).
Proof. cbn. apply all_none. Qed.

Section HISTORY.
  Variable V : env.
  Variable E : engine.
  Variable D : nat.
  Variable docs0 : list doc.
  Variable g0 : config.
  Hypothesis G : good_engine E.

  (** State of the proof: the index shows the documents, the database the items. *)
  Definition good_sync (iops : list op) (s : synced) (L : collection) : Prop :=
    (exists iouts, reached V D docs0 g0 iops iouts (fst (fst s)) (snd (fst s)))
    /\ documents docs0 iops = map fst L /\ items E (snd s) (map snd L).

  Lemma add_rows_spec m md ids L docs m' mr : items E m (map snd L) -> bad_length docs md = false ->
    ids = positions (length L) (length docs) ->
    add_rows E m md ids = (m', mr) \/ add_or_create_rows E m md ids = (m', mr) ->
    exists L', adds L docs md (after_metadata ids mr) L' /\ map fst L' = map fst L ++ docs /\ items E m' (map snd L').
  Proof.
    intros I B -> H. destruct md as [md|].
    2: { assert (m' = m /\ mr = Ok 0) as (-> & ->) by (destruct H as [H|H]; injection H as <- <-; auto).
      exists (L ++ bare docs). split; [constructor|]. rewrite !map_app, map_fst_bare, map_snd_bare. split; auto. apply items_none; auto. }
    cbn in B. apply negb_false_iff, Nat.eqb_eq in B. rewrite positions_zseq in *.
    assert (Hok : forall r, mr = r -> (forall n, r <> Ok n) -> adds L docs (Some md) (after_metadata (zseq (Z.of_nat (length L)) (length docs)) mr) (L ++ bare docs)).
    { intros r -> N. apply add_refused; auto. destruct r; cbn; congruence. }
    assert (U : forall mu, MetaModel.update E m md (zseq (Z.of_nat (length L)) (length docs)) = (mu, mr) ->
      exists L', adds L docs (Some md) (after_metadata (zseq (Z.of_nat (length L)) (length docs)) mr) L' /\ map fst L' = map fst L ++ docs /\ items E mu (map snd L')).
    { intros mu U. destruct mr as [n| |].
      - exists (L ++ with_items docs md). split; [cbn; rewrite <- positions_zseq; constructor; auto|].
        rewrite !map_app, map_fst_with, map_snd_with by auto. split; auto. eapply items_update; eauto. rewrite map_length, B. eauto.
      - exists (L ++ bare docs). split; [eapply Hok; eauto; discriminate|]. rewrite !map_app, map_fst_bare, map_snd_bare. split; auto.
        apply update_err in U; [subst; apply items_none; auto|discriminate].
      - exists (L ++ bare docs). split; [eapply Hok; eauto; discriminate|]. rewrite !map_app, map_fst_bare, map_snd_bare. split; auto.
        apply update_err in U; [subst; apply items_none; auto|discriminate]. }
    destruct H as [H|H]; [apply U; exact H|]. unfold add_or_create_rows in H. destruct (db_exists m) eqn:X; [apply U; exact H|].
    destruct m; try discriminate. pose proof (items_nodb _ _ I) as EL. rewrite map_length in EL.
    assert (LM : length md = length (zseq (Z.of_nat (length L)) (length docs))) by (rewrite zseq_length; auto).
    destruct mr as [n| |].
    - exists (L ++ with_items docs md). split; [cbn; rewrite <- positions_zseq; constructor; auto|].
      rewrite !map_app, map_fst_with, map_snd_with by auto. split; auto. rewrite EL. refine (items_create E NoDb md (length L) m' n Logic.I _). rewrite B. auto.
    - exists (L ++ bare docs). split; [eapply Hok; eauto; discriminate|]. rewrite !map_app, map_fst_bare, map_snd_bare. split; auto.
      rewrite EL, <- repeat_app. eapply items_create_err; eauto. discriminate.
    - exists (L ++ bare docs). split; [eapply Hok; eauto; discriminate|]. rewrite !map_app, map_fst_bare, map_snd_bare. split; auto.
      rewrite EL, <- repeat_app. eapply items_create_err; eauto. discriminate.
  Qed.

  Lemma sexec_good iops s L o r s' : good_sync iops s L -> Forall (op_ok D) (index_ops o) ->
    disciplined true false (iops ++ index_ops o) -> sexec V E s o = Ok (r, s') ->
    exists L', calls L o r L' /\ good_sync (iops ++ index_ops o) s' L'.
  Proof.
    intros ((iouts & R) & Ed & I) Ho Hd H. destruct s as ((d, h), m). cbn [fst snd] in *.
    assert (LL : length (map fst L) = length L) by apply map_length.
    destruct o as [docs g md|docs g md|docs g|ids|]; cbn [sexec index_ops] in *.
    - destruct (bad_length docs md) eqn:B.
      + injection H as <- <-. exists L. split; [|rewrite app_nil_r; split; eauto].
        apply call_add. destruct md as [md|]; [|discriminate]. apply add_wrong_length. cbn in B. apply negb_true_iff, Nat.eqb_neq in B. auto.
      + apply bind_Ok in H. destruct H as ((ids, i') & H1 & H2). destruct (add_rows E m md ids) as (m', mr) eqn:A. injection H2 as <- <-.
        inversion Ho as [|? ? Ho1 _]; subst.
        destruct (reached_app _ _ _ _ _ _ _ _ _ _ _ R Ho1 Hd H1) as (R' & E1 & E2). cbn [spec_op fst snd] in E1, E2. rewrite Ed, LL in E1. rewrite Ed in E2.
        destruct (add_rows_spec m md ids L docs m' mr I B E1 (or_introl A)) as (L' & A1 & A2 & A3).
        exists L'. split; [constructor; auto|]. split; [eexists; eauto|]. split; [rewrite E2; auto|auto].
    - destruct (bad_length docs md) eqn:B.
      + injection H as <- <-. exists L. split; [|rewrite app_nil_r; split; eauto].
        apply call_add_path. destruct md as [md|]; [|discriminate]. apply add_wrong_length. cbn in B. apply negb_true_iff, Nat.eqb_neq in B. auto.
      + apply bind_Ok in H. destruct H as ((o1, (d1, h1)) & H0 & H). apply bind_Ok in H. destruct H as ((ids, i') & H1 & H2).
        destruct (add_or_create_rows E m md ids) as (m', mr) eqn:A. injection H2 as <- <-.
        inversion Ho as [|? ? Ho1 Ho2]; subst. inversion Ho2 as [|? ? Ho3 _]; subst.
        assert (Q : iops ++ [OReload; OUpdate docs g] = (iops ++ [OReload]) ++ [OUpdate docs g]) by (rewrite <- app_assoc; reflexivity).
        rewrite Q in *.
        destruct (reached_app _ _ _ _ _ _ _ _ _ _ _ R Ho1 (disciplined_app _ _ _ _ Hd) H0) as (R1 & _ & E1). cbn [fst snd spec_op] in *.
        destruct (reached_app _ _ _ _ _ _ _ _ _ _ _ R1 Ho3 Hd H1) as (R' & E2 & E3). cbn [spec_op fst snd] in E2, E3. rewrite E1, Ed in E2, E3. rewrite LL in E2.
        destruct (add_rows_spec m md ids L docs m' mr I B E2 (or_intror A)) as (L' & A1 & A2 & A3).
        exists L'. split; [constructor; auto|]. split; [eexists; eauto|]. split; [rewrite E3; auto|auto].
    - apply bind_Ok in H. destruct H as ((ids, i') & H1 & H2). injection H2 as <- <-. inversion Ho as [|? ? Ho1 _]; subst.
      destruct (reached_app _ _ _ _ _ _ _ _ _ _ _ R Ho1 Hd H1) as (R' & E1 & E2). cbn [spec_op fst snd] in E1, E2. rewrite Ed, LL in E1. rewrite Ed in E2.
      exists (L ++ bare docs). subst ids. split; [constructor|]. split; [eexists; eauto|]. rewrite !map_app, map_fst_bare, map_snd_bare.
      split; auto. apply items_none; auto.
    - apply bind_Ok in H. destruct H as ((out, i') & H1 & H2). destruct (delete_metadata_rows m (hd 0%Z out) ids) as (m', mr) eqn:A. injection H2 as <- <-.
      inversion Ho as [|? ? Ho1 _]; subst.
      destruct (reached_app _ _ _ _ _ _ _ _ _ _ _ R Ho1 Hd H1) as (R' & E1 & E2). cbn [spec_op fst snd] in E1, E2. rewrite Ed, <- delete_positions_map in E2.
      rewrite Ed, LL, <- delete_positions_map, map_length in E1.
      exists (delete_positions ids L). split.
      { apply call_delete. intros out' Ho'. destruct mr; cbn in Ho'; congruence. }
      split; [eexists; eauto|]. split; auto. rewrite delete_positions_map. unfold delete_metadata_rows in A.
      destruct (0 <? hd 0%Z out)%Z eqn:Z0.
      + cbn [andb] in A. destruct (db_exists m) eqn:X.
        * eapply items_delete; eauto.
        * injection A as <- <-. destruct m; try discriminate. eapply items_delete; [exact I|]. unfold MetaModel.delete. destruct ids; reflexivity.
      + cbn [andb] in A. injection A as <- <-. rewrite E1 in Z0. cbn [hd] in Z0. apply Z.ltb_ge in Z0.
        rewrite delete_positions_same; auto. rewrite <- delete_positions_map, !map_length.
        assert (length (delete_positions ids L) <= length L); [|lia].
        unfold delete_positions. rewrite map_length. pose proof (filter_le (fun p : Z * (doc * option json) => negb (existsb (Z.eqb (fst p)) ids)) (combine (map Z.of_nat (seq 0 (length L))) L)).
        rewrite combine_length, map_length, seq_length in H. lia.
    - apply bind_Ok in H. destruct H as ((o1, i') & H1 & H2). injection H2 as <- <-. inversion Ho as [|? ? Ho1 _]; subst.
      destruct (reached_app _ _ _ _ _ _ _ _ _ _ _ R Ho1 Hd H1) as (R' & E1 & E2). cbn [spec_op fst snd] in E1, E2. rewrite Ed in E2.
      exists L. split; [constructor|]. split; [eexists; eauto|]. auto.
  Qed.
  Lemma sexec_all_good ops : forall iops s L outs s', good_sync iops s L -> Forall (op_ok D) (flat_map index_ops ops) ->
    disciplined true false (iops ++ flat_map index_ops ops) -> sexec_all V E s ops = Ok (outs, s') ->
    exists L', call_history L ops outs L' /\ good_sync (iops ++ flat_map index_ops ops) s' L'.
  Proof.
    induction ops as [|o ops IH]; intros iops s L outs s' Gs Ho Hd H.
    - injection H as <- <-. exists L. cbn. rewrite app_nil_r. split; auto. constructor.
    - cbn [sexec_all flat_map] in *. apply bind_Ok in H. destruct H as ((r, s1) & H1 & H). apply bind_Ok in H. destruct H as ((rs, s2) & H2 & H3). injection H3 as <- <-.
      apply Forall_app in Ho. destruct Ho as (Ho1 & Ho2). rewrite app_assoc in *.
      destruct (sexec_good _ _ _ _ _ _ Gs Ho1 (disciplined_app _ _ _ _ Hd) H1) as (L1 & C1 & G1).
      destruct (IH _ _ _ _ _ G1 Ho2 Hd H2) as (L2 & C2 & G2). exists L2. split; auto. econstructor; eauto.
  Qed.
End HISTORY.

Lemma adds_items L docs md r L' : items_ok md -> (forall v, In (Some v) (map snd L) -> item_ok v) -> adds L docs md r L' ->
  forall v, In (Some v) (map snd L') -> item_ok v.
Proof.
  intros K H A v Hv. inversion A; subst; auto; rewrite map_app in Hv; apply in_app_or in Hv; (destruct Hv as [Hv|Hv]; [auto|]).
  - rewrite map_snd_bare in Hv. apply repeat_spec in Hv. discriminate.
  - rewrite map_snd_with in Hv by auto. apply in_map_iff in Hv. destruct Hv as (x & Q & Hx). injection Q as <-. cbn in K. rewrite Forall_forall in K. auto.
  - rewrite map_snd_bare in Hv. apply repeat_spec in Hv. discriminate.
Qed.
Lemma call_items L ops rs L' : call_history L ops rs L' -> Forall sop_ok ops -> (forall v, In (Some v) (map snd L) -> item_ok v) ->
  forall v, In (Some v) (map snd L') -> item_ok v.
Proof.
  induction 1 as [|L o r L1 ops rs L2 C _ IH]; intros F H; auto. inversion F as [|? ? F1 F2]; subst. apply IH; auto.
  inversion C; subst; cbn in F1; [eapply adds_items; eauto..| | |auto].
  - intros v Hv. rewrite map_app, map_snd_bare in Hv. apply in_app_or in Hv. destruct Hv as [Hv|Hv]; auto. apply repeat_spec in Hv. discriminate.
  - intros v Hv. rewrite delete_positions_map in Hv. apply H. unfold delete_positions in Hv. apply in_map_iff in Hv. destruct Hv as ((z, y) & Q & Hv).
    apply filter_In in Hv. destruct Hv as (Hv & _). apply in_combine_r in Hv. cbn in Q. subst. auto.
Qed.
(** C24 *)
Lemma sync_history V E D docs0 g0 md0 ops outs s : sreached V E D docs0 g0 md0 ops outs s ->
  exists out0 outs' L0 L, outs = out0 :: outs' /\ adds [] docs0 md0 out0 L0 /\ length L0 = length docs0 /\ call_history L0 ops outs' L
    /\ (forall x, load (fst (fst s)) = Ok x -> env_shows V x (map fst L))
    /\ (concat (map fst L) <> [] -> exists x, load (fst (fst s)) = Ok x)
    /\ described E (snd s) L.
Proof.
  intros (HD & Hk & G & Hdim & I0 & So & Ho & Hd & H).
  unfold srun in H. apply bind_Ok in H. destruct H as ((out0, s0) & H0 & H). apply bind_Ok in H. destruct H as ((outs', s') & H1 & H2). injection H2 as <- <-.
  unfold screate in H0. destruct (bad_length docs0 md0) eqn:B; [discriminate|]. apply bind_Ok in H0. destruct H0 as ((o1, i0) & R0 & H0).
  fold (positions 0 (length docs0)) in H0.
  destruct (add_or_create_rows E NoDb md0 (positions 0 (length docs0))) as (m0, mr) eqn:A. injection H0 as <- <-.
  assert (Hi : items E NoDb (map snd (@nil (doc * option json)))) by (cbn; intro i; unfold at_pos; destruct (i <? 0)%Z; auto; destruct (Z.to_nat i); auto).
  destruct (add_rows_spec E G NoDb md0 _ [] docs0 m0 mr Hi B eq_refl (or_intror A)) as (L0 & A1 & A2 & A3).
  cbn [map app] in A2.
  assert (Gs : good_sync V E D docs0 g0 [] (i0, m0) L0).
  { split; [|split; auto]. exists o1. destruct i0. split; auto. split; auto. split; auto. split; auto. split; [exact I|]. exact R0. }
  destruct (sexec_all_good V E D docs0 g0 G ops [] _ _ _ _ Gs Ho Hd H1) as (L & C & (iouts & R) & Ed & It).
  assert (Hi' : forall v, In (Some v) (map snd L) -> item_ok v).
  { eapply call_items; eauto. eapply adds_items; eauto. intros v []. }
  exists (after_metadata (positions 0 (length docs0)) mr), outs', L0, L. split; auto. split; auto.
  split; [rewrite <- A2, map_length; auto|]. split; auto.
  destruct (history_list _ _ _ _ _ _ _ _ R) as (_ & S1 & S2). rewrite Ed in S1, S2. split; auto. split; auto.
  intro i. pose proof (items_reflect E _ _ G Hi' It i) as X. unfold at_pos in X. destruct (i <? 0)%Z; auto.
  rewrite nth_error_map in X. destruct (nth_error L (Z.to_nat i)) as [(dc, o)|]; auto.
Qed.

Lemma nth_error_ext {A} (l m : list A) : (forall n, nth_error l n = nth_error m n) -> l = m.
Proof.
  revert m. induction l as [|x l IH]; intros [|y m] H; auto; [discriminate (H 0)..|]. pose proof (H 0) as H0. injection H0 as ->.
  f_equal. apply IH. intro n. apply (H (S n)).
Qed.
Lemma filter_map_id {A} (p : A -> bool) l : length (filter p l) = length (filter (fun b : bool => b) (map p l)).
Proof. induction l as [|x l IH]; auto. cbn. destruct (p x); cbn; auto. Qed.
(** The number of rows is the number of documents that have an item. *)
Lemma described_count E m L : good_engine E -> wf m -> m <> Broken -> described E m L ->
  count m = Ok (length (filter (fun p => match snd p with Some _ => true | None => false end) L)).
Proof.
  intros G W NB Ds.
  assert (RL : row_list E m (map (fun k => row_at E m (Z.of_nat k)) (seq 0 (length L)))).
  { intro i. symmetry. apply at_pos_tabulate. intros j Hj. specialize (Ds j). destruct (Z.ltb_spec j 0); auto.
    destruct (nth_error L (Z.to_nat j)) as [p|] eqn:Nn; [|auto]. assert (Z.to_nat j < length L) by (apply nth_error_Some; congruence). lia. }
  rewrite (count_rows E m _ G W NB RL). f_equal. rewrite filter_map_id, (filter_map_id _ L). do 2 f_equal. rewrite map_map.
  apply nth_error_ext. intro n. rewrite !nth_error_map. specialize (Ds (Z.of_nat n)). destruct (Z.ltb_spec (Z.of_nat n) 0); [lia|]. rewrite Nat2Z.id in Ds.
  destruct (nth_error L n) as [(dc, o)|] eqn:Nn.
  - assert (n < length L) by (apply nth_error_Some; congruence). rewrite (nth_error_nth' _ 0), seq_nth by (rewrite ?seq_length; auto). cbn [option_map plus snd].
    f_equal. destruct o; [destruct Ds as (f & -> & _)|rewrite Ds]; reflexivity.
  - assert (nth_error (seq 0 (length L)) n = None) as -> by (apply nth_error_None; rewrite seq_length; apply nth_error_None; auto). reflexivity.
Qed.
Lemma sync_wf V E D docs0 g0 md0 ops outs s : sreached V E D docs0 g0 md0 ops outs s -> wf (snd s).
Proof.
  intros (HD & Hk & G & Hdim & I0 & So & Ho & Hd & H).
  unfold srun in H. apply bind_Ok in H. destruct H as ((out0, s0) & H0 & H). apply bind_Ok in H. destruct H as ((outs', s') & H1 & H2). injection H2 as <- <-.
  unfold screate in H0. destruct (bad_length docs0 md0) eqn:B; [discriminate|]. apply bind_Ok in H0. destruct H0 as ((o1, i0) & R0 & H0).
  fold (positions 0 (length docs0)) in H0.
  destruct (add_or_create_rows E NoDb md0 (positions 0 (length docs0))) as (m0, mr) eqn:A. injection H0 as <- <-.
  assert (Hi : items E NoDb (map snd (@nil (doc * option json)))) by (cbn; intro i; unfold at_pos; destruct (i <? 0)%Z; auto; destruct (Z.to_nat i); auto).
  destruct (add_rows_spec E G NoDb md0 _ [] docs0 m0 mr Hi B eq_refl (or_intror A)) as (L0 & A1 & A2 & A3).
  cbn [map app] in A2.
  assert (Gs : good_sync V E D docs0 g0 [] (i0, m0) L0).
  { split; [|split; auto]. exists o1. destruct i0. split; auto. split; auto. split; auto. split; auto. split; [exact I|]. exact R0. }
  destruct (sexec_all_good V E D docs0 g0 G ops [] _ _ _ _ Gs Ho Hd H1) as (L & C & (iouts & R) & Ed & It).
  eapply items_wf; eauto.
Qed.
