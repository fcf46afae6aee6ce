From Verif Require Import Base SearchProofs F32 Text SqlModel SqlSpec MetaModel MetaQuery MetaSpec MetaProofs MetaCreate MetaWhere FtsRank FtsRankSpec FtsRankProofs ApiEmbed ApiRead ApiReadSpec.
Open Scope nat_scope.

Lemma firsts_In ids i : In i (firsts ids) <-> In i ids.
Proof.
  induction ids as [|x ids IH]; [tauto|]. cbn [firsts In]. rewrite filter_In, IH. destruct (Z.eqb_spec i x) as [->|N]; cbn; [tauto|]. intuition congruence.
Qed.
Lemma subset_object i f : i64 i -> subset_of (JObj ((subset_column, JInt i) :: f)) = Some i.
Proof.
  intro H. unfold subset_of, json_get. cbn [find fst]. assert (R : text_eqb subset_column subset_column = true) by (vm_compute; reflexivity). rewrite R.
  cbn [option_map snd as_i64]. unfold i64 in H. destruct (Z.leb_spec (- 2 ^ 63) i); [|lia]. destruct (Z.ltb_spec i (2 ^ 63)); [reflexivity|lia].
Qed.
Lemma F2_length {B D} (R : B -> D -> Prop) l l' : Forall2 R l l' -> length l = length l'.
Proof. induction 1; cbn; congruence. Qed.
Section READ.
  Variable U : unicode.
  Variable E : engine.
  Variable reg : option (text -> bool).
  Set Default Proof Using "Type".

  Lemma map_fold l : forall m, fold_left (fun m v => match subset_of v with Some id => (id, v) :: m | None => m end) l m
    = rev (flat_map (fun v => match subset_of v with Some id => [(id, v)] | None => [] end) l) ++ m.
  Proof.
    induction l as [|v l IH]; intro m; [reflexivity|]. cbn [fold_left flat_map]. rewrite IH. destruct (subset_of v); cbn [app rev]; [rewrite <- app_assoc; reflexivity|reflexivity].
  Qed.
  Lemma objects_in s ids v i : Forall i64 ids -> In v (flat_map (object_at E s) (firsts ids)) -> subset_of v = Some i -> In i ids /\ shown E s i = Some v.
  Proof.
    intros W H Hs. apply in_flat_map in H. destruct H as (j & Hj & H). rewrite firsts_In in Hj. unfold object_at in H. destruct (row_at E s j) as [f|] eqn:R; [|destruct H].
    destruct H as [<-|[]]. rewrite Forall_forall in W. rewrite subset_object in Hs by (apply W; exact Hj). injection Hs as <-. split; [exact Hj|]. unfold shown. rewrite R. reflexivity.
  Qed.
  Lemma find_shown s ids i : Forall i64 ids -> In i ids ->
    option_map snd (find (fun p => (fst p =? i)%Z) (meta_map (flat_map (object_at E s) (firsts ids)))) = shown E s i.
  Proof.
    intros W Hi. unfold meta_map. rewrite map_fold, app_nil_r.
    match goal with |- option_map snd (find ?p ?l) = _ => set (L := l); destruct (find p L) as [(j, v)|] eqn:F end.
    - apply find_some in F. destruct F as (Hin & Hj). cbn [fst] in Hj. apply Z.eqb_eq in Hj. subst j. unfold L in Hin. apply in_rev in Hin. apply in_flat_map in Hin.
      destruct Hin as (w & Hw & Hin). destruct (subset_of w) as [k|] eqn:Sw; [|destruct Hin]. destruct Hin as [[= -> ->]|[]]. cbn. symmetry. exact (proj2 (objects_in s ids v i W Hw Sw)).
    - cbn. unfold shown. destruct (row_at E s i) as [f|] eqn:R; [|reflexivity]. exfalso.
      assert (Hin : In (i, JObj ((subset_column, JInt i) :: f)) L).
      { unfold L. apply in_rev. rewrite rev_involutive. apply in_flat_map. exists (JObj ((subset_column, JInt i) :: f)). split.
        - apply in_flat_map. exists i. split; [rewrite firsts_In; exact Hi|]. unfold object_at. rewrite R. left. reflexivity.
        - rewrite subset_object by (rewrite Forall_forall in W; auto). left. reflexivity. }
      pose proof (find_none _ _ F _ Hin) as Q. cbn [fst] in Q. rewrite Z.eqb_refl in Q. discriminate.
  Qed.
  Lemma shown_nodb i : shown E NoDb i = None.
  Proof. reflexivity. Qed.
  Lemma fetch_ok s ids : good_engine E -> wf s -> s <> Broken -> Forall i64 ids -> fetch_metadata_for_docs U E reg s ids = Ok (map (shown E s) ids).
  Proof.
    intros G W NB I. unfold fetch_metadata_for_docs. destruct s as [| |d]; [|congruence|].
    - cbn [store_exists negb]. f_equal. clear. induction ids as [|i ids IH]; [reflexivity|]. cbn [length repeat map]. rewrite shown_nodb. f_equal. exact IH.
    - cbn [store_exists negb]. cbn [get]. rewrite get_by_ids by auto. cbn [bind]. f_equal. apply map_ext_in. intros i Hi. exact (find_shown (Db d) ids i I Hi).
  Qed.
  Lemma fetch_Ok s ids m : good_engine E -> wf s -> Forall i64 ids -> fetch_metadata_for_docs U E reg s ids = Ok m -> m = map (shown E s) ids.
  Proof.
    intros G W I H. destruct s as [| |d].
    - rewrite fetch_ok in H by (auto; discriminate). now injection H as <-.
    - discriminate.
    - rewrite fetch_ok in H by (auto; discriminate). now injection H as <-.
  Qed.
  Lemma check_ok s ids : good_engine E -> wf s -> s <> Broken -> s <> NoDb -> Forall i64 ids ->
    exists ex mi, check_metadata U E reg s ids = Ok (ex, mi)
      /\ ex = filter (fun i => match row_at E s i with Some _ => true | None => false end) ids
      /\ mi = filter (fun i => match row_at E s i with Some _ => false | None => true end) ids.
  Proof.
    intros G W NB N0 I. eexists. eexists. split; [|split; reflexivity]. destruct ids as [|i0 ids0]; [reflexivity|]. set (ids := i0 :: ids0) in *.
    unfold check_metadata. change (match ids with [] => ?a | _ :: _ => ?b end) with b. destruct s as [| |d]; [congruence|congruence|]. cbn [store_exists negb get].
    rewrite get_by_ids by auto. cbn [bind]. cbv zeta.
    match goal with |- Ok (filter _ ids, filter _ ids) = _ => idtac end.
    assert (M : forall i, In i ids -> zmem i (flat_map (fun m => match subset_of m with Some z => [z] | None => [] end) (flat_map (object_at E (Db d)) (firsts ids)))
       = match row_at E (Db d) i with Some _ => true | None => false end).
    { intros i Hi. destruct (row_at E (Db d) i) as [f|] eqn:R.
      - apply zmem_In. apply in_flat_map. exists (JObj ((subset_column, JInt i) :: f)). split.
        + apply in_flat_map. exists i. split; [rewrite firsts_In; exact Hi|]. unfold object_at. rewrite R. left. reflexivity.
        + rewrite subset_object by (rewrite Forall_forall in I; auto). left. reflexivity.
      - apply zmem_not. intro H. apply in_flat_map in H. destruct H as (v & Hv & H). destruct (subset_of v) as [z|] eqn:Sv; [|destruct H]. destruct H as [->|[]].
        pose proof (proj2 (objects_in _ ids v i I Hv Sv)) as Q. unfold shown in Q. rewrite R in Q. discriminate. }
    f_equal. f_equal; apply filter_ext_in; intros i Hi; [exact (M i Hi)|]. etransitivity; [exact (f_equal negb (M i Hi))|]. destruct (row_at E (Db d) i); reflexivity.
  Qed.
End READ.

Section SEARCH.
  Variable U : unicode.
  Variable E : engine.
  Variable reg : option (text -> bool).
  Variable A : arith.
  Variable iter : list (Z * num A) -> list (Z * num A).
  Variable X : searcher A.
  Variable default_top_k : nat.
  Variable alpha_default : num A.
  Hypothesis IT : forall m, Permutation (iter m) m.
  Hypothesis GX : good_searcher X.
  Hypothesis GE : good_engine E.
  Hypothesis HU : good_unicode U.
  Set Default Proof Using "Type".

  Lemma ranked_good m k : let r := ranked A iter m k in length (fst r) = length (snd r) /\ length (fst r) <= k /\ incl (fst r) (map fst m).
  Proof using IT.
    cbv zeta. unfold ranked. cbv zeta. cbn [fst snd]. rewrite !map_length. split; [reflexivity|]. split; [apply firstn_le_length|].
    intros i Hi. apply in_map_iff in Hi. destruct Hi as (p & <- & Hp). apply firstn_In in Hp. apply isort_In in Hp. apply in_map. eapply Permutation_in; [apply IT|exact Hp].
  Qed.
  Lemma fst_rrf w ids : map fst (rrf_terms A w ids) = ids.
  Proof.
    unfold rrf_terms. rewrite map_map. cbn [fst]. generalize 0 as n. intro n. revert n. induction ids as [|i ids IH]; intro n; [reflexivity|]. cbn [length seq combine map fst]. f_equal. apply IH.
  Qed.
  Lemma fst_weighted w ids scores : incl (map fst (weighted A w (min_max_normalize A ids scores))) ids.
  Proof.
    unfold weighted, min_max_normalize. destruct scores as [|x l]; [intros i []|]. rewrite map_map. cbn [fst]. cbv zeta.
    assert (N : forall f : Z * num A -> num A, incl (map (fun p => fst p) (map (fun p => (fst p, f p)) (combine ids (x :: l)))) ids).
    { intros f i Hi. rewrite map_map in Hi. cbn [fst] in Hi. apply in_map_iff in Hi. destruct Hi as (p & <- & Hp). destruct p. apply in_combine_l in Hp. exact Hp. }
    destruct (f_cmp A _ _) as [[]|]; try apply N. intros i Hi. rewrite map_map in Hi. cbn [fst] in Hi. rewrite map_id in Hi. exact Hi.
  Qed.
  Lemma accumulated l : incl (map fst (fold_left (bump A) l [])) (map fst l).
  Proof. intros i Hi. destruct (accumulate_inv A l) as (_ & K & _). apply K. exact Hi. Qed.
  Lemma truncated_top k (r : list Z * list (num A)) : length (fst r) = length (snd r) -> truncated A k r = top k r.
  Proof.
    destruct r as (a, b). unfold truncated, top. cbn [fst snd]. cbv zeta. revert k b. induction a as [|x a IH]; intros k [|y b] H; try discriminate; [destruct k; reflexivity|].
    destruct k as [|k]; [reflexivity|]. cbn [combine firstn map fst snd]. cbn [length] in H. injection H as H. specialize (IH k b H). injection IH as I1 I2. rewrite I1, I2. reflexivity.
  Qed.
  Lemma top_good k n sub (r : list Z * list (num A)) : good_result n sub r -> good_result k sub (top k r).
  Proof.
    intros (L & _ & I & Sb). unfold top, good_result. cbn [fst snd]. rewrite !firstn_length, L. split; [reflexivity|]. split; [lia|]. split.
    - apply Forall_forall. intros i Hi. apply firstn_In in Hi. rewrite Forall_forall in I. auto.
    - destruct sub; [|exact Logic.I]. intros i Hi. apply firstn_In in Hi. auto.
  Qed.
  Lemma fuse_good rrf alpha k n sub sem kw : (forall r, sem = Some r -> good_result n sub r) -> (forall r, kw = Some r -> good_result n sub r) ->
    good_result k sub (fuse A iter rrf alpha k sem kw).
  Proof using IT.
    intros Hs Hk. unfold fuse. destruct sem as [(si, ss)|]; destruct kw as [(ki, ks)|].
    - specialize (Hs _ eq_refl). specialize (Hk _ eq_refl). destruct Hs as (_ & _ & I1 & B1). destruct Hk as (_ & _ & I2 & B2). cbn [fst] in *.
      assert (Q : forall l, incl (map fst l) (si ++ ki) -> good_result k sub (ranked A iter (fold_left (bump A) l []) k)).
      { intros l Hl. destruct (ranked_good (fold_left (bump A) l []) k) as (R1 & R2 & R3). split; [exact R1|]. split; [exact R2|].
        assert (R4 : incl (fst (ranked A iter (fold_left (bump A) l []) k)) (si ++ ki)) by (intros i Hi; apply Hl, accumulated, R3, Hi).
        split.
        - apply Forall_forall. intros i Hi. apply R4, in_app_iff in Hi. rewrite Forall_forall in I1, I2. destruct Hi; auto.
        - destruct sub; [|exact Logic.I]. intros i Hi. apply R4, in_app_iff in Hi. destruct Hi; auto. }
      destruct rrf; unfold fuse_rrf, fuse_relative_score; apply Q; rewrite map_app.
      + rewrite !fst_rrf. apply incl_refl.
      + apply incl_app; [apply incl_appl|apply incl_appr]; apply fst_weighted.
    - pose proof (Hs _ eq_refl) as H. rewrite truncated_top by apply H. eapply top_good. exact H.
    - pose proof (Hk _ eq_refl) as H. rewrite truncated_top by apply H. eapply top_good. exact H.
    - split; [reflexivity|]. split; [cbn; lia|]. split; [constructor|]. destruct sub; [intros i []|exact Logic.I].
  Qed.
  Lemma effective_stands s r sub : wf s -> match r_filter A r with Some c => ascii_text c /\ without_regexp U c | None => True end ->
    effective_subset U E reg A s r = Ok sub -> stands_for U E s r sub.
  Proof using GE HU.
    intros W Hc H. unfold effective_subset in H. unfold stands_for, allowed. destruct (r_filter A r) as [c|].
    - destruct (store_exists s); [|discriminate]. cbn [negb] in H. apply bind_Ok in H. destruct H as (ids & H & E1). injection E1 as <-.
      destruct Hc as (H1 & H2). exact (proj2 (where_condition_ok U E reg s c _ ids HU GE W H1 H2 H)).
    - injection H as <-. destruct (r_subset A r) as [l|]; [tauto|]. auto.
  Qed.
  Lemma stands_allowed s (r : request A) sub l : stands_for U E s r sub -> match sub with Some ids => incl l ids | None => True end -> Forall (allowed U E s r) l.
  Proof.
    intros St H. apply Forall_forall. intros i Hi. unfold stands_for in St. destruct sub as [ids|]; [apply St; auto|]. destruct St as (F1 & F2). unfold allowed. rewrite F1, F2. exact Logic.I.
  Qed.
  Lemma describe_ok s i rs a : wf s -> Forall i64 (fst rs) -> describe U E reg A s (i, rs) = Ok a ->
    a_query A a = i /\ (a_ids A a, a_scores A a) = rs /\ a_meta A a = map (shown E s) (a_ids A a).
  Proof using GE.
    intros W I H. unfold describe in H. destruct rs as (ids, sc). apply bind_Ok in H. destruct H as (m & H & E1). injection E1 as <-. cbn [a_query a_ids a_scores a_meta].
    split; [reflexivity|]. split; [reflexivity|]. eapply fetch_Ok; eauto.
  Qed.
  Lemma Forall2_numbered {B} (P : nat * B -> answer A -> Prop) (l : list B) : forall k (la : list (answer A)), Forall2 P (combine (seq k (length l)) l) la ->
    (forall x a, P x a -> a_query A a = fst x) -> length la = length l /\ map (a_query A) la = seq k (length l) /\ Forall2 (fun b a => exists i, P (i, b) a) l la.
  Proof.
    induction l as [|b l IH]; intros k la F HP; cbn [length seq combine] in F; inversion F as [|x a xs la' P1 F1]; subst.
    - split; [reflexivity|]. split; [reflexivity|]. constructor.
    - destruct (IH _ _ F1 HP) as (L & Q & F2). cbn [length map seq]. split; [now rewrite L|]. split; [rewrite Q, (HP _ _ P1); reflexivity|]. constructor; [eauto|exact F2].
  Qed.

  Definition ok_answer s r (a : answer A) := answer_ok U E s default_top_k r a.
  Lemma good_answer_ok s r sub i rs a : wf s -> stands_for U E s r sub -> good_result (wanted default_top_k r) sub rs -> describe U E reg A s (i, rs) = Ok a -> ok_answer s r a.
  Proof using GE.
    intros W St (L & K & I & Sb) H. destruct (describe_ok s i rs a W I H) as (_ & E1 & M). destruct rs as (ids, sc). injection E1 as E1 E2. cbn [fst snd] in *.
    unfold ok_answer, answer_ok. rewrite M, E1, E2. split; [auto|]. split; [exact K|]. split; [eapply stands_allowed; eauto|]. reflexivity.
  Qed.

  Lemma semantic_ok s r qs sub l : wf s -> stands_for U E s r sub -> semantic_only U E reg A X s qs (wanted default_top_k r) sub = Ok l ->
    in_order (length qs) l /\ Forall (ok_answer s r) l /\ Forall2 (by_embedding X (wanted default_top_k r) sub) qs l.
  Proof using GE GX.
    intros W St H. unfold semantic_only in H. apply bind_Ok in H. destruct H as (ms & Hm & H). match type of H with (if ?b then _ else _) = _ => destruct b eqn:FB end; [|discriminate].
    apply bind_Ok in H. destruct H as (rs & Hr & H). apply mapM_Ok_inv in Hm. apply mapM_Ok_inv in Hr. apply mapM_Ok_inv in H. unfold numbered in H. rewrite forallb_forall in FB.
    assert (G : forall rr, In rr rs -> good_result (wanted default_top_k r) sub rr).
    { intros rr Hin. apply In_nth_error in Hin. destruct Hin as (n & Hn). clear H Hm. revert n Hn. induction Hr as [|m r0 ms' rs' H0 Hr IH]; intros [|n] Hn; try discriminate.
      - cbn in Hn. injection Hn as <-. eapply gs_search; [exact GX| |exact H0]. apply Z.eqb_eq, FB. left. reflexivity.
      - cbn in Hn. refine (IH _ n Hn). intros y Hy. apply FB. right. exact Hy. }
    assert (H' : Forall2 (fun x a => describe U E reg A s x = Ok a /\ good_result (wanted default_top_k r) sub (snd x)) (combine (seq 0 (length rs)) rs) l).
    { remember (combine (seq 0 (length rs)) rs) as cs eqn:Hcs. assert (Q : forall x, In x cs -> good_result (wanted default_top_k r) sub (snd x)).
      { intros (i, rr) Hin. subst cs. apply in_combine_r in Hin. cbn. auto. }
      clear Hcs Hr G FB Hm. induction H as [|x a cs la H0 H IH]; constructor; [split; [exact H0|apply Q; left; reflexivity]|]. apply IH. intros y Hy. apply Q. right. exact Hy. }
    destruct (Forall2_numbered _ rs 0 l H') as (L1 & L2 & F).
    { intros (i, rr) a (D & Gd). destruct (describe_ok s i rr a W (proj1 (proj2 (proj2 Gd))) D) as (E1 & _). exact E1. }
    assert (LQ : length rs = length qs) by (rewrite <- (F2_length _ _ _ Hr), <- (F2_length _ _ _ Hm); reflexivity).
    split; [split; congruence|]. split.
    - clear - F W St GE. induction F as [|rr a rs' la (i & D & Gd) F IH]; constructor; [|exact IH]. eapply good_answer_ok; eauto.
    - clear H H' L1 L2 LQ G. revert rs l Hr F. induction Hm as [|q m qs' ms' H0 Hm IH]; intros rs l Hr F; inversion Hr as [|? r0 ? rs' S1 S2]; subst; inversion F as [|? a ? la (i & D & Gd) F2]; subst; constructor.
      + exists m. split; [exact H0|]. split; [apply Z.eqb_eq, FB; left; reflexivity|]. destruct (describe_ok s i r0 a W (proj1 (proj2 (proj2 Gd))) D) as (_ & E1 & _). unfold result_of. rewrite E1. exact S1.
      + eapply IH; eauto. intros y Hy. apply FB. right. exact Hy.
  Qed.

  (** one text query *)
  Lemma top_all k n sub (r : list Z * list (num A)) : good_result n sub r -> n <= k -> top k r = r.
  Proof.
    intros (L & K & _) H. destruct r as (a, b). unfold top. cbn [fst snd] in *. rewrite !firstn_all2 by lia. reflexivity.
  Qed.
  Lemma one_keyword s r rrf alpha sub i t a : wf s -> stands_for U E s r sub ->
    one_text U E reg A iter X s rrf alpha (wanted default_top_k r) (wanted default_top_k r) sub (i, (t, None)) = Ok a ->
    a_query A a = i /\ ok_answer s r a /\ by_keyword X (wanted default_top_k r) sub t a.
  Proof using IT GE GX.
    intros W St H. unfold one_text in H. cbn [bind] in H. destruct (i_keyword A X t (wanted default_top_k r) sub) as [kw| |] eqn:K; cbn [bind] in H; [| |discriminate].
    - pose proof (gs_keyword _ GX _ _ _ _ K) as G.
      assert (F : fuse A iter rrf alpha (wanted default_top_k r) None (Some kw) = kw) by (cbn [fuse]; rewrite truncated_top by apply G; eapply top_all; [exact G|lia]).
      rewrite F in H. destruct (describe_ok s i kw a W (proj1 (proj2 (proj2 G))) H) as (Q & E1 & _). split; [exact Q|]. split; [eapply good_answer_ok; eauto|].
      left. unfold result_of. rewrite E1. exact K.
    - cbn [fuse] in H. destruct (describe_ok s i ([], []) a W (Forall_nil _) H) as (Q & E1 & _). split; [exact Q|]. split; [eapply good_answer_ok; [exact W|exact St| |exact H]|].
      + split; [reflexivity|]. split; [cbn; lia|]. split; [constructor|]. destruct sub; [intros ? []|exact Logic.I].
      + right. split; [exact K|exact E1].
  Qed.
  Lemma one_both s r rrf alpha sub i q t a : wf s -> stands_for U E s r sub ->
    one_text U E reg A iter X s rrf alpha (wanted default_top_k r) (wanted default_top_k r * 3) sub (i, (t, Some q)) = Ok a ->
    a_query A a = i /\ ok_answer s r a /\ by_both iter X rrf alpha (wanted default_top_k r) sub q t a.
  Proof using IT GE GX.
    intros W St H. unfold one_text in H. apply bind_Ok in H. destruct H as (sem & Hs & H). apply bind_Ok in Hs. destruct Hs as (m & Hm & Hs). apply bind_Ok in Hs.
    destruct Hs as (rs & Hs & E1). injection E1 as <-. unfold to_query in Hm. apply bind_Ok in Hm. destruct Hm as (m' & Hm & Hd).
    destruct (Z.eqb_spec (ncols m') (i_dim A X)) as [D|]; [|discriminate]. injection Hd as ->. destruct rs as (si, ss). pose proof (gs_search _ GX _ _ _ _ D Hs) as G1.
    apply bind_Ok in H. destruct H as (kw & Hk & H).
    assert (G2 : forall r0, kw = Some r0 -> good_result (wanted default_top_k r * 3) sub r0 /\ i_keyword A X t (wanted default_top_k r * 3) sub = Ok r0).
    { intros r0 ->. destruct (i_keyword A X t (wanted default_top_k r * 3) sub) as [kr| |] eqn:K; try discriminate. injection Hk as ->. split; [eapply gs_keyword; eauto|reflexivity]. }
    assert (G : good_result (wanted default_top_k r) sub (fuse A iter rrf alpha (wanted default_top_k r) (Some (si, ss)) kw)).
    { eapply fuse_good; [intros r0 [= <-]; exact G1|]. intros r0 Hr. exact (proj1 (G2 r0 Hr)). }
    destruct (describe_ok s i _ a W (proj1 (proj2 (proj2 G))) H) as (Q & E1 & _). split; [exact Q|]. split; [eapply good_answer_ok; eauto|].
    exists m, si, ss. split; [exact Hm|]. split; [exact D|]. split; [exact Hs|]. unfold result_of. rewrite E1. destruct kw as [(ki, ks)|].
    - left. exists ki, ks. split; [exact (proj2 (G2 _ eq_refl))|reflexivity].
    - right. split; [destruct (i_keyword A X t (wanted default_top_k r * 3) sub); try discriminate; reflexivity|]. cbn [fuse]. apply truncated_top. apply G1.
  Qed.
  Lemma texts_ok s r rrf alpha sub ts l : wf s -> stands_for U E s r sub ->
    mapM (one_text U E reg A iter X s rrf alpha (wanted default_top_k r) (wanted default_top_k r) sub) (numbered (combine ts (map (fun _ => None) ts))) = Ok l ->
    in_order (length ts) l /\ Forall (ok_answer s r) l /\ Forall2 (by_keyword X (wanted default_top_k r) sub) ts l.
  Proof using IT GE GX.
    intros W St H. apply mapM_Ok_inv in H. unfold numbered in H.
    assert (H' : Forall2 (fun x a => snd (snd x) = None /\ one_text U E reg A iter X s rrf alpha (wanted default_top_k r) (wanted default_top_k r) sub x = Ok a)
      (combine (seq 0 (length (combine ts (map (fun _ : text => @None sent) ts)))) (combine ts (map (fun _ => None) ts))) l).
    { remember (combine (seq 0 _) _) as cs eqn:Hcs in H. rewrite <- Hcs.
      assert (Q : forall x, In x cs -> snd (snd x) = None).
      { intros (i, (t, o)) Hin. subst cs. apply in_combine_r in Hin. apply in_combine_r in Hin. apply in_map_iff in Hin. destruct Hin as (? & E1 & _). exact (eq_sym E1). }
      clear Hcs. induction H as [|x a cs la H0 H IH]; constructor; [split; [apply Q; left; reflexivity|exact H0]|]. apply IH. intros y Hy. apply Q. right. exact Hy. }
    destruct (Forall2_numbered _ _ 0 l H') as (L1 & L2 & F).
    { intros (i, (t, o)) a (N & D). cbn [snd] in N. subst o. destruct (one_keyword s r rrf alpha sub i t a W St D) as (E1 & _). exact E1. }
    assert (LC : length (combine ts (map (fun _ : text => @None sent) ts)) = length ts) by (rewrite combine_length, map_length; lia).
    rewrite LC in L1, L2. split; [split; assumption|].
    assert (F' : Forall2 (fun t a => ok_answer s r a /\ by_keyword X (wanted default_top_k r) sub t a) ts l).
    { clear H H' L1 L2 LC. revert l F. induction ts as [|t ts IH]; intros l F; cbn [map combine] in F; inversion F as [|? a ? la (i & N & D) F2]; subst; constructor; [|apply IH; exact F2].
      destruct (one_keyword s r rrf alpha sub i t a W St D) as (_ & O & K). split; assumption. }
    split; [clear - F'; induction F' as [|t a ts la (O & _) F' IH]; constructor; assumption|].
    clear - F'. induction F' as [|t a ts la (_ & O) F' IH]; constructor; assumption.
  Qed.

  (** ** The handler *)
  Lemma search_ok s r n l : wf s -> match r_filter A r with Some c => ascii_text c /\ without_regexp U c | None => True end ->
    search U E reg A iter X default_top_k alpha_default s r = Ok (n, l) ->
    in_order n l /\ Forall (ok_answer s r) l
    /\ exists sub, stands_for U E s r sub
       /\ ((listed (r_text A r) = [] /\ listed (r_queries A r) <> [] /\ Forall2 (by_embedding X (wanted default_top_k r) sub) (listed (r_queries A r)) l)
        \/ (listed (r_queries A r) = [] /\ listed (r_text A r) <> [] /\ Forall2 (by_keyword X (wanted default_top_k r) sub) (listed (r_text A r)) l)
        \/ (exists q t a, listed (r_queries A r) = [q] /\ listed (r_text A r) = [t] /\ l = [a]
            /\ by_both iter X (match r_fusion A r with Some f => text_eqb f (txt "rrf") | None => false end)
                 (match r_alpha A r with Some x => x | None => alpha_default end) (wanted default_top_k r) sub q t a)).
  Proof using IT GE GX HU.
    intros W Hc H. unfold search in H. cbv zeta in H.
    assert (NE : forall B (o : option (list B)), nonempty o = false -> listed o = []) by (intros B [[|x y]|]; cbn; congruence).
    assert (NE' : forall B (o : option (list B)), nonempty o = true -> listed o <> []) by (intros B [[|x y]|]; cbn; congruence).
    fold (wanted default_top_k r) in H.
    destruct (negb (nonempty (r_queries A r)) && negb (nonempty (r_text A r))) eqn:B1; [discriminate|].
    destruct (negb (_ && f_le A _ (f_1 A))) eqn:B2 in H; [discriminate|].
    destruct (negb (text_eqb _ (txt "rrf")) && _) eqn:B3 in H; [discriminate|].
    destruct (nonempty (r_queries A r) && nonempty (r_text A r) && negb (length (listed (r_queries A r)) =? 1)) eqn:B4; [discriminate|].
    apply bind_Ok in H. destruct H as (sub & Hs & H). pose proof (effective_stands s r sub W Hc Hs) as St.
    destruct (nonempty (r_queries A r)) eqn:NQ; destruct (nonempty (r_text A r)) eqn:NT; cbn [andb negb] in *; try discriminate.
    - destruct (Nat.eqb_spec (length (listed (r_queries A r))) 1) as [Q1|]; [|discriminate].
      destruct (Nat.eqb_spec (length (listed (r_queries A r))) (length (listed (r_text A r)))) as [Q2|]; [|discriminate]. cbn [negb] in H.
      apply bind_Ok in H. destruct H as (l' & H & E1). injection E1 as <- <-.
      destruct (listed (r_queries A r)) as [|q [|? ?]]; try discriminate. destruct (listed (r_text A r)) as [|t [|? ?]]; try discriminate.
      cbn [map combine] in H. unfold numbered in H. cbn [length seq combine mapM] in H. apply bind_Ok in H. destruct H as (a & H & E1). cbn [bind] in E1. injection E1 as <-.
      match type of H with one_text _ _ _ _ _ _ _ ?b _ _ _ _ _ = _ => assert (RR : b = match r_fusion A r with Some f => text_eqb f (txt "rrf") | None => false end) by (destruct (r_fusion A r); reflexivity) end.
      rewrite RR in H. destruct (one_both s r _ _ sub 0 q t a W St H) as (E1 & O & K). split; [split; [reflexivity|cbn; now rewrite E1]|].
      split; [constructor; [exact O|constructor]|]. exists sub. split; [exact St|]. right. right. exists q, t, a. split; [reflexivity|]. split; [reflexivity|]. split; [reflexivity|exact K].
    - apply bind_Ok in H. destruct H as (l' & H & E1). injection E1 as <- <-. destruct (semantic_ok s r _ sub l' W St H) as (O1 & O2 & O3).
      split; [exact O1|]. split; [exact O2|]. exists sub. split; [exact St|]. left. split; [apply NE; exact NT|]. split; [apply NE'; exact NQ|exact O3].
    - apply bind_Ok in H. destruct H as (l' & H & E1). injection E1 as <- <-. destruct (texts_ok s r _ _ sub _ l' W St H) as (O1 & O2 & O3).
      split; [exact O1|]. split; [exact O2|]. exists sub. split; [exact St|]. right. left. split; [apply NE; exact NQ|]. split; [apply NE'; exact NT|exact O3].
  Qed.
End SEARCH.
