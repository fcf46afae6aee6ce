(** Full rebuilds and resumable first builds. *)
From Verif Require Import Base Text Colgrep ColgrepSpec ColgrepLists ColgrepSteps ColgrepIncr.
Open Scope nat_scope.

Definition skipped (T : tool) (pj : project) (p : path) : Prop := exists f, unreadable T pj p f.

Lemma skipped_not T pj p f : listed_once pj -> skipped T pj p -> ~ indexable T pj p f.
Proof.
  intros N (g & Hg & Hu) (Hc & Hv). rewrite (candidate_fun T pj p g f N Hg Hc) in Hu. congruence.
Qed.
Lemma note_dirty T l s : s_dirty (fold_left (note_parsed T) l s) = s_dirty s.
Proof.
  revert s. induction l as [|e l IH]; intros s; cbn; auto. rewrite IH. unfold note_parsed. now destruct (parse T e).
Qed.

Lemma NoDup_app_inv {A} (a b : list A) : NoDup (a ++ b) -> NoDup a /\ NoDup b /\ (forall x, In x a -> ~ In x b).
Proof.
  induction a as [|x a IH]; cbn; intros H; [split; [constructor|auto]|].
  inversion H as [|? ? H1 H2]; subst. destruct (IH H2) as (I1 & I2 & I3). split; [constructor; auto|split; [auto|]].
  - intros Hx. apply H1, in_or_app. now left.
  - intros y [<-|Hy]; [|now apply I3]. intros Hy. apply H1, in_or_app. now right.
Qed.

(** ** Full rebuild *)
Lemma parsed_wanted T pj : parsed_rows T (scan T pj) = wanted T pj.
Proof.
  unfold parsed_rows, scan, wanted. induction (p_files pj) as [|(p, f) l IH]; auto. cbn [filter flat_map fst snd].
  destruct (p_visible pj p && t_language T p && (f_size f <=? t_max_size T)%Z) eqn:E; cbn [flat_map andb].
  - rewrite IH. f_equal. unfold parse. cbn [fst snd]. now destruct (t_utf8 T (f_content f)).
  - exact IH.
Qed.
Lemma rebuild_triple T pj d : listed_once pj -> wanted T pj <> [] ->
  triple (full_rebuild T pj) d (fun _ => True) (fun _ d' => snapshot T pj (skipped T pj) d').
Proof.
  intros N W. unfold full_rebuild.
  apply triple_bind with (Q := fun _ d' => d_building d' = false); [now apply triple_emit|]. intros _ d1 B1.
  apply triple_bind with (Q := fun _ d' => d_building d' = false); [now apply triple_emit|]. intros _ d2 B2.
  rewrite parsed_wanted. replace (nonempty (wanted T pj)) with true by now destruct (wanted T pj).
  apply triple_bind with (Q := fun _ d' => d_building d' = false /\ aligned d' (prepare T (wanted T pj))).
  { apply triple_emit; auto. split; [exact B2|]. split; reflexivity. }
  intros _ d3 (B3 & A3 & A3'). apply triple_emit; auto.
  exists (stamp (fold_left (note_parsed T) (scan T pj) default_state)), (prepare T (wanted T pj)).
  assert (FI : forall p i, assoc (s_files (fold_left (note_parsed T) (scan T pj) default_state)) p = Some i <->
    exists f, indexable T pj p f /\ i = info_of T f).
  { intros p i. rewrite (note_fold T _ _ p (scan_NoDup T pj N)). destruct (assoc (scan T pj) p) as [f|] eqn:Es.
    - apply assoc_In, scan_In in Es. destruct (t_utf8 T (f_content f)) eqn:Hu; split.
      + intros E. injection E as <-. exists f. split; auto. split; auto.
      + intros (g & Hg & ->). now rewrite (candidate_fun T pj p f g N Es (proj1 Hg)).
      + discriminate.
      + intros (g & Hg & _). rewrite (candidate_fun T pj p f g N Es (proj1 Hg)) in Hu. destruct Hg. congruence.
    - cbn. split; [discriminate|]. intros (g & (Hg & _) & _). apply scan_In in Hg. apply assoc_None in Es.
      destruct Es. apply in_map_iff. exists (p, g). auto. }
  cbn. split; [exact B3|]. split; [reflexivity|]. split; [reflexivity|]. split; [apply note_dirty|].
  split; [split; auto|]. split; [apply prepare_perm|]. split; [exact FI|].
  intros p Hp. apply note_ignored in Hp. destruct Hp as [[]|(f & Hf & Hu)].
  apply scan_In in Hf. assert (SK : skipped T pj p) by (exists f; split; auto). split; auto.
  destruct (assoc _ p) eqn:E; auto. apply FI in E. destruct E as (g & Hg & _). now destruct (skipped_not T pj p g N SK).
Qed.
Lemma forced_triple T sch sib pj d : listed_once pj -> wanted T pj <> [] ->
  triple (index T sch sib pj true) d (fun _ => True) (fun _ d' => snapshot T pj (skipped T pj) d').
Proof.
  intros N W. unfold index. apply triple_bind with (Q := fun a d' => True); [now apply triple_ask|]. intros a d1 _.
  cbn [negb andb when]. apply triple_bind with (Q := fun a d' => True); [now apply triple_ret|]. intros _ d2 _.
  apply triple_bind with (Q := fun a d' => True); [now apply triple_ask|]. intros b d3 _. now apply rebuild_triple.
Qed.

(** ** Resumable builds *)
Section BUILD.
  Context (T : tool) (pj : project).
  Hypothesis GT : good_tool T.
  Hypothesis N : listed_once pj.
  Hypothesis W : wanted T pj <> [].

  (** What the recorded files say of the rows. *)
  Definition good (s : state) (rows : list row) : Prop :=
    (forall p i, assoc (s_files s) p = Some i -> exists f, indexable T pj p f /\ i = info_of T f /\
       Permutation (frows p rows) (rows_of T p (f_content f))) /\
    (forall r, In r rows -> exists f, indexable T pj (r_file r) f /\ In r (rows_of T (r_file r) (f_content f))) /\
    (forall p, In p (s_ignored s) -> skipped T pj p).
  Definition stamped (d : store) : Prop := forall s, d_state d = Some s -> s_format s = true.
  (** A build of [pj] in progress or killed. *)
  Definition partial (d : store) : Prop :=
    exists rows extra,
      ((d_vec d = None /\ d_db d = None /\ rows = []) \/
       (d_building d = true /\ d_vec d = Some (rows ++ extra) /\ d_db d = Some (number 0 rows))) /\
      stamped d /\ good (load d) rows.
  Definition BInv (d : store) : Prop :=
    (d_vec d = None <-> d_db d = None) -> partial d \/ snapshot T pj (skipped T pj) d.

  Lemma empty_partial : partial empty_store.
  Proof.
    exists [], []. split; [left; auto|]. split; [intros s E; discriminate E|]. repeat split; cbn; try contradiction. discriminate.
  Qed.

  Definition level (d : store) (rows : list row) : Prop :=
    (d_vec d = None /\ d_db d = None /\ rows = []) \/ aligned d rows.
  (** The directory during the run: [s] is the state in memory. *)
  Definition st (s : state) (rows : list row) (d : store) : Prop :=
    d_building d = true /\ stamped d /\ level d rows /\ good s rows /\
    s_files (load d) = s_files s /\ (forall p, In p (s_ignored (load d)) -> skipped T pj p).

  Lemma good_load s rows d : good s rows -> s_files (load d) = s_files s ->
    (forall p, In p (s_ignored (load d)) -> skipped T pj p) -> good (load d) rows.
  Proof. intros (G1 & G2 & G3) E HI. split; [|split]; auto. intros p i. rewrite E. apply G1. Qed.
  Lemma st_inv s rows d : st s rows d -> BInv d.
  Proof.
    intros (B & S1 & L & Gd & E & HI) _. left. exists rows, []. rewrite app_nil_r.
    split; [destruct L as [L|(L1 & L2)]; [now left|right; auto]|]. split; auto. now apply (good_load s).
  Qed.
  Lemma st_level s rows rows' d d' : st s rows d -> level d' rows' -> good s rows' ->
    d_building d' = d_building d -> d_state d' = d_state d -> st s rows' d'.
  Proof.
    intros (B & S1 & L & Gd & E & HI) L' G' EB ES. unfold st, stamped, load in *. rewrite EB, ES. repeat (split; [assumption|]). assumption.
  Qed.
  Lemma good_keep s rows files : good s rows -> (forall p, In p files -> assoc (s_files s) p = None) -> good s (keep files rows).
  Proof.
    intros (G1 & G2 & G3) HF. split; [|split]; auto.
    - intros p i E. destruct (G1 p i E) as (f & H1 & H2 & H3). exists f. split; auto. split; auto.
      rewrite frows_keep. destruct (mem p files) eqn:Em; auto. apply mem_In, HF in Em. congruence.
    - intros r Hr. apply filter_In in Hr. now apply G2.
  Qed.
  Lemma good_add s rows new : good s rows ->
    (forall r, In r new -> assoc (s_files s) (r_file r) = None /\
       exists f, indexable T pj (r_file r) f /\ In r (rows_of T (r_file r) (f_content f))) -> good s (rows ++ new).
  Proof.
    intros (G1 & G2 & G3) HN. split; [|split]; auto.
    - intros p i E. destruct (G1 p i E) as (f & H1 & H2 & H3). exists f. split; auto. split; auto.
      rewrite frows_app, (frows_nil p new), app_nil_r; auto. intros r Hr <-. destruct (HN r Hr). congruence.
    - intros r Hr. apply in_app_or in Hr. destruct Hr as [Hr|Hr]; auto. now apply HN.
  Qed.

  (** The entries of the files to index. *)
  Definition sound (e : entry) : Prop :=
    exists f, indexable T pj (fst e) f /\ fst (snd e) = rows_of T (fst e) (f_content f) /\ snd (snd e) = info_of T f.
  Lemma units_In batch r : (forall e, In e batch -> sound e) -> In r (units_in batch) ->
    In (r_file r) (map fst batch) /\ exists f, indexable T pj (r_file r) f /\ In r (rows_of T (r_file r) (f_content f)).
  Proof.
    intros HS Hr. unfold units_in in Hr. apply in_flat_map in Hr. destruct Hr as (e & He & Hr).
    destruct (HS e He) as (f & H1 & H2 & _). rewrite H2 in Hr. assert (E := rows_of_file _ _ _ _ Hr). rewrite E.
    split; [now apply in_map|]. exists f. auto.
  Qed.
  Lemma units_frows batch p : (forall e, In e batch -> sound e) -> NoDup (map fst batch) ->
    frows p (units_in batch) = match assoc batch p with Some a => fst a | None => [] end.
  Proof.
    intros HS ND. unfold units_in. rewrite (frows_flat (fun e => fst (snd e))); auto.
    intros e r He Hr. destruct (HS e He) as (f & _ & H2 & _). rewrite H2 in Hr. now apply rows_of_file in Hr.
  Qed.

  Lemma flush_triple s rows batch d sch :
    st s rows d -> (forall e, In e batch -> sound e) -> (forall e, In e batch -> assoc (s_files s) (fst e) = None) ->
    units_in batch <> [] ->
    triple (flush_batch T sch (map fst batch) (units_in batch)) d BInv
      (fun _ d' => exists rows', st s rows' d' /\ aligned d' rows' /\
         rows' = keep (map fst batch) rows ++ prepare T (units_in batch)).
  Proof.
    intros S0 HS HA NE. unfold flush_batch.
    assert (HF : forall p, In p (map fst batch) -> assoc (s_files s) p = None).
    { intros p Hp. apply in_map_iff in Hp. destruct Hp as (e & <- & He). auto. }
    set (rows1 := keep (map fst batch) rows).
    assert (G1 : good s rows1) by (apply good_keep; auto; apply S0).
    apply triple_bind with (Q := fun _ d1 => st s rows1 d1).
    { assert (S0' := S0). destruct S0 as (B & S1 & [(V & D & ->)|L] & Gd & E & HI).
      - unfold triple, delete_files, ids_of_files. rewrite D. exists [], 0. split; [reflexivity|]. split; [exact S0'|].
        intros d' (e1 & e2 & Ee & -> & _). destruct e1; [|discriminate]. now apply (st_inv s []).
      - assert (S2 : st s rows1 (setvd d rows1 rows1)) by (apply (st_level s rows _ d); auto; right; now split).
        apply (delete_aligned _ d rows); auto; [now apply (st_inv s rows)|now apply (st_inv s rows1)]. }
    intros _ d1 S1. set (new := prepare T (units_in batch)).
    assert (HN : forall r, In r new -> assoc (s_files s) (r_file r) = None /\
       exists f, indexable T pj (r_file r) f /\ In r (rows_of T (r_file r) (f_content f))).
    { intros r Hr. apply (Permutation_in _ (prepare_perm T _)) in Hr. destruct (units_In batch r HS Hr) as (H1 & H2). split; auto. }
    assert (GN : forall y z, new = y ++ z -> good s (rows1 ++ y)).
    { intros y z Ey. apply good_add; auto. intros r Hr. apply HN. rewrite Ey. apply in_or_app. now left. }
    assert (NN : new <> []).
    { intros E. apply NE. apply Permutation_nil. rewrite <- E. unfold new. apply prepare_perm. }
    assert (S1' := S1). destruct S1 as (B & SM & [(V & D & E0)|L] & Gd & E & HI).
    - rewrite E0 in *. apply pipeline_create; auto.
      + now apply (st_inv s []).
      + intros X. cbn in X. destruct X as (_ & X). discriminate (X eq_refl).
      + intros x y Exy Nx. split.
        * intros X. cbn in X. destruct X as (X & _). discriminate (X eq_refl).
        * intros _. left. exists x, y. split; [right; cbn; rewrite Exy; auto|]. split; [exact SM|].
          apply (good_load s); auto. apply (GN x y). now symmetry.
      + exists new. split; [|split; [split; reflexivity|reflexivity]].
        apply (st_level s [] _ d1); auto; [right; split; reflexivity|].
        apply (GN new []). now rewrite app_nil_r.
    - apply (pipeline_update T sch new d1 rows1); auto.
      + intros y z w Ey _. left. exists (rows1 ++ y), z. split; [right; cbn; rewrite <- app_assoc; auto|]. split; [exact SM|].
        apply (good_load s); auto. now apply (GN y (z ++ w)).
      + exists (rows1 ++ new). split; [|split; [split; reflexivity|reflexivity]].
        apply (st_level s rows1 _ d1); auto; [right; split; reflexivity|]. apply (GN new []). now rewrite app_nil_r.
  Qed.

  Lemma commit_assoc s batch p : NoDup (map fst batch) ->
    assoc (s_files (commit s batch)) p = match assoc batch p with Some a => Some (snd a) | None => assoc (s_files s) p end.
  Proof.
    intros ND. unfold commit. cbn [s_files with_dirty with_files]. generalize (s_files s). clear s.
    induction batch as [|(q, a) l IH]; cbn [fold_left assoc map]; intros m; auto. inversion ND as [|? ? N1' N2]; subst.
    rewrite IH by exact N2. cbn [fst snd]. destruct (text_eqb p q) eqn:E.
    - apply text_eqb_eq in E. subst q. cbn in N1'. rewrite (proj2 (assoc_None l p) N1'). now rewrite assoc_put, text_eqb_refl.
    - destruct (assoc l p); auto. now rewrite assoc_put, E.
  Qed.
  Lemma commit_good s rows batch : good s rows -> (forall e, In e batch -> sound e) -> NoDup (map fst batch) ->
    (forall e, In e batch -> Permutation (frows (fst e) rows) (fst (snd e))) -> good (commit s batch) rows.
  Proof.
    intros (G1 & G2 & G3) HS ND HP. split; [|split]; auto. intros p i. rewrite commit_assoc by exact ND.
    destruct (assoc batch p) as [a|] eqn:E; [|apply G1]. intros X. injection X as <-. apply assoc_In in E.
    destruct (HS _ E) as (f & H1 & H2 & H3). cbn in *. exists f. split; auto. split; auto. rewrite <- H2. now apply (HP (p, a)).
  Qed.
  Lemma save_st s rows d : st s rows d -> forall s', good s' rows -> st s' rows (apply d (SaveState s')).
  Proof.
    intros (B & SM & L & Gd & E & HI) s' G'. split; [exact B|]. split; [intros x Ex; cbn in Ex; injection Ex as <-; reflexivity|].
    split; [exact L|]. split; [exact G'|]. split; [reflexivity|]. apply G'.
  Qed.

  Lemma loop_triple sch fs : forall s batch rows d,
    st s rows d -> (forall e, In e (batch ++ fs) -> sound e /\ fst (snd e) <> []) ->
    NoDup (map fst (batch ++ fs)) -> (forall e, In e (batch ++ fs) -> assoc (s_files s) (fst e) = None) ->
    triple (build_loop T sch s batch fs) d BInv
      (fun s' d' => exists rows', st s' rows' d' /\ s_ignored s' = s_ignored s /\
         (forall p, assoc (batch ++ fs) p = None -> assoc (s_files s') p = assoc (s_files s) p) /\
         (forall p a, assoc (batch ++ fs) p = Some a -> assoc (s_files s') p = Some (snd a))).
  Proof.
    assert (STEP : forall s batch rows d, st s rows d -> (forall e, In e batch -> sound e /\ fst (snd e) <> []) ->
      NoDup (map fst batch) -> (forall e, In e batch -> assoc (s_files s) (fst e) = None) -> units_in batch <> [] ->
      triple (flush_batch T sch (map fst batch) (units_in batch) ;;; emit (SaveState (commit s batch))) d BInv
        (fun _ d' => exists rows', st (commit s batch) rows' d')).
    { intros s batch rows d S0 HS ND HA NE.
      apply triple_bind with (Q := fun _ d' => exists rows', st s rows' d' /\ aligned d' rows' /\
         rows' = keep (map fst batch) rows ++ prepare T (units_in batch)).
      { apply flush_triple; auto. intros e He. now apply HS. }
      intros _ d1 (rows1 & S1 & A1 & E1).
      assert (S2 : st (commit s batch) rows1 (apply d1 (SaveState (commit s batch)))).
      { apply (save_st s); auto. apply commit_good; auto; [apply S1|intros e He; now apply HS|].
        intros e He. rewrite E1, frows_app, frows_keep. replace (mem (fst e) (map fst batch)) with true by (symmetry; apply mem_In; now apply in_map).
        cbn [app]. transitivity (frows (fst e) (units_in batch)); [apply frows_perm, prepare_perm|].
        rewrite units_frows; auto; [|intros x Hx; now apply HS]. destruct e as (p, a). cbn. now rewrite (In_assoc batch p a ND He). }
      apply triple_emit; [now apply (st_inv s rows1)|now apply (st_inv (commit s batch) rows1)|]. now exists rows1. }
    assert (REASSOC : forall (x y : act unit) (z : act state) d I Q, triple ((x ;;; y) ;;; z) d I Q -> triple (x ;;; y ;;; z) d I Q).
    { intros x y z d I Q (es & a & E & H). exists es, a. split; auto. rewrite <- E. unfold andthen.
      destruct (x d) as (e1 & [u| |]); auto. destruct (y (apply_all d e1)) as (e2 & [u'| |]); auto.
      rewrite apply_all_app. destruct (z _) as (e3 & r). now rewrite app_assoc. }
    induction fs as [|e fs IH]; intros s batch rows d S0 HS ND HA; cbn [build_loop].
    - rewrite app_nil_r in *. destruct (nonempty (units_in batch)) eqn:En.
      + assert (NE : units_in batch <> []) by now destruct (units_in batch).
        apply REASSOC. eapply triple_bind; [apply (STEP s batch rows d); auto|].
        intros _ d1 (rows1 & S1). cbn beta. apply triple_ret; [now apply (st_inv _ rows1 _ S1)|].
        exists rows1. split; auto. split; [reflexivity|]. split.
        * intros p Hp. rewrite commit_assoc by exact ND. now rewrite Hp.
        * intros p a Hp. rewrite commit_assoc by exact ND. now rewrite Hp.
      + assert (EB : batch = []).
        { destruct batch as [|e batch]; auto. exfalso. destruct (HS e) as (_ & X); [now left|].
          cbn in En. apply X. destruct (fst (snd e)); auto. discriminate En. }
        subst batch. apply triple_ret; [now apply (st_inv s rows)|]. exists rows. repeat (split; auto). discriminate.
    - assert (EA : batch ++ e :: fs = (batch ++ [e]) ++ fs) by now rewrite <- app_assoc. rewrite EA in *.
      destruct (t_checkpoint T <=? length (units_in (batch ++ [e]))) eqn:Ec.
      + assert (NDb : NoDup (map fst (batch ++ [e]))).
        { rewrite map_app in ND. exact (proj1 (NoDup_app_inv _ _ ND)). }
        assert (NDf : NoDup (map fst fs)).
        { rewrite map_app in ND. exact (proj1 (proj2 (NoDup_app_inv _ _ ND))). }
        assert (DJ : forall p, In p (map fst fs) -> assoc (batch ++ [e]) p = None).
        { intros p Hp. apply assoc_None. intros Hq. rewrite map_app in ND. exact (proj2 (proj2 (NoDup_app_inv _ _ ND)) p Hq Hp). }
        apply REASSOC. eapply triple_bind.
        { apply (STEP s (batch ++ [e]) rows d); auto.
          - intros x Hx. apply HS, in_or_app. now left.
          - intros x Hx. apply HA, in_or_app. now left.
          - unfold units_in. rewrite flat_map_app. cbn. rewrite app_nil_r. intros X. apply app_eq_nil in X.
            destruct X as (_ & X). destruct (HS e) as (_ & Y); auto. apply in_or_app. left. apply in_or_app. right. now left. }
        intros _ d1 (rows1 & S1). cbn beta. eapply triple_conseq; [apply (IH (commit s (batch ++ [e])) [] rows1 d1)|]; auto.
        * intros x Hx. apply HS, in_or_app. now right.
        * intros x Hx. rewrite commit_assoc by exact NDb. rewrite DJ; [|now apply in_map]. apply HA, in_or_app. now right.
        * intros s' d' (rows' & H1 & H2 & H3 & H4). cbn [app] in H3, H4. exists rows'. split; auto. split; [exact H2|].
          assert (AA : forall p, assoc ((batch ++ [e]) ++ fs) p = match assoc (batch ++ [e]) p with Some a => Some a | None => assoc fs p end)
            by (intros; apply assoc_app).
          split.
          -- intros p Hp. rewrite AA in Hp. destruct (assoc (batch ++ [e]) p) eqn:E1; [discriminate|]. rewrite H3 by exact Hp.
             rewrite commit_assoc by exact NDb. now rewrite E1.
          -- intros p a Hp. rewrite AA in Hp. destruct (assoc (batch ++ [e]) p) eqn:E1.
             ++ injection Hp as ->. assert (assoc fs p = None).
                { apply assoc_None. intros Hf. apply DJ in Hf. congruence. }
                rewrite H3 by assumption. rewrite commit_assoc by exact NDb. now rewrite E1.
             ++ now apply H4.
      + apply (IH s (batch ++ [e]) rows d); auto.
  Qed.

  Lemma add_ignored_fold l s : s_files (fold_left add_ignored l s) = s_files s /\
    s_dirty (fold_left add_ignored l s) = s_dirty s /\
    forall p, In p (s_ignored (fold_left add_ignored l s)) <-> In p (s_ignored s) \/ In p l.
  Proof.
    revert s. induction l as [|q l IH]; intros s; cbn [fold_left].
    - split; [reflexivity|]. split; [reflexivity|]. intros p. cbn. tauto.
    - destruct (IH (add_ignored s q)) as (H1 & H2 & H3). rewrite H1, H2. split; [reflexivity|]. split; [reflexivity|].
      intros p. rewrite H3. cbn. tauto.
  Qed.
  Lemma entries_assoc l p : NoDup (map fst l) ->
    assoc (parsed_entries T l) p = match assoc l p with
      | Some f => if t_utf8 T (f_content f) then Some (rows_of T p (f_content f), info_of T f) else None
      | None => None end.
  Proof.
    induction l as [|(q, f) l IH]; intros ND; auto. inversion ND as [|? ? N1' N2]; subst. cbn [parsed_entries flat_map assoc].
    rewrite assoc_app. change (flat_map _ l) with (parsed_entries T l). rewrite IH by exact N2. unfold parse. cbn [fst snd].
    destruct (text_eqb p q) eqn:E.
    - apply text_eqb_eq in E. subst q. destruct (t_utf8 T (f_content f)); cbn [assoc].
      + now rewrite text_eqb_refl.
      + cbn in N1'. now rewrite (proj2 (assoc_None l p) N1').
    - destruct (t_utf8 T (f_content f)); cbn [assoc]; [now rewrite E|reflexivity].
  Qed.
  Lemma entries_NoDup l : NoDup (map fst l) -> NoDup (map fst (parsed_entries T l)).
  Proof.
    induction l as [|(q, f) l IH]; intros ND; [constructor|]. inversion ND as [|? ? N1' N2]; subst. cbn [parsed_entries flat_map].
    change (flat_map _ l) with (parsed_entries T l). unfold parse. cbn [fst snd].
    destruct (t_utf8 T (f_content f)); [|now apply IH]. cbn [app map]. constructor; [|now apply IH]. cbn. intros H. apply N1'.
    apply assoc_Some_key in H. rewrite entries_assoc in H by exact N2. apply assoc_Some_key. now destruct (assoc l q).
  Qed.

  (** The build proper. *)
  Lemma build_triple d sch : partial d ->
    triple (build T sch pj) d BInv (fun _ d' => snapshot T pj (skipped T pj) d').
  Proof.
    intros (rows & extra & SH & SM & Gd). unfold build.
    assert (P0 : BInv d) by (intros _; left; exists rows, extra; auto).
    apply triple_bind with (Q := fun _ d' => d' = apply d (Building true)).
    { apply triple_emit; auto. intros _. left. exists rows, extra. split; [|split; auto].
      destruct SH as [SH|(_ & SH)]; [now left|right; cbn; auto]. }
    intros _ d1 ->. set (d1 := apply d (Building true)).
    assert (P1 : BInv d1).
    { intros _. left. exists rows, extra. split; [|split; auto]. destruct SH as [SH|(_ & SH)]; [now left|right; cbn; auto]. }
    apply triple_bind with (Q := fun a d' => a = d1 /\ d' = d1); [now apply triple_ask|]. intros a d' (-> & ->).
    change (load d1) with (load d). set (s := load d).
    apply triple_bind with (Q := fun _ d' => st s rows d').
    { assert (REP : triple repair d1 BInv (fun _ d' => st s rows d')).
      { destruct SH as [(V & D & E0)|(_ & V & D)].
        - exists [], true. split; [|split].
          + unfold repair. cbn. now rewrite V.
          + cbn. split; [reflexivity|]. split; [exact SM|]. split; [left; auto|]. split; [exact Gd|]. split; [reflexivity|apply Gd].
          + intros d' (e1 & e2 & Ee & -> & _). destruct e1; [exact P1|discriminate].
        - assert (S1 : st s rows (setvd d1 rows rows)).
          { split; [reflexivity|]. split; [exact SM|]. split; [right; split; reflexivity|]. split; [exact Gd|]. split; [reflexivity|apply Gd]. }
          apply (repair_trims d1 rows extra); auto. now apply (st_inv s rows). }
      destruct REP as (es & b & E & HQ & HI). exists es, tt. rewrite E. auto. }
    clear P0 P1 d1 SH SM extra. intros _ d2 S2.
    assert (ST : plan_deleted T s pj = []).
    { unfold plan_deleted. destruct (filter _ (map fst (s_files s))) as [|p l] eqn:E; auto. exfalso.
      assert (Hp : In p (plan_deleted T s pj)) by (unfold plan_deleted; rewrite E; now left).
      apply deleted_In in Hp. destruct Hp as (H1 & H2). destruct (assoc (s_files s) p) eqn:Ea; [|congruence].
      destruct Gd as (G1 & _). destruct (G1 p i Ea) as (f & (Hc & _) & _). now apply (H2 f). }
    rewrite ST. cbn [fold_left].
    apply triple_bind with (Q := fun _ d' => st s rows d').
    { exists [], 0. split; [|split; [exact S2|]].
      - unfold delete_files, ids_of_files. now destruct (d_db d2).
      - intros d' (e1 & e2 & Ee & -> & _). destruct e1; [now apply (st_inv s rows)|discriminate]. }
    clear d2 S2. intros _ d3 S3.
    assert (Es : with_files s (s_files s) = s) by now destruct s. rewrite Es. clear Es.
    set (todo := filter (fun e => match assoc (s_files s) (fst e) with None => negb (mem (fst e) (s_ignored s)) | Some _ => false end) (scan T pj)).
    assert (NDT : NoDup (map fst todo)) by (apply NoDup_filter_fst, scan_NoDup, N).
    assert (TI : forall p f, In (p, f) todo <-> candidate T pj p f /\ assoc (s_files s) p = None /\ ~ In p (s_ignored s)).
    { intros p f. unfold todo. rewrite filter_In, scan_In. cbn [fst]. destruct (assoc (s_files s) p).
      - split; intros (H1 & H2); [discriminate|]. now destruct H2.
      - rewrite negb_true_iff, mem_false. tauto. }
    set (s2 := fold_left add_ignored (parsed_skips T todo) s).
    destruct (add_ignored_fold (parsed_skips T todo) s) as (F2 & _ & I2). fold s2 in F2, I2.
    assert (G2 : good s2 rows).
    { destruct Gd as (G1 & G2 & G3). split; [|split]; auto; [intros p i; rewrite F2; apply G1|].
      intros p Hp. apply I2 in Hp. destruct Hp as [Hp|Hp]; auto. apply parsed_skips_In in Hp. destruct Hp as (f & Hf & Hu).
      apply TI in Hf. exists f. split; [apply Hf|exact Hu]. }
    set (entries := parsed_entries T todo).
    assert (NDE : NoDup (map fst entries)) by now apply entries_NoDup.
    assert (EE : forall e, In e entries -> sound e /\ assoc (s_files s) (fst e) = None).
    { intros (p, a) He. apply (In_assoc _ _ _ NDE) in He. unfold entries in He. rewrite (entries_assoc todo p NDT) in He.
      destruct (assoc todo p) as [f|] eqn:Et; [|discriminate]. destruct (t_utf8 T (f_content f)) eqn:Hu; [|discriminate].
      injection He as <-. apply assoc_In, TI in Et. split; [|apply Et]. exists f. cbn. split; [split; [apply Et|exact Hu]|auto]. }
    set (empties := filter (fun e : entry => negb (nonempty (fst (snd e)))) entries).
    set (full := filter (fun e : entry => nonempty (fst (snd e))) entries).
    set (work := isort (fun a b : entry => t_path_leb T (fst a) (fst b)) full).
    set (s3 := if nonempty empties then commit s2 empties else s2).
    assert (NDM : NoDup (map fst empties)) by now apply NoDup_filter_fst.
    assert (A3 : forall p, assoc (s_files s3) p = match assoc empties p with Some a => Some (snd a) | None => assoc (s_files s) p end).
    { intros p. unfold s3. destruct (nonempty empties) eqn:E.
      - rewrite commit_assoc by exact NDM. now rewrite F2.
      - apply nonempty_nil in E. rewrite E. cbn. now rewrite F2. }
    assert (EM : forall e, In e empties -> sound e /\ fst (snd e) = [] /\ In e entries).
    { intros e He. apply filter_In in He. destruct He as (He & Hn). split; [now apply EE|]. split; auto.
      destruct (fst (snd e)); auto. discriminate. }
    assert (G3 : good s3 rows).
    { unfold s3. destruct (nonempty empties); [|exact G2]. apply commit_good; auto; [intros e He; now apply EM|].
      intros e He. destruct (EM e He) as ((f & H1 & H2 & H3) & H4 & _). rewrite H4. rewrite frows_nil; auto.
      intros r Hr E. destruct G2 as (_ & G2 & _). destruct (G2 r Hr) as (g & Hg & Hr'). rewrite E in *.
      rewrite (candidate_fun T pj _ g f N (proj1 Hg) (proj1 H1)), <- H2, H4 in Hr'. contradiction. }
    apply triple_bind with (Q := fun _ d' => st s3 rows d').
    { apply triple_when.
      - intros _. assert (S4 := save_st s rows d3 S3 s3 G3). apply triple_emit; auto; [now apply (st_inv s rows)|now apply (st_inv s3 rows)].
      - intros E. change (nonempty empties = false) in E. split; [now apply (st_inv s rows)|]. assert (E3 : s3 = s2) by (unfold s3; now rewrite E). rewrite E3.
        destruct S3 as (B & X1 & X2 & X3 & X4 & X5).
        split; [exact B|]. split; [exact X1|]. split; [exact X2|]. split; [exact G2|]. split; [now rewrite F2|exact X5]. }
    intros _ d4 S4.
    assert (PW : Permutation work full) by apply isort_perm.
    assert (WI : forall e, In e work -> sound e /\ fst (snd e) <> [] /\ In e entries).
    { intros e He. apply (Permutation_in _ PW) in He. apply filter_In in He. destruct He as (He & Hn). split; [now apply EE|].
      split; auto. now destruct (fst (snd e)). }
    assert (NDW : NoDup (map fst work)).
    { apply (Permutation_NoDup (l := map fst full)); [|now apply NoDup_filter_fst]. apply Permutation_map. now symmetry. }
    assert (KEY : forall p a b, In (p, a) entries -> In (p, b) entries -> a = b).
    { intros p a b Ha Hb. apply (In_assoc _ _ _ NDE) in Ha, Hb. congruence. }
    assert (WN : forall e, In e work -> assoc (s_files s3) (fst e) = None).
    { intros (p, a) He. destruct (WI _ He) as (_ & H2 & H3). rewrite A3. cbn. destruct (assoc empties p) as [b|] eqn:Eb.
      - apply assoc_In in Eb. destruct (EM _ Eb) as (_ & H4 & H5). rewrite (KEY p b a H5 H3) in H4. now destruct H2.
      - now apply (EE (p, a)). }
    eapply triple_bind; [apply (loop_triple sch work s3 [] rows d4 S4); auto|].
    { intros e He. destruct (WI e He) as (H1 & H2 & _). auto. }
    cbn [app]. intros s4 d5 (rows5 & S5 & IG & K1 & K2).
    assert (S6 : st (with_dirty s4 false) rows5 (apply d5 (SaveState (with_dirty s4 false)))) by (apply (save_st s4); auto; apply S5).
    apply triple_bind with (Q := fun _ d' => d' = apply d5 (SaveState (with_dirty s4 false))).
    { apply triple_emit; auto; [now apply (st_inv s4 rows5)|now apply (st_inv _ rows5 _ S6)]. }
    intros _ d6 ->. set (d6 := apply d5 (SaveState (with_dirty s4 false))) in *.
    assert (SN : snapshot T pj (skipped T pj) (apply d6 (Building false))).
    { destruct S6 as (B & X1 & X2 & (X3 & X3' & X3'') & X4 & X5).
      assert (ALL : forall p f, indexable T pj p f -> assoc (s_files s4) p <> None).
      { intros p f Hi. destruct (assoc (s_files s) p) as [i|] eqn:Ea.
        - assert (Nw : assoc work p = None).
          { destruct (assoc work p) as [a|] eqn:Ew; auto. apply assoc_In in Ew. destruct (WI _ Ew) as (_ & _ & He).
            destruct (EE _ He) as (_ & He'). cbn in He'. congruence. }
          assert (Nm : assoc empties p = None).
          { destruct (assoc empties p) as [a|] eqn:Ew; auto. apply assoc_In in Ew. destruct (EM _ Ew) as (_ & _ & He).
            destruct (EE _ He) as (_ & He'). cbn in He'. congruence. }
          rewrite (K1 p Nw), A3, Nm, Ea. discriminate.
        - assert (HT : In (p, f) todo).
          { apply TI. split; [apply Hi|]. split; auto. intros Hg. destruct Gd as (_ & _ & G3'). apply G3' in Hg.
            now apply (skipped_not T pj p f N Hg). }
          assert (HE : assoc entries p = Some (rows_of T p (f_content f), info_of T f)).
          { unfold entries. rewrite (entries_assoc todo p NDT), (In_assoc _ _ _ NDT HT). destruct Hi as (_ & Hu). now rewrite Hu. }
          apply assoc_In in HE. destruct (nonempty (rows_of T p (f_content f))) eqn:En.
          + assert (HW : In (p, (rows_of T p (f_content f), info_of T f)) work).
            { apply (Permutation_in _ (Permutation_sym PW)). apply filter_In. auto. }
            apply (In_assoc _ _ _ NDW) in HW. rewrite (K2 _ _ HW). discriminate.
          + assert (HM : In (p, (rows_of T p (f_content f), info_of T f)) empties).
            { apply filter_In. cbn. rewrite En. auto. }
            assert (Nw : assoc work p = None).
            { destruct (assoc work p) as [a|] eqn:Ew; auto. apply assoc_In in Ew. destruct (WI _ Ew) as (_ & Hn & He).
              rewrite (KEY p a _ He HE) in Hn. cbn in Hn. apply nonempty_nil in En. congruence. }
            apply (In_assoc _ _ _ NDM) in HM. rewrite (K1 p Nw), A3, HM. discriminate. }
      assert (PR : Permutation rows5 (wanted T pj)).
      { apply perm_by_file. intros p. destruct (wanted_frows T pj p N) as (W1 & W2).
        destruct (assoc (s_files s4) p) as [i|] eqn:Ea.
        - destruct (X3 p i Ea) as (f & H1 & _ & H3). now rewrite (W1 f H1).
        - rewrite W2; [|intros f Hf; now apply (ALL p f Hf)]. rewrite frows_nil; auto. intros r Hr <-.
          destruct (X3' r Hr) as (f & Hf & _). now apply (ALL _ f Hf). }
      assert (AL : aligned d6 rows5).
      { destruct X2 as [(_ & _ & E0)|X2]; auto. exfalso. apply W. rewrite E0 in PR. now apply Permutation_nil. }
      exists (stamp (with_dirty s4 false)), rows5. cbn. split; [reflexivity|]. split; [reflexivity|]. split; [reflexivity|]. split; [reflexivity|].
      split; [exact AL|]. split; [exact PR|]. split.
      - intros p i. split.
        + intros E. destruct (X3 p i E) as (f & H1 & H2 & _). exists f. auto.
        + intros (f & Hf & ->). assert (X := ALL p f Hf). destruct (assoc (s_files s4) p) as [j|] eqn:Ea; [|congruence].
          destruct (X3 p j Ea) as (g & H1 & H2 & _). now rewrite (candidate_fun T pj p f g N (proj1 Hf) (proj1 H1)), H2.
      - intros p Hp. apply X3'' in Hp. split; auto. destruct (assoc (s_files s4) p) as [j|] eqn:Ea; auto.
        destruct (X3 p j Ea) as (g & H1 & _). now destruct (skipped_not T pj p g N Hp). }
    apply triple_emit; auto; [now apply (st_inv _ rows5 _ S6)|]. intros _. now right.
  Qed.
  Lemma build_index_triple d sch : partial d ->
    triple (index T sch [] pj false) d BInv (fun _ d' => snapshot T pj (skipped T pj) d').
  Proof.
    intros P. assert (I0 : BInv d) by (intros _; now left). assert (P' := P).
    destruct P as (rows & extra & SH & SM & Gd). unfold index.
    apply triple_bind with (Q := fun a d' => d' = d); [now apply triple_ask|]. intros a d' ->.
    apply triple_bind with (Q := fun a d' => d' = d).
    { destruct (negb false && _); now apply triple_ret. }
    intros _ d' ->. apply triple_bind with (Q := fun a d' => a = d /\ d' = d); [now apply triple_ask|]. intros b d' (-> & ->).
    replace (match d_vec d with Some _ => true | None => false end && nonempty (s_files (load d)) && negb (s_format (load d))) with false.
    2:{ unfold load. destruct (d_state d) as [x|] eqn:E; [|cbn; now rewrite !andb_false_r].
        rewrite (SM x E). cbn. now rewrite andb_false_r. }
    replace (d_building d || negb match d_vec d with Some _ => true | None => false end) with true.
    2:{ destruct SH as [(-> & _)|(-> & _)]; [now rewrite orb_true_r|reflexivity]. }
    now apply build_triple.
  Qed.
End BUILD.
