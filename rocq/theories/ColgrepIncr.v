(** The incremental update: completed runs and runs killed outside a deletion. *)
From Verif Require Import Base Text Colgrep ColgrepSpec ColgrepLists ColgrepSteps.
Open Scope nat_scope.

(** The index directory left by a completed run on [pj]; [G] holds of the paths noted as
    unreadable. *)
Definition snapshot (T : tool) (pj : project) (G : path -> Prop) (d : store) : Prop :=
  exists s rows, d_building d = false /\ d_state d = Some s /\ s_format s = true /\ s_dirty s = false /\
    aligned d rows /\ Permutation rows (wanted T pj) /\
    (forall p i, assoc (s_files s) p = Some i <-> exists f, indexable T pj p f /\ i = info_of T f) /\
    (forall p, In p (s_ignored s) -> G p /\ assoc (s_files s) p = None).

Lemma snapshot_up_to_date T pj G d : snapshot T pj G d -> up_to_date T pj d.
Proof.
  intros (s & rows & _ & _ & _ & _ & (Hv & Hd) & Hp & _). exists rows, (number 0 rows).
  split; [exact Hv|]. split; [exact Hd|]. split; [exact Hp|]. apply number_paired.
Qed.

Lemma note_fold T l s p : NoDup (map fst l) ->
  assoc (s_files (fold_left (note_parsed T) l s)) p
  = match assoc l p with
    | Some f => if t_utf8 T (f_content f) then Some (info_of T f) else None
    | None => assoc (s_files s) p
    end.
Proof.
  revert s. induction l as [|(q, f) l IH]; cbn [fold_left map assoc]; intros s ND; auto.
  inversion ND as [|? ? N1 N2]; subst. rewrite IH by exact N2.
  destruct (text_eqb p q) eqn:E.
  - apply text_eqb_eq in E. subst q. cbn [fst] in N1. rewrite (proj2 (assoc_None l p) N1).
    unfold note_parsed, parse. cbn [fst snd]. destruct (t_utf8 T (f_content f)); cbn [s_files with_files add_ignored].
    + now rewrite assoc_put, text_eqb_refl.
    + now rewrite assoc_remove, text_eqb_refl.
  - destruct (assoc l p); auto.
    unfold note_parsed, parse. cbn [fst snd]. destruct (t_utf8 T (f_content f)); cbn [s_files with_files add_ignored].
    + now rewrite assoc_put, E.
    + now rewrite assoc_remove, E.
Qed.
Lemma note_ignored T l s p :
  In p (s_ignored (fold_left (note_parsed T) l s)) <->
  In p (s_ignored s) \/ exists f, In (p, f) l /\ t_utf8 T (f_content f) = false.
Proof.
  revert s. induction l as [|(q, f) l IH]; cbn [fold_left]; intros s.
  - split; [auto|]. intros [H|(f & [] & _)]; auto.
  - rewrite IH. unfold note_parsed at 1, parse. cbn [fst snd].
    destruct (t_utf8 T (f_content f)) eqn:E; cbn [s_ignored with_files add_ignored In].
    + split; [intros [H|(g & H & Hu)]; [auto|right; exists g; auto]|].
      intros [H|(g & [H|H] & Hu)]; [auto| |right; exists g; auto]. injection H as <- <-. congruence.
    + split.
      * intros [[<-|H]|(g & H & Hu)]; [right; exists f; auto|auto|right; exists g; auto].
      * intros [H|(g & [H|H] & Hu)]; [auto| |right; exists g; auto]. injection H as <- <-. auto.
Qed.

Section INCR.
  Context (T : tool) (pj0 pj : project) (G : path -> Prop).
  Hypothesis GT : good_tool T.
  Hypothesis N0 : listed_once pj0.
  Hypothesis N1 : listed_once pj.
  Hypothesis EV : edits_visible T pj0 pj.
  Hypothesis GN : forall p, G p -> forall f, ~ indexable T pj p f.

  Definition G' (p : path) : Prop := G p \/ exists f, unreadable T pj p f.
  Definition files_ok (s : state) : Prop :=
    (forall p i, assoc (s_files s) p = Some i -> exists f0, indexable T pj0 p f0 /\
       (i = info_of T f0 \/ (exists f, indexable T pj p f /\ f_content f = f_content f0 /\ i = info_of T f) \/
        forall f, ~ candidate T pj p f)) /\
    (forall p f0, indexable T pj0 p f0 -> assoc (s_files s) p <> None) /\
    (forall p, In p (s_ignored s) -> G p /\ assoc (s_files s) p = None).
  Definition rows_ok (rows : list row) : Prop :=
    (forall r, In r rows -> exists f0, indexable T pj0 (r_file r) f0 /\
       (In r (rows_of T (r_file r) (f_content f0)) \/
        exists f, indexable T pj (r_file r) f /\ In r (rows_of T (r_file r) (f_content f)))) /\
    (forall p f0 f, indexable T pj0 p f0 -> indexable T pj p f -> f_content f0 = f_content f ->
       Permutation (frows p rows) (rows_of T p (f_content f))).
  (** The states between the start of a run on [pj] after one on [pj0], and its end. *)
  Definition mid (d : store) : Prop :=
    exists s rows extra, d_building d = false /\ d_state d = Some s /\ s_format s = true /\
      d_vec d = Some (rows ++ extra) /\ d_db d = Some (number 0 rows) /\ (extra <> [] -> s_dirty s = true) /\
      files_ok s /\ rows_ok rows.

  Lemma wanted_rows_ok rows : Permutation rows (wanted T pj0) -> rows_ok rows.
  Proof.
    intros Hp. split.
    - intros r Hr. apply (Permutation_in _ Hp) in Hr.
      destruct (wanted_frows T pj0 (r_file r) N0) as (W1 & W2).
      assert (Hr' : In r (frows (r_file r) (wanted T pj0))) by (apply frows_In; auto).
      assert (D : exists f0, indexable T pj0 (r_file r) f0).
      { unfold wanted in Hr. apply in_flat_map in Hr. destruct Hr as ((q, f) & Hq & Hr). cbn [fst snd] in Hr.
        destruct (p_visible pj0 q) eqn:E1; [|contradiction]. destruct (t_language T q) eqn:E2; [|contradiction].
        destruct (f_size f <=? t_max_size T)%Z eqn:E3; [|contradiction]. destruct (t_utf8 T (f_content f)) eqn:E4; [|contradiction].
        cbn in Hr. apply rows_of_file in Hr. subst q. exists f. apply Z.leb_le in E3. repeat split; auto. }
      destruct D as (f0 & D). exists f0. split; auto. left. now rewrite <- (W1 f0 D).
    - intros p f0 f H0 H1 HC. destruct (wanted_frows T pj0 p N0) as (W1 & _).
      rewrite <- HC, <- (W1 f0 H0). now apply frows_perm.
  Qed.
  Lemma snapshot_mid d : snapshot T pj0 G d -> mid d.
  Proof.
    intros (s & rows & Hb & Hs & Hf & Hd & (Hv & Hdb) & Hp & Hfi & Hi).
    exists s, rows, []. rewrite app_nil_r. repeat (split; [assumption|]). split; [congruence|].
    split; [|now apply wanted_rows_ok]. split; [|split].
    - intros p i E. apply Hfi in E. destruct E as (f & H1 & H2). exists f. auto.
    - intros p f0 H E. assert (X := proj2 (Hfi p (info_of T f0)) (ex_intro _ f0 (conj H eq_refl))). congruence.
    - exact Hi.
  Qed.

  (** ** The update plan *)
  Lemma classify_cases s p f : files_ok s -> candidate T pj p f ->
    (indexable T pj p f /\ (exists f0, indexable T pj0 p f0 /\ f_content f0 = f_content f) /\ ~ In p (s_ignored s) /\
       ((classify T s (p, f) = VSame /\ assoc (s_files s) p = Some (info_of T f)) \/
        (classify T s (p, f) = VTouched (info_of T f))))
    \/ ((exists f0, indexable T pj0 p f0 /\ f_content f0 <> f_content f) /\ ~ In p (s_ignored s) /\
        classify T s (p, f) = VChanged)
    \/ ((forall f0, ~ indexable T pj0 p f0) /\ ~ In p (s_ignored s) /\ assoc (s_files s) p = None /\
        classify T s (p, f) = VAdded)
    \/ ((forall f0, ~ indexable T pj0 p f0) /\ In p (s_ignored s) /\ t_utf8 T (f_content f) = false /\
        assoc (s_files s) p = None /\ classify T s (p, f) = VIgnored).
  Proof.
    intros (F1 & F2 & F3) Hc. unfold classify.
    destruct (mem p (s_ignored s)) eqn:Em.
    - apply mem_In in Em. destruct (F3 p Em) as (Hg & Ha). right. right. right.
      split; [|split; [auto|split; [|auto]]].
      + intros f0 H0. apply F2 in H0. congruence.
      + destruct (t_utf8 T (f_content f)) eqn:E; auto. destruct (GN p Hg f). split; auto.
    - apply mem_false in Em. destruct (assoc (s_files s) p) as [i|] eqn:Ea.
      + destruct (F1 p i Ea) as (f0 & H0 & Hi).
        destruct (list_eq_dec Z.eq_dec (f_content f0) (f_content f)) as [Ec|Ec].
        * left. assert (U : indexable T pj p f) by (split; [exact Hc|rewrite <- Ec; apply H0]).
          split; [exact U|]. split; [exists f0; auto|]. split; [auto|].
          assert (SZ : f_size f0 = f_size f) by (unfold f_size; now rewrite Ec).
          assert (Ei : i = info_of T f \/ i = info_of T f0).
          { destruct Hi as [Hi|[(f' & H' & _ & Hi)|Hi]]; [now right|left|destruct (Hi f Hc)].
            rewrite (candidate_fun T pj p f f' N1 Hc (proj1 H')). exact Hi. }
          destruct ((i_mtime i =? f_mtime f)%Z && (i_size i =? f_size f)%Z) eqn:Es.
          -- left. split; auto. f_equal. destruct Ei as [->| ->]; auto.
             unfold info_of in *. cbn in Es. apply andb_true_iff in Es. destruct Es as (Em1 & _). apply Z.eqb_eq in Em1.
             now rewrite Ec, SZ, Em1.
          -- right. destruct Ei as [->| ->]; cbn in Es |- *.
             ++ rewrite !Z.eqb_refl in Es. discriminate.
             ++ rewrite Ec, Z.eqb_refl. reflexivity.
        * right. left. split; [exists f0; auto|]. split; [auto|].
          assert (Ei : i = info_of T f0).
          { destruct Hi as [Hi|[(f' & H' & H'' & Hi)|Hi]]; [exact Hi| |destruct (Hi f Hc)].
            rewrite (candidate_fun T pj p f f' N1 Hc (proj1 H')) in Ec. congruence. }
          destruct (EV p f0 f (proj1 H0) Hc Ec) as (V1 & V2). subst i. cbn.
          assert (S1 : (f_mtime f0 =? f_mtime f)%Z && (f_size f0 =? f_size f)%Z = false).
          { apply andb_false_iff. rewrite !Z.eqb_neq. tauto. }
          rewrite S1. apply Z.eqb_neq in V2. now rewrite V2.
      + right. right. left. split; [|split; [auto|auto]]. intros f0 H0. apply F2 in H0. congruence.
  Qed.

  Lemma added_In s p f : In (p, f) (plan_added T s pj) <-> candidate T pj p f /\ classify T s (p, f) = VAdded.
  Proof.
    unfold plan_added. rewrite filter_In, scan_In. split; intros (H1 & H2); split; auto.
    - destruct (classify T s (p, f)); try discriminate. reflexivity.
    - now rewrite H2.
  Qed.
  Lemma changed_In s p f : In (p, f) (plan_changed T s pj) <-> candidate T pj p f /\ classify T s (p, f) = VChanged.
  Proof.
    unfold plan_changed. rewrite filter_In, scan_In. split; intros (H1 & H2); split; auto.
    - destruct (classify T s (p, f)); try discriminate. reflexivity.
    - now rewrite H2.
  Qed.
  Lemma changed_key s p : In p (map fst (plan_changed T s pj)) <-> exists f, candidate T pj p f /\ classify T s (p, f) = VChanged.
  Proof.
    rewrite in_map_iff. split.
    - intros ((q, f) & <- & H). apply changed_In in H. now exists f.
    - intros (f & H). exists (p, f). split; auto. now apply changed_In.
  Qed.
  Lemma touched_In s p i : In (p, i) (plan_touched T s pj) <-> exists f, candidate T pj p f /\ classify T s (p, f) = VTouched i.
  Proof.
    unfold plan_touched. rewrite in_flat_map. split.
    - intros ((q, f) & Hq & H). apply scan_In in Hq. destruct (classify T s (q, f)) eqn:E; try contradiction.
      cbn in H. destruct H as [H|[]]. injection H as -> ->. exists f. auto.
    - intros (f & H1 & H2). exists (p, f). split; [now apply scan_In|]. rewrite H2. now left.
  Qed.
  Lemma deleted_In s p : In p (plan_deleted T s pj) <-> assoc (s_files s) p <> None /\ forall f, ~ candidate T pj p f.
  Proof.
    unfold plan_deleted. rewrite filter_In, negb_true_iff, mem_false, assoc_Some_key. split; intros (H1 & H2); split; auto.
    - intros f Hf. apply H2. apply in_map_iff. exists (p, f). split; auto. now apply scan_In.
    - intros Hi. apply in_map_iff in Hi. destruct Hi as ((q, f) & <- & Hi). apply scan_In in Hi. now apply (H2 f).
  Qed.

  Definition touch (s : state) : state :=
    with_files s (fold_left (fun m e => put m (fst e) (snd e)) (plan_touched T s pj) (s_files s)).
  Lemma touch_assoc s p : assoc (s_files (touch s)) p
    = match assoc (scan T pj) p with
      | Some f => match classify T s (p, f) with VTouched i => Some i | _ => assoc (s_files s) p end
      | None => assoc (s_files s) p
      end.
  Proof.
    unfold touch. cbn [s_files with_files]. rewrite (fold_put (fun e => fst e) (fun e => snd e)).
    - destruct (find _ (plan_touched T s pj)) as [(q, i)|] eqn:E.
      + apply find_some in E. cbn in E. destruct E as (E1 & E2). apply text_eqb_eq in E2. subst q.
        apply touched_In in E1. destruct E1 as (f & H1 & H2). apply scan_In in H1.
        rewrite (In_assoc _ _ _ (scan_NoDup T pj N1) H1), H2. reflexivity.
      + destruct (assoc (scan T pj) p) as [f|] eqn:F; auto. destruct (classify T s (p, f)) eqn:Ec; auto.
        exfalso. apply assoc_In, scan_In in F. assert (X : In (p, i) (plan_touched T s pj)) by (apply touched_In; exists f; auto).
        apply (find_none _ _ E) in X. cbn in X. now rewrite text_eqb_refl in X.
    - intros (q, i) (q', i') H H' E. cbn in *. subst q'. apply touched_In in H, H'.
      destruct H as (f & H1 & H2), H' as (f' & H1' & H2'). rewrite (candidate_fun T pj q f' f N1) in H2' by auto. congruence.
  Qed.
  Lemma touch_ok s : files_ok s -> files_ok (touch s).
  Proof.
    intros F. assert (F' := F). destruct F as (F1 & F2 & F3).
    assert (K : forall p, assoc (s_files (touch s)) p = None -> assoc (s_files s) p = None).
    { intros p. rewrite touch_assoc. destruct (assoc (scan T pj) p) as [f|]; auto. destruct (classify T s (p, f)); auto. discriminate. }
    split; [|split].
    - intros p i. rewrite touch_assoc. destruct (assoc (scan T pj) p) as [f|] eqn:Es; [|apply F1].
      apply assoc_In, scan_In in Es. destruct (classify T s (p, f)) eqn:Ec; try apply F1.
      intros E. injection E as <-.
      destruct (classify_cases s p f F' Es) as [(U & (f0 & U0 & Ecc) & _ & [(X & _)|X])|[(_ & _ & X)|[(_ & _ & _ & X)|(_ & _ & _ & _ & X)]]];
        rewrite X in Ec; try discriminate. injection Ec as <-. exists f0. split; auto. right. left. exists f. auto.
    - intros p f0 H E. apply K in E. now apply (F2 p f0 H).
    - intros p Hp. split; [now apply F3|]. destruct (F3 p Hp) as (Hg & Ha). rewrite touch_assoc, Ha.
      destruct (assoc (scan T pj) p) as [f|] eqn:Es; auto. destruct (classify T s (p, f)) eqn:Ec; auto.
      exfalso. apply assoc_In, scan_In in Es. unfold classify in Ec. change (s_ignored (touch s)) with (s_ignored s) in Hp. rewrite (proj2 (mem_In p _) Hp) in Ec. discriminate.
  Qed.

  (** ** Rows under the steps of the update *)
  Definition unstable (p : path) : Prop :=
    forall f0 f, indexable T pj0 p f0 -> indexable T pj p f -> f_content f0 <> f_content f.
  Lemma rows_ok_keep files rows : (forall p, In p files -> unstable p) -> rows_ok rows -> rows_ok (keep files rows).
  Proof.
    intros HU (R1 & R2). split.
    - intros r Hr. apply filter_In in Hr. now apply R1.
    - intros p f0 f H0 H1 HC. rewrite frows_keep. destruct (mem p files) eqn:E; [|now apply (R2 p f0 f)].
      apply mem_In in E. destruct (HU p E f0 f H0 H1 HC).
  Qed.
  Lemma rows_ok_add rows new : rows_ok rows ->
    (forall r, In r new -> unstable (r_file r) /\ (exists f0, indexable T pj0 (r_file r) f0) /\
       exists f, indexable T pj (r_file r) f /\ In r (rows_of T (r_file r) (f_content f))) ->
    rows_ok (rows ++ new).
  Proof.
    intros (R1 & R2) HN. split.
    - intros r Hr. apply in_app_or in Hr. destruct Hr as [Hr|Hr]; [now apply R1|].
      destruct (HN r Hr) as (_ & (f0 & H0) & H1). exists f0. auto.
    - intros p f0 f H0 H1 HC. rewrite frows_app, (frows_nil p new), app_nil_r; [now apply (R2 p f0 f)|].
      intros r Hr <-. destruct (HN r Hr) as (HU & _). now apply (HU f0 f).
  Qed.
  Lemma not_candidate_unstable p : (forall f, ~ candidate T pj p f) -> unstable p.
  Proof. intros H f0 f _ (H1 & _). destruct (H f H1). Qed.
  Lemma changed_unstable s p : files_ok s -> In p (map fst (plan_changed T s pj)) -> unstable p.
  Proof.
    intros F H f0 f H0 H1. apply changed_key in H. destruct H as (f' & Hc & Hk).
    assert (X := candidate_fun T pj p f' f N1 Hc (proj1 H1)). subst f'.
    destruct (classify_cases s p f F Hc) as [(_ & _ & _ & [(X & _)|X])|[((g & Hg & Hn) & _ & _)|[(_ & _ & _ & X)|(_ & _ & _ & _ & X)]]];
      try (clear - X Hk; rewrite X in Hk; discriminate).
    now rewrite (candidate_fun T pj0 p f0 g N0 (proj1 H0) (proj1 Hg)).
  Qed.

  Definition Inv (d : store) : Prop := none_added T pj0 pj -> mid d \/ snapshot T pj G' d.
  Definition at_ (s : state) (rows : list row) (d : store) : Prop :=
    d_building d = false /\ d_state d = Some s /\ aligned d rows.
  Lemma at_setvd s rows rows' d : at_ s rows d -> at_ s rows' (setvd d rows' rows').
  Proof. intros (H1 & H2 & _). repeat split; auto. Qed.
  Lemma at_save s rows d s' : at_ s rows d -> at_ (stamp s') rows (apply d (SaveState s')).
  Proof. intros (H1 & H2 & H3). repeat split; cbn; auto; apply H3. Qed.
  Lemma at_inv s rows d : at_ s rows d -> s_format s = true -> files_ok s -> rows_ok rows -> Inv d.
  Proof.
    intros (H1 & H2 & H3 & H4) HF HO HR _. left. exists s, rows, []. rewrite app_nil_r. repeat (split; auto).
  Qed.
  Lemma stamp_ok s b : files_ok s -> files_ok (stamp (with_dirty s b)).
  Proof. intros H. exact H. Qed.

  (** What the final state says of each file. *)
  Definition settled (s : state) (rows : list row) : Prop :=
    Permutation rows (wanted T pj) /\
    (forall p i, assoc (s_files s) p = Some i <-> exists f, indexable T pj p f /\ i = info_of T f) /\
    (forall p, In p (s_ignored s) -> G' p /\ assoc (s_files s) p = None).
  Lemma settled_snapshot s s0 rows d : at_ s0 rows d -> settled s rows ->
    snapshot T pj G' (apply d (SaveState (with_dirty s false))).
  Proof.
    intros (H1 & H2 & H3 & H4) (S1 & S2 & S3). exists (stamp (with_dirty s false)), rows. cbn. repeat split; auto; try now apply S3.
    - apply S2.
    - apply S2.
  Qed.

  Hypothesis LOST : none_emptied T pj0 pj.
  Hypothesis W0 : wanted T pj0 <> [].

  Lemma some_file s : files_ok s -> nonempty (s_files s) = true.
  Proof.
    intros (_ & F2 & _). destruct (s_files s) as [|e l] eqn:E; auto. exfalso. apply W0.
    apply perm_nil_frows. intros p. apply (proj2 (wanted_frows T pj0 p N0)). intros f H. now apply (F2 p f H).
  Qed.

  (** Nothing to do. *)
  Lemma settled_idle s rows : files_ok s -> rows_ok rows ->
    plan_added T s pj = [] -> plan_changed T s pj = [] -> plan_deleted T s pj = [] ->
    settled (touch s) rows /\ (plan_touched T s pj = [] -> settled s rows).
  Proof.
    intros F (R1 & R2) PA PC PD.
    assert (CC : forall p f, candidate T pj p f ->
      (indexable T pj p f /\ (exists f0, indexable T pj0 p f0 /\ f_content f0 = f_content f) /\
         assoc (s_files (touch s)) p = Some (info_of T f)) \/
      ((forall f0, ~ indexable T pj0 p f0) /\ t_utf8 T (f_content f) = false /\ assoc (s_files (touch s)) p = None)).
    { intros p f Hc. rewrite touch_assoc. rewrite (In_assoc _ _ _ (scan_NoDup T pj N1) (proj2 (scan_In T pj p f) Hc)).
      destruct (classify_cases s p f F Hc) as [(U & X0 & _ & [(X & Xa)|X])|[(_ & _ & X)|[(_ & _ & _ & X)|(U & _ & Hu & Ha & X)]]]; rewrite X.
      - left. auto.
      - left. auto.
      - assert (In (p, f) (plan_changed T s pj)) by now apply changed_In. rewrite PC in *. contradiction.
      - assert (In (p, f) (plan_added T s pj)) by now apply added_In. rewrite PA in *. contradiction.
      - right. auto. }
    assert (NC : forall p, (forall f, ~ candidate T pj p f) -> assoc (s_files s) p = None).
    { intros p H. destruct (assoc (s_files s) p) eqn:E; auto.
      assert (In p (plan_deleted T s pj)) by (apply deleted_In; split; [congruence|auto]). rewrite PD in *. contradiction. }
    assert (FI : forall p i, assoc (s_files (touch s)) p = Some i <-> exists f, indexable T pj p f /\ i = info_of T f).
    { intros p i. destruct (assoc (scan T pj) p) as [f|] eqn:Es.
      - apply assoc_In, scan_In in Es. destruct (CC p f Es) as [(U & _ & E)|(_ & Hu & E)]; rewrite E.
        + split; [intros X; injection X as <-; exists f; auto|]. intros (g & Hg & ->).
          now rewrite (candidate_fun T pj p f g N1 Es (proj1 Hg)).
        + split; [discriminate|]. intros (g & Hg & _). rewrite (candidate_fun T pj p f g N1 Es (proj1 Hg)) in Hu.
          destruct Hg. congruence.
      - assert (NN : forall f, ~ candidate T pj p f).
        { intros f H. apply scan_In in H. apply assoc_None in Es. apply Es. apply in_map_iff. exists (p, f). auto. }
        rewrite touch_assoc, Es, (NC p NN). split; [discriminate|]. intros (g & (Hg & _) & _). destruct (NN g Hg). }
    assert (PR : Permutation rows (wanted T pj)).
    { apply perm_by_file. intros p. destruct (wanted_frows T pj p N1) as (W1 & W2).
      destruct (assoc (scan T pj) p) as [f|] eqn:Es.
      - apply assoc_In, scan_In in Es. destruct (CC p f Es) as [(U & (f0 & U0 & Ec) & _)|(U0 & Hu & _)].
        + rewrite (W1 f U). now apply (R2 p f0 f).
        + rewrite W2 by (intros g Hg; rewrite (candidate_fun T pj p f g N1 Es (proj1 Hg)) in Hu; destruct Hg; congruence).
          rewrite frows_nil; [reflexivity|]. intros r Hr <-. destruct (R1 r Hr) as (f0 & H0 & _). now apply (U0 f0).
      - assert (NN : forall f, ~ candidate T pj p f).
        { intros f H. apply scan_In in H. apply assoc_None in Es. apply Es. apply in_map_iff. exists (p, f). auto. }
        rewrite W2 by (intros g (Hg & _); exact (NN g Hg)). rewrite frows_nil; [reflexivity|].
        intros r Hr <-. destruct (R1 r Hr) as (f0 & H0 & _). destruct F as (_ & F2 & _). apply (F2 _ _ H0). now apply NC. }
    assert (TK := touch_ok s F).
    split; [split; [exact PR|split; [exact FI|]]|].
    - intros p Hp. destruct TK as (_ & _ & F3). destruct (F3 p Hp) as (A & B). split; [now left|exact B].
    - intros PT. assert (ET : forall p, assoc (s_files (touch s)) p = assoc (s_files s) p).
      { intros p. unfold touch. rewrite PT. reflexivity. }
      split; [exact PR|]. split; [intros p i; now rewrite <- ET|].
      intros p Hp. destruct F as (_ & _ & F3). destruct (F3 p Hp). split; [now left|auto].
  Qed.

  (** The state and the rows at the end of an update. *)
  Definition todo (s : state) : list (path * file) :=
    filter (fun e => negb (mem (fst e) (s_ignored s))) (plan_added T s pj ++ plan_changed T s pj).
  Definition state3 (s : state) : state :=
    let s2 := with_files (touch s) (fold_left remove_key (plan_deleted T s pj) (s_files (touch s))) in
    with_files s2 (filter (fun e => match assoc (p_files pj) (fst e) with Some _ => true | None => false end) (s_files s2)).
  Definition state4 (s : state) : state := fold_left (note_parsed T) (todo s) (state3 s).

  Lemma todo_In s p f : files_ok s -> In (p, f) (todo s) <->
    candidate T pj p f /\ (classify T s (p, f) = VAdded \/ classify T s (p, f) = VChanged).
  Proof.
    intros F. unfold todo. rewrite filter_In, in_app_iff, added_In, changed_In. cbn [fst]. rewrite negb_true_iff, mem_false.
    split; [intuition|]. intros (Hc & Hk). split; [tauto|].
    destruct (classify_cases s p f F Hc) as [(_ & _ & X & _)|[(_ & X & _)|[(_ & X & _)|(_ & _ & _ & _ & X)]]]; auto.
    rewrite X in Hk. destruct Hk; discriminate.
  Qed.
  Lemma NoDup_app_disjoint {A} (a b : list A) : NoDup a -> NoDup b -> (forall x, In x a -> ~ In x b) -> NoDup (a ++ b).
  Proof.
    induction a as [|x a IH]; cbn; intros Ha Hb Hd; auto. inversion Ha as [|? ? H1 H2]; subst. constructor.
    - rewrite in_app_iff. intros [H|H]; [auto|]. apply (Hd x); auto.
    - apply IH; auto.
  Qed.
  Lemma todo_NoDup s : NoDup (map fst (todo s)).
  Proof.
    unfold todo. apply NoDup_filter_fst. rewrite map_app. apply NoDup_app_disjoint.
    - apply NoDup_filter_fst, scan_NoDup, N1.
    - apply NoDup_filter_fst, scan_NoDup, N1.
    - intros p Hp Hq. apply in_map_iff in Hp. destruct Hp as ((q, f) & <- & Hp). apply added_In in Hp. cbn in Hq.
      apply changed_key in Hq. destruct Hq as (g & Hg & Hk). rewrite (candidate_fun T pj q g f N1) in Hk by tauto.
      destruct Hp. congruence.
  Qed.
  Lemma todo_assoc s p f : files_ok s -> candidate T pj p f ->
    assoc (todo s) p = match classify T s (p, f) with VAdded | VChanged => Some f | _ => None end.
  Proof.
    intros F Hc. destruct (classify T s (p, f)) eqn:Ek.
    1-3: (apply assoc_None; intros Hi; apply in_map_iff in Hi; destruct Hi as ((q, g) & Eq & Hi); cbn in Eq; subst q;
      apply (todo_In s p g F) in Hi; destruct Hi as (Hg & Hk);
      rewrite (candidate_fun T pj p g f N1 Hg Hc) in Hk; destruct Hk; congruence).
    - apply In_assoc; [apply todo_NoDup|]. apply todo_In; auto.
    - apply In_assoc; [apply todo_NoDup|]. apply todo_In; auto.
  Qed.
  Lemma state3_assoc s p : files_ok s -> assoc (s_files (state3 s)) p
    = match assoc (scan T pj) p with Some _ => assoc (s_files (touch s)) p | None => None end.
  Proof.
    intros F. unfold state3. cbn [s_files with_files].
    rewrite (assoc_filter_key (fun q => match assoc (p_files pj) q with Some _ => true | None => false end)), fold_remove.
    destruct (assoc (scan T pj) p) as [f|] eqn:Es.
    - apply assoc_In, scan_In in Es. rewrite (In_assoc _ _ _ N1 (proj1 Es)).
      destruct (mem p (plan_deleted T s pj)) eqn:Ed; auto. apply mem_In, deleted_In in Ed. destruct Ed as (_ & Ed). destruct (Ed f Es).
    - assert (NN : forall f, ~ candidate T pj p f).
      { intros f H. apply scan_In in H. apply assoc_None in Es. apply Es. apply in_map_iff. exists (p, f). auto. }
      destruct (assoc (p_files pj) p); auto. destruct (mem p (plan_deleted T s pj)) eqn:Ed; auto.
      rewrite touch_assoc, Es. destruct (assoc (s_files s) p) eqn:Ea; auto.
      exfalso. apply mem_false in Ed. apply Ed, deleted_In. split; [congruence|exact NN].
  Qed.
  Lemma state4_files s : files_ok s ->
    (forall p i, assoc (s_files (state4 s)) p = Some i <-> exists f, indexable T pj p f /\ i = info_of T f) /\
    (forall p, In p (s_ignored (state4 s)) -> G' p /\ assoc (s_files (state4 s)) p = None).
  Proof.
    intros F.
    assert (Q : forall p, match assoc (scan T pj) p with
      | Some f => if t_utf8 T (f_content f) then assoc (s_files (state4 s)) p = Some (info_of T f)
                  else assoc (s_files (state4 s)) p = None
      | None => assoc (s_files (state4 s)) p = None end).
    { intros p. unfold state4. rewrite (note_fold T (todo s) (state3 s) p (todo_NoDup s)), (state3_assoc s p F).
      destruct (assoc (scan T pj) p) as [f|] eqn:Es.
      - assert (Es' := Es). apply assoc_In, scan_In in Es. rewrite (todo_assoc s p f F Es), touch_assoc, Es'.
        destruct (classify_cases s p f F Es) as [(U & X0 & _ & [(X & Xa)|X])|[(_ & _ & X)|[(_ & _ & _ & X)|(_ & _ & Hu & Ha & X)]]]; rewrite X.
        + rewrite Xa. destruct U as (_ & U). now rewrite U.
        + destruct U as (_ & U). now rewrite U.
        + now destruct (t_utf8 T (f_content f)).
        + now destruct (t_utf8 T (f_content f)).
        + now rewrite Hu, Ha.
      - destruct (assoc (todo s) p) as [f|] eqn:Et; auto. exfalso. apply assoc_In, (todo_In s p f F) in Et.
        apply assoc_None in Es. apply Es. apply in_map_iff. exists (p, f). split; auto. apply scan_In. tauto. }
    assert (FI : forall p i, assoc (s_files (state4 s)) p = Some i <-> exists f, indexable T pj p f /\ i = info_of T f).
    { intros p i. specialize (Q p). destruct (assoc (scan T pj) p) as [f|] eqn:Es.
      - apply assoc_In, scan_In in Es. destruct (t_utf8 T (f_content f)) eqn:Eu; rewrite Q.
        + split; [intros X; injection X as <-; exists f; split; [split; auto|auto]|]. intros (g & Hg & ->).
          now rewrite (candidate_fun T pj p f g N1 Es (proj1 Hg)).
        + split; [discriminate|]. intros (g & Hg & _). rewrite (candidate_fun T pj p f g N1 Es (proj1 Hg)) in Eu.
          destruct Hg. congruence.
      - rewrite Q. split; [discriminate|]. intros (g & (Hg & _) & _). apply scan_In in Hg. apply assoc_None in Es.
        destruct Es. apply in_map_iff. exists (p, g). auto. }
    split; [exact FI|]. intros p Hp. unfold state4 in Hp. apply note_ignored in Hp.
    assert (NI : (forall f, ~ indexable T pj p f) -> assoc (s_files (state4 s)) p = None).
    { intros H. destruct (assoc (s_files (state4 s)) p) eqn:E; auto. apply FI in E. destruct E as (f & Hf & _). destruct (H f Hf). }
    destruct Hp as [Hp|(f & Hi & Hu)].
    - destruct F as (_ & _ & F3). destruct (F3 p Hp) as (Hg & _). split; [now left|]. apply NI. now apply GN.
    - apply (todo_In s p f F) in Hi. split; [right; exists f; split; tauto|]. apply NI. intros g Hg.
      rewrite (candidate_fun T pj p g f N1 (proj1 Hg)) in Hg by tauto. destruct Hg. congruence.
  Qed.

  (** The rows at the end: unchanged files keep theirs, the others have the new ones. *)
  Lemma final_rows s rows1 rows2 new : files_ok s -> rows_ok rows1 ->
    new = parsed_rows T (todo s) ->
    (forall p, unstable p -> ~ (exists f, candidate T pj p f) -> frows p rows2 = []) ->
    (forall p f, candidate T pj p f -> t_utf8 T (f_content f) = false -> In p (map fst (plan_changed T s pj)) -> frows p rows2 = []) ->
    (new <> [] -> forall p, In p (map fst (plan_changed T s pj)) -> frows p rows2 = []) ->
    (forall p, (forall f0 f, indexable T pj0 p f0 -> indexable T pj p f -> f_content f0 = f_content f -> frows p rows2 = frows p rows1)) ->
    (forall p, frows p rows1 = [] -> frows p rows2 = []) ->
    Permutation (rows2 ++ prepare T new) (wanted T pj).
  Proof.
    intros F (R1 & R2) EN D1 D2 D3 D4 D5.
    assert (NR : forall p, (forall f0, ~ indexable T pj0 p f0) -> frows p rows1 = []).
    { intros p H. apply frows_nil. intros r Hr <-. destruct (R1 r Hr) as (f0 & H0 & _). now apply (H f0). }
    transitivity (rows2 ++ new); [apply Permutation_app_head, prepare_perm|].
    apply perm_by_file. intros p. rewrite frows_app. destruct (wanted_frows T pj p N1) as (W1 & W2).
    assert (FN := parsed_frows T (todo s) p (todo_NoDup s)). rewrite <- EN in FN.
    destruct (assoc (scan T pj) p) as [f|] eqn:Es.
    - apply assoc_In, scan_In in Es. rewrite (todo_assoc s p f F Es) in FN.
      assert (NU : t_utf8 T (f_content f) = false -> forall g, ~ indexable T pj p g).
      { intros Hu g Hg. rewrite (candidate_fun T pj p f g N1 Es (proj1 Hg)) in Hu. destruct Hg. congruence. }
      destruct (classify_cases s p f F Es) as [(U & (f0 & U0 & Ec) & _ & X)|[((f0 & U0 & Ec) & _ & X)|[(U0 & _ & _ & X)|(U0 & _ & Hu & _ & X)]]].
      + assert (FN' : frows p new = []) by (rewrite FN; destruct X as [(-> & _)| ->]; reflexivity).
        rewrite FN', app_nil_r, (W1 f U), (D4 p f0 f U0 U Ec). now apply (R2 p f0 f).
      + rewrite X in FN. assert (CK : In p (map fst (plan_changed T s pj))) by (apply changed_key; exists f; auto).
        destruct (t_utf8 T (f_content f)) eqn:Hu.
        * assert (U : indexable T pj p f) by (split; auto). rewrite (W1 f U), FN.
          destruct new as [|r0 new0].
          -- cbn in FN. unfold frows in FN at 1. cbn in FN. rewrite <- FN, app_nil_r.
             assert (E1 : rows_of T p (f_content f) = []) by now symmetry.
             destruct LOST as [L|(q & g & Hg & Hn & Hd)].
             ++ assert (E0 := L p f0 f U0 U Ec E1). rewrite D5; [reflexivity|]. apply frows_nil. intros r Hr <-.
                destruct (R1 r Hr) as (h0 & K0 & [K|(h & K1 & K)]).
                ** rewrite (candidate_fun T pj0 _ h0 f0 N0 (proj1 K0) (proj1 U0)), E0 in K. contradiction.
                ** rewrite (candidate_fun T pj _ h f N1 (proj1 K1) Es), E1 in K. contradiction.
             ++ exfalso. assert (FQ := parsed_frows T (todo s) q (todo_NoDup s)). rewrite <- EN in FQ.
                rewrite (todo_assoc s q g F (proj1 Hg)) in FQ.
                destruct (classify_cases s q g F (proj1 Hg)) as [(_ & (g0 & V0 & Vc) & _)|[(_ & _ & Y)|[(_ & _ & _ & Y)|(_ & _ & Y & _)]]].
                ** now apply (Hd g0 V0).
                ** rewrite Y in FQ. destruct Hg as (_ & Hg). rewrite Hg in FQ. cbn in FQ. now rewrite <- FQ in Hn.
                ** rewrite Y in FQ. destruct Hg as (_ & Hg). rewrite Hg in FQ. cbn in FQ. now rewrite <- FQ in Hn.
                ** destruct Hg as (_ & Hg). congruence.
          -- rewrite (D3 ltac:(discriminate) p CK). reflexivity.
        * rewrite (W2 (NU eq_refl)), FN, (D2 p f Es Hu CK). reflexivity.
      + rewrite X in FN. rewrite (D5 p (NR p U0)). cbn [app]. rewrite FN. destruct (t_utf8 T (f_content f)) eqn:Hu.
        * rewrite (W1 f); [reflexivity|split; auto].
        * now rewrite (W2 (NU eq_refl)).
      + rewrite X in FN. rewrite FN, (D5 p (NR p U0)), (W2 (NU Hu)). reflexivity.
    - assert (NN : forall f, ~ candidate T pj p f).
      { intros f H. apply scan_In in H. apply assoc_None in Es. apply Es. apply in_map_iff. exists (p, f). auto. }
      assert (FN' : frows p new = []).
      { rewrite FN. destruct (assoc (todo s) p) as [f|] eqn:Et; auto. exfalso. apply assoc_In, (todo_In s p f F) in Et. now apply (NN f). }
      rewrite FN', app_nil_r, W2 by (intros g (Hg & _); exact (NN g Hg)).
      rewrite D1; [reflexivity|now apply not_candidate_unstable|]. intros (f & Hf). now apply (NN f).
  Qed.

  Lemma frows_absent rows p : rows_ok rows -> (forall f0, ~ indexable T pj0 p f0) -> frows p rows = [].
  Proof. intros (R1 & _) H. apply frows_nil. intros r Hr <-. destruct (R1 r Hr) as (f0 & H0 & _). now apply (H f0). Qed.

  Lemma todo_rows_new s r : files_ok s -> In r (parsed_rows T (todo s)) -> none_added T pj0 pj ->
    unstable (r_file r) /\ (exists f0, indexable T pj0 (r_file r) f0) /\
    exists f, indexable T pj (r_file r) f /\ In r (rows_of T (r_file r) (f_content f)).
  Proof.
    intros F Hr NA. unfold parsed_rows in Hr. apply in_flat_map in Hr. destruct Hr as ((p, f) & Hi & Hr).
    unfold parse in Hr. cbn [fst snd] in Hr. destruct (t_utf8 T (f_content f)) eqn:Hu; [|contradiction].
    assert (Ep := rows_of_file _ _ _ _ Hr). subst p. apply (todo_In s _ f F) in Hi. destruct Hi as (Hc & Hk).
    assert (U : indexable T pj (r_file r) f) by (split; auto). destruct (NA _ _ U) as (f0 & U0).
    split; [|split; [exists f0; exact U0|exists f; auto]].
    destruct (classify_cases s _ f F Hc) as [(_ & _ & _ & [(X & _)|X])|[(_ & _ & X)|[(X & _)|(X & _)]]].
    - rewrite X in Hk. destruct Hk; discriminate.
    - rewrite X in Hk. destruct Hk; discriminate.
    - apply (changed_unstable s _ F). apply changed_key. exists f. auto.
    - destruct (X f0 U0).
    - destruct (X f0 U0).
  Qed.

  Lemma nonempty_nil {A} (l : list A) : nonempty l = false -> l = [].
  Proof. now destruct l. Qed.

  Lemma triple_attempt m d I (Q : unit -> store -> Prop) : triple m d I (fun _ => Q tt) -> triple (attempt m) d I Q.
  Proof. intros (es & a & E & HQ & HI). exists es, tt. unfold attempt. rewrite E. auto. Qed.
  Lemma triple_when b m d (I : store -> Prop) (Q : unit -> store -> Prop) :
    (b = true -> triple m d I Q) -> (b = false -> I d /\ Q tt d) -> triple (when b m) d I Q.
  Proof. intros H1 H2. destruct b; cbn [when]; [now apply H1|]. destruct (H2 eq_refl). now apply triple_ret. Qed.
  Lemma prepare_nil : prepare T [] = [].
  Proof. apply Permutation_nil. symmetry. apply prepare_perm. Qed.
  Lemma keep_nil l : keep [] l = l.
  Proof. unfold keep. induction l as [|r l IH]; cbn in *; congruence. Qed.

  Lemma incremental_triple s rows extra d sch :
    d_building d = false -> d_state d = Some s -> s_format s = true ->
    d_vec d = Some (rows ++ extra) -> d_db d = Some (number 0 rows) -> (extra <> [] -> s_dirty s = true) ->
    files_ok s -> rows_ok rows ->
    triple (incremental T sch pj s) d Inv (fun _ d' => snapshot T pj G' d').
  Proof.
    intros Hb Hs Hf Hv Hd Hx F R. unfold incremental.
    assert (I0 : Inv d) by (intros _; left; exists s, rows, extra; repeat (split; auto)).
    apply triple_bind with (Q := fun b d1 => b = true /\ at_ s rows d1).
    { destruct (s_dirty s) eqn:Ed.
      - assert (A : at_ s rows (setvd d rows rows)) by (repeat split; auto).
        apply (repair_trims d rows extra); auto. now apply (at_inv s rows).
      - assert (extra = []) by (destruct extra; auto; now discriminate Hx). subst extra. rewrite app_nil_r in Hv.
        apply triple_ret; auto. repeat split; auto. }
    clear I0 Hb Hs Hv Hd Hx extra d. intros b d (-> & A). cbn [negb].
    assert (I1 := at_inv s rows d A Hf F R).
    apply triple_bind with (Q := fun n d1 => exists gone, (forall p, In p gone -> assoc (p_files pj) p = None) /\
      at_ s (keep gone rows) d1 /\ (n = 0 -> keep gone rows = rows)).
    { destruct (_ || _).
      - set (gone := filter (fun p => match assoc (p_files pj) p with None => true | Some _ => false end)
          (match d_db d with Some db => nodup text_dec (map (fun e => r_file (snd e)) db) | None => [] end)).
        change (triple (delete_files gone) d Inv (fun n d1 => exists gone, (forall p, In p gone -> assoc (p_files pj) p = None) /\
          at_ s (keep gone rows) d1 /\ (n = 0 -> keep gone rows = rows))).
        assert (HG : forall p, In p gone -> assoc (p_files pj) p = None).
        { intros p Hp. apply filter_In in Hp. destruct Hp as (_ & Hp). now destruct (assoc (p_files pj) p). }
        assert (A' := at_setvd s rows (keep gone rows) d A).
        apply (delete_aligned gone d rows); auto; [apply A| |].
        + apply (at_inv s _ _ A' Hf F). apply rows_ok_keep; auto. intros p Hp. apply not_candidate_unstable.
          intros f (Hf' & _). apply HG in Hp. apply (In_assoc _ _ _ N1) in Hf'. congruence.
        + intros n Hn. exists gone. auto.
      - apply triple_ret; auto. exists []. rewrite keep_nil. split; [intros p []|]. auto. }
    clear I1. intros n d1 (gone & HG & A1 & Z1). clear d A.
    assert (R1 : rows_ok (keep gone rows)).
    { apply rows_ok_keep; auto. intros p Hp. apply not_candidate_unstable.
      intros f (Hf' & _). apply HG in Hp. apply (In_assoc _ _ _ N1) in Hf'. congruence. }
    assert (I1 := at_inv s _ d1 A1 Hf F R1).
    change (with_files s (fold_left (fun m e => put m (fst e) (snd e)) (plan_touched T s pj) (s_files s))) with (touch s).
    cbv zeta.
    destruct (negb (nonempty (plan_added T s pj)) && negb (nonempty (plan_changed T s pj)) && negb (nonempty (plan_deleted T s pj)) && (n =? 0)) eqn:Eidle.
    { rewrite !andb_true_iff, !negb_true_iff in Eidle. destruct Eidle as (((E1 & E2) & E3) & E4).
      apply nonempty_nil in E1, E2, E3. apply Nat.eqb_eq in E4. rewrite (Z1 E4) in *.
      destruct (settled_idle s rows F R E1 E2 E3) as (S1 & S2).
      apply triple_when.
      - intros _. assert (SN := settled_snapshot _ _ _ _ A1 S1). apply triple_emit; auto. intros _. now right.
      - intros E. split; auto. apply orb_false_iff in E. destruct E as (E5 & E6). apply nonempty_nil in E5.
        destruct A1 as (H1 & H2 & H3 & H4). destruct (S2 E5) as (P1 & P2 & P3).
        exists s, rows. repeat split; auto; try now apply P3.
        + apply P2.
        + apply P2. }
    set (rows1 := keep gone rows) in *.
    apply triple_bind with (Q := fun _ d2 => exists s', at_ s' rows1 d2 /\ s_format s' = true /\ files_ok s' /\
      (s_dirty s' = true \/ (plan_added T s pj = [] /\ plan_changed T s pj = []))).
    { apply triple_when.
      - intros _. assert (A2 := at_save _ _ _ (with_dirty (touch s) true) A1).
        assert (F2 := stamp_ok _ true (touch_ok s F)).
        apply triple_emit; auto.
        + now apply (at_inv _ _ _ A2).
        + exists (stamp (with_dirty (touch s) true)). auto.
      - intros E. rewrite !orb_false_iff in E. destruct E as ((E1 & E2) & E3). apply nonempty_nil in E2, E3.
        split; auto. exists s. repeat (split; [assumption|]). right. split; assumption. }
    clear I1 A1 d1. intros _ d2 (s' & A2 & Hf' & F' & HD).
    assert (DU : forall p, In p (plan_deleted T s pj) -> unstable p).
    { intros p Hp. apply deleted_In in Hp. now apply not_candidate_unstable. }
    set (rows2 := keep (plan_deleted T s pj) rows1).
    assert (R2 : rows_ok rows2) by now apply rows_ok_keep.
    apply triple_bind with (Q := fun _ d3 => at_ s' rows2 d3).
    { assert (A3 := at_setvd s' rows1 rows2 d2 A2).
      apply (delete_aligned _ d2 rows1); [apply A2|now apply (at_inv s' rows1)|now apply (at_inv s' rows2)|]. intros; exact A3. }
    clear A2 d2. intros _ d3 A3.
    change (with_files (with_files (touch s) (fold_left remove_key (plan_deleted T s pj) (s_files (touch s))))
      (filter (fun e => match assoc (p_files pj) (fst e) with Some _ => true | None => false end)
        (s_files (with_files (touch s) (fold_left remove_key (plan_deleted T s pj) (s_files (touch s))))))) with (state3 s).
    change (filter (fun e => negb (mem (fst e) (s_ignored (state3 s)))) (plan_added T s pj ++ plan_changed T s pj)) with (todo s).
    change (fold_left (note_parsed T) (todo s) (state3 s)) with (state4 s).
    set (skips := filter (fun p => mem p (map fst (plan_changed T s pj))) (parsed_skips T (todo s))).
    assert (SU : forall p, In p skips -> unstable p).
    { intros p Hp. apply filter_In in Hp. destruct Hp as (_ & Hp). apply mem_In in Hp. now apply (changed_unstable s). }
    set (rows3 := keep skips rows2).
    assert (R3 : rows_ok rows3) by now apply rows_ok_keep.
    apply triple_bind with (Q := fun _ d4 => at_ s' rows3 d4).
    { apply triple_attempt. assert (A4 := at_setvd s' rows2 rows3 d3 A3).
      apply (delete_aligned _ d3 rows2); [apply A3|now apply (at_inv s' rows2)|now apply (at_inv s' rows3)|]. intros; exact A4. }
    clear A3 d3. intros _ d4 A4.
    assert (I4 := at_inv s' rows3 d4 A4 Hf' F' R3).
    set (new := parsed_rows T (todo s)).
    assert (FR : forall rows4, (rows4 = rows3 /\ new = []) \/ rows4 = keep (map fst (plan_changed T s pj)) rows3 ->
      Permutation (rows4 ++ prepare T new) (wanted T pj)).
    { intros rows4 H4. apply (final_rows s rows rows4 new F R eq_refl).
      - intros p _ NCd.
        assert (X2 : frows p rows2 = []).
        { unfold rows2. rewrite frows_keep. destruct (mem p (plan_deleted T s pj)) eqn:E; auto.
          apply mem_false in E. apply (frows_absent rows1); auto. intros f0 H0. apply E. apply deleted_In.
          split; [destruct F as (_ & F2 & _); now apply (F2 p f0)|]. intros f Hc. apply NCd. now exists f. }
        assert (X3 : frows p rows3 = []) by (unfold rows3; rewrite frows_keep, X2; now destruct (mem p skips)).
        destruct H4 as [(-> & _)| ->]; auto. rewrite frows_keep, X3. now destruct (mem p _).
      - intros p f Hc Hu Hk.
        assert (X3 : frows p rows3 = []).
        { unfold rows3. rewrite frows_keep. replace (mem p skips) with true; auto. symmetry. apply mem_In. unfold skips.
          apply filter_In. split; [|now apply mem_In]. apply parsed_skips_In. exists f. split; auto.
          apply (todo_In s p f F). split; auto. right. apply changed_key in Hk. destruct Hk as (g & Hg & Hk).
          now rewrite (candidate_fun T pj p g f N1 Hg Hc) in Hk. }
        destruct H4 as [(-> & _)| ->]; auto. rewrite frows_keep, X3. now destruct (mem p _).
      - intros Hn p Hp. destruct H4 as [(_ & E)| ->]; [congruence|]. rewrite frows_keep. apply mem_In in Hp. now rewrite Hp.
      - intros p f0 f U0 U Ec.
        assert (NU : forall l, (forall q, In q l -> unstable q) -> mem p l = false).
        { intros l Hl. apply mem_false. intros Hp. now apply (Hl p Hp f0 f). }
        assert (X3 : frows p rows3 = frows p rows).
        { unfold rows3, rows2, rows1. rewrite !frows_keep, (NU skips SU), (NU _ DU), NU; auto.
          intros q Hq. apply not_candidate_unstable. intros g (Hg & _). apply HG in Hq. apply (In_assoc _ _ _ N1) in Hg. congruence. }
        destruct H4 as [(-> & _)| ->]; auto. rewrite frows_keep, NU; auto. intros q Hq. now apply (changed_unstable s).
      - intros p E.
        assert (X3 : frows p rows3 = []).
        { unfold rows3, rows2, rows1. rewrite !frows_keep, E. now destruct (mem p skips), (mem p (plan_deleted T s pj)), (mem p gone). }
        destruct H4 as [(-> & _)| ->]; auto. rewrite frows_keep, X3. now destruct (mem p _). }
    destruct (state4_files s F) as (SF1 & SF2).
    apply triple_bind with (Q := fun _ d5 => exists rows5, at_ s' rows5 d5 /\ Permutation rows5 (wanted T pj) /\ Inv d5).
    { apply triple_when.
      - intros En.
        assert (HD' : s_dirty s' = true).
        { destruct HD as [HD|(E1 & E2)]; auto. unfold new, todo in En. rewrite E1, E2 in En. discriminate En. }
        set (rows4 := keep (map fst (plan_changed T s pj)) rows3).
        assert (R4 : rows_ok rows4) by (apply rows_ok_keep; auto; intros p; now apply (changed_unstable s)).
        apply triple_bind with (Q := fun _ d5 => at_ s' rows4 d5).
        { assert (A5 := at_setvd s' rows3 rows4 d4 A4).
          apply (delete_aligned _ d4 rows3); [apply A4|exact I4|now apply (at_inv s' rows4)|]. intros; exact A5. }
        intros _ d5 A5.
        assert (KI : forall y z w, prepare T new = y ++ z ++ w -> Inv (setvd d5 (rows4 ++ y ++ z) (rows4 ++ y))).
        { intros y z w Ey NA. left. exists s', (rows4 ++ y), z. cbn. destruct A5 as (B1 & B2 & B3 & B4).
          split; [exact B1|]. split; [exact B2|]. split; [exact Hf'|]. split; [now rewrite app_assoc|].
          split; [reflexivity|]. split; [auto|]. split; [exact F'|].
          apply rows_ok_add; auto. intros r Hr. apply (todo_rows_new s r F); auto.
          apply (Permutation_in _ (prepare_perm T new)). rewrite Ey. apply in_or_app. now left. }
        apply (pipeline_update T sch (prepare T new) d5 rows4); auto; [apply A5|].
        exists (rows4 ++ prepare T new). split; [now apply (at_setvd s' rows4)|]. split; [apply FR; now right|].
        specialize (KI (prepare T new) [] []). rewrite !app_nil_r in KI. now apply KI.
      - intros En. apply nonempty_nil in En. split; auto. exists rows3. split; auto. split; auto.
        assert (X := FR rows3 (or_introl (conj eq_refl En))). fold new in En. now rewrite En, prepare_nil, app_nil_r in X. }
    intros _ d5 (rows5 & A5 & P5 & I5).
    assert (SN : snapshot T pj G' (apply d5 (SaveState (with_dirty (state4 s) false)))).
    { apply (settled_snapshot _ s' rows5); auto. split; auto. }
    apply triple_emit; auto. intros _. now right.
  Qed.

  (** A run from a state between the two projects. *)
  Lemma index_triple d sch : mid d ->
    triple (index T sch [] pj false) d Inv (fun _ d' => snapshot T pj G' d').
  Proof.
    intros (s & rows & extra & Hb & Hs & Hf & Hv & Hd & Hx & F & R).
    assert (I0 : Inv d) by (intros _; left; exists s, rows, extra; repeat (split; auto)).
    unfold index. apply triple_bind with (Q := fun a d' => a = d /\ d' = d); [now apply triple_ask|].
    intros a d' (-> & ->). rewrite Hv. cbn [negb andb].
    apply triple_bind with (Q := fun _ d' => d' = d); [now apply triple_ret|]. intros _ d' ->.
    apply triple_bind with (Q := fun a d' => a = d /\ d' = d); [now apply triple_ask|]. intros a d' (-> & ->).
    unfold load. rewrite Hs, Hv, Hb, Hd, Hf, (some_file s F). cbn [negb andb orb].
    apply triple_bind with (Q := fun _ d' => d' = d); [now apply triple_ret|]. intros _ d' ->.
    apply triple_bind with (Q := fun _ d' => d' = d).
    { exists [], tt. split; [|split; [reflexivity|]].
      - unfold reconcile. rewrite Hv, Hd, number_length, app_length.
        replace (length rows + length extra <? length rows) with false by (symmetry; apply Nat.ltb_ge; lia). reflexivity.
      - intros d' (e1 & e2 & Ee & -> & _). destruct e1; [exact I0|discriminate]. }
    intros _ d' ->. now apply (incremental_triple s rows extra).
  Qed.
End INCR.
