(** Proofs about several processes on one index. *)
From Verif Require Import Base Text Colgrep ColgrepSpec ColgrepLists ColgrepSteps ColgrepBuild ColgrepIncr ColgrepHistory Procs ProcsSpec.
Open Scope nat_scope.

Lemma upd_same {A} (f : nat -> A) k a : upd f k a k = a.
Proof. unfold upd. rewrite Nat.eqb_refl. reflexivity. Qed.
Lemma upd_other {A} (f : nat -> A) k a i : i <> k -> upd f k a i = f i.
Proof. intro N. unfold upd. replace (i =? k) with false by (symmetry; apply Nat.eqb_neq; exact N). reflexivity. Qed.

Lemma recount_refl d : recount d d.
Proof. unfold recount. destruct (d_state d); auto 10. Qed.
Lemma recount_trans a b c : recount a b -> recount b c -> recount a c.
Proof.
  intros (A1 & A2 & A3 & A4) (B1 & B2 & B3 & B4). unfold recount. rewrite B1, B2, B3. split; [exact A1|]. split; [exact A2|]. split; [exact A3|].
  destruct (d_state a), (d_state b), (d_state c); try contradiction; auto. destruct A4 as (? & ? & ? & ?), B4 as (? & ? & ? & ?). repeat split; congruence.
Qed.
Lemma recount_apply a b e : recount a b -> recount (apply a e) (apply b e).
Proof.
  intros (A1 & A2 & A3 & A4). destruct e; unfold recount; cbn [apply d_vec d_db d_building d_state]; rewrite ?A1, ?A2, ?A3; repeat (split; [reflexivity|]); try exact A4.
  auto 10.
Qed.
Lemma recount_count j d s : d_state d = Some s -> s_format s = true -> recount d (apply d (SaveState (count j s))).
Proof.
  intros E F. unfold recount. cbn [apply d_vec d_db d_building d_state]. rewrite E. repeat (split; [reflexivity|]). destruct j; cbn [count with_searches stamp s_files s_ignored s_dirty s_format]; auto.
Qed.
Lemma apply_all_snoc d l e : apply_all d (l ++ [e]) = apply (apply_all d l) e.
Proof. unfold apply_all. rewrite fold_left_app. reflexivity. Qed.

(** *** One process at a time *)
Section PROCS.
  Context (T : tool) (jobs : nat -> job).
  Definition opened (ph : phase) : option nat := match ph with POpen i => Some i | _ => held ph end.
  Definition plain_phase (p : nat) (ph : phase) : Prop :=
    match ph with
    | PHold _ | PRemove | PRemoved _ => False
    | POpen _ | PRun _ _ => visit_of_job jobs p <> None
    | _ => True
    end.
  Record tidy (w : world) : Prop := {
    ti_holder : forall p i, held (w_phase w p) = Some i -> w_holder w i = Some p;
    ti_lock : forall p i, opened (w_phase w p) = Some i -> w_lock w = Some i;
    ti_plain : forall p, plain_phase p (w_phase w p) }.
  Lemma held_opened ph i : held ph = Some i -> opened ph = Some i.
  Proof. destruct ph; cbn; congruence. Qed.
  Lemma tidy_one w p q i j : tidy w -> held (w_phase w p) = Some i -> held (w_phase w q) = Some j -> p = q.
  Proof.
    intros [H L _] P Q. pose proof (L _ _ (held_opened _ _ P)) as A. pose proof (L _ _ (held_opened _ _ Q)) as B. assert (i = j) by congruence. subst j. pose proof (H _ _ P). pose proof (H _ _ Q). congruence.
  Qed.
  Ltac others q p := destruct (Nat.eq_dec q p) as [->|?]; [rewrite ?upd_same|rewrite ?upd_other by assumption].
  (** A change of phase without the lock. *)
  Lemma tidy_phase w p ph : tidy w -> held ph = None -> (forall i, opened ph = Some i -> w_lock w = Some i) -> plain_phase p ph -> tidy (set_phase w p ph).
  Proof.
    intros [H L P] A B C. split; cbn [set_phase w_phase w_holder w_lock].
    - intros q i. others q p; [congruence|apply H].
    - intros q i. others q p; [apply B|apply L].
    - intros q. others q p; [exact C|apply P].
  Qed.
  Lemma tidy_release w p i ph : tidy w -> held (w_phase w p) = Some i -> held ph = None -> opened ph = None -> plain_phase p ph -> tidy (set_phase (set_holder w i None) p ph).
  Proof.
    intros T0 P A B C. pose proof (fun q j => tidy_one w q p j i T0) as ONE. destruct T0 as [H L PL]. split; cbn [set_phase set_holder w_phase w_holder w_lock].
    - intros q j. others q p; [congruence|]. intro Q. rewrite upd_other; [apply H; exact Q|]. intros ->. specialize (ONE q i Q P). contradiction.
    - intros q j. others q p; [congruence|apply L].
    - intros q. others q p; [exact C|apply PL].
  Qed.
  Lemma tidy_step w p m w' : none_removes jobs -> tidy w -> step T jobs p m w = Some w' -> tidy w'.
  Proof.
    intros NR TI H. pose proof (ti_plain w TI p) as PP. unfold step in H. destruct (w_phase w p) as [|i|i es|i| |i| |s|] eqn:P; cbn [plain_phase] in PP; try contradiction.
    - destruct m; try discriminate.
      + assert (K : visit_of_job jobs p <> None -> (forall i, w_lock w = Some i -> Some (set_phase w p (POpen i)) = Some w' -> tidy w') /\ (w_lock w = None -> Some (set_phase (set_lock w (Some (w_next w)) (S (w_next w))) p (POpen (w_next w))) = Some w' -> tidy w')).
        { intro V. split.
          - intros i E Q. injection Q as <-. apply tidy_phase; [exact TI|reflexivity|cbn; congruence|exact V].
          - intros E Q. injection Q as <-. apply tidy_phase; [|reflexivity|cbn; congruence|exact V]. destruct TI as [A B C]. split; cbn [set_lock w_phase w_holder w_lock]; auto. intros q j Q. specialize (B q j Q). congruence. }
        destruct (NR p) as (N1 & N2). unfold visit_of_job in K. destruct (jobs p); try discriminate; try congruence; destruct K as (K1 & K2); try discriminate; destruct (w_lock w); eauto.
      + destruct (jobs p); try discriminate; injection H as <-; (apply tidy_phase; [exact TI|reflexivity|cbn; congruence|exact I]).
      + injection H as <-. unfold release. rewrite P. cbn [held]. apply tidy_phase; [exact TI|reflexivity|cbn; congruence|exact I].
    - destruct m; try discriminate.
      + destruct (w_holder w i) eqn:HO; [discriminate|]. destruct (visit_of_job jobs p) as [v|] eqn:V; [|congruence]. injection H as <-.
        pose proof (ti_lock w TI p i) as LP. rewrite P in LP. specialize (LP eq_refl). destruct TI as [A B C]. split; cbn [set_phase set_holder add_log w_phase w_holder w_lock].
        * intros q j. others q p.
          -- cbn [held]. intro Q. injection Q as <-. apply upd_same.
          -- intro Q. rewrite upd_other; [apply A; exact Q|]. intros ->. specialize (A q i Q). congruence.
        * intros q j. others q p; [cbn; congruence|apply B].
        * intros q. others q p; [cbn; congruence|apply C].
      + destruct (w_holder w i); [|discriminate]. destruct (jobs p); injection H as <-; (apply tidy_phase; [exact TI|reflexivity|cbn; congruence|exact I]).
      + injection H as <-. unfold release. rewrite P. cbn [held]. apply tidy_phase; [exact TI|reflexivity|cbn; congruence|exact I].
    - destruct es as [|e es]; destruct m; try discriminate.
      + destruct (jobs p); injection H as <-; (apply tidy_release; [exact TI|rewrite P; reflexivity|reflexivity|reflexivity|exact I]).
      + injection H as <-. unfold release. rewrite P. cbn [held]. apply tidy_release; [exact TI|rewrite P; reflexivity|reflexivity|reflexivity|exact I].
      + injection H as <-. pose proof (ti_lock w TI p i) as LP. pose proof (ti_holder w TI p i) as HP. rewrite P in LP, HP. specialize (LP eq_refl). specialize (HP eq_refl). destruct TI as [A B C]. split; cbn [set_phase set_store w_phase w_holder w_lock].
        * intros q j. others q p; [cbn; congruence|apply A].
        * intros q j. others q p; [cbn; congruence|apply B].
        * intros q. others q p; [exact PP|apply C].
      + injection H as <-. unfold release. rewrite P. cbn [held]. apply tidy_release; [exact TI|rewrite P; reflexivity|reflexivity|reflexivity|exact I].
    - destruct m; try discriminate.
      + destruct (d_vec (w_store w)), (jobs p); injection H as <-; (apply tidy_phase; [exact TI|reflexivity|cbn; congruence|exact I]).
      + injection H as <-. unfold release. rewrite P. cbn [held]. apply tidy_phase; [exact TI|reflexivity|cbn; congruence|exact I].
    - destruct m; try discriminate.
      + injection H as <-. apply tidy_phase; [|reflexivity|cbn; congruence|exact I]. destruct TI as [A B C]. split; assumption.
      + injection H as <-. unfold release. rewrite P. cbn [held]. apply tidy_phase; [exact TI|reflexivity|cbn; congruence|exact I].
    - discriminate.
  Qed.
  Lemma tidy_reach ok d w : none_removes jobs -> reach T jobs ok d w -> tidy w.
  Proof.
    intros NR H. induction H as [|w p m w' _ IH _ E]; [|exact (tidy_step w p m w' NR IH E)]. split; cbn; [discriminate|discriminate|exact (fun _ => I)].
  Qed.

  (** *** The order of the runs *)
  Section ORDER.
    Context (ok : world -> nat -> move -> Prop) (d : store) (R : list visit -> store -> Prop).
    Hypothesis NR : none_removes jobs.
    Hypothesis OK : forall w p m, ok w p m -> undisturbed w p m.
    Hypothesis R0 : R [] d.
    Hypothesis Rrun : forall vs d1 v, R vs d1 -> R (vs ++ [v]) (after (visit_run T v) d1).
    Hypothesis Rcount : forall vs d1 d2, R vs d1 -> recount d1 d2 -> R vs d2.
    Hypothesis Rkill : forall w p vs d1 d2 v, ok w p Kill -> R vs d1 -> killed (visit_run T v) d1 d2 -> R (vs ++ [v]) d2.
    Definition middle (w : world) (p : nat) (es : list effect) : Prop :=
      exists vs d1 before v, w_log w = vs ++ [v] /\ visit_of_job jobs p = Some v /\ R vs d1 /\ fst (visit_run T v d1) = before ++ es /\ recount (apply_all d1 before) (w_store w).
    Definition ordered (w : world) : Prop :=
      (idle w -> R (w_log w) (w_store w)) /\ forall p i es, w_phase w p = PRun i es -> middle w p es.
    (** A move that leaves the store, the log and the runs alone. *)
    Lemma ordered_neutral w w' p : ordered w -> w_store w' = w_store w -> w_log w' = w_log w -> (forall q, q <> p -> w_phase w' q = w_phase w q) ->
      ~ running w p -> ~ running w' p -> ordered w'.
    Proof.
      intros (A & B) S L Q N N'. split.
      - intro ID. rewrite S, L. apply A. intros q (i & es & E). destruct (Nat.eq_dec q p) as [->|Nq]; [apply N; exists i, es; exact E|]. apply (ID q). exists i, es. rewrite Q by exact Nq. exact E.
      - intros q i es E. destruct (Nat.eq_dec q p) as [->|Nq]; [exfalso; apply N'; exists i, es; exact E|]. rewrite Q in E by exact Nq. unfold middle. rewrite S, L. exact (B q i es E).
    Qed.
    Lemma not_running w p ph : w_phase w p = ph -> held ph = None -> ~ running w p.
    Proof. intros E H (i & es & Q). rewrite <- E, Q in H. discriminate. Qed.
    Lemma ordered_step w p m w' : tidy w -> ordered w -> ok w p m -> step T jobs p m w = Some w' -> ordered w'.
    Proof using NR OK Rrun Rcount Rkill.
      intros TI OR O H. pose proof (ti_plain w TI p) as PP.
      assert (NEU : forall ph l n, held (w_phase w p) = None -> held ph = None -> ordered (set_phase (set_lock w l n) p ph)).
      { intros ph l n A B. apply (ordered_neutral w _ p); auto.
        - intros q N. cbn. apply upd_other. exact N.
        - apply (not_running w p _ eq_refl A).
        - apply (not_running _ p ph); [cbn; apply upd_same|exact B]. }
      assert (NEU' : forall ph, held (w_phase w p) = None -> held ph = None -> ordered (set_phase w p ph)).
      { intros ph A B. specialize (NEU ph (w_lock w) (w_next w) A B). destruct w. exact NEU. }
      assert (ALONE : forall i, held (w_phase w p) = Some i -> forall q, running w q -> q = p).
      { intros i E q (j & es & Q). apply (tidy_one w q p j i TI); [rewrite Q; reflexivity|exact E]. }
      assert (ENDS : forall i es d2 ph vs, held (w_phase w p) = Some i -> w_phase w p = PRun i es -> held ph = None -> w_log w = vs -> R vs d2 -> recount d2 (w_store w) -> ordered (set_phase (set_holder w i None) p ph)).
      { intros i es d2 ph vs A E B L RR RC. split.
        - intros _. cbn. rewrite L. exact (Rcount _ _ _ RR RC).
        - intros q j es' Q. cbn in Q. destruct (Nat.eq_dec q p) as [->|N]; [rewrite upd_same in Q; subst ph; discriminate|]. rewrite upd_other in Q by exact N. exfalso. apply N. apply (ALONE i A). exists j, es'. exact Q. }
      unfold step in H. destruct (w_phase w p) as [|i|i es|i| |i| |s|] eqn:P; cbn [plain_phase] in PP; try contradiction.
      - destruct m; try discriminate.
        + destruct (jobs p); try discriminate; destruct (w_lock w); injection H as <-; auto.
        + destruct (jobs p); try discriminate; injection H as <-; auto.
        + injection H as <-. unfold release. rewrite P. cbn [held]. auto.
      - destruct m; try discriminate.
        + destruct (w_holder w i) eqn:HO; [discriminate|]. destruct (visit_of_job jobs p) as [v|] eqn:V; [|congruence]. injection H as <-.
          assert (ID : idle w).
          { intros q (j & es & Q). pose proof (ti_lock w TI p i) as LP. rewrite P in LP. specialize (LP eq_refl). pose proof (ti_lock w TI q j) as LQ. rewrite Q in LQ. specialize (LQ eq_refl). assert (j = i) by congruence. subst j. pose proof (ti_holder w TI q i) as HQ. rewrite Q in HQ. specialize (HQ eq_refl). congruence. }
          destruct OR as (A & B). specialize (A ID). split.
          * intro ID'. exfalso. apply (ID' p). exists i, (fst (visit_run T v (w_store w))). cbn. apply upd_same.
          * intros q j es Q. cbn in Q. destruct (Nat.eq_dec q p) as [->|N]; cycle 1. { rewrite upd_other in Q by exact N. exfalso. apply (ID q). exists j, es. exact Q. }
            rewrite upd_same in Q. injection Q as <- <-. exists (w_log w), (w_store w), [], v. cbn. repeat (split; [auto; fail|]). apply recount_refl.
        + destruct (w_holder w i); [|discriminate]. destruct (jobs p); injection H as <-; auto.
        + injection H as <-. unfold release. rewrite P. cbn [held]. auto.
      - destruct OR as (A & B). destruct (B p i es P) as (vs & d1 & before & v & L & V & RR & F & RC).
        destruct es as [|e es]; destruct m; try discriminate.
        + rewrite app_nil_r in F. assert (R' : R (w_log w) (after (visit_run T v) d1)) by (rewrite L; apply Rrun; exact RR). unfold after in R'. rewrite F in R'.
          destruct (jobs p); injection H as <-; (eapply ENDS; [reflexivity|reflexivity|reflexivity|reflexivity|exact R'|exact RC]).
        + injection H as <-. unfold release. rewrite P. cbn [held]. eapply ENDS; [reflexivity|reflexivity|reflexivity|reflexivity| |exact RC]. rewrite L. apply (Rkill w p vs d1); [exact O|exact RR|]. exists before, []. auto.
        + injection H as <-. split.
          * intro ID. exfalso. apply (ID p). exists i, es. cbn. apply upd_same.
          * intros q j es' Q. cbn in Q. destruct (Nat.eq_dec q p) as [->|N]; cycle 1. { rewrite upd_other in Q by exact N. exfalso. apply N. apply (ALONE i eq_refl). exists j, es'. exact Q. }
            rewrite upd_same in Q. injection Q as <- <-. exists vs, d1, (before ++ [e]), v. cbn. split; [exact L|]. split; [exact V|]. split; [exact RR|]. split; [rewrite <- app_assoc; exact F|]. rewrite apply_all_snoc. apply recount_apply. exact RC.
        + injection H as <-. unfold release. rewrite P. cbn [held]. eapply ENDS; [reflexivity|reflexivity|reflexivity|reflexivity| |exact RC]. rewrite L. apply (Rkill w p vs d1); [exact O|exact RR|]. exists before, (e :: es). auto.
      - destruct m; try discriminate.
        + destruct (d_vec (w_store w)), (jobs p); injection H as <-; auto.
        + injection H as <-. unfold release. rewrite P. cbn [held]. auto.
      - destruct m; try discriminate.
        + injection H as <-. destruct (OK w p Save O eq_refl s P) as (DS & SF). pose proof (recount_count (jobs p) (w_store w) s DS SF) as RC. destruct OR as (A & B). split.
          * intro ID. cbn. refine (Rcount _ _ _ (A _) RC). intros q (j & es & Q). destruct (Nat.eq_dec q p) as [->|N]; [congruence|]. apply (ID q). exists j, es. cbn. rewrite upd_other by exact N. exact Q.
          * intros q j es Q. cbn in Q. destruct (Nat.eq_dec q p) as [->|N]; [rewrite upd_same in Q; discriminate|]. rewrite upd_other in Q by exact N. destruct (B q j es Q) as (vs & d1 & before & v & L & V & RR & F & RC').
            exists vs, d1, before, v. cbn. repeat (split; [assumption|]). exact (recount_trans _ _ _ RC' RC).
        + injection H as <-. unfold release. rewrite P. cbn [held]. auto.
      - discriminate.
    Qed.
    Lemma ordered_reach w : reach T jobs ok d w -> ordered w.
    Proof using NR OK R0 Rrun Rcount Rkill.
      intro H. induction H as [|w p m w' H IH O E].
      - split; [intros _; exact R0|]. intros p i es Q. discriminate.
      - exact (ordered_step w p m w' (tidy_reach ok d w NR H) IH O E).
    Qed.
  End ORDER.
  Lemma serial_reach d w : none_removes jobs -> reach T jobs undisturbed d w -> serial T d (w_store w).
  Proof.
    intros NR H. destruct (ordered_reach undisturbed d (fun _ => serial T d) NR (fun w p m O => O) (ser_none T d) (fun _ d1 v S => ser_run T d d1 v S) (fun _ d1 d2 S C => ser_count T d d1 d2 S C) (fun _ _ _ d1 d2 v _ S K => ser_killed T d d1 d2 v S K) w H) as (A & B).
    assert (D : (exists p i es, w_phase w p = PRun i es) \/ idle w).
    { destruct (w_lock w) as [i|] eqn:L.
      - destruct (w_holder w i) as [p|] eqn:HO.
        + destruct (w_phase w p) eqn:P; try (right; intros q (j & es & Q); pose proof (tidy_reach _ d w NR H) as TI; pose proof (ti_lock w TI q j) as LQ; rewrite Q in LQ; specialize (LQ eq_refl); assert (j = i) by congruence; subst j; pose proof (ti_holder w TI q i) as HQ; rewrite Q in HQ; specialize (HQ eq_refl); assert (q = p) by congruence; subst q; congruence).
          left. eauto.
        + right. intros q (j & es & Q). pose proof (tidy_reach _ d w NR H) as TI. pose proof (ti_lock w TI q j) as LQ. rewrite Q in LQ. specialize (LQ eq_refl). assert (j = i) by congruence. subst j. pose proof (ti_holder w TI q i) as HQ. rewrite Q in HQ. specialize (HQ eq_refl). congruence.
      - right. intros q (j & es & Q). pose proof (tidy_reach _ d w NR H) as TI. pose proof (ti_lock w TI q j) as LQ. rewrite Q in LQ. specialize (LQ eq_refl). congruence. }
    destruct D as [(p & i & es & P)|ID]; [|exact (A ID)]. destruct (B p i es P) as (vs & d1 & before & v & _ & _ & S & F & RC). apply (ser_count T d (apply_all d1 before)); [|exact RC]. apply (ser_killed T d d1 _ v S). exists before, es. auto.
  Qed.
  Lemma one_by_one_reach d w : none_removes jobs -> reach T jobs not_killed d w -> idle w -> one_by_one T d (w_log w) (w_store w).
  Proof.
    intros NR H. refine (proj1 (ordered_reach not_killed d (one_by_one T d) NR (fun w p m O => proj2 O) (obo_none T d) (fun vs d1 v S => obo_run T d vs d1 v S) (fun vs d1 d2 S C => obo_count T d vs d1 d2 S C) _ w H)).
    intros w0 p vs d1 d2 v (N & _). congruence.
  Qed.
End PROCS.

(** *** The index is up to date *)
Lemma recount_snapshot T pj G d d' : recount d d' -> snapshot T pj G d -> snapshot T pj G d'.
Proof.
  intros (A & B & C & D) (s & rows & H1 & H2 & H3 & H4 & (H5 & H5') & H6 & H7 & H8). rewrite H2 in D. destruct (d_state d') as [s'|] eqn:S; [|contradiction]. destruct D as (D1 & D2 & D3 & D4).
  exists s', rows. rewrite C, D1, D2, D3, D4. unfold aligned. rewrite A, B. split; [exact H1|]. split; [exact S|]. auto 10.
Qed.
Lemma consecutive_prefix R vs v : consecutive R (vs ++ [v]) -> consecutive R vs.
Proof.
  induction vs as [|a vs IH]; [exact (fun _ => I)|]. cbn [app consecutive]. destruct vs as [|b vs]; [exact (fun _ => I)|]. intros (A & B). split; [exact A|]. apply IH. exact B.
Qed.
Lemma consecutive_last R vs v w : consecutive R (vs ++ [v; w]) -> R (v_project v) (v_project w).
Proof.
  induction vs as [|a vs IH]; [intros (A & _); exact A|]. cbn [app consecutive]. destruct vs as [|b vs]; intros (_ & B); [exact (proj1 B)|exact (IH B)].
Qed.
Lemma pairwise_prefix R vs v : pairwise R (vs ++ [v]) -> pairwise R vs /\ forall w, In w vs -> R (v_project w) (v_project v).
Proof.
  induction vs as [|a vs IH]; [intros _; split; [exact I|intros w []]|]. cbn [app pairwise]. intros (A & B). destruct (IH B) as (C & D). split.
  - split; [|exact C]. intros w J. apply A. apply in_or_app. left. exact J.
  - intros w [<-|J]; [|exact (D w J)]. apply A. apply in_or_app. right. left. reflexivity.
Qed.
Lemma ordinary_prefix T vs v : ordinary T (vs ++ [v]) -> ordinary T vs.
Proof.
  intros [A B C D E]. split.
  - intros w J. apply A. apply in_or_app. left. exact J.
  - intros w J. apply B. apply in_or_app. left. exact J.
  - exact (consecutive_prefix _ _ _ C).
  - exact (consecutive_prefix _ _ _ D).
  - exact (proj1 (pairwise_prefix _ _ _ E)).
Qed.
(** The empty directory, whatever the number of searches. *)
Lemma recount_empty d : recount empty_store d -> d = empty_store.
Proof. destruct d as [v db s b]. intros (A & B & C & D). cbn in *. destruct s; [contradiction|]. subst. reflexivity. Qed.
Lemma one_by_one_current T vs d : good_tool T -> one_by_one T empty_store vs d -> ordinary T vs ->
  match rev vs with
  | [] => d = empty_store
  | v :: _ => exists H, snapshot T (v_project v) H d /\ forall p, H p -> exists w, In w vs /\ skipped T (v_project w) p
  end.
Proof.
  intros GT S. induction S as [|vs d1 v S IH|vs d1 d2 S IH RC]; intro O.
  - reflexivity.
  - rewrite rev_app_distr. cbn [rev app]. specialize (IH (ordinary_prefix _ _ _ O)). destruct vs as [|u us _] using rev_ind.
    + cbn [rev] in IH. subst d1. destruct (first_visit T GT v) as (_ & SN); [apply (ord_listed _ _ O); left; reflexivity|apply (ord_units _ _ O); left; reflexivity|]. exists (skipped T (v_project v)). split; [exact SN|]. intros p P. exists v. split; [left; reflexivity|exact P].
    + rewrite rev_app_distr in IH. cbn [rev app] in IH. destruct IH as (H & SN & HS). exists (G' T (v_project v) H).
      pose proof (ord_visible _ _ O) as OV. pose proof (ord_emptied _ _ O) as OE. pose proof (ord_repaired _ _ O) as ORP. rewrite <- app_assoc in OV, OE. cbn [app] in OV, OE. apply consecutive_last in OV. apply consecutive_last in OE. apply pairwise_prefix in ORP.
      assert (HG : forall p f, H p -> ~ indexable T (v_project v) p f). { intros p f P X. destruct (HS p P) as (w & J & g & K). exact (proj2 ORP w J p g f K X). }
      assert (Iu : In u ((us ++ [u]) ++ [v])) by (apply in_or_app; left; apply in_or_app; right; left; reflexivity).
      assert (Iv : In v ((us ++ [u]) ++ [v])) by (apply in_or_app; right; left; reflexivity).
      destruct (step_snapshot T GT u v H d1 SN (ord_listed _ _ O u Iu) (ord_listed _ _ O v Iv) (ord_units _ _ O u Iu) (ord_units _ _ O v Iv) OV OE HG) as (_ & SN'). split; [exact SN'|].
      intros p [P|P]; [|exists v; auto]. destruct (HS p P) as (w & J & K). exists w. split; [apply in_or_app; left; exact J|exact K].
  - specialize (IH O). destruct (rev vs) as [|v l]; [subst d1; apply recount_empty; exact RC|]. destruct IH as (H & SN & HS). exists H. split; [exact (recount_snapshot _ _ _ _ _ RC SN)|exact HS].
Qed.
