(** Histories of runs. *)
From Verif Require Import Base Text Colgrep ColgrepSpec ColgrepLists ColgrepSteps ColgrepIncr ColgrepBuild.
Open Scope nat_scope.

Lemma triple_done {A} (m : act A) d I Q : triple m d I Q -> exists a, outcome m d = Ok a /\ Q a (after m d).
Proof. intros (es & a & E & HQ & _). exists a. unfold outcome, after. rewrite E. auto. Qed.
Lemma triple_killed {A} (m : act A) d I Q d' : triple m d I Q -> killed_outside_deletion m d d' -> I d'.
Proof.
  intros (es & a & E & _ & HI) (e1 & e2 & Ee & -> & Hc). apply HI. exists e1, e2. rewrite E in Ee. cbn in Ee. auto.
Qed.
Lemma snapshot_impl T pj (G H : path -> Prop) d : (forall p, G p -> H p) -> snapshot T pj G d -> snapshot T pj H d.
Proof.
  intros I (s & rows & H1 & H2 & H3 & H4 & H5 & H6 & H7 & H8). exists s, rows. repeat (split; [assumption|]).
  intros p Hp. destruct (H8 p Hp). split; auto.
Qed.

Lemma mid_run T pj0 pj (G : path -> Prop) d sch :
  good_tool T -> listed_once pj0 -> listed_once pj -> edits_visible T pj0 pj -> none_emptied T pj0 pj ->
  wanted T pj0 <> [] -> (forall p, G p -> forall f, ~ indexable T pj p f) ->
  mid T pj0 pj G d ->
  triple (index T sch [] pj false) d (Inv T pj0 pj G) (fun _ d' => snapshot T pj (G' T pj G) d').
Proof. intros. now apply index_triple. Qed.

Lemma last_skip {A} (l : list A) a d : last (a :: l) d = last l a.
Proof.
  revert a d. induction l as [|b l IH]; intros a d; [reflexivity|].
  change (last (b :: l) d = last (b :: l) a). now rewrite !IH.
Qed.

Section HIST.
  Context (T : tool).
  Hypothesis GT : good_tool T.

  Definition spent (G : path -> Prop) (vs : list visit) : Prop :=
    forall p w f, G p -> In w vs -> ~ indexable T (v_project w) p f.

  Lemma step_snapshot v w (G : path -> Prop) d :
    snapshot T (v_project v) G d -> listed_once (v_project v) -> listed_once (v_project w) ->
    wanted T (v_project v) <> [] -> wanted T (v_project w) <> [] ->
    edits_visible T (v_project v) (v_project w) -> none_emptied T (v_project v) (v_project w) ->
    (forall p f, G p -> ~ indexable T (v_project w) p f) ->
    outcome (visit_run T w) d = Ok tt /\
    snapshot T (v_project w) (G' T (v_project w) G) (after (visit_run T w) d).
  Proof.
    intros SN N0 N1 W0 W1 EV NE HG. unfold visit_run. destruct (v_force w).
    - destruct (triple_done _ _ _ _ (forced_triple T (v_sched w) [] (v_project w) d N1 W1)) as ([] & E & H). split; auto.
      revert H. apply snapshot_impl. intros p Hp. right. exact Hp.
    - assert (M := snapshot_mid T (v_project v) (v_project w) G N0 d SN).
      assert (HG' : forall p, G p -> forall f, ~ indexable T (v_project w) p f) by auto.
      destruct (triple_done _ _ _ _ (mid_run T (v_project v) (v_project w) G d (v_sched w) GT N0 N1 EV NE W0 HG' M)) as ([] & E & H).
      auto.
  Qed.

  Lemma history_from vs : forall v G d,
    snapshot T (v_project v) G d -> ordinary T (v :: vs) -> spent G vs ->
    (forall p, skipped T (v_project v) p -> G p) ->
    all_succeed T d vs /\ exists H, snapshot T (v_project (last vs v)) H (visits T d vs) /\
      forall p, H p -> G p \/ exists w, In w vs /\ skipped T (v_project w) p.
  Proof.
    induction vs as [|w vs IH]; intros v G d SN O SP SK.
    - split; [exact I|]. exists G. split; auto.
    - destruct O as [O1 O2 O3 O4 O5]. cbn [consecutive] in O3, O4. cbn [pairwise] in O5.
      destruct (step_snapshot v w G d) as (E & SN'); auto.
      + apply O1. now left.
      + apply O1. right. now left.
      + apply O2. now left.
      + apply O2. right. now left.
      + apply O3.
      + apply O4.
      + intros p f Hp. apply (SP p w f Hp). now left.
      + destruct (IH w (G' T (v_project w) G) (after (visit_run T w) d)) as (A & H & S1 & S2); auto.
        * constructor; [intros x Hx; apply O1; now right|intros x Hx; apply O2; now right|apply O3|apply O4|apply O5].
        * intros p x f [Hp|(g & Hg)] Hx Hi.
          -- apply (SP p x f Hp); auto. now right.
          -- destruct O5 as (_ & (O5 & _)). exact (O5 x Hx p g f Hg Hi).
        * intros p Hp. right. exact Hp.
        * split; [split; auto|]. exists H. cbn [visits]. split.
          -- rewrite last_skip. exact S1.
          -- intros p Hp. destruct (S2 p Hp) as [[Hp'|Hp']|(x & Hx & Hp')]; auto; right.
             ++ exists w. split; [now left|exact Hp'].
             ++ exists x. split; [now right|exact Hp'].
  Qed.

  Lemma first_visit v : listed_once (v_project v) -> wanted T (v_project v) <> [] ->
    outcome (visit_run T v) empty_store = Ok tt /\
    snapshot T (v_project v) (skipped T (v_project v)) (after (visit_run T v) empty_store).
  Proof.
    intros N W. unfold visit_run. destruct (v_force v).
    - destruct (triple_done _ _ _ _ (forced_triple T (v_sched v) [] (v_project v) empty_store N W)) as ([] & E & H). auto.
    - destruct (triple_done _ _ _ _ (build_index_triple T (v_project v) GT N W empty_store (v_sched v) (empty_partial T (v_project v)))) as ([] & E & H). auto.
  Qed.

  Lemma history_last v vs : ordinary T (v :: vs) ->
    all_succeed T empty_store (v :: vs) /\
    exists H, snapshot T (v_project (last vs v)) H (visits T empty_store (v :: vs)) /\
      forall p, H p -> exists w, In w (v :: vs) /\ skipped T (v_project w) p.
  Proof.
    intros O. assert (O' := O). destruct O as [O1 O2 O3 O4 O5].
    destruct (first_visit v) as (E & SN); [apply O1; now left|apply O2; now left|].
    destruct (history_from vs v _ _ SN O') as (A & H & S1 & S2); auto.
    - intros p w f (g & Hg) Hw. destruct O5 as (O5 & _). exact (O5 w Hw p g f Hg).
    - split; [split; auto|]. exists H. split; auto. intros p Hp. destruct (S2 p Hp) as [Hp'|(w & Hw & Hp')].
      + exists v. split; [now left|auto].
      + exists w. split; [now right|auto].
  Qed.
  Lemma last_app_one {A} (l : list A) a d : last (l ++ [a]) d = a.
  Proof. induction l as [|x l IH]; auto. cbn. rewrite IH. destruct (l ++ [a]) eqn:E; auto. now destruct l. Qed.
  Lemma history_snapshot vs v : ordinary T (vs ++ [v]) ->
    all_succeed T empty_store (vs ++ [v]) /\
    exists H, snapshot T (v_project v) H (visits T empty_store (vs ++ [v])) /\
      forall p, H p -> exists w, In w (vs ++ [v]) /\ skipped T (v_project w) p.
  Proof.
    intros O. destruct (vs ++ [v]) as [|x l] eqn:E; [destruct vs; discriminate|].
    assert (EL : last l x = v).
    { destruct vs as [|y vs]; injection E as <- <-; [reflexivity|apply last_app_one]. }
    destruct (history_last x l O) as (A & H & S1 & S2). rewrite EL in S1. split; auto. exists H. auto.
  Qed.
  Lemma history_up_to_date vs v : ordinary T (vs ++ [v]) ->
    all_succeed T empty_store (vs ++ [v]) /\ up_to_date T (v_project v) (visits T empty_store (vs ++ [v])).
  Proof.
    intros O. destruct (history_snapshot vs v O) as (A & H & SN & _). split; auto. now apply (snapshot_up_to_date T _ H).
  Qed.

  (** Runs on one project. *)
  Lemma visible_self pj : listed_once pj -> edits_visible T pj pj.
  Proof. intros N p f0 f H0 H1 HC. now rewrite (candidate_fun T pj p f0 f N H0 H1) in HC. Qed.
  Lemma emptied_self pj : listed_once pj -> none_emptied T pj pj.
  Proof. intros N. left. intros p f0 f H0 H1 HC. now rewrite (candidate_fun T pj p f0 f N (proj1 H0) (proj1 H1)) in HC. Qed.
  Lemma added_self pj : none_added T pj pj.
  Proof. intros p f H. now exists f. Qed.

  Lemma self_run pj (G : path -> Prop) d sch : listed_once pj -> wanted T pj <> [] -> (forall p, G p -> skipped T pj p \/ forall f, ~ indexable T pj p f) ->
    mid T pj pj G d ->
    triple (index T sch [] pj false) d
      (fun d' => mid T pj pj G d' \/ snapshot T pj (G' T pj G) d') (fun _ d' => snapshot T pj (G' T pj G) d').
  Proof.
    intros N W HG M.
    assert (HG' : forall p, G p -> forall f, ~ indexable T pj p f).
    { intros p Hp f. destruct (HG p Hp) as [X|X]; [now apply skipped_not|apply X]. }
    eapply triple_inv; [apply (mid_run T pj pj G d sch GT N N (visible_self pj N) (emptied_self pj N) W HG' M)|].
    intros d' HI. apply HI. apply added_self.
  Qed.
  Lemma mid_impl pj0 pj (G H : path -> Prop) d : (forall p, G p -> H p) -> mid T pj0 pj G d -> mid T pj0 pj H d.
  Proof.
    intros I (s & rows & extra & H1 & H2 & H3 & H4 & H5 & H6 & (F1 & F2 & F3) & R).
    exists s, rows, extra. repeat (split; [assumption|]). split; [|exact R]. split; [exact F1|]. split; [exact F2|].
    intros p Hp. destruct (F3 p Hp). split; auto.
  Qed.

  (** Killed updates. *)
  Lemma killed_updates pj0 pj (G : path -> Prop) d d' :
    listed_once pj0 -> listed_once pj -> edits_visible T pj0 pj -> none_emptied T pj0 pj -> none_added T pj0 pj ->
    wanted T pj0 <> [] -> wanted T pj <> [] -> (forall p f, G p -> ~ indexable T pj p f) ->
    mid T pj0 pj G d \/ mid T pj pj (G' T pj G) d ->
    killed_runs T pj anywhere d d' ->
    mid T pj0 pj G d' \/ mid T pj pj (G' T pj G) d'.
  Proof.
    intros N0 N1 EV NE NA W0 W1 HG M K. induction K as [d|d d1 d2 sch K _ KK IH]; auto. apply IH. clear IH KK d2.
    assert (HGS : forall p, G' T pj G p -> skipped T pj p \/ forall f, ~ indexable T pj p f).
    { intros p [Hp|Hp]; [right; intros f; now apply HG|now left]. }
    destruct M as [M|M].
    - assert (TR := mid_run T pj0 pj G d sch GT N0 N1 EV NE W0 (fun p Hp f => HG p f Hp) M).
      destruct (triple_killed _ _ _ _ _ TR K NA) as [X|X]; [now left|right]. now apply snapshot_mid.
    - assert (TR := self_run pj (G' T pj G) d sch N1 W1 HGS M).
      destruct (triple_killed _ _ _ _ _ TR K) as [X|X]; [now right|right].
      apply snapshot_mid; auto. revert X. apply snapshot_impl. intros p [X|X]; [exact X|now right].
  Qed.
  Lemma recovered_updates vs v pj d' sch : ordinary T (vs ++ [v]) ->
    listed_once pj -> wanted T pj <> [] ->
    edits_visible T (v_project v) pj -> none_emptied T (v_project v) pj -> none_added T (v_project v) pj ->
    (forall w, In w (vs ++ [v]) -> none_repaired T (v_project w) pj) ->
    killed_runs T pj anywhere (visits T empty_store (vs ++ [v])) d' ->
    outcome (index T sch [] pj false) d' = Ok tt /\ up_to_date T pj (after (index T sch [] pj false) d').
  Proof.
    intros O N1 W1 EV NE NA NR K. destruct (history_snapshot vs v O) as (_ & G & SN & HS).
    assert (IL : In v (vs ++ [v])) by (apply in_or_app; right; now left).
    assert (N0 := ord_listed T _ O v IL). assert (W0 := ord_units T _ O v IL).
    assert (HG : forall p f, G p -> ~ indexable T pj p f).
    { intros p f Hp. destruct (HS p Hp) as (w & Hw & (g & Hg)). exact (NR w Hw p g f Hg). }
    assert (HGS : forall p, G' T pj G p -> skipped T pj p \/ forall f, ~ indexable T pj p f).
    { intros p [Hp|Hp]; [right; intros f; now apply HG|now left]. }
    assert (M := killed_updates (v_project v) pj G _ d' N0 N1 EV NE NA W0 W1 HG (or_introl (snapshot_mid T _ pj G N0 _ SN)) K).
    destruct M as [M|M].
    - destruct (triple_done _ _ _ _ (mid_run T (v_project v) pj G d' sch GT N0 N1 EV NE W0 (fun p Hp f => HG p f Hp) M)) as ([] & E & H).
      split; auto. now apply snapshot_up_to_date in H.
    - destruct (triple_done _ _ _ _ (self_run pj (G' T pj G) d' sch N1 W1 HGS M)) as ([] & E & H).
      split; auto. now apply snapshot_up_to_date in H.
  Qed.

  (** Killed first builds. *)
  Lemma killed_builds pj d d' : listed_once pj -> wanted T pj <> [] ->
    partial T pj d \/ mid T pj pj (skipped T pj) d -> killed_runs T pj both_or_neither d d' ->
    partial T pj d' \/ mid T pj pj (skipped T pj) d'.
  Proof.
    intros N W M K. induction K as [d|d d1 d2 sch K B KK IH]; auto. apply IH. clear IH KK d2.
    destruct M as [M|M].
    - assert (TR := build_index_triple T pj GT N W d sch M).
      destruct (triple_killed _ _ _ _ _ TR K B) as [X|X]; [now left|right]. now apply snapshot_mid.
    - assert (TR := self_run pj (skipped T pj) d sch N W (fun p Hp => or_introl Hp) M).
      destruct (triple_killed _ _ _ _ _ TR K) as [X|X]; [now right|right].
      apply snapshot_mid; auto. revert X. apply snapshot_impl. intros p [X|X]; exact X.
  Qed.
  Lemma recovered_build pj d' sch : listed_once pj -> wanted T pj <> [] ->
    killed_runs T pj both_or_neither empty_store d' ->
    outcome (index T sch [] pj false) d' = Ok tt /\ up_to_date T pj (after (index T sch [] pj false) d').
  Proof.
    intros N W K.
    destruct (killed_builds pj _ d' N W (or_introl (empty_partial T pj)) K) as [M|M].
    - destruct (triple_done _ _ _ _ (build_index_triple T pj GT N W d' sch M)) as ([] & E & H).
      split; auto. now apply snapshot_up_to_date in H.
    - destruct (triple_done _ _ _ _ (self_run pj _ d' sch N W (fun p Hp => or_introl Hp) M)) as ([] & E & H).
      split; auto. now apply snapshot_up_to_date in H.
  Qed.
  Lemma forced_up_to_date pj sch sib d : listed_once pj -> wanted T pj <> [] ->
    outcome (index T sch sib pj true) d = Ok tt /\ up_to_date T pj (after (index T sch sib pj true) d).
  Proof.
    intros N W. destruct (triple_done _ _ _ _ (forced_triple T sch sib pj d N W)) as ([] & E & H).
    split; auto. now apply snapshot_up_to_date in H.
  Qed.

  (** Seeding from another worktree. *)
  Lemma assoc_refresh pj l p : assoc (map (refresh T pj) l) p
    = option_map (fun i => match assoc (p_files pj) p with
        | Some f => {| i_hash := i_hash i; i_mtime := f_mtime f; i_size := f_size f |} | None => i end) (assoc l p).
  Proof.
    induction l as [|(q, i) l IH]; auto. cbn [map assoc]. unfold refresh at 1. cbn [fst snd].
    destruct (assoc (p_files pj) q) as [f|] eqn:E; cbn [assoc fst]; destruct (text_eqb p q) eqn:Eq; auto;
      apply text_eqb_eq in Eq; subst q; rewrite E; reflexivity.
  Qed.
  Definition seeded (pj : project) (src : store) (s : state) (d : store) : store :=
    apply_all d [MoveAway; MoveIn (d_vec src) (d_db src); SaveState (with_files s (map (refresh T pj) (s_files s)))].
  Lemma index_split sch pj : exists K : act unit, forall sib d, index T sch sib pj false d
    = andthen (when (negb false && match d_vec d with None => true | Some _ => false end) (seed_from T pj sib)) (fun _ => K) d.
  Proof.
    eexists. intros sib d. unfold index at 1. unfold andthen at 1. cbn [ask apply_all fold_left app].
    match goal with |- (let '(es', r') := ?k in _) = _ => destruct k as (es' & r') eqn:E end.
    rewrite <- E. reflexivity.
  Qed.
  Lemma index_seeded sch pj src d s v : seedable src = Some s -> d_vec src = Some v -> d_vec d = None ->
    outcome (index T sch [src] pj false) d = outcome (index T sch [] pj false) (seeded pj src s d) /\
    after (index T sch [src] pj false) d = after (index T sch [] pj false) (seeded pj src s d).
  Proof.
    intros SE Hv Hd.
    assert (E : index T sch [src] pj false d =
      ([MoveAway; MoveIn (d_vec src) (d_db src); SaveState (with_files s (map (refresh T pj) (s_files s)))]
        ++ fst (index T sch [] pj false (seeded pj src s d)), snd (index T sch [] pj false (seeded pj src s d)))).
    { destruct (index_split sch pj) as (K & HK). rewrite !HK, Hd. unfold seeded at 1 3. cbn [apply_all fold_left apply d_vec].
      rewrite Hv. cbn [negb andb when].
      assert (SF : seed_from T pj [src] d = ([MoveAway; MoveIn (d_vec src) (d_db src);
        SaveState (with_files s (map (refresh T pj) (s_files s)))], Ok tt)) by (cbn [seed_from]; rewrite SE; reflexivity).
      unfold andthen. rewrite SF. cbn [ret]. change (apply_all (seeded pj src s d) []) with (seeded pj src s d).
      fold (seeded pj src s d). destruct (K (seeded pj src s d)) as (es & r). rewrite Hv. reflexivity. }
    unfold outcome, after. rewrite E. cbn [fst snd]. split; auto.
  Qed.
  Lemma seeded_run vs v pj d sch : ordinary T (vs ++ [v]) -> listed_once pj ->
    same_contents T (v_project v) pj -> (forall w, In w (vs ++ [v]) -> none_repaired T (v_project w) pj) ->
    d_vec d = None -> d_building d = false ->
    outcome (index T sch [visits T empty_store (vs ++ [v])] pj false) d = Ok tt /\
    up_to_date T pj (after (index T sch [visits T empty_store (vs ++ [v])] pj false) d).
  Proof.
    intros O N1 SC NR Hd Hb. destruct (history_snapshot vs v O) as (_ & G & SN & HS).
    set (src := visits T empty_store (vs ++ [v])) in *.
    assert (IL : In v (vs ++ [v])) by (apply in_or_app; right; now left).
    assert (N0 := ord_listed T _ O v IL). assert (W0 := ord_units T _ O v IL).
    assert (HG : forall p, G p -> forall f, ~ indexable T pj p f).
    { intros p Hp f. destruct (HS p Hp) as (w & Hw & (g & Hg)). exact (NR w Hw p g f Hg). }
    assert (EV : edits_visible T (v_project v) pj) by (intros p f0 f H0 H1 HC; destruct HC; now apply (SC p)).
    assert (NE : none_emptied T (v_project v) pj) by (left; intros p f0 f H0 H1 HC; destruct HC; apply (SC p); [apply H0|apply H1]).
    assert (SN' := SN). destruct SN as (s & rows & B & S1 & F1 & D1 & (V & DB) & P & FI & IG).
    assert (NF : nonempty (s_files s) = true).
    { apply (some_file T (v_project v) pj G N0 W0). destruct (snapshot_mid T (v_project v) pj G N0 src SN')
        as (s' & _ & _ & _ & S' & _ & _ & _ & _ & F & _). rewrite S1 in S'. injection S' as <-. exact F. }
    assert (SE : seedable src = Some s) by (unfold seedable; rewrite B, V, DB, S1, NF, F1, D1; reflexivity).
    destruct (index_seeded sch pj src d s rows SE V Hd) as (E1 & E2). rewrite E1, E2.
    assert (M : mid T (v_project v) pj G (seeded pj src s d)).
    { exists (stamp (with_files s (map (refresh T pj) (s_files s)))), rows, []. rewrite app_nil_r.
      split; [exact Hb|]. split; [reflexivity|]. split; [reflexivity|]. split; [exact V|]. split; [exact DB|].
      split; [congruence|]. split; [|now apply wanted_rows_ok]. cbn [s_files s_ignored stamp with_files].
      split; [|split]; cbn [s_files s_ignored stamp with_files].
      - intros p i. rewrite assoc_refresh. destruct (assoc (s_files s) p) as [i0|] eqn:Ea; [|discriminate].
        apply FI in Ea. destruct Ea as (f0 & U0 & ->). cbn [option_map]. destruct (assoc (p_files pj) p) as [f|] eqn:Ep.
        + intros E. injection E as <-. exists f0. split; auto. right.
          destruct (p_visible pj p && t_language T p && (f_size f <=? t_max_size T)%Z) eqn:Ec.
          * rewrite !andb_true_iff, Z.leb_le in Ec. apply assoc_In in Ep.
            assert (Hc : candidate T pj p f) by (unfold candidate; tauto). assert (X := SC p f0 f (proj1 U0) Hc).
            left. exists f. split; [split; auto; rewrite <- X; apply U0|]. split; auto. unfold info_of. cbn. now rewrite X.
          * right. intros g Hg. assert (g = f). { destruct Hg as (Hg & _). apply (In_assoc _ _ _ N1) in Hg. congruence. }
            subst g. destruct Hg as (_ & H1 & H2 & H3). apply Z.leb_le in H3. rewrite H1, H2, H3 in Ec. discriminate.
        + intros E. injection E as <-. exists f0. auto.
      - intros p f0 U0 E. rewrite assoc_refresh in E.
        assert (X := proj2 (FI p (info_of T f0)) (ex_intro _ f0 (conj U0 eq_refl))). rewrite X in E. discriminate.
      - intros p Hp. destruct (IG p Hp) as (A1 & A2). split; auto. now rewrite assoc_refresh, A2. }
    destruct (triple_done _ _ _ _ (mid_run T (v_project v) pj G _ sch GT N0 N1 EV NE W0 HG M)) as ([] & E & H).
    split; auto. now apply snapshot_up_to_date in H.
  Qed.
End HIST.
