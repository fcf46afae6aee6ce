(** Proofs about progress reporting. *)
From Verif Require Import Base Text ApiProgress ApiProgressSpec.
Open Scope Z_scope.

(** ** The table *)
Definition keys (m : table) : list text := map fst m.
Lemma get_In m name p : get m name = Some p -> In (name, p) m.
Proof.
  induction m as [|[n q] m IH]; cbn [get]; [discriminate|]. destruct (text_eqb n name) eqn:E; intros H.
  - apply text_eqb_eq in E as ->. injection H as ->. left. reflexivity.
  - right. auto.
Qed.
Lemma In_get m name p : NoDup (keys m) -> In (name, p) m -> get m name = Some p.
Proof.
  induction m as [|[n q] m IH]; intros N H; [destruct H|]. cbn in N. inversion N as [|? ? N1 N2]; subst. cbn [get].
  destruct H as [H|H].
  - injection H as -> ->. rewrite text_eqb_refl. reflexivity.
  - destruct (text_eqb n name) eqn:E; [|auto]. apply text_eqb_eq in E as ->. exfalso. apply N1.
    change name with (fst (name, p)). apply in_map. exact H.
Qed.
Definition age (now : Z) (o : option progress) : option progress :=
  match o with Some p => if visible p now then Some p else None | None => None end.
Lemma get_none m name : ~ In name (keys m) -> get m name = None.
Proof.
  intros H. destruct (get m name) as [p|] eqn:E; [|reflexivity]. apply get_In in E. exfalso. apply H.
  change name with (fst (name, p)). apply in_map. exact E.
Qed.
Lemma prune_keys m now : NoDup (keys m) -> NoDup (keys (prune m now)).
Proof.
  unfold keys, prune. induction m as [|[n p] m IH]; intros N; [constructor|]. cbn in N. inversion N as [|? ? N1 N2]; subst.
  cbn [filter snd]. destruct (visible p now); [|auto]. cbn [map fst]. constructor; [|auto].
  intros K. apply N1. apply in_map_iff in K as (x & E & K). apply filter_In in K as [K _]. rewrite <- E. apply in_map. exact K.
Qed.
Lemma prune_get m now name : NoDup (keys m) -> get (prune m now) name = age now (get m name).
Proof.
  intros N. destruct (get m name) as [p|] eqn:E.
  - cbn [age]. apply get_In in E. destruct (visible p now) eqn:Vis.
    + apply In_get; [apply prune_keys; exact N|]. apply filter_In. split; [exact E|exact Vis].
    + destruct (get (prune m now) name) as [q|] eqn:Q; [|reflexivity]. apply get_In in Q. apply filter_In in Q as [Q1 Q2].
      apply In_get in E, Q1; [|exact N|exact N]. cbn [snd] in Q2. congruence.
  - cbn [age]. destruct (get (prune m now) name) as [q|] eqn:Q; [|reflexivity]. apply get_In in Q. apply filter_In in Q as [Q1 Q2].
    apply In_get in Q1; [|exact N]. congruence.
Qed.
Lemma set_get m name p name' : get (set m name p) name' = if text_eqb name name' then Some p else get m name'.
Proof.
  induction m as [|[n q] m IH]; cbn [set get].
  - reflexivity.
  - destruct (text_eqb n name) eqn:E; cbn [get].
    + apply text_eqb_eq in E as ->. destruct (text_eqb name name'); reflexivity.
    + rewrite IH. destruct (text_eqb n name') eqn:E'; [|reflexivity]. apply text_eqb_eq in E' as ->.
      destruct (text_eqb name name') eqn:E''; [|reflexivity]. apply text_eqb_eq in E'' as ->. rewrite text_eqb_refl in E. discriminate.
Qed.
Lemma set_keys m name p : NoDup (keys m) -> NoDup (keys (set m name p)).
Proof.
  unfold keys. intros N.
  assert (forall n, In n (map fst (set m name p)) -> n = name \/ In n (map fst m)) as K.
  { clear N. induction m as [|[n q] m IH]; intros n' H; cbn [set] in H.
    - destruct H as [H|[]]. left. symmetry. exact H.
    - destruct (text_eqb n name); cbn [map fst In] in *; [tauto|]. destruct H as [H|H]; [tauto|]. apply IH in H. tauto. }
  induction m as [|[n q] m IH]; cbn [set].
  - constructor; [intros []|constructor].
  - cbn in N. inversion N as [|? ? N1 N2]; subst. destruct (text_eqb n name) eqn:E; cbn [map fst]; [constructor; assumption|].
    constructor.
    + intros H. assert (n = name \/ In n (map fst m)) as [-> | H'].
      { clear IH K N N1 N2. induction m as [|[n' q'] m IH]; cbn [set] in H.
        - destruct H as [H|[]]. left. symmetry. exact H.
        - destruct (text_eqb n' name); cbn [map fst In] in *; [tauto|]. destruct H as [H|H]; [tauto|]. apply IH in H. tauto. }
      * rewrite text_eqb_refl in E. discriminate.
      * contradiction.
    + apply IH; [exact N2|]. intros n' H'. clear - H'. induction m as [|[n0 q0] m IH]; cbn [set] in H'.
      * destruct H' as [H'|[]]. left. symmetry. exact H'.
      * destruct (text_eqb n0 name); cbn [map fst In] in *; [tauto|]. destruct H' as [H'|H']; [tauto|]. apply IH in H'. tauto.
Qed.

(** ** What happens to one index *)
(** The entry after an event of the index *)
Definition after (o : option progress) (now : Z) (w : record_event) : progress :=
  match w with
  | RQueued n =>
    match o with
    | Some p =>
      let q := Z.min (match pg_queued p with Some q => q | None => 0 end + n) usize_max in
      match pg_status p with
      | SRunning => {| pg_status := SRunning; pg_stage := pg_stage p; pg_queued := Some q; pg_processed := pg_processed p;
                       pg_started := pg_started p; pg_updated := now; pg_error := None |}
      | _ => {| pg_status := SQueued; pg_stage := queued_stage; pg_queued := Some q; pg_processed := None;
                pg_started := now; pg_updated := now; pg_error := None |}
      end
    | None => {| pg_status := SQueued; pg_stage := queued_stage; pg_queued := Some n; pg_processed := None;
                 pg_started := now; pg_updated := now; pg_error := None |}
    end
  | RStage s =>
    match o with
    | Some p => {| pg_status := SRunning; pg_stage := s; pg_queued := pg_queued p; pg_processed := pg_processed p;
                   pg_started := pg_started p; pg_updated := now; pg_error := None |}
    | None => {| pg_status := SRunning; pg_stage := s; pg_queued := None; pg_processed := None;
                 pg_started := now; pg_updated := now; pg_error := None |}
    end
  | RComplete n =>
    match o with
    | Some p => {| pg_status := SComplete; pg_stage := complete_stage; pg_queued := pg_queued p; pg_processed := Some n;
                   pg_started := pg_started p; pg_updated := now; pg_error := None |}
    | None => {| pg_status := SComplete; pg_stage := complete_stage; pg_queued := Some n; pg_processed := Some n;
                 pg_started := now; pg_updated := now; pg_error := None |}
    end
  | RFailed s =>
    match o with
    | Some p => {| pg_status := SFailed; pg_stage := failed_stage; pg_queued := pg_queued p; pg_processed := pg_processed p;
                   pg_started := pg_started p; pg_updated := now; pg_error := Some s |}
    | None => {| pg_status := SFailed; pg_stage := failed_stage; pg_queued := None; pg_processed := None;
                 pg_started := now; pg_updated := now; pg_error := Some s |}
    end
  end.
Definition tstep (name : text) (o : option progress) (e : pevent) : option progress :=
  let o := age (e_time e) o in
  if text_eqb (e_name e) name then Some (after o (e_time e) (e_what e)) else o.
Definition track (name : text) (es : list pevent) : option progress := fold_left (tstep name) es None.

Lemma record_get m e name : NoDup (keys m) -> NoDup (keys (record m e)) /\ get (record m e) name = tstep name (get m name) e.
Proof.
  intros N. pose proof (prune_keys m (e_time e) N) as N'.
  assert (record m e = set (prune m (e_time e)) (e_name e) (after (age (e_time e) (get m (e_name e))) (e_time e) (e_what e))) as E.
  { unfold record, record_stage, record_complete, record_failed, record_queued, record_as. rewrite prune_get by exact N.
    destruct (e_what e); cbn [after]; destruct (age _ _) as [p|]; reflexivity. }
  rewrite E. split; [apply set_keys; exact N'|]. rewrite set_get, prune_get by exact N. unfold tstep.
  destruct (text_eqb (e_name e) name) eqn:T; [|reflexivity]. apply text_eqb_eq in T as ->. reflexivity.
Qed.
Lemma record_all_get es name : NoDup (keys (record_all es)) /\ get (record_all es) name = track name es.
Proof.
  unfold record_all, track.
  enough (forall m, NoDup (keys m) -> NoDup (keys (fold_left record es m)) /\ get (fold_left record es m) name = fold_left (tstep name) es (get m name)) as H.
  { apply (H []). constructor. }
  induction es as [|e es IH]; intros m N; [split; [exact N|reflexivity]|]. cbn [fold_left].
  destruct (record_get m e name N) as [N1 G]. destruct (IH _ N1) as [N2 G2]. split; [exact N2|]. rewrite G2, G. reflexivity.
Qed.
Lemma shown_iff es now name h : shown es now name h <->
  exists p, track name es = Some p /\ visible p now = true /\ h = health_of now (name, p).
Proof.
  destruct (record_all_get es name) as [N G]. unfold shown, health_statuses. rewrite isort_In. rewrite in_map_iff. split.
  - intros [([n p] & <- & K) <-]. apply filter_In in K as [K1 K2]. cbn [fst snd health_of h_index] in *.
    exists p. split; [|split; [exact K2|reflexivity]]. rewrite <- G. apply In_get; assumption.
  - intros (p & T & V & ->). split; [|reflexivity]. exists (name, p). split; [reflexivity|]. apply filter_In. split; [|exact V].
    rewrite <- G in T. apply get_In. exact T.
Qed.

Lemma track_app name a b : track name (a ++ b) = fold_left (tstep name) b (track name a).
Proof. apply fold_left_app. Qed.
Lemma silent_step name e o : e_name e <> name -> tstep name o e = age (e_time e) o.
Proof. intros H. unfold tstep. apply text_eqb_neq in H. rewrite H. reflexivity. Qed.
Lemma silent_none name b : silent name b -> fold_left (tstep name) b None = None.
Proof.
  induction b as [|e b IH]; intros H; [reflexivity|]. inversion H as [|? ? H1 H2]; subst. cbn [fold_left].
  rewrite silent_step by exact H1. apply IH. exact H2.
Qed.
Lemma silent_fold name b p : silent name b ->
  fold_left (tstep name) b (Some p) = if forallb (fun e => visible p (e_time e)) b then Some p else None.
Proof.
  induction b as [|e b IH]; intros H; [reflexivity|]. inversion H as [|? ? H1 H2]; subst. cbn [fold_left forallb].
  rewrite silent_step by exact H1. cbn [age]. destruct (visible p (e_time e)); cbn [andb]; [apply IH; exact H2|]. apply silent_none. exact H2.
Qed.
Lemma active_visible p now : pg_status p = SQueued \/ pg_status p = SRunning -> visible p now = true.
Proof. unfold visible. intros [-> | ->]; reflexivity. Qed.
Lemma active_fold name b p : silent name b -> pg_status p = SQueued \/ pg_status p = SRunning -> fold_left (tstep name) b (Some p) = Some p.
Proof.
  intros H A. rewrite silent_fold by exact H. assert (forallb (fun e => visible p (e_time e)) b = true) as ->; [|reflexivity].
  apply forallb_forall. intros e _. apply active_visible. exact A.
Qed.
Lemma finished_visible p now : pg_status p = SComplete \/ pg_status p = SFailed -> (visible p now = true <-> now <= pg_updated p + retention).
Proof.
  unfold visible, retention. intros [-> | ->]; destruct (now <? pg_updated p) eqn:E; rewrite ?Z.leb_le; split; lia.
Qed.

Lemma track_event name a e : e_name e = name -> track name (a ++ [e]) = Some (after (age (e_time e) (track name a)) (e_time e) (e_what e)).
Proof. intros H. rewrite track_app. cbn [fold_left]. unfold tstep. rewrite H, text_eqb_refl. reflexivity. Qed.

Lemma outcome_entry o now w : match w with RComplete _ | RFailed _ => True | _ => False end ->
  (pg_status (after o now w) = SComplete \/ pg_status (after o now w) = SFailed) /\ pg_updated (after o now w) = now.
Proof. intros H. destruct w; try destruct H; destruct o; cbn; auto. Qed.

Lemma outcome_track name a e b : e_name e = name -> is_outcome e -> silent name b ->
  exists p, p = after (age (e_time e) (track name a)) (e_time e) (e_what e) /\
    track name (a ++ e :: b) = (if forallb (fun x => visible p (e_time x)) b then Some p else None).
Proof.
  intros E O S. eexists. split; [reflexivity|]. replace (a ++ e :: b) with ((a ++ [e]) ++ b) by (rewrite <- app_assoc; reflexivity).
  rewrite track_app, track_event by exact E. apply silent_fold. exact S.
Qed.

(** The last event is an outcome *)
Lemma shown_outcome es a e b now name h : es = a ++ e :: b -> e_name e = name -> is_outcome e -> silent name b -> shown es now name h ->
  match e_what e with
  | RComplete n => h_status h = SComplete /\ h_stage h = complete_stage /\ h_processed h = Some n /\ h_error h = None
  | RFailed m => h_status h = SFailed /\ h_stage h = failed_stage /\ h_error h = Some m
  | _ => True
  end /\ h_updated h = e_time e.
Proof.
  intros -> E O S H. apply shown_iff in H as (p & T & V & ->). destruct (outcome_track name a e b E O S) as (q & Q & T').
  rewrite T' in T. destruct (forallb _ _); [|discriminate]. injection T as <-. unfold is_outcome in O.
  split; [|cbn [health_of h_updated snd]; rewrite Q; apply outcome_entry; exact O].
  rewrite Q. unfold health_of. cbn [snd]. destruct (e_what e); try destruct O; destruct (age _ _); cbn; auto.
Qed.
Lemma shown_outcome_iff es a e b now name : es = a ++ e :: b -> e_name e = name -> is_outcome e -> silent name b ->
  ((exists h, shown es now name h) <-> (now <= e_time e + retention /\ Forall (fun x => e_time x <= e_time e + retention) b)).
Proof.
  intros -> E O S. destruct (outcome_track name a e b E O S) as (p & Q & T').
  pose proof (outcome_entry (age (e_time e) (track name a)) (e_time e) (e_what e) O) as [St Up]. rewrite <- Q in St, Up. clear Q.
  assert (forallb (fun x => visible p (e_time x)) b = true <-> Forall (fun x => e_time x <= e_time e + retention) b) as F.
  { rewrite forallb_forall, Forall_forall. split; intros H x K; specialize (H x K).
    - apply finished_visible in H; [|exact St]. rewrite Up in H. exact H.
    - apply finished_visible; [exact St|]. rewrite Up. exact H. }
  split.
  - intros (h & H). apply shown_iff in H as (q & T & V & _). rewrite T' in T. destruct (forallb _ _); [|discriminate].
    injection T as <-. split; [|apply F; reflexivity]. apply finished_visible in V; [|exact St]. rewrite Up in V. exact V.
  - intros [H1 H2]. exists (health_of now (name, p)). apply shown_iff. exists p. split; [|split; [|reflexivity]].
    + rewrite T'. apply F in H2. rewrite H2. reflexivity.
    + apply finished_visible; [exact St|]. rewrite Up. exact H1.
Qed.
(** A finished entry does not change with time *)
Lemma shown_frozen es a e b now now' name h h' : es = a ++ e :: b -> e_name e = name -> is_outcome e -> silent name b ->
  shown es now name h -> shown es now' name h' -> h = h'.
Proof.
  intros -> E O S H H'. apply shown_iff in H as (p & T & _ & ->), H' as (p' & T' & _ & ->).
  destruct (outcome_track name a e b E O S) as (q & Q & T2). rewrite T2 in T, T'. destruct (forallb _ _); [|discriminate].
  injection T as <-. injection T' as <-.
  pose proof (outcome_entry (age (e_time e) (track name a)) (e_time e) (e_what e) O) as [St _]. rewrite <- Q in St.
  unfold health_of. cbn [snd]. destruct St as [-> | ->]; reflexivity.
Qed.

(** A running update stays visible and running while only queueing happens *)
Lemma running_fold name stage b : forall p, pg_status p = SRunning -> pg_stage p = stage ->
  Forall (fun x => e_name x = name -> is_queued x) b ->
  exists q, fold_left (tstep name) b (Some p) = Some q /\ pg_status q = SRunning /\ pg_stage q = stage.
Proof.
  induction b as [|e b IH]; intros p S1 S2 F; [exists p; auto|]. inversion F as [|? ? F1 F2]; subst. cbn [fold_left]. unfold tstep at 2.
  cbn [age]. rewrite active_visible by auto. destruct (text_eqb (e_name e) name) eqn:E; [|apply IH; auto].
  apply text_eqb_eq in E. specialize (F1 E). unfold is_queued in F1. destruct (e_what e); try destruct F1.
  cbn [after]. rewrite S1. apply IH; auto.
Qed.
Lemma shown_running es a e b now name stage : es = a ++ e :: b -> e_name e = name -> e_what e = RStage stage ->
  Forall (fun x => e_name x = name -> is_queued x) b ->
  exists h, shown es now name h /\ h_status h = SRunning /\ h_stage h = stage.
Proof.
  intros -> E W F. replace (a ++ e :: b) with ((a ++ [e]) ++ b) by (rewrite <- app_assoc; reflexivity).
  pose proof (track_event name a e E) as T. rewrite W in T.
  set (p := after (age (e_time e) (track name a)) (e_time e) (RStage stage)) in *.
  assert (pg_status p = SRunning /\ pg_stage p = stage) as [S1 S2] by (subst p; cbn; destruct (age _ _); cbn; auto).
  destruct (running_fold name stage b p S1 S2 F) as (q & Q & S3 & S4).
  exists (health_of now (name, q)). split; [|split; [exact S3|exact S4]]. apply shown_iff. exists q.
  split; [rewrite track_app, T; exact Q|]. split; [apply active_visible; auto|reflexivity].
Qed.
(** Not running when every stage was followed by an outcome *)
Lemma idle_not_running name a : idle name a -> match track name a with Some p => pg_status p <> SRunning | None => True end.
Proof.
  induction a as [|e a IH] using rev_ind; intros H; [exact I|].
  destruct (text_dec (e_name e) name) as [E|D].
  - rewrite track_event by exact E. destruct (e_what e) eqn:W.
    + assert (idle name a) as H'.
      { intros a1 e1 b1 -> E1 S1. destruct (H a1 e1 (b1 ++ [e])) as (e' & K & E' & O).
        - rewrite <- app_assoc. reflexivity.
        - exact E1.
        - exact S1.
        - apply in_app_or in K as [K|[<-|[]]]; [exists e'; auto|]. unfold is_outcome in O. rewrite W in O. destruct O. }
      specialize (IH H'). destruct (track name a) as [p|]; cbn [age after].
      * destruct (visible p (e_time e)); [|discriminate]. destruct (pg_status p); cbn; congruence.
      * discriminate.
    + exfalso. destruct (H a e []) as (e' & [] & _); [reflexivity|exact E|]. unfold is_stage. rewrite W. exact I.
    + destruct (age _ _); discriminate.
    + destruct (age _ _); discriminate.
  - assert (idle name a) as H'.
    { intros a1 e1 b1 -> E1 S1. destruct (H a1 e1 (b1 ++ [e])) as (e' & K & E' & O).
      - rewrite <- app_assoc. reflexivity.
      - exact E1.
      - exact S1.
      - apply in_app_or in K as [K|[<-|[]]]; [exists e'; auto|]. contradiction. }
    specialize (IH H'). rewrite track_app. cbn [fold_left]. rewrite silent_step by exact D.
    destruct (track name a) as [p|]; cbn [age]; [|exact I]. destruct (visible p (e_time e)); [exact IH|exact I].
Qed.
Lemma shown_queued es a e b now name : es = a ++ e :: b -> e_name e = name -> is_queued e -> idle name a -> silent name b ->
  exists h, shown es now name h /\ h_status h = SQueued.
Proof.
  intros -> E Q ID S. replace (a ++ e :: b) with ((a ++ [e]) ++ b) by (rewrite <- app_assoc; reflexivity).
  pose proof (track_event name a e E) as T. set (p := after (age (e_time e) (track name a)) (e_time e) (e_what e)) in *.
  assert (pg_status p = SQueued) as Sp.
  { subst p. unfold is_queued in Q. destruct (e_what e); try destruct Q. apply idle_not_running in ID.
    destruct (track name a) as [q|]; cbn [age after]; [|reflexivity]. destruct (visible q (e_time e)); [|reflexivity].
    destruct (pg_status q); cbn; congruence. }
  exists (health_of now (name, p)). split; [|exact Sp]. apply shown_iff. exists p.
  split; [rewrite track_app, T; apply active_fold; auto|]. split; [apply active_visible; auto|reflexivity].
Qed.
(** Nothing is shown of an index without events; every shown index appears once *)
Lemma shown_once es now name h h' : shown es now name h -> shown es now name h' -> h = h'.
Proof.
  intros H H'. apply shown_iff in H as (p & T & _ & ->), H' as (p' & T' & _ & ->). congruence.
Qed.
Lemma health_names es now : NoDup (map h_index (health_statuses (record_all es) now)).
Proof.
  destruct (record_all_get es []) as [N _]. unfold health_statuses.
  eapply Permutation_NoDup; [apply Permutation_map; apply Permutation_sym, isort_perm|]. rewrite map_map. cbn [health_of h_index].
  apply (prune_keys _ now). exact N.
Qed.
Lemma shown_silent es now name h : silent name es -> ~ shown es now name h.
Proof.
  intros S H. apply shown_iff in H as (p & T & _). unfold track in T. rewrite silent_none in T by exact S. discriminate.
Qed.
