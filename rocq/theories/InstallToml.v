(** Proofs about installing and uninstalling: config.toml and settings.json. *)
From Coq Require Import String.
From Verif Require Import Base IndexModel IndexLemmas Text SqlModel SqlSpec SqlValid MetaModel MetaQuery MetaSpec MetaProofs MetaCreate Install InstallSpec.
Open Scope nat_scope.
Open Scope list_scope.

(** *** Keys *)
Section KEYS.
  Context {A : Type}.
  Implicit Types (l : list (text * A)) (v : A).
  Lemma get_none l k : get k l = None <-> existsb (fun p => text_eqb (fst p) k) l = false.
  Proof.
    unfold get. induction l as [|p l IH]; [split; reflexivity|]. cbn [find existsb]. destruct (text_eqb (fst p) k); [split; discriminate|exact IH].
  Qed.
  Lemma get_some l k v : get k l = Some v -> existsb (fun p => text_eqb (fst p) k) l = true.
  Proof. intro H. destruct (existsb _ l) eqn:Q; [reflexivity|]. apply get_none in Q. congruence. Qed.
  Lemma get_app l m k : get k (l ++ m) = match get k l with Some v => Some v | None => get k m end.
  Proof. unfold get. induction l as [|p l IH]; [reflexivity|]. cbn [app find]. destruct (text_eqb (fst p) k); [reflexivity|exact IH]. Qed.
  Lemma get_set_same l k v : get k (set k v l) = Some v.
  Proof.
    unfold set. destruct (existsb _ l) eqn:Q.
    - unfold get. induction l as [|p l IH]; [discriminate|]. cbn [existsb] in Q. cbn [map find]. destruct (text_eqb (fst p) k) eqn:K; cbn [fst]; rewrite K; [reflexivity|exact (IH Q)].
    - rewrite get_app. rewrite (proj2 (get_none l k) Q). unfold get. cbn [find fst]. rewrite text_eqb_refl. reflexivity.
  Qed.
  Lemma get_set_other l k j v : j <> k -> get j (set k v l) = get j l.
  Proof.
    intro N. unfold set. destruct (existsb _ l) eqn:Q.
    - clear Q. unfold get. induction l as [|p l IH]; [reflexivity|]. cbn [map find]. destruct (text_eqb (fst p) k) eqn:K; cbn [fst].
      + apply text_eqb_eq in K. replace (text_eqb (fst p) j) with false by (symmetry; apply text_eqb_neq; congruence). exact IH.
      + destruct (text_eqb (fst p) j); [reflexivity|exact IH].
    - rewrite get_app. destruct (get j l); [reflexivity|]. unfold get. cbn [find fst]. replace (text_eqb k j) with false by (symmetry; apply text_eqb_neq; congruence). reflexivity.
  Qed.
  Lemma get_drop_same l k : get k (drop k l) = None.
  Proof.
    apply get_none. unfold drop. induction l as [|p l IH]; [reflexivity|]. cbn [filter]. destruct (text_eqb (fst p) k) eqn:K; cbn [negb]; [exact IH|]. cbn [existsb]. rewrite K. exact IH.
  Qed.
  Lemma get_drop_other l k j : j <> k -> get j (drop k l) = get j l.
  Proof.
    intro N. unfold drop, get. induction l as [|p l IH]; [reflexivity|]. cbn [filter]. destruct (text_eqb (fst p) k) eqn:K; cbn [negb find].
    - apply text_eqb_eq in K. replace (text_eqb (fst p) j) with false by (symmetry; apply text_eqb_neq; congruence). exact IH.
    - destruct (text_eqb (fst p) j); [reflexivity|exact IH].
  Qed.
  Lemma drop_absent l k : get k l = None -> drop k l = l.
  Proof.
    intro H. apply get_none in H. unfold drop. induction l as [|p l IH]; [reflexivity|]. cbn [existsb] in H. apply orb_false_iff in H. cbn [filter]. rewrite (proj1 H). cbn [negb]. rewrite IH by apply H. reflexivity.
  Qed.
  Lemma drop_set l k v : get k l = None -> drop k (set k v l) = l.
  Proof.
    intro H. unfold set. rewrite (proj1 (get_none l k) H). unfold drop. rewrite filter_app. cbn [filter fst]. rewrite text_eqb_refl. cbn [negb]. rewrite app_nil_r. apply drop_absent. exact H.
  Qed.
  Lemma once_tail p l : once (p :: l) -> once l /\ get (fst p) l = None.
  Proof.
    intro O. unfold once in *. cbn [map] in O. inversion O as [|? ? N O']; subst. split; [exact O'|]. apply get_none. destruct (existsb _ l) eqn:Q; [|reflexivity]. exfalso. apply existsb_exists in Q. destruct Q as (q & I & E). apply text_eqb_eq in E. apply N. rewrite <- E. apply in_map. exact I.
  Qed.
  Lemma map_absent l k (f : text * A -> text * A) : get k l = None -> map (fun p => if text_eqb (fst p) k then f p else p) l = l.
  Proof.
    intro H. apply get_none in H. induction l as [|p l IH]; [reflexivity|]. cbn [existsb] in H. apply orb_false_iff in H. cbn [map]. rewrite (proj1 H), IH by apply H. reflexivity.
  Qed.
  Lemma set_back l k v w : once l -> get k l = Some w -> set k w (set k v l) = l.
  Proof.
    intros O H. assert (E : existsb (fun p => text_eqb (fst p) k) (set k v l) = true) by (eapply get_some; apply get_set_same). unfold set at 1. rewrite E. clear E. unfold set. rewrite (get_some l k w H). rewrite map_map.
    induction l as [|p l IH]; [reflexivity|]. apply once_tail in O. destruct O as (O & N). cbn [map]. unfold get in H. cbn [find] in H. destruct (text_eqb (fst p) k) eqn:K.
    - injection H as <-. cbn [fst]. rewrite K. destruct p as (a, b). cbn [fst snd] in *. f_equal. apply text_eqb_eq in K. subst a. rewrite <- (map_absent l k (fun p => (fst p, b)) N) at 2. apply map_ext_in. intros q I. destruct (text_eqb (fst q) k) eqn:K; cbn [fst]; rewrite K; reflexivity.
    - rewrite K. f_equal. apply IH; [exact O|exact H].
  Qed.
  Lemma once_set l k v : once l -> once (set k v l).
  Proof.
    intro O. unfold set, once. destruct (existsb _ l) eqn:Q.
    - rewrite map_map. replace (map (fun x => fst (if text_eqb (fst x) k then (fst x, v) else x)) l) with (map fst l); [exact O|]. apply map_ext. intros (a, b). cbn [fst]. destruct (text_eqb a k); reflexivity.
    - rewrite map_app. cbn [map fst]. apply NoDup_app_snoc; [exact O|]. intro I. apply in_map_iff in I. destruct I as (q & E & I). assert (T : existsb (fun p => text_eqb (fst p) k) l = true) by (apply existsb_exists; exists q; split; [exact I|apply text_eqb_eq; exact E]). congruence.
  Qed.
  Lemma set_not_nil l k v : set k v l <> [].
  Proof. intro H. pose proof (get_set_same l k v) as G. rewrite H in G. discriminate. Qed.
  Lemma set_same l k v : once l -> get k l = Some v -> set k v l = l.
  Proof.
    intros O H. unfold set. rewrite (get_some l k v H). induction l as [|p l IH]; [reflexivity|]. apply once_tail in O. destruct O as (O & N). cbn [map]. unfold get in H. cbn [find] in H. destruct (text_eqb (fst p) k) eqn:K.
    - injection H as <-. destruct p as (a, b). cbn [fst snd] in *. f_equal. apply text_eqb_eq in K. subst a. apply map_absent. exact N.
    - f_equal. apply IH; [exact O|exact H].
  Qed.
End KEYS.

(** *** config.toml *)
Lemma sandbox_roots : sandbox <> roots. Proof. discriminate. Qed.
Lemma is_str_eq p i : is_str p i = true <-> i = IStr p.
Proof. destruct i; cbn [is_str]; try (split; discriminate). rewrite text_eqb_eq. split; congruence. Qed.
Lemma filter_out p arr : existsb (is_str p) arr = false -> filter (fun i => negb (is_str p i)) (arr ++ [IStr p]) = arr.
Proof.
  intro H. rewrite filter_app. cbn [filter is_str]. rewrite text_eqb_refl. cbn [negb]. rewrite app_nil_r. induction arr as [|i arr IH]; [reflexivity|]. cbn [existsb] in H. apply orb_false_iff in H. cbn [filter]. rewrite (proj1 H). cbn [negb]. rewrite IH by apply H. reflexivity.
Qed.
(** The document that an accepted first addition sees. *)
Lemma add_root_ok p f g b : add_root p f = (g, Ok b) ->
  (b = false /\ g = f /\ exists a, listed f = Some a /\ In (IStr p) a) \/
  (b = true /\ exists d table arr, d = match f with Some d => d | None => {| m_items := []; m_rest := [] |} end /\
     (get sandbox (m_items d) = Some (ITable table) \/ get sandbox (m_items d) = None /\ table = []) /\
     (get roots table = Some (IArray arr) \/ get roots table = None /\ arr = []) /\ existsb (is_str p) arr = false /\
     g = Some {| m_items := set sandbox (ITable (set roots (IArray (arr ++ [IStr p])) table)) (m_items d); m_rest := m_rest d |}).
Proof.
  unfold add_root. set (d := match f with Some d => d | None => _ end). intro H.
  destruct (get sandbox (m_items d)) as [[| |table|]|] eqn:S; try discriminate.
  - destruct (get roots table) as [[|arr| |]|] eqn:R; try discriminate.
    + destruct (existsb (is_str p) arr) eqn:Q; injection H as <- <-.
      * left. split; [reflexivity|]. split; [reflexivity|]. destruct f as [d0|]; [|discriminate S]. exists arr. cbn [listed]. unfold d in S. rewrite S, R. split; [reflexivity|]. apply existsb_exists in Q. destruct Q as (i & I & E). apply is_str_eq in E. subst i. exact I.
      * right. split; [reflexivity|]. exists d, table, arr. auto 10.
    + cbn [existsb] in H. injection H as <- <-. right. split; [reflexivity|]. exists d, table, []. auto 10.
  - cbn in H. injection H as <- <-. right. split; [reflexivity|]. exists d, [], []. auto 10.
Qed.
Lemma listed_set p d table arr : listed (Some {| m_items := set sandbox (ITable (set roots (IArray (arr ++ [IStr p])) table)) (m_items d); m_rest := m_rest d |}) = Some (arr ++ [IStr p]).
Proof. cbn [listed m_items]. rewrite get_set_same, get_set_same. reflexivity. Qed.
Lemma entries_of f d table arr : d = match f with Some d => d | None => {| m_items := []; m_rest := [] |} end ->
  (get sandbox (m_items d) = Some (ITable table) \/ get sandbox (m_items d) = None /\ table = []) ->
  (get roots table = Some (IArray arr) \/ get roots table = None /\ arr = []) -> entries f = arr.
Proof.
  intros -> S R. unfold entries, listed. destruct f as [d|].
  - destruct S as [S|(S & ->)]; rewrite S.
    + destruct R as [R|(R & ->)]; rewrite R; reflexivity.
    + destruct R as [R|(R & ->)]; [discriminate|reflexivity].
  - destruct S as [S|(S & ->)]; [discriminate|]. destruct R as [R|(R & ->)]; [discriminate|reflexivity].
Qed.
Lemma add_root_entries p f g b : add_root p f = (g, Ok b) -> In (IStr p) (entries g) /\ (b = false -> g = f) /\ (b = true -> entries g = entries f ++ [IStr p] /\ ~ In (IStr p) (entries f)).
Proof.
  intro H. apply add_root_ok in H. destruct H as [(-> & -> & a & L & I)|(-> & d & table & arr & D & S & R & Q & ->)].
  - unfold entries. rewrite L. split; [exact I|]. split; [reflexivity|discriminate].
  - rewrite (entries_of f d table arr D S R). unfold entries. rewrite listed_set. split; [apply in_or_app; right; left; reflexivity|]. split; [discriminate|]. intros _. split; [reflexivity|].
    intro I. assert (T : existsb (is_str p) arr = true) by (apply existsb_exists; exists (IStr p); split; [exact I|apply is_str_eq; reflexivity]). congruence.
Qed.
Lemma add_root_twice p f g b : add_root p f = (g, Ok b) -> add_root p g = (g, Ok false).
Proof.
  intro H. apply add_root_ok in H. destruct H as [(-> & -> & a & L & I)|(-> & d & table & arr & D & S & R & Q & ->)].
  - unfold listed in L. destruct f as [d|]; [|discriminate]. unfold add_root. destruct (get sandbox (m_items d)) as [[| |t|]|]; try discriminate. destruct (get roots t) as [[|a'| |]|]; try discriminate. injection L as ->.
    replace (existsb (is_str p) a) with true; [reflexivity|]. symmetry. apply existsb_exists. exists (IStr p). split; [exact I|]. apply is_str_eq. reflexivity.
  - unfold add_root. cbn [m_items m_rest]. rewrite !get_set_same. rewrite existsb_app. cbn [existsb is_str]. rewrite text_eqb_refl, orb_true_r. reflexivity.
Qed.
Lemma add_root_others p f g b k : add_root p f = (g, Ok b) -> (k <> sandbox -> others g k = others f k) /\ (k <> roots -> in_sandbox g k = in_sandbox f k).
Proof.
  intro H. apply add_root_ok in H. destruct H as [(-> & -> & a & L & I)|(-> & d & table & arr & D & S & R & Q & ->)]; [auto|]. unfold in_sandbox. cbn [others m_items]. split; intro N.
  - rewrite get_set_other by exact N. subst d. destruct f as [d|]; reflexivity.
  - rewrite get_set_same, get_set_other by exact N. subst d. destruct f as [d|]; cbn [others m_items] in *.
    + destruct S as [S|(S & ->)]; rewrite S; reflexivity.
    + destruct S as [S|(S & ->)]; [discriminate|reflexivity].
Qed.
Lemma remove_added p f g : add_root p f = (g, Ok true) -> good_toml f -> exists f', remove_root p g = (f', Ok true) /\ (nothing_empty f -> f' = f) /\ entries f' = entries f /\
  forall k, (k <> sandbox -> others f' k = others f k) /\ (k <> roots -> in_sandbox f' k = in_sandbox f k).
Proof.
  intros H G. apply add_root_ok in H. destruct H as [(Q & _)|(_ & d & table & arr & D & S & R & Q & ->)]; [discriminate|].
  pose proof (entries_of f d table arr D S R) as EN. unfold remove_root. cbn [m_items m_rest]. rewrite !get_set_same. rewrite filter_out by exact Q. rewrite app_length. cbn [length]. replace (length arr =? length arr + 1) with false by (symmetry; apply Nat.eqb_neq; lia).
  set (table' := match arr with [] => drop roots (set roots (IArray (arr ++ [IStr p])) table) | _ => set roots (IArray arr) (set roots (IArray (arr ++ [IStr p])) table) end).
  assert (T' : arr = [] /\ (get roots table = Some (IArray []) \/ get roots table = None) /\ table' = drop roots (set roots (IArray [IStr p]) table)
               \/ arr <> [] /\ get roots table = Some (IArray arr)).
  { destruct arr as [|i arr]; [left|right].
    - split; [reflexivity|]. split; [destruct R as [R|(R & _)]; auto|reflexivity].
    - split; [discriminate|]. destruct R as [R|(R & E)]; [exact R|discriminate]. }
  assert (OT : once table). { destruct S as [S|(S & ->)]; [|constructor]. destruct f as [d0|]; [|subst d; discriminate]. subst d. exact (proj2 G _ S). }
  assert (OI : once (m_items d)). { destruct f as [d0|]; subst d; [exact (proj1 G)|constructor]. }
  assert (TK : forall k, k <> roots -> get k table' = get k table).
  { intros k N. unfold table'. destruct arr; [rewrite get_drop_other, get_set_other by exact N; reflexivity|rewrite !get_set_other by exact N; reflexivity]. }
  set (items := match table' with [] => drop sandbox (set sandbox (ITable (set roots (IArray (arr ++ [IStr p])) table)) (m_items d)) | _ => set sandbox (ITable table') (set sandbox (ITable (set roots (IArray (arr ++ [IStr p])) table)) (m_items d)) end).
  assert (IK : forall k, k <> sandbox -> get k items = get k (m_items d)).
  { intros k N. unfold items. destruct table'; [rewrite get_drop_other, get_set_other by exact N; reflexivity|rewrite !get_set_other by exact N; reflexivity]. }
  assert (IS : get sandbox items = match table' with [] => None | _ => Some (ITable table') end).
  { unfold items. destruct table'; [apply get_drop_same|apply get_set_same]. }
  set (f' := match items with [] => None | _ => Some {| m_items := items; m_rest := m_rest d |} end).
  assert (OF : forall k, others f' k = get k items). { intro k. unfold f'. destruct items; reflexivity. }
  assert (OD : forall k, others f k = get k (m_items d)). { intro k. destruct f as [d0|]; subst d; reflexivity. }
  assert (INS : forall k, in_sandbox f' k = get k table'). { intro k. unfold in_sandbox. rewrite OF, IS. destruct table'; reflexivity. }
  assert (IND : forall k, in_sandbox f k = get k table). { intro k. unfold in_sandbox. rewrite OD. destruct S as [S|(S & ->)]; rewrite S; reflexivity. }
  exists f'. split; [unfold f'; destruct items; reflexivity|]. split; [|split].
  - intro NE. assert (TT : table' = table \/ table = []).
    { destruct T' as [(-> & RR & ->)|(Na & RR)].
      - destruct RR as [RR|RR].
        + exfalso. destruct S as [S|(S & ->)]; [|discriminate]. destruct f as [d0|]; [|subst d; discriminate]. subst d. cbn [nothing_empty] in NE. rewrite S, RR in NE. congruence.
        + left. apply drop_set. exact RR.
      - left. unfold table'. destruct arr as [|i arr]; [congruence|]. apply set_back; [exact OT|exact RR]. }
    assert (II : items = m_items d).
    { destruct TT as [TT|TT].
      - destruct table as [|e table0] eqn:Et.
        + unfold items. rewrite TT. destruct S as [S|(S & _)].
          * exfalso. destruct f as [d0|]; [|subst d; discriminate]. subst d. cbn [nothing_empty] in NE. rewrite S in NE. cbn in NE. congruence.
          * apply drop_set. exact S.
        + rewrite <- Et in *. unfold items. destruct table' as [|e' t'] eqn:E'; [subst table; discriminate|]. destruct S as [S|(S & E)]; [|subst table; discriminate]. apply set_back; [exact OI|]. rewrite TT. exact S.
      - subst table. destruct T' as [(-> & RR & T')|(_ & RR)]; [|discriminate]. unfold items. rewrite T'. destruct S as [S|(S & _)].
        + exfalso. destruct f as [d0|]; [|subst d; discriminate]. subst d. cbn [nothing_empty] in NE. rewrite S in NE. cbn in NE. congruence.
        + cbn. apply drop_set. exact S. }
    unfold f'. rewrite II. destruct f as [d0|].
    + subst d. destruct (m_items d0) as [|e l] eqn:E; [exfalso|rewrite <- E; destruct d0; reflexivity]. cbn [nothing_empty] in NE. rewrite E in NE. cbn in NE. congruence.
    + subst d. reflexivity.
  - rewrite EN. assert (L : entries f' = match get roots table' with Some (IArray a) => a | _ => [] end).
    { unfold entries, listed. unfold f'. destruct items as [|e l] eqn:Ei.
      - rewrite <- Ei in IS. cbn in IS. rewrite Ei in IS. destruct table'; [reflexivity|discriminate].
      - cbn [m_items]. rewrite IS. destruct table'; [reflexivity|]. destruct (get roots (_ :: _)) as [[]|]; reflexivity. }
    rewrite L. destruct T' as [(-> & RR & ->)|(Na & RR)]; [rewrite get_drop_same; reflexivity|]. unfold table'. destruct arr as [|i arr]; [congruence|]. rewrite get_set_same. reflexivity.
  - intro k. split; intro N; [rewrite OF, OD; apply IK; exact N|rewrite INS, IND; apply TK; exact N].
Qed.

(** *** settings.json *)
Lemma keep_runs m : keep_matcher m = false <-> runs_colgrep m.
Proof.
  unfold keep_matcher, runs_colgrep. split.
  - destruct (field hooks_key m) as [[]|]; try discriminate. intro H. apply negb_false_iff in H. apply existsb_exists in H. destruct H as (h & I & H). unfold about_colgrep in H. destruct (field (txt "command") h) as [[]|] eqn:F; try discriminate. eauto 10.
  - intros (l & h & s & -> & I & F & C). apply negb_false_iff. apply existsb_exists. exists h. split; [exact I|]. unfold about_colgrep. rewrite F. exact C.
Qed.
Definition trim_event (p : text * json) : text * json := match snd p with JArr l => (fst p, JArr (filter keep_matcher l)) | _ => p end.
Definition empty_event (p : text * json) : bool := match snd p with JArr l => is_nil l | _ => false end.
Definition left_events (events : list (text * json)) : list (text * json) := filter (fun p => negb (empty_event p)) (map trim_event events).
Lemma left_events_get events k : once events -> get k (left_events events) =
  match get k events with Some (JArr l) => if is_nil (filter keep_matcher l) then None else Some (JArr (filter keep_matcher l)) | x => x end.
Proof.
  unfold left_events. induction events as [|p l IH]; intro O; [reflexivity|]. apply once_tail in O. destruct O as (O & N). specialize (IH O). cbn [map filter].
  assert (K : fst (trim_event p) = fst p) by (unfold trim_event; destruct (snd p); reflexivity).
  destruct (text_eqb (fst p) k) eqn:Q.
  - apply text_eqb_eq in Q. subst k. unfold get at 2. cbn [find]. rewrite text_eqb_refl. rewrite N in IH. unfold trim_event, empty_event. destruct p as (a, v). cbn [fst snd] in *.
    destruct v; cbn [snd]; try (cbn [negb]; unfold get; cbn [find fst]; rewrite text_eqb_refl; reflexivity).
    destruct (is_nil (filter keep_matcher l0)) eqn:E; cbn [negb]; [exact IH|]. unfold get. cbn [find fst]. rewrite text_eqb_refl. reflexivity.
  - replace (get k (p :: l)) with (get k l) by (unfold get; cbn [find]; rewrite Q; reflexivity). rewrite <- IH. destruct (negb (empty_event (trim_event p))); [|reflexivity]. unfold get at 1. cbn [find]. rewrite K, Q. reflexivity.
Qed.
Lemma left_events_clean events p : In p (left_events events) -> match snd p with JArr l => l <> [] /\ forall m, In m l -> keep_matcher m = true | _ => True end.
Proof.
  unfold left_events. intro I. apply filter_In in I. destruct I as (I & E). apply in_map_iff in I. destruct I as (q & <- & _). unfold trim_event in *. destruct (snd q) eqn:S; try (rewrite S; exact Coq.Init.Logic.I). cbn [snd] in *. unfold empty_event in E. cbn [snd] in E. split; [destruct (filter keep_matcher l); [discriminate|discriminate]|]. intros m J. apply filter_In in J. apply J.
Qed.
Lemma once_left events : once events -> once (left_events events).
Proof.
  unfold once, left_events. intro O. assert (Q : map fst (map trim_event events) = map fst events). { rewrite map_map. apply map_ext. intros (a, v). unfold trim_event. cbn [snd fst]. destruct v; reflexivity. }
  rewrite <- Q in O. clear Q. induction (map trim_event events) as [|p l IH]; [exact O|]. cbn [map] in O. inversion O as [|? ? N O']; subst. cbn [filter]. destruct (negb _); [|apply IH; exact O']. cbn [map]. constructor; [|apply IH; exact O']. intro I. apply N. apply in_map_iff in I. destruct I as (q & E & I). apply filter_In in I. rewrite <- E. apply in_map. apply I.
Qed.
Lemma remove_hooks_shape top events : get hooks_key top = Some (JObj events) ->
  remove_hooks (JObj top) = (if is_nil (left_events events) then (JObj (drop hooks_key top), true)
     else (JObj (set hooks_key (JObj (left_events events)) top),
           existsb (fun p => match snd p with JArr l => negb (length (filter keep_matcher l) =? length l) | _ => false end) events || existsb empty_event (map trim_event events))).
Proof. intro H. unfold remove_hooks. rewrite H. reflexivity. Qed.
Lemma filter_all {A} (p : A -> bool) l : (forall x, In x l -> p x = true) -> filter p l = l.
Proof. induction l as [|x l IH]; intro H; [reflexivity|]. cbn [filter]. rewrite (H x) by (left; reflexivity). f_equal. apply IH. intros y I. apply H. right. exact I. Qed.
Lemma left_again events : (forall p, In p events -> match snd p with JArr l => l <> [] /\ forall m, In m l -> keep_matcher m = true | _ => True end) ->
  map trim_event events = events /\ left_events events = events /\
  existsb (fun p => match snd p with JArr l => negb (length (filter keep_matcher l) =? length l) | _ => false end) events || existsb empty_event (map trim_event events) = false.
Proof.
  intro H. assert (M : map trim_event events = events).
  { rewrite <- (map_id events) at 2. apply map_ext_in. intros (a, v) I. specialize (H _ I). unfold trim_event. cbn [snd fst] in *. destruct v; try reflexivity. rewrite filter_all by apply H. reflexivity. }
  split; [exact M|]. assert (E : forall p, In p events -> empty_event p = false). { intros (a, v) I. specialize (H _ I). unfold empty_event. cbn [snd] in *. destruct v; try reflexivity. destruct l; [destruct H; congruence|reflexivity]. }
  split.
  - unfold left_events. rewrite M. apply filter_all. intros p I. rewrite (E p I). reflexivity.
  - rewrite M. apply orb_false_iff. split.
    + destruct (existsb _ events) eqn:Q; [|reflexivity]. exfalso. apply existsb_exists in Q. destruct Q as ((a, v) & I & Q). specialize (H _ I). cbn [snd] in *. destruct v; try discriminate. rewrite filter_all in Q by apply H. rewrite Nat.eqb_refl in Q. discriminate.
    + destruct (existsb _ events) eqn:Q; [|reflexivity]. exfalso. apply existsb_exists in Q. destruct Q as (p & I & Q). rewrite (E p I) in Q. discriminate.
Qed.
