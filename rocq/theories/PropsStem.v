(** C86, continued: exactly which files the boost of file names raises, and by how much. *)
From Verif Require Import Base Text FtsRank FtsRankSpec FtsRankProofs FtsRankOps FtsText FtsTextSpec FtsMatch Results ResultsSpec ResultsProofs ResultsBoost ResultsExamples PropsResults.
From Coq Require Import String.
Open Scope nat_scope.

(** the ways to write a word: as it is and, if plurals count, without underscores or without the s of a plural *)
Definition written (plural : bool) (w v : text) : Prop :=
  v = w \/ plural = true /\ (v = filter (fun c => negb (c =? ch "_")%Z) w \/ v <> [] /\ w = v ++ [ch "s"]).
(** a word of the query that is not a stop word and a word of the name, in two ways to write them *)
Definition words_as {A} (T : tuning A) (q t : text) (R : text -> text -> Prop) : Prop :=
  exists i x j y v v', identifier_in q i /\ identifier_token i x /\ t_stopword A T x = false /\ identifier_in t j /\ identifier_token j y
    /\ written (t_plural A T) x v /\ written (t_plural A T) y v' /\ R v v'.
Definition alike {A} (T : tuning A) (q t : text) : Prop := words_as T q t (fun v v' => v = v').
Definition akin {A} (T : tuning A) (q t : text) : Prop :=
  words_as T q t (fun v v' => (exists r, v = v' ++ r /\ 3 <= t_bytes A T v') \/ exists r, v' = v ++ r /\ 3 <= t_bytes A T v).

Section STEM.
  Variable A : arith.
  Variable T : tuning A.
  Hypothesis GO : good_order A.
  Hypothesis GM : good_minmax A.
  Hypothesis B1 : forall a b, t_bytes A T (a ++ b) = t_bytes A T a + t_bytes A T b.
  Hypothesis B0 : forall c, 1 <= t_bytes A T [c].
  Hypothesis B2 : t_bytes A T [ch "s"] = 1.
  Notation stem_of x := (t_lower A T (t_stem A T (file_of A x))).
  Lemma bytes_zero a : t_bytes A T a = 0 -> a = [].
  Proof using B1 B0 B2. destruct a as [|c a]; [reflexivity|]. change (c :: a) with ([c] ++ a). rewrite B1. specialize (B0 c). lia. Qed.
  Lemma normalize_iff w v : In v (normalize A T w) <-> written (t_plural A T) w v.
  Proof using B1 B0 B2.
    unfold normalize, written. destruct (t_plural A T); [|cbn [In]; split; [intros [<-|[]]; left; reflexivity|intros [->|(H & _)]; [left; reflexivity|discriminate H]]].
    cbn [In]. rewrite in_app_iff. assert (S1 : In v (if ends_in_s w && (1 <? t_bytes A T w) then [removelast w] else []) <-> v <> [] /\ w = v ++ [ch "s"] \/ False).
    { split.
      - destruct (ends_in_s w && (1 <? t_bytes A T w)) eqn:E; [|intros []]. intros [<-|[]]. left. apply andb_prop in E. destruct E as (E & L). unfold ends_in_s in E. destruct (rev w) as [|c r] eqn:R; [discriminate E|]. apply Z.eqb_eq in E. subst c.
        assert (W : w = rev r ++ [ch "s"]) by (rewrite <- (rev_involutive w), R; reflexivity). rewrite W, removelast_last. split; [|reflexivity]. intro N. rewrite N in W. rewrite W in L.
        apply Nat.ltb_lt in L. cbn [app] in L.
        rewrite B2 in L. lia.
      - intros [(N & ->)|[]]. assert (E : ends_in_s (v ++ [ch "s"]) = true) by (unfold ends_in_s; rewrite rev_unit; apply Z.eqb_refl). rewrite E. cbn [andb]. rewrite removelast_last.
        destruct (1 <? _) eqn:L; [left; reflexivity|]. apply Nat.ltb_ge in L. rewrite B1 in L. pose proof (B0 (ch "s")). exfalso. apply N, bytes_zero. lia. }
    rewrite S1. destruct (text_eqb (filter _ w) w) eqn:E.
    - apply text_eqb_eq in E. split.
      + intros [<-|[[]|[H|[]]]]; [left; reflexivity|right; auto].
      + intros [->|(_ & [->|H])]; [left; reflexivity|left; symmetry; exact E|right; right; left; exact H].
    - cbn [In]. split.
      + intros [<-|[[<-|[]]|[H|[]]]]; [left; reflexivity|right; auto|right; auto].
      + intros [->|(_ & [->|H])]; [left; reflexivity|right; left; left; reflexivity|right; right; left; exact H].
  Qed.
  Lemma words_iff q t (P : text -> text -> bool) (R : text -> text -> Prop) :
    (forall x y, P x y = true <-> exists v v', written (t_plural A T) x v /\ written (t_plural A T) y v' /\ R v v') ->
    existsb (fun x => existsb (P x) (tokenize_identifiers t)) (filter (fun t => negb (t_stopword A T t)) (tokenize_identifiers q)) = true <-> words_as T q t R.
  Proof using.
    intro H. rewrite existsb_exists. split.
    - intros (x & I & J). apply filter_In in I. destruct I as (I & K). apply tokens_iff in I. destruct I as (i & I1 & I2). apply existsb_exists in J. destruct J as (y & J & X). apply tokens_iff in J. destruct J as (j & J1 & J2). apply H in X. destruct X as (v & v' & X).
      exists i, x, j, y, v, v'. apply negb_true_iff in K. tauto.
    - intros (i & x & j & y & v & v' & I1 & I2 & K & J1 & J2 & X). exists x. split; [apply filter_In; split; [apply tokens_iff; eauto|rewrite K; reflexivity]|]. apply existsb_exists. exists y. split; [apply tokens_iff; eauto|]. apply H. eauto.
  Qed.
  Lemma exact_iff x y : exact_pair A T x y = true <-> exists v v', written (t_plural A T) x v /\ written (t_plural A T) y v' /\ v = v'.
  Proof using B1 B0 B2.
    unfold exact_pair. rewrite existsb_exists. split.
    - intros (v & I & J). apply tmem_in in J. apply normalize_iff in I, J. exists v, v. auto.
    - intros (v & v' & I & J & <-). exists v. split; [apply normalize_iff; exact J|apply tmem_in, normalize_iff; exact I].
  Qed.
  Lemma prefix_iff x y : prefix_pair A T x y = true <-> exists v v', written (t_plural A T) x v /\ written (t_plural A T) y v'
    /\ ((exists r, v = v' ++ r /\ 3 <= t_bytes A T v') \/ exists r, v' = v ++ r /\ 3 <= t_bytes A T v).
  Proof using B1 B0 B2.
    unfold prefix_pair. rewrite existsb_exists. split.
    - intros (v' & I & J). apply existsb_exists in J. destruct J as (v & J & X). apply normalize_iff in I, J. exists v, v'. split; [exact J|split; [exact I|]].
      destruct (t_bytes A T v' <=? t_bytes A T v); apply andb_prop in X; destruct X as (L & X); apply Nat.leb_le in L; apply starts_with_spec in X; destruct X as (r & X); [left|right]; exists r; auto.
    - intros (v & v' & I & J & X). exists v'. split; [apply normalize_iff; exact J|]. apply existsb_exists. exists v. split; [apply normalize_iff; exact I|].
      destruct (t_bytes A T v' <=? t_bytes A T v) eqn:E.
      + apply andb_true_intro. destruct X as [(r & -> & L)|(r & -> & L)].
        * split; [apply Nat.leb_le; exact L|apply starts_with_spec; eauto].
        * apply Nat.leb_le in E. rewrite B1 in E. assert (r = []) by (apply bytes_zero; lia). subst r. rewrite app_nil_r. split; [apply Nat.leb_le; exact L|apply starts_with_spec; exists []; rewrite app_nil_r; reflexivity].
      + apply Nat.leb_gt in E. apply andb_true_intro. destruct X as [(r & -> & L)|(r & -> & L)]; [rewrite B1 in E; lia|]. split; [apply Nat.leb_le; exact L|apply starts_with_spec; eauto].
  Qed.
  Lemma nothing_alike q t R : t = [] -> ~ words_as T q t R.
  Proof using. intros -> (i & x & j & y & v & v' & _ & _ & _ & J & _). exact (no_identifier_in_empty _ J). Qed.
  Lemma stem_exactly q l : Forall (fun h => is_number A (score_of A h)) l -> is_number A (f_0 A) -> l <> [] ->
    exists m, top_score A l m /\ Forall2 (fun x y =>
      h_unit A y = h_unit A x
      /\ (worth A T m /\ alike T q (stem_of x) -> score_of A y = f_add A (score_of A x) (f_mul A m (t_exact A T)))
      /\ (worth A T m /\ ~ alike T q (stem_of x) /\ akin T q (stem_of x) -> score_of A y = f_add A (score_of A x) (f_mul A m (t_prefix A T)))
      /\ (~ worth A T m \/ ~ alike T q (stem_of x) /\ ~ akin T q (stem_of x) -> score_of A y = score_of A x)) l (apply_path_stem_boost A T q l).
  Proof using GO GM B1 B0 B2.
    intros NB N0 NE. exists (max_score A l). pose proof (max_top A GO GM l NE NB) as TS. split; [exact TS|].
    assert (Nm : is_number A (max_score A l)).
    { destruct TS as ((h & Hh & <-) & _). rewrite Forall_forall in NB. apply NB. exact Hh. }
    set (m := max_score A l) in *. unfold apply_path_stem_boost. fold m.
    assert (SAME : forall k : list (hit A), (forall x, worth A T m -> ~ alike T q (stem_of x) /\ ~ akin T q (stem_of x)) ->
      Forall2 (fun x y => h_unit A y = h_unit A x
      /\ (worth A T m /\ alike T q (stem_of x) -> score_of A y = f_add A (score_of A x) (f_mul A m (t_exact A T)))
      /\ (worth A T m /\ ~ alike T q (stem_of x) /\ akin T q (stem_of x) -> score_of A y = f_add A (score_of A x) (f_mul A m (t_prefix A T)))
      /\ (~ worth A T m \/ ~ alike T q (stem_of x) /\ ~ akin T q (stem_of x) -> score_of A y = score_of A x)) k k).
    { induction k as [|x k IH]; intro H; constructor; [|apply IH; exact H]. split; [reflexivity|]. specialize (H x). tauto. }
    destruct (useless A T m) eqn:EU.
    { apply SAME. intros x W. apply (proj2 (worth_spec A T GO _ Nm N0)) in W. congruence. }
    apply (worth_spec A T GO _ Nm N0) in EU.
    destruct (filter (fun t => negb (t_stopword A T t)) (tokenize_identifiers q)) as [|w0 ws] eqn:ET.
    { assert (NW : forall t R, ~ words_as T q t R).
      { intros t R (i & x & j & y & v & v' & I1 & I2 & K & _). assert (X : In x (filter (fun t => negb (t_stopword A T t)) (tokenize_identifiers q))) by (apply filter_In; split; [apply tokens_iff; eauto|rewrite K; reflexivity]). rewrite ET in X. destruct X. }
      apply SAME. intros x _. split; apply NW. }
    rewrite <- ET in *. clear SAME NB NE TS. clearbody m. induction l as [|x l IH]; cbn [map]; constructor; [|exact IH].
    change (u_file (h_unit A x)) with (file_of A x).
    destruct (text_eqb (stem_of x) []) eqn:EN.
    { apply text_eqb_eq in EN. split; [reflexivity|]. assert (N1 : ~ alike T q (stem_of x)) by (apply nothing_alike; exact EN). assert (N2 : ~ akin T q (stem_of x)) by (apply nothing_alike; exact EN). tauto. }
    pose proof (words_iff q (stem_of x) _ _ exact_iff) as X1. pose proof (words_iff q (stem_of x) _ _ prefix_iff) as X2. fold (alike T q (stem_of x)) in X1. fold (akin T q (stem_of x)) in X2.
    destruct (existsb (fun q0 => existsb (exact_pair A T q0) _) _) eqn:EX.
    { split; [reflexivity|]. assert (alike T q (stem_of x)) by (apply X1; reflexivity). split; [reflexivity|]. tauto. }
    assert (N1 : ~ alike T q (stem_of x)) by (intro H; apply X1 in H; discriminate H).
    destruct (existsb (fun q0 => existsb (prefix_pair A T q0) _) _) eqn:EP.
    - assert (akin T q (stem_of x)) by (apply X2; reflexivity). split; [reflexivity|]. split; [tauto|]. split; [reflexivity|]. tauto.
    - assert (N2 : ~ akin T q (stem_of x)) by (intro H; apply X2 in H; discriminate H). split; [reflexivity|]. tauto.
  Qed.
End STEM.

(** The best score lends its fraction to the units of exactly the files whose name shares a word with the query,
    plurals and underscores aside, and a smaller fraction to those where one word begins with the other, of at
    least three bytes. *)
Theorem C86_stem_exactly : forall A T q l, good_order A -> good_minmax A ->
  (forall a b, t_bytes A T (a ++ b) = t_bytes A T a + t_bytes A T b) -> (forall c, 1 <= t_bytes A T [c]) -> t_bytes A T [ch "s"] = 1 ->
  Forall (fun h => is_number A (score_of A h)) l -> is_number A (f_0 A) -> l <> [] ->
  exists m, top_score A l m /\ Forall2 (fun x y => let name := t_lower A T (t_stem A T (file_of A x)) in
    h_unit A y = h_unit A x
    /\ (worth A T m /\ alike T q name -> score_of A y = f_add A (score_of A x) (f_mul A m (t_exact A T)))
    /\ (worth A T m /\ ~ alike T q name /\ akin T q name -> score_of A y = f_add A (score_of A x) (f_mul A m (t_prefix A T)))
    /\ (~ worth A T m \/ ~ alike T q name /\ ~ akin T q name -> score_of A y = score_of A x)) l (apply_path_stem_boost A T q l).
Proof. intros. apply stem_exactly; assumption. Qed.
Print Assumptions C86_stem_exactly.
(** the query names users; the files are user, users_list, username and walk *)
Definition plural_tuning : tuning zarith := Build_tuning zarith
  (fun f => ZFin 1) (map to_lower1) (fun f => f) (@List.length Z) (fun w => text_eqb w (txt "the")) true
  (ZFin 1) (ZFin 2) (ZFin 1) (ZFin 1) (fun x => match x with ZFin _ => true | _ => false end) (fun l => l).
Definition named_hits : list (hit zarith) :=
  map (fun f => Build_hit zarith (a_unit (txt f) (txt "x") 1 2 true false) (ZFin 10)) ["user"; "users_list"; "username"; "walk"; "us"]%string.
Example C86_stem_exactly_met :
  map (h_score zarith) (apply_path_stem_boost zarith plural_tuning (txt "the users") named_hits) = map ZFin [30; 30; 20; 10; 10]%Z
  /\ (forall a b, t_bytes zarith plural_tuning (a ++ b) = t_bytes zarith plural_tuning a + t_bytes zarith plural_tuning b)
  /\ (forall c, 1 <= t_bytes zarith plural_tuning [c]) /\ t_bytes zarith plural_tuning [ch "s"] = 1.
Proof. split; [vm_compute; reflexivity|]. split; [intros; apply app_length|]. split; [intro c; apply le_n|reflexivity]. Qed.
