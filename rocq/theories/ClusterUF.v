(** Union-find of [fcluster]. *)
From Verif Require Import Base Cluster ClusterSpec.
Open Scope nat_scope.

Inductive leads (p : list nat) : nat -> nat -> Prop :=
| leads_root x : nth_error p x = Some x -> leads p x x
| leads_step x y r : nth_error p x = Some y -> y <> x -> leads p y r -> leads p x r.
Lemma leads_fun p x r : leads p x r -> forall s, leads p x s -> r = s.
Proof.
  induction 1 as [x H|x y r H N L IH]; intros s L'; inversion L'; subst; auto; try congruence.
  apply IH. replace y with y0 by congruence. assumption.
Qed.
Lemma leads_end p x r : leads p x r -> nth_error p r = Some r.
Proof. induction 1; auto. Qed.
Lemma leads_bound p x r : leads p x r -> x < length p /\ r < length p.
Proof.
  induction 1 as [x H|x y r H N L IH]; split; try (apply nth_error_Some; congruence). apply IH.
Qed.

Record wf (n m : nat) (p rank : list nat) : Prop := {
  wf_p : length p = n; wf_r : length rank = n;
  wf_range : forall x y, nth_error p x = Some y -> y < n;
  wf_up : forall x y, nth_error p x = Some y -> y <> x -> nth x rank 0 < nth y rank 0;
  wf_max : forall x, nth x rank 0 <= m
}.
Lemma wf_total n m p rank : wf n m p rank -> forall x, x < n -> exists r, leads p x r.
Proof.
  intros W x. remember (m - nth x rank 0) as k eqn:K. revert x K. induction k as [k IH] using lt_wf_ind. intros x K H.
  destruct (nth_error p x) as [y|] eqn:E; [|apply nth_error_None in E; destruct W; lia].
  destruct (Nat.eq_dec y x) as [->|N]; [exists x; now constructor|].
  pose proof (wf_up _ _ _ _ W x y E N). pose proof (wf_max _ _ _ _ W y). pose proof (wf_range _ _ _ _ W x y E).
  destruct (IH (m - nth y rank 0) ltac:(lia) y eq_refl) as (r & L); [assumption|]. exists r. eapply leads_step; eauto.
Qed.
Lemma leads_rank n m p rank x r : wf n m p rank -> leads p x r -> x = r \/ nth x rank 0 < nth r rank 0.
Proof.
  intros W. induction 1 as [x H|x y r H N L IH]; auto. right.
  pose proof (wf_up _ _ _ _ W x y H N). destruct IH; subst; lia.
Qed.
Lemma upd_nth_error {A} (l : list A) i v x :
  nth_error (upd l i v) x = if x =? i then (match nth_error l x with Some _ => Some v | None => None end) else nth_error l x.
Proof.
  revert i x. induction l as [|a l IH]; intros i x; cbn [upd].
  - destruct (x =? i), x; reflexivity.
  - destruct i, x; cbn [nth_error upd Nat.eqb]; auto.
Qed.
(** Pointing an element at its root. *)
Lemma upd_leads p x r : leads p x r -> x <> r -> forall y s, leads p y s -> leads (upd p x r) y s.
Proof.
  intros L N. pose proof (leads_end _ _ _ L) as R.
  assert (RR : leads (upd p x r) r r). { constructor. rewrite upd_nth_error. destruct (r =? x) eqn:E; [apply Nat.eqb_eq in E; congruence|assumption]. }
  assert (XR : leads (upd p x r) x r).
  { apply (leads_step _ x r r); auto. rewrite upd_nth_error, Nat.eqb_refl.
    pose proof (leads_bound _ _ _ L) as (B & _). apply nth_error_Some in B. destruct (nth_error p x); congruence. }
  induction 1 as [y H|y z s H NZ L' IH].
  - destruct (Nat.eq_dec y x) as [->|NE].
    + exfalso. apply N. exact (eq_sym (leads_fun _ _ _ L _ (leads_root _ _ H))).
    + constructor. rewrite upd_nth_error. apply Nat.eqb_neq in NE. now rewrite NE.
  - destruct (Nat.eq_dec y x) as [->|NE].
    + replace s with r; auto. apply (leads_fun _ _ _ L). eapply leads_step; eauto.
    + apply (leads_step _ y z s); auto. rewrite upd_nth_error. apply Nat.eqb_neq in NE. now rewrite NE.
Qed.
Lemma upd_wf n m p rank x r : wf n m p rank -> leads p x r -> x <> r -> wf n m (upd p x r) rank.
Proof.
  intros W L N. pose proof (leads_bound _ _ _ L) as (B1 & B2). destruct W as [Wp Wr Wg Wu Wm]. constructor; auto.
  - now rewrite upd_length.
  - intros a b. rewrite upd_nth_error. destruct (a =? x); [destruct (nth_error p a); [intros [= <-]; lia|discriminate]|apply Wg].
  - intros a b. rewrite upd_nth_error. destruct (a =? x) eqn:E; [|apply Wu].
    apply Nat.eqb_eq in E. subst a. destruct (nth_error p x); [intros [= <-] _|discriminate].
    destruct (leads_rank n m p rank x r) as [->|]; auto; [constructor; auto|]. contradiction.
Qed.
Definition equiv (p q : list nat) : Prop := forall y s, leads p y s <-> leads q y s.
Lemma equiv_of n m p q rank rank' : wf n m p rank -> wf n m q rank' -> (forall y s, leads p y s -> leads q y s) -> equiv p q.
Proof.
  intros W W' H y s. split; [apply H|]. intros L.
  pose proof (leads_bound _ _ _ L) as (B & _). rewrite (wf_p _ _ _ _ W') in B.
  destruct (wf_total _ _ _ _ W y B) as (s' & L'). rewrite <- (leads_fun _ _ _ (H _ _ L') _ L). exact L'.
Qed.
Lemma find_spec n m p rank fuel x : wf n m p rank -> x < n -> m - nth x rank 0 <= fuel ->
  exists p' r, find fuel p x = Some (p', r) /\ leads p x r /\ wf n m p' rank /\ equiv p p'.
Proof.
  intros W. revert x. induction fuel as [|fuel IH]; intros x H F.
  - destruct (nth_error p x) as [y|] eqn:E; [|apply nth_error_None in E; destruct W; lia].
    cbn [find]. rewrite E. destruct (y =? x) eqn:Q.
    + apply Nat.eqb_eq in Q. subst y. exists p, x. repeat split; auto; try apply W. now constructor.
    + apply Nat.eqb_neq in Q. pose proof (wf_up _ _ _ _ W x y E Q). pose proof (wf_max _ _ _ _ W y). lia.
  - destruct (nth_error p x) as [y|] eqn:E; [|apply nth_error_None in E; destruct W; lia].
    cbn [find]. rewrite E. destruct (y =? x) eqn:Q.
    + apply Nat.eqb_eq in Q. subst y. exists p, x. repeat split; auto; try apply W. now constructor.
    + apply Nat.eqb_neq in Q. pose proof (wf_up _ _ _ _ W x y E Q). pose proof (wf_range _ _ _ _ W x y E).
      destruct (IH y) as (p' & r & E' & L & W' & Q'); auto; [lia|]. rewrite E'.
      assert (LX : leads p x r) by (eapply leads_step; eauto).
      assert (LX' : leads p' x r) by now apply Q'.
      assert (NX : x <> r). { intros ->. destruct (leads_rank _ _ _ _ _ _ W L); subst; lia. }
      exists (upd p' x r), r. split; [reflexivity|]. split; [assumption|]. split; [now apply upd_wf|].
      eapply equiv_of; [exact W|exact (upd_wf n m p' rank x r W' LX' NX)|]. intros a b Hab. apply upd_leads; auto. now apply Q'.
Qed.

Definition same (p : list nat) (x y : nat) : Prop := exists r, leads p x r /\ leads p y r.
Lemma equiv_same p q : equiv p q -> forall x y, same p x y <-> same q x y.
Proof. intros H x y. split; intros (r & A & B); exists r; split; now apply H. Qed.
(** Pointing one root at another. *)
Lemma link_leads p a b : nth_error p a = Some a -> nth_error p b = Some b -> a <> b ->
  forall y s, leads p y s -> leads (upd p a b) y (if s =? a then b else s).
Proof.
  intros HA HB N y s. induction 1 as [y H|y z s H NZ L IH].
  - destruct (y =? a) eqn:E.
    + apply Nat.eqb_eq in E. subst y. apply (leads_step _ a b b); auto.
      * rewrite upd_nth_error, Nat.eqb_refl, HA. reflexivity.
      * constructor. rewrite upd_nth_error. destruct (b =? a) eqn:Q; [apply Nat.eqb_eq in Q; congruence|assumption].
    + constructor. rewrite upd_nth_error, E. assumption.
  - assert (E : (y =? a) = false). { apply Nat.eqb_neq. intros ->. congruence. }
    apply (leads_step _ y z); auto. rewrite upd_nth_error, E. assumption.
Qed.
Lemma link_same n m p rank a b : wf n m p rank -> nth_error p a = Some a -> nth_error p b = Some b -> a <> b ->
  (exists m' rank', wf n m' (upd p a b) rank') ->
  forall x y, x < n -> y < n ->
    (same (upd p a b) x y <-> same p x y \/ (leads p x a /\ leads p y b) \/ (leads p x b /\ leads p y a)).
Proof.
  intros W HA HB N (m' & rank' & W') x y Hx Hy.
  destruct (wf_total _ _ _ _ W x Hx) as (r & LX). destruct (wf_total _ _ _ _ W y Hy) as (s & LY).
  pose proof (link_leads p a b HA HB N _ _ LX) as LX'. pose proof (link_leads p a b HA HB N _ _ LY) as LY'.
  split.
  - intros (t & A & B). pose proof (leads_fun _ _ _ LX' _ A) as E1. pose proof (leads_fun _ _ _ LY' _ B) as E2.
    destruct (r =? a) eqn:Q1; destruct (s =? a) eqn:Q2.
    + apply Nat.eqb_eq in Q1, Q2. subst r s. left. exists a. auto.
    + apply Nat.eqb_eq in Q1. subst r. right. left. split; auto. congruence.
    + apply Nat.eqb_eq in Q2. subst s. right. right. split; auto. congruence.
    + left. exists r. split; auto. congruence.
  - intros [(t & A & B)|[(A & B)|(A & B)]].
    + exists (if r =? a then b else r). split; auto.
      replace r with s; auto. rewrite (leads_fun _ _ _ LX _ A), (leads_fun _ _ _ LY _ B). reflexivity.
    + exists b. pose proof (leads_fun _ _ _ LX _ A); pose proof (leads_fun _ _ _ LY _ B). subst r s.
      rewrite Nat.eqb_refl in LX'. split; auto. destruct (b =? a); auto.
    + exists b. pose proof (leads_fun _ _ _ LX _ A); pose proof (leads_fun _ _ _ LY _ B). subst r s.
      rewrite Nat.eqb_refl in LY'. split; auto. destruct (b =? a); auto.
Qed.
Lemma nth_upd l i v x : nth x (upd l i v) 0 = if (x =? i) && (x <? length l) then v else nth x l 0.
Proof.
  revert i x. induction l as [|a l IH]; intros i x; cbn [upd length].
  - rewrite andb_false_r. reflexivity.
  - destruct i, x; cbn [nth Nat.eqb andb]; auto. rewrite IH. reflexivity.
Qed.
Lemma union_spec n m p rank i j : wf n m p rank -> m < n -> i < n -> j < n ->
  exists p' rank', union n p rank i j = Some (p', rank') /\ wf n (S m) p' rank' /\
    forall x y, x < n -> y < n -> (same p' x y <-> same p x y \/ (same p x i /\ same p y j) \/ (same p x j /\ same p y i)).
Proof.
  intros W M I J. unfold union.
  destruct (find_spec n m p rank n i W I ltac:(lia)) as (p1 & pi & E1 & L1 & W1 & Q1). rewrite E1.
  destruct (find_spec n m p1 rank n j W1 J ltac:(lia)) as (p2 & pj & E2 & L2 & W2 & Q2). rewrite E2.
  assert (LI : leads p2 i pi) by (apply Q2, Q1, L1). assert (LJ : leads p2 j pj) by (apply Q2, L2).
  assert (LJp : leads p j pj) by (apply Q1, L2).
  pose proof (leads_end _ _ _ LI) as RI. pose proof (leads_end _ _ _ LJ) as RJ.
  pose proof (leads_bound _ _ _ LI) as (_ & BI). pose proof (leads_bound _ _ _ LJ) as (_ & BJ).
  rewrite (wf_p _ _ _ _ W2) in BI, BJ.
  assert (Q : forall x y, same p2 x y <-> same p x y).
  { intros x y. rewrite (equiv_same p p1 Q1), (equiv_same p1 p2 Q2). reflexivity. }
  assert (SI : forall x, leads p2 x pi <-> same p x i).
  { intros x. split; [intros H; apply Q; exists pi; auto|]. intros (r & A & B). apply Q2, Q1. rewrite (leads_fun _ _ _ L1 _ B). exact A. }
  assert (SJ : forall x, leads p2 x pj <-> same p x j).
  { intros x. split; [intros H; apply Q; exists pj; auto|]. intros (r & A & B). apply Q2, Q1. rewrite (leads_fun _ _ _ LJp _ B). exact A. }
  destruct W2 as [Wp Wr Wg Wu Wm].
  destruct (pi =? pj) eqn:PE.
  { apply Nat.eqb_eq in PE. subst pj. exists p2, rank. split; [reflexivity|]. split; [constructor; auto|].
    intros x y Hx Hy. rewrite Q. split; [auto|]. intros [H|[(A & B)|(A & B)]]; auto.
    - apply SI in A. apply SJ in B. apply Q. exists pi. auto.
    - apply SJ in A. apply SI in B. apply Q. exists pi. auto. }
  apply Nat.eqb_neq in PE.
  assert (LINK : forall a b rank', a <> b -> nth_error p2 a = Some a -> nth_error p2 b = Some b -> b < n ->
            length rank' = n -> (forall x, nth x rank 0 <= nth x rank' 0 <= S m) ->
            (forall x, x <> b -> nth x rank' 0 = nth x rank 0) ->
            nth a rank' 0 < nth b rank' 0 -> wf n (S m) (upd p2 a b) rank').
  { intros a b rank' N HA HB Bb Lr Hr Hb Hlt. constructor; auto.
    - now rewrite upd_length.
    - intros x y. rewrite upd_nth_error. destruct (x =? a); [destruct (nth_error p2 x); [intros [= <-]; auto|discriminate]|apply Wg].
    - intros x y. rewrite upd_nth_error. destruct (x =? a) eqn:E.
      + apply Nat.eqb_eq in E. subst x. rewrite HA. intros [= <-] _. exact Hlt.
      + intros H NE. pose proof (Wu x y H NE). destruct (Nat.eq_dec x b) as [->|NB]; [congruence|].
        rewrite (Hb x NB). pose proof (Hr y). lia.
    - intros x. apply Hr. }
  destruct (nth pi rank 0 <? nth pj rank 0) eqn:C1; [apply Nat.ltb_lt in C1|apply Nat.ltb_ge in C1].
  { exists (upd p2 pi pj), rank. split; [reflexivity|].
    assert (W' : wf n (S m) (upd p2 pi pj) rank). { apply LINK; auto. }
    split; [exact W'|]. intros x y Hx Hy.
    rewrite (link_same n m p2 rank pi pj); auto; [|constructor; auto|eauto]. rewrite Q, !SI, !SJ. reflexivity. }
  destruct (nth pj rank 0 <? nth pi rank 0) eqn:C2; [apply Nat.ltb_lt in C2|apply Nat.ltb_ge in C2].
  { exists (upd p2 pj pi), rank. split; [reflexivity|].
    assert (W' : wf n (S m) (upd p2 pj pi) rank). { apply LINK; auto. }
    split; [exact W'|]. intros x y Hx Hy.
    rewrite (link_same n m p2 rank pj pi); auto; [|constructor; auto|eauto]. rewrite Q, !SI, !SJ. tauto. }
  exists (upd p2 pj pi), (upd rank pi (S (nth pi rank 0))). split; [reflexivity|].
  assert (W' : wf n (S m) (upd p2 pj pi) (upd rank pi (S (nth pi rank 0)))).
  { apply LINK; auto.
    - now rewrite upd_length.
    - intros x. rewrite nth_upd. pose proof (Wm x). destruct ((x =? pi) && (x <? length rank)) eqn:E; [|lia].
      assert (x = pi) by lia. subst x. lia.
    - intros x N. rewrite nth_upd. replace (x =? pi) with false by lia. reflexivity.
    - rewrite !nth_upd. replace (pj =? pi) with false by lia. replace (pi <? length rank) with true by lia.
      rewrite Nat.eqb_refl. cbn [andb]. lia. }
  split; [exact W'|]. intros x y Hx Hy.
  rewrite (link_same n m p2 rank pj pi); auto; [|constructor; auto|eauto]. rewrite Q, !SI, !SJ. tauto.
Qed.
