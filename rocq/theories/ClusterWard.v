(** The nearest-neighbour chain builds a tree, and ends in exact arithmetic. *)
From Verif Require Import Base Cluster ClusterSpec ClusterUF ClusterFlat.
Open Scope nat_scope.

Lemma joined_snoc {R} (rows : list (joint R)) : forall B w B1 a b ma mb d,
  joined B w rows B1 -> In (a, ma) B1 -> In (b, mb) B1 -> a < b ->
  joined B w (rows ++ [Joint a b d (length ma + length mb)]) ((w + length rows, ma ++ mb) :: without a b B1).
Proof.
  induction rows as [|r rows IH]; intros B w B1 a b ma mb d J HA HB HN.
  - inversion J; subst. cbn. rewrite Nat.add_0_r. econstructor; eauto. constructor.
  - inversion J; subst. cbn [app length]. econstructor; eauto. rewrite <- plus_n_Sm. apply (IH _ (S w)); auto.
Qed.

Section Ward.
Context (R : real).
Implicit Types (s : ward_state R) (dist : nat -> nat -> num R).

(** Nearest neighbours. *)
Lemma nearest_in dist i j d : forall active best, 
  fold_left (fun best j => if j =? i then best
    else if lt R (dist i j) (match best with Some (_, b) => b | None => infinity R end)
         then Some (j, dist i j) else best) active best = Some (j, d) ->
  best = Some (j, d) \/ (In j active /\ j <> i /\ d = dist i j).
Proof.
  induction active as [|x active IH]; intros best H; [now left|]. cbn [fold_left] in H. apply IH in H.
  destruct H as [H|(H & N & E)]; [|right; repeat split; auto; now right].
  destruct (x =? i) eqn:Q; [now left|]. apply Nat.eqb_neq in Q.
  destruct (lt R (dist i x) _); [|now left]. right. injection H as <- <-. repeat split; auto. now left.
Qed.
Lemma nearest_spec dist active i j d : nearest R dist active i = Some (j, d) -> In j active /\ j <> i /\ d = dist i j.
Proof. intros H. apply nearest_in in H. destruct H as [H|H]; [discriminate|exact H]. Qed.

(** The chain, last element first: each element points at the next one, never back. *)
Definition points (cache : nat -> option (nat * num R)) (x y : nat) : Prop := exists d, cache x = Some (y, d).
Fixpoint linked (cache : nat -> option (nat * num R)) (chain : list nat) : Prop :=
  match chain with
  | u :: ((l :: rest) as t) => points cache l u /\ (match rest with z :: _ => u <> z | [] => True end) /\ linked cache t
  | _ => True
  end.
Lemma linked_tail cache u l : linked cache (u :: l) -> linked cache l.
Proof. destruct l; cbn; tauto. Qed.
Lemma linked_app cache l1 l2 : linked cache (l1 ++ l2) -> linked cache l2.
Proof. induction l1 as [|x l1 IH]; auto. intros H. apply IH. eapply linked_tail. exact H. Qed.
Lemma linked_points cache l1 u x l2 : linked cache (l1 ++ u :: x :: l2) -> points cache x u.
Proof. intros H. apply linked_app in H. cbn in H. tauto. Qed.
Lemma linked_back cache l1 u x z l2 : linked cache (l1 ++ u :: x :: z :: l2) -> u <> z.
Proof. intros H. apply linked_app in H. cbn in H. tauto. Qed.
Lemma linked_mono cache cache' chain : (forall x c, In x chain -> cache x = Some c -> cache' x = Some c) -> linked cache chain -> linked cache' chain.
Proof.
  induction chain as [|u [|l rest] IH]; auto. intros M (P & Q & L). split; [|split; auto].
  - destruct P as (d & P). exists d. apply M; auto. right. now left.
  - apply IH; auto. intros x c H. apply M. now right.
Qed.
Lemma points_fun cache x y z : points cache x y -> points cache x z -> y = z.
Proof. intros (d & H) (e & H'). congruence. Qed.
(** The two clusters that are merged do not occur further down. *)
Lemma pair_alone cache cur second below :
  linked cache (cur :: second :: below) -> points cache cur second -> cur <> second -> ~ In cur below /\ ~ In second below.
Proof.
  intros L P N. assert (PS : points cache second cur) by (cbn in L; tauto).
  assert (A : ~ In cur below).
  { intros H. apply in_split in H. destruct H as (pre & post & ->).
    destruct (@exists_last _ (second :: pre)) as (q & u & E); [discriminate|].
    assert (EC : cur :: second :: pre ++ cur :: post = (cur :: q) ++ u :: cur :: post).
    { change (cur :: second :: pre ++ cur :: post) with (cur :: (second :: pre) ++ cur :: post). rewrite E, <- app_assoc. reflexivity. }
    rewrite EC in L. pose proof (linked_points _ _ _ _ _ L) as PU. assert (u = second) by (eapply points_fun; eauto). subst u.
    destruct (@exists_last _ (cur :: q)) as (q' & u2 & E2); [discriminate|]. rewrite E2, <- app_assoc in L. cbn [app] in L.
    pose proof (linked_points _ _ _ _ _ L) as PU2. assert (u2 = cur) by (eapply points_fun; eauto). subst u2.
    apply linked_back in L. contradiction. }
  split; auto. intros H. apply in_split in H. destruct H as (pre & post & ->).
  destruct (@exists_last _ (second :: pre)) as (q & u & E); [discriminate|].
  assert (EC : cur :: second :: pre ++ second :: post = (cur :: q) ++ u :: second :: post).
  { change (cur :: second :: pre ++ second :: post) with (cur :: (second :: pre) ++ second :: post). rewrite E, <- app_assoc. reflexivity. }
  rewrite EC in L. pose proof (linked_points _ _ _ _ _ L) as PU. assert (u = cur) by (eapply points_fun; eauto). subst u.
  assert (I : In cur (second :: pre)) by (rewrite E; apply in_app_iff; right; now left).
  destruct I as [I|I]; [congruence|]. apply A. apply in_app_iff. now left.
Qed.

(** What holds of every state of the loops. *)
Record winv (n : nat) (B : list block) s : Prop := {
  i_active : forall c, In c (w_active s) <-> In c (map fst B);
  i_once : NoDup (w_active s);
  i_blocks : blocks_ok n (w_next s) B;
  i_size : forall c ms, In (c, ms) B -> w_size s c = length ms;
  i_next : w_next s = n + length (w_rows s);
  i_rows : joined (singletons n) n (w_rows s) B;
  i_cache : forall k nn d, In k (w_active s) -> w_cache s k = Some (nn, d) -> In nn (w_active s) /\ nn <> k;
  i_chain : forall c, In c (w_chain s) -> In c (w_active s);
  i_linked : linked (w_cache s) (w_chain s)
}.
Lemma active_low n B s c : winv n B s -> In c (w_active s) -> c < w_next s.
Proof.
  intros I H. apply (i_active _ _ _ I) in H. apply in_map_iff in H. destruct H as ((c' & ms) & E & H). cbn in E. subst c'.
  eapply (bo_low _ _ _ (i_blocks _ _ _ I)). exact H.
Qed.
Definition kept (a b : nat) (l : list nat) : list nat := filter (fun x => negb (x =? a) && negb (x =? b)) l.
Lemma kept_in a b l x : In x (kept a b l) <-> In x l /\ x <> a /\ x <> b.
Proof. unfold kept. rewrite filter_In. split; intros (H & Q); split; auto; lia. Qed.
Lemma joint_sorted {B : list block} {a b} : NoDup (map fst B) -> In a (map fst B) -> In b (map fst B) -> a <> b ->
  exists ma mb, In (Nat.min a b, ma) B /\ In (Nat.max a b, mb) B /\ Nat.min a b < Nat.max a b.
Proof.
  intros N HA HB NE. apply in_map_iff in HA, HB. destruct HA as ((a' & ma) & E & HA), HB as ((b' & mb) & E' & HB). cbn in E, E'. subst a' b'.
  destruct (Nat.lt_ge_cases a b) as [L|L].
  - exists ma, mb. rewrite Nat.min_l, Nat.max_r by lia. auto.
  - exists mb, ma. rewrite Nat.min_r, Nat.max_l by lia. repeat split; auto. lia.
Qed.

Lemma fuse_at n B s a b below dd : winv n B s -> In a (w_active s) -> In b (w_active s) -> a <> b ->
  (forall c, In c below -> In c (w_active s) /\ c <> a /\ c <> b) -> linked (w_cache s) below ->
  exists ma mb, In (Nat.min a b, ma) B /\ In (Nat.max a b, mb) B /\
    winv n ((w_next s, ma ++ mb) :: without (Nat.min a b) (Nat.max a b) B) (fuse R s a b below dd) /\
    length (w_rows (fuse R s a b below dd)) = S (length (w_rows s)).
Proof.
  intros I HA HB NE HC HL. pose proof I as [Ia Io Ib Is In_ Ir Ic Ich Il].
  destruct (joint_sorted (bo_ids _ _ _ Ib) (proj1 (Ia a) HA) (proj1 (Ia b) HB) NE) as (ma & mb & H1 & H2 & H3).
  set (lo := Nat.min a b) in *. set (hi := Nat.max a b) in *.
  assert (LOHI : forall x, x <> a /\ x <> b <-> x <> lo /\ x <> hi) by (intros x; unfold lo, hi; lia).
  assert (SZ : w_size s a + w_size s b = length ma + length mb).
  { rewrite <- (Is lo ma H1), <- (Is hi mb H2). unfold lo, hi.
    destruct (Nat.lt_ge_cases a b); [rewrite Nat.min_l, Nat.max_r by lia; lia|rewrite Nat.min_r, Nat.max_l by lia; lia]. }
  assert (LOW : forall x, In x (w_active s) -> x < w_next s) by (intros x; now apply (active_low n B)).
  exists ma, mb. split; [exact H1|]. split; [exact H2|].
  split; [|unfold fuse; cbn [w_rows]; rewrite app_length; cbn; lia].
  assert (ACT : forall c, In c (w_active (fuse R s a b below dd)) <-> c = w_next s \/ (In c (w_active s) /\ c <> a /\ c <> b)).
  { intros c. unfold fuse. cbn [w_active]. rewrite in_app_iff. change (filter _ (w_active s)) with (kept a b (w_active s)).
    rewrite kept_in. cbn. split; [intros [H|[H|[]]]; auto|intros [H|H]; auto]. }
  destruct (step_ok n (w_next s) B lo hi ma mb Ib H1 H2 H3) as (Ob & _).
  constructor.
  - intros c. rewrite ACT. cbn [map fst In]. rewrite LOHI, Ia. split.
    + intros [H|(H & Q)]; auto. right. apply in_map_iff in H. destruct H as ((c' & ms) & E & H). cbn in E. subst c'.
      apply in_map_iff. exists (c, ms). split; auto. apply without_in. tauto.
    + intros [H|H]; auto. right. apply in_map_iff in H. destruct H as ((c' & ms) & E & H). cbn in E. subst c'.
      apply without_in in H. split; [|tauto]. apply in_map_iff. exists (c, ms). tauto.
  - unfold fuse. cbn [w_active]. change (filter _ (w_active s)) with (kept a b (w_active s)).
    apply (Permutation_NoDup (Permutation_cons_append _ _)). constructor; [|now apply NoDup_filter].
    intros H. apply kept_in in H. destruct H as (H & _). apply LOW in H. lia.
  - exact Ob.
  - intros c ms H. unfold fuse. cbn [w_size]. unfold set1. destruct H as [H|H].
    + injection H as <- <-. rewrite Nat.eqb_refl, app_length. exact SZ.
    + apply without_in in H. destruct H as (H & _). replace (c =? w_next s) with false; [auto|].
      symmetry. apply Nat.eqb_neq. pose proof (bo_low _ _ _ Ib c ms H). lia.
  - unfold fuse. cbn [w_next w_rows]. rewrite app_length. cbn. lia.
  - unfold fuse. cbn [w_rows]. rewrite SZ. replace (w_next s) with (n + length (w_rows s)) by lia. now apply joined_snoc.
  - intros k nn d HK E. rewrite ACT in HK |- *. unfold fuse in E. cbn [w_cache] in E. unfold set1 in E.
    destruct (k =? w_next s) eqn:Q.
    + apply Nat.eqb_eq in Q. subst k. apply nearest_spec in E. destruct E as (E & N' & _). split; auto. now apply ACT in E.
    + apply Nat.eqb_neq in Q. destruct HK as [->|(HK & NA & NB)]; [contradiction|].
      replace (mem k _) with true in E; [|symmetry; apply mem_in; change (filter _ (w_active s)) with (kept a b (w_active s)); apply kept_in; auto].
      destruct (w_cache s k) as [(nn' & d')|] eqn:EC; [|discriminate].
      destruct ((nn' =? a) || (nn' =? b)) eqn:QQ; [discriminate|]. injection E as <- <-.
      destruct (Ic k nn' d' HK EC) as (X & Y). split; auto. right. split; auto. lia.
  - intros c H. apply ACT. right. now apply HC.
  - unfold fuse. cbn [w_chain w_cache].
    assert (BL : forall bl, (forall c, In c bl -> In c (w_active s) /\ c <> a /\ c <> b) -> linked (w_cache s) bl ->
       linked (set1 (fun k => if mem k (filter (fun x => negb (x =? a) && negb (x =? b)) (w_active s)) then
                 match w_cache s k with Some (nn, d) => if (nn =? a) || (nn =? b) then None else Some (nn, d) | None => None end else w_cache s k)
               (w_next s) (w_cache (fuse R s a b below dd) (w_next s))) bl).
    { induction bl as [|u [|l rest] IH]; auto. intros HC' (P & Q & L). split; [|split; auto].
      - destruct P as (d & P). exists d. unfold set1.
        destruct (HC' l) as (Al & NAl & NBl); [right; now left|]. pose proof (LOW l Al).
        replace (l =? w_next s) with false by lia.
        replace (mem l _) with true; [|symmetry; apply mem_in; change (filter _ (w_active s)) with (kept a b (w_active s)); apply kept_in; auto].
        rewrite P. destruct (HC' u) as (Au & NAu & NBu); [now left|]. replace ((u =? a) || (u =? b)) with false by lia. reflexivity.
      - apply IH; auto. intros c H. apply HC'. now right. }
    specialize (BL below HC HL). unfold fuse in BL. cbn [w_cache] in BL. unfold set1 in BL at 2. rewrite Nat.eqb_refl in BL. exact BL.
Qed.

Lemma fuse_inv n B s a b below dd : winv n B s -> In a (w_active s) -> In b (w_active s) -> a <> b ->
  (forall c, In c below -> In c (w_active s) /\ c <> a /\ c <> b) -> linked (w_cache s) below ->
  exists B', winv n B' (fuse R s a b below dd) /\ length (w_rows (fuse R s a b below dd)) = S (length (w_rows s)).
Proof. intros I HA HB NE HC HL. destruct (fuse_at n B s a b below dd I HA HB NE HC HL) as (ma & mb & _ & _ & W & L). eauto. Qed.

(** One round: either a merge, or the chain grows by a cluster. *)
Definition pushed s (current nn : nat) (dd : num R) : ward_state R :=
  {| w_dist := w_dist s; w_size := w_size s; w_active := w_active s;
     w_cache := set1 (w_cache s) current (Some (nn, dd)); w_next := w_next s;
     w_chain := nn :: w_chain s; w_rows := w_rows s |}.
Definition neighbour s (i : nat) : option (nat * num R) :=
  match w_cache s i with Some c => Some c | None => nearest R (w_dist s) (w_active s) i end.
Lemma grow_unfold fuel s : grow R (S fuel) s =
  match w_chain s with
  | [] => Some Panic
  | current :: rest =>
      match neighbour s current with
      | None => Some Panic
      | Some (nn, dd) =>
          match rest with
          | second :: below => if second =? nn then Some (Ok (fuse R (pushed s current nn dd) current second below dd)) else grow R fuel (pushed s current nn dd)
          | [] => grow R fuel (pushed s current nn dd)
          end
      end
  end.
Proof. reflexivity. Qed.
Lemma cached_before s current nn dd x c : neighbour s current = Some (nn, dd) -> w_cache s x = Some c ->
  set1 (w_cache s) current (Some (nn, dd)) x = Some c.
Proof.
  unfold neighbour, set1. intros N H. destruct (x =? current) eqn:E; auto. apply Nat.eqb_eq in E. subst x. rewrite H in N. congruence.
Qed.
Lemma pushed_inv n B s current rest nn dd : winv n B s -> w_chain s = current :: rest -> neighbour s current = Some (nn, dd) ->
  In current (w_active s) /\ In nn (w_active s) /\ nn <> current /\
  linked (w_cache (pushed s current nn dd)) (current :: rest) /\
  ((match rest with second :: _ => second <> nn | [] => True end) -> winv n B (pushed s current nn dd)).
Proof.
  intros I EC EN. pose proof I as [Ia Io Ib Is In_ Ir Ic Ich Il].
  assert (HA : In current (w_active s)) by (apply Ich; rewrite EC; now left).
  assert (HN : In nn (w_active s) /\ nn <> current).
  { unfold neighbour in EN. destruct (w_cache s current) as [(x & d)|] eqn:E.
    - injection EN as -> ->. eapply Ic; eauto.
    - apply nearest_spec in EN. tauto. }
  destruct HN as (HN & NE).
  assert (LK : linked (w_cache (pushed s current nn dd)) (current :: rest)).
  { rewrite <- EC. eapply linked_mono; [|exact Il]. intros x c _ H. cbn [pushed w_cache]. now apply cached_before. }
  split; [exact HA|]. split; [exact HN|]. split; [exact NE|]. split; [exact LK|]. intros NB.
  constructor; cbn [pushed w_active w_next w_size w_rows w_chain w_cache]; auto.
  - intros k m d HK. unfold set1. destruct (k =? current) eqn:E; [apply Nat.eqb_eq in E; subst k; intros [= <- <-]; auto|apply Ic; auto].
  - intros c [<-|H]; auto.
  - rewrite EC. cbn [pushed w_cache] in LK. cbn [linked]. split; [exists dd; unfold set1; now rewrite Nat.eqb_refl|]. split; [|exact LK].
    destruct rest; auto.
Qed.
Lemma grow_inv n fuel : forall B s s', winv n B s -> grow R fuel s = Some (Ok s') ->
  exists B', winv n B' s' /\ length (w_rows s') = S (length (w_rows s)).
Proof.
  induction fuel as [|fuel IH]; intros B s s' I H; [discriminate|]. rewrite grow_unfold in H.
  destruct (w_chain s) as [|current rest] eqn:EC; [discriminate|].
  destruct (neighbour s current) as [(nn & dd)|] eqn:EN; [|discriminate].
  destruct (pushed_inv n B s current rest nn dd I EC EN) as (HA & HN & NE & LK & PI).
  assert (NEXT : (match rest with second :: _ => second <> nn | [] => True end) -> grow R fuel (pushed s current nn dd) = Some (Ok s') ->
             exists B', winv n B' s' /\ length (w_rows s') = S (length (w_rows s))).
  { intros Q G. destruct (IH B _ s' (PI Q) G) as (B' & I' & E). exists B'. split; auto. }
  destruct rest as [|second below]; [now apply NEXT|].
  destruct (second =? nn) eqn:Q; [|apply NEXT; auto; now apply Nat.eqb_neq in Q].
  apply Nat.eqb_eq in Q. subst second. injection H as <-.
  assert (PC : points (w_cache (pushed s current nn dd)) current nn) by (exists dd; cbn; unfold set1; now rewrite Nat.eqb_refl).
  destruct (pair_alone _ _ _ _ LK PC) as (A1 & A2); [congruence|].
  pose proof I as [Ia Io Ib Is In_ Ir Ic Ich Il].
  assert (I' : winv n B {| w_dist := w_dist s; w_size := w_size s; w_active := w_active s; w_cache := w_cache (pushed s current nn dd);
                           w_next := w_next s; w_chain := current :: nn :: below; w_rows := w_rows s |}).
  { constructor; cbn [w_active w_next w_size w_rows w_chain w_cache]; auto.
    - intros k m d HK. cbn [pushed w_cache]. unfold set1. destruct (k =? current) eqn:E; [apply Nat.eqb_eq in E; subst k; intros [= <- <-]; auto|apply Ic; auto].
    - rewrite <- EC. exact Ich. }
  destruct (fuse_inv n B _ current nn below dd I' HA HN) as (B' & F & E); auto.
  - intros c Hc. split; [apply Ich; rewrite EC; right; now right|]. split; intros ->; contradiction.
  - cbn [w_cache]. eapply linked_tail. eapply linked_tail. exact LK.
  - exists B'. split; [exact F|exact E].
Qed.
Lemma step_inv n fuel B s s' : winv n B s -> merge_step R fuel s = Some (Ok s') ->
  exists B', winv n B' s' /\ length (w_rows s') = S (length (w_rows s)).
Proof.
  intros I H. unfold merge_step in H. destruct (w_chain s) as [|c ch] eqn:EC.
  - destruct (w_active s) as [|x act] eqn:EA; [discriminate|].
    apply (grow_inv n fuel B) in H; [destruct H as (B' & I' & E); exists B'; auto|].
    destruct I as [Ia Io Ib Is In_ Ir Ic Ich Il].
    constructor; cbn [w_active w_next w_size w_rows w_chain w_cache]; rewrite <- ?EA; auto; try (now rewrite <- EA in * ).
    intros c [<-|[]]. rewrite EA. now left.
  - now apply (grow_inv n fuel B) in H.
Qed.
Lemma loop_inv n fuel turns : forall B s s', winv n B s -> merge_loop R fuel turns s = Some (Ok s') ->
  exists B', winv n B' s' /\ length (w_rows s') = turns + length (w_rows s).
Proof.
  induction turns as [|turns IH]; intros B s s' I H; cbn in H.
  - injection H as <-. exists B. auto.
  - destruct (merge_step R fuel s) as [[s1| |]|] eqn:E; try discriminate.
    destruct (step_inv n fuel B s s1 I E) as (B1 & I1 & L1). destruct (IH B1 s1 s' I1 H) as (B' & I' & L'). exists B'. split; auto. lia.
Qed.
Lemma start_inv n distances : winv n (singletons n) (ward_start R distances n).
Proof.
  constructor; cbn [ward_start w_active w_next w_size w_rows w_chain w_cache length linked]; auto.
  - intros c. unfold singletons. rewrite map_map. cbn. rewrite map_id. reflexivity.
  - apply seq_NoDup.
  - apply singletons_ok.
  - intros c ms H. apply in_map_iff in H. destruct H as (i & E & _). injection E as _ <-. reflexivity.
  - constructor.
  - intros k nn d _ H. destruct (k <? n); [|discriminate]. apply nearest_spec in H. tauto.
  - intros c [].
Qed.
Theorem ward_tree n fuel distances rows : linkage_ward R fuel distances n = Some (Ok rows) -> dendrogram n rows.
Proof.
  unfold linkage_ward. intros H. destruct (merge_loop R fuel (n - 1) _) as [[s| |]|] eqn:E; try discriminate. injection H as <-.
  destruct (loop_inv n fuel _ _ _ _ (start_inv n distances) E) as (B & I & L). cbn in L. split; [lia|]. exists B. apply I.
Qed.
End Ward.
