(** With exact arithmetic the nearest-neighbour chain ends. *)
From Verif Require Import Base Cluster ClusterSpec ClusterUF ClusterFlat ClusterWard.
Open Scope nat_scope.

Section End.
Context (R : real) (G : good_order R) (RED : reducible R).
Implicit Types (s : ward_state R) (dist : nat -> nat -> num R).

Lemma lt_le_trans x y z : lt R x y = true -> le R y z -> lt R x z = true.
Proof using G.
  intros H L. destruct (lt R x z) eqn:E; auto. assert (le R y x) by (eapply (le_trans R G); [exact L|exact E]). unfold le in *. congruence.
Qed.
Lemma le_lt_trans x y z : le R x y -> lt R y z = true -> lt R x z = true.
Proof using G.
  intros L H. destruct (lt R x z) eqn:E; auto. assert (le R z y) by (eapply (le_trans R G); [exact E|exact L]). unfold le in *. congruence.
Qed.
Lemma lt_le x y : lt R x y = true -> le R x y.
Proof using G. intros H. apply (lt_asym R G). exact H. Qed.

(** The nearest neighbour is the first of the closest. *)
Definition first_closest dist (active : list nat) (i j : nat) : Prop :=
  exists l1 l2, active = l1 ++ j :: l2 /\ j <> i /\ finite R (dist i j) /\
    (forall x, In x l1 -> x <> i -> lt R (dist i j) (dist i x) = true) /\
    (forall x, In x l2 -> x <> i -> le R (dist i j) (dist i x)).
Notation pick dist i := (fun (best : option (nat * num R)) j => if j =? i then best
    else if lt R (dist i j) (match best with Some (_, b) => b | None => infinity R end)
         then Some (j, dist i j) else best).
Definition shape dist (active : list nat) (i : nat) (best : option (nat * num R)) : Prop :=
  match best with
  | Some (j, d) => d = dist i j /\ first_closest dist active i j
  | None => forall x, In x active -> x <> i -> le R (infinity R) (dist i x)
  end.
Lemma nearest_shape dist active i : shape dist active i (nearest R dist active i).
Proof using G.
  unfold nearest. change (shape dist ([] ++ active) i (fold_left (pick dist i) active None)).
  assert (S0 : shape dist [] i None) by (intros x []).
  revert S0. generalize (@None (nat * num R)). generalize (@nil nat). induction active as [|x active IH]; intros pre best SH.
  - rewrite app_nil_r. exact SH.
  - cbn [fold_left]. replace (pre ++ x :: active) with ((pre ++ [x]) ++ active) by (rewrite <- app_assoc; reflexivity). apply IH.
    destruct (x =? i) eqn:Q.
    { apply Nat.eqb_eq in Q. subst x. destruct best as [(j & d)|]; cbn in *.
      - destruct SH as (E & l1 & l2 & -> & N & F & A1 & A2). split; auto. exists l1, (l2 ++ [i]). rewrite <- app_assoc. repeat split; auto.
        intros y Hy. apply in_app_iff in Hy. destruct Hy as [Hy|[<-|[]]]; auto. contradiction.
      - intros y Hy. apply in_app_iff in Hy. destruct Hy as [Hy|[<-|[]]]; auto. contradiction. }
    apply Nat.eqb_neq in Q. destruct best as [(j & d)|]; cbn in SH.
    + destruct SH as (-> & l1 & l2 & -> & N & F & A1 & A2). destruct (lt R (dist i x) (dist i j)) eqn:L; cbn; split; auto.
      * exists (l1 ++ j :: l2), []. repeat split; auto; [eapply (lt_trans R G); eauto| |intros y []].
        intros y Hy NY. apply in_app_iff in Hy. destruct Hy as [Hy|[<-|Hy]]; auto.
        -- eapply lt_le_trans; [exact L|]. apply lt_le. auto.
        -- eapply lt_le_trans; [exact L|]. auto.
      * exists l1, (l2 ++ [x]). rewrite <- app_assoc. repeat split; auto. intros y Hy NY. apply in_app_iff in Hy. destruct Hy as [Hy|[<-|[]]]; auto.
    + destruct (lt R (dist i x) (infinity R)) eqn:L; cbn.
      * split; auto. exists pre, []. repeat split; auto; [|intros y []]. intros y Hy NY. eapply lt_le_trans; [exact L|]. auto.
      * intros y Hy NY. apply in_app_iff in Hy. destruct Hy as [Hy|[<-|[]]]; auto.
Qed.
Lemma pick_stays dist i j l : (forall x, In x l -> x <> i -> le R (dist i j) (dist i x)) ->
  fold_left (pick dist i) l (Some (j, dist i j)) = Some (j, dist i j).
Proof using Type.
  induction l as [|x l IH]; intros H; auto. cbn [fold_left]. destruct (x =? i) eqn:Q; [apply IH; intros; apply H; auto; now right|].
  apply Nat.eqb_neq in Q. assert (E : lt R (dist i x) (dist i j) = false) by (apply H; [now left|auto]). rewrite E. apply IH. intros. apply H; auto. now right.
Qed.
Lemma nearest_unique dist active i j : first_closest dist active i j -> nearest R dist active i = Some (j, dist i j).
Proof using Type.
  intros (l1 & l2 & -> & N & F & A1 & A2). unfold nearest. rewrite fold_left_app. cbn [fold_left].
  replace (j =? i) with false by lia.
  assert (E : lt R (dist i j) (match fold_left (pick dist i) l1 None with Some (_, b) => b | None => infinity R end) = true).
  { destruct (fold_left (pick dist i) l1 None) as [(x & d)|] eqn:EF; [|exact F].
    apply nearest_in in EF. destruct EF as [EF|(H & NX & ->)]; [discriminate|]. auto. }
  rewrite E. now apply pick_stays.
Qed.

(** What also holds in exact arithmetic. *)
Record exact_inv s : Prop := {
  e_sym : forall x y, In x (w_active s) -> In y (w_active s) -> x <> y -> w_dist s x y = w_dist s y x;
  e_finite : forall x y, In x (w_active s) -> In y (w_active s) -> x <> y -> finite R (w_dist s x y);
  e_fresh : forall k c, In k (w_active s) -> w_cache s k = Some c -> nearest R (w_dist s) (w_active s) k = Some c
}.
Lemma neighbour_fresh s i : exact_inv s -> In i (w_active s) -> neighbour R s i = nearest R (w_dist s) (w_active s) i.
Proof using Type. intros E H. unfold neighbour. destruct (w_cache s i) eqn:C; auto. symmetry. now apply (e_fresh _ E). Qed.
Lemma nearest_exists s i x : exact_inv s -> In i (w_active s) -> In x (w_active s) -> x <> i ->
  exists j, nearest R (w_dist s) (w_active s) i = Some (j, w_dist s i j) /\ first_closest (w_dist s) (w_active s) i j.
Proof using G.
  intros E HI HX N. pose proof (nearest_shape (w_dist s) (w_active s) i) as SH. destruct (nearest R _ _ i) as [(j & d)|]; cbn in SH.
  - destruct SH as (-> & F). eauto.
  - specialize (SH x HX N). pose proof (e_finite _ E i x HI HX ltac:(congruence)) as F. unfold le, finite in *. congruence.
Qed.
Lemma closest_le dist active i j x : first_closest dist active i j -> In x active -> x <> i -> le R (dist i j) (dist i x).
Proof using G.
  intros (l1 & l2 & -> & N & F & A1 & A2) H NX. apply in_app_iff in H. destruct H as [H|[<-|H]]; auto.
  - apply lt_le; auto.
  - destruct (lt R (dist i j) (dist i j)) eqn:Q; [|exact Q]. exact (lt_asym R G _ _ Q).
Qed.

Lemma kept_split a b j l1 l2 : j <> a -> j <> b -> kept a b (l1 ++ j :: l2) = kept a b l1 ++ j :: kept a b l2.
Proof using Type. intros NA NB. unfold kept. rewrite filter_app. cbn. replace (negb (j =? a) && negb (j =? b)) with true by lia. reflexivity. Qed.

Lemma fuse_exact n B s a b below : winv R n B s -> exact_inv s -> In a (w_active s) -> In b (w_active s) -> a <> b ->
  first_closest (w_dist s) (w_active s) a b -> first_closest (w_dist s) (w_active s) b a ->
  exact_inv (fuse R s a b below (w_dist s a b)).
Proof using G RED.
  intros I EX HA HB NE FA FB. set (dd := w_dist s a b). set (w := w_next s).
  assert (LOW : forall x, In x (w_active s) -> x < w) by (intros x; now apply (active_low R n B)).
  set (new := fun k => ward R (w_size s a) (w_size s b) (w_size s k) (w_dist s a k) (w_dist s b k) dd).
  assert (SZ : forall c, In c (w_active s) -> 1 <= w_size s c).
  { intros c H. apply (i_active _ _ _ _ I) in H. apply in_map_iff in H. destruct H as ((c' & ms) & E & H). cbn in E. subst c'.
    rewrite (i_size _ _ _ _ I c ms H). pose proof (bo_some _ _ _ (i_blocks _ _ _ _ I) c ms H) as NN. destruct ms; [contradiction|cbn; lia]. }
  assert (NEW : forall k, In k (w_active s) -> k <> a -> k <> b ->
             finite R (new k) /\ (le R (w_dist s a k) (new k) \/ le R (w_dist s b k) (new k))).
  { intros k HK KA KB. apply RED; auto.
    - apply (e_finite _ EX); auto.
    - apply (e_finite _ EX); auto.
    - eapply closest_le; eauto.
    - unfold dd. rewrite (e_sym _ EX a b) by auto. eapply closest_le; eauto. }
  assert (ACT : w_active (fuse R s a b below dd) = kept a b (w_active s) ++ [w]) by reflexivity.
  assert (MEM : forall k, mem k (filter (fun x => negb (x =? a) && negb (x =? b)) (w_active s)) = true <-> In k (w_active s) /\ k <> a /\ k <> b).
  { intros k. rewrite mem_in. apply kept_in. }
  assert (OLD : forall x y, In x (w_active s) -> In y (w_active s) -> w_dist (fuse R s a b below dd) x y = w_dist s x y).
  { intros x y HX HY. unfold fuse. cbn [w_dist]. apply LOW in HX, HY. fold w. replace (x =? w) with false by lia. replace (y =? w) with false by lia. reflexivity. }
  assert (NW : ~ In w (w_active s)) by (intros H; apply LOW in H; lia).
  assert (DW : forall y, In y (kept a b (w_active s)) -> w_dist (fuse R s a b below dd) w y = new y /\ w_dist (fuse R s a b below dd) y w = new y).
  { intros y HY. pose proof (proj1 (kept_in _ _ _ _) HY) as (H & _). pose proof (LOW y H). apply kept_in in HY. apply MEM in HY. unfold fuse. cbn [w_dist]. fold w. rewrite Nat.eqb_refl, HY.
    replace (y =? w) with false by lia. auto. }
  assert (CASES : forall x, In x (kept a b (w_active s) ++ [w]) -> (In x (kept a b (w_active s)) /\ In x (w_active s)) \/ x = w).
  { intros x H. apply in_app_iff in H. destruct H as [H|[H|[]]]; auto. left. split; auto. now apply kept_in in H. }
  constructor; rewrite ?ACT.
  - intros x y HX HY N. apply CASES in HX, HY. destruct HX as [(HX & HX')| ->], HY as [(HY & HY')| ->].
    + rewrite !OLD by auto. now apply (e_sym _ EX).
    + destruct (DW x HX) as (-> & ->). reflexivity.
    + destruct (DW y HY) as (-> & ->). reflexivity.
    + contradiction.
  - intros x y HX HY N. apply CASES in HX, HY. destruct HX as [(HX & HX')| ->], HY as [(HY & HY')| ->].
    + rewrite !OLD by auto. now apply (e_finite _ EX).
    + destruct (DW x HX) as (_ & ->). apply kept_in in HX. apply NEW; tauto.
    + destruct (DW y HY) as (-> & _). apply kept_in in HY. apply NEW; tauto.
    + contradiction.
  - intros k c HK EC. apply CASES in HK. destruct HK as [(HK & HK')| ->].
    + unfold fuse in EC. cbn [w_cache] in EC. unfold set1 in EC. pose proof (LOW k HK'). fold w in EC. replace (k =? w) with false in EC by lia.
      replace (mem k _) with true in EC by (symmetry; apply MEM; now apply kept_in in HK).
      destruct (w_cache s k) as [(nn & d)|] eqn:CK; [|discriminate]. destruct ((nn =? a) || (nn =? b)) eqn:Q; [discriminate|]. injection EC as <-.
      pose proof (e_fresh _ EX k _ HK' CK) as FR. pose proof (nearest_shape (w_dist s) (w_active s) k) as SH. rewrite FR in SH. cbn in SH.
      destruct SH as (-> & FC). pose proof FC as (l1 & l2 & EA & N & F & A1 & A2).
      assert (HN : In nn (w_active s)) by (rewrite EA; apply in_app_iff; right; now left).
      rewrite <- (OLD k nn) by auto. apply nearest_unique.
      assert (K1 : forall x, In x l1 -> In x (w_active s)) by (intros x H'; rewrite EA; apply in_app_iff; now left).
      assert (K2 : forall x, In x l2 -> In x (w_active s)) by (intros x H'; rewrite EA; apply in_app_iff; right; now right).
      exists (kept a b l1), (kept a b l2 ++ [w]). split; [|split; [|split; [|split]]]; auto.
      * rewrite EA, kept_split by lia. rewrite <- app_assoc. reflexivity.
      * rewrite OLD by auto. exact F.
      * intros x HX NX. apply kept_in in HX. destruct HX as (HX & _). rewrite !OLD by auto. auto.
      * intros x HX NX. apply in_app_iff in HX. destruct HX as [HX|[<-|[]]].
        -- apply kept_in in HX. destruct HX as (HX & _). rewrite !OLD by auto. auto.
        -- destruct (DW k HK) as (_ & ->). rewrite OLD by auto. apply kept_in in HK. destruct HK as (_ & KA & KB).
           destruct (NEW k HK' KA KB) as (_ & [L|L]); eapply (le_trans R G); try exact L.
           ++ rewrite (e_sym _ EX a k) by auto. eapply closest_le; eauto.
           ++ rewrite (e_sym _ EX b k) by auto. eapply closest_le; eauto.
    + unfold fuse in EC. cbn [w_cache] in EC. unfold set1 in EC. fold w in EC. rewrite Nat.eqb_refl in EC. exact EC.
Qed.

(** The pairs at the end of the chain get closer. *)
Section Measure.
Context (dist : nat -> nat -> num R) (active : list nat).
Definition place (p : nat * nat) : nat := position (fst p) active + position (snd p) active.
Definition closer (p q : nat * nat) : bool :=
  lt R (dist (fst p) (snd p)) (dist (fst q) (snd q)) ||
  (negb (lt R (dist (fst q) (snd q)) (dist (fst p) (snd p))) && (place p <? place q)).
Definition rank (q : nat * nat) : nat := length (filter (fun p => closer p q) (list_prod active active)).
Lemma closer_trans p q r : closer p q = true -> closer q r = true -> closer p r = true.
Proof using G.
  unfold closer. rewrite !Bool.orb_true_iff, !Bool.andb_true_iff, !Bool.negb_true_iff, !Nat.ltb_lt.
  intros [A|(A & A')] [B|(B & B')].
  - left. eapply (lt_trans R G); eauto.
  - left. eapply lt_le_trans; eauto.
  - left. eapply le_lt_trans; eauto.
  - right. split; [|lia]. eapply (le_trans R G); eauto.
Qed.
Lemma closer_irrefl p : closer p p = false.
Proof using G.
  unfold closer. rewrite Nat.ltb_irrefl, Bool.andb_false_r, Bool.orb_false_r.
  destruct (lt R _ _) eqn:Q; auto. pose proof (lt_asym R G _ _ Q). congruence.
Qed.
Lemma filter_less {A} (f g : A -> bool) l : (forall x, f x = true -> g x = true) -> length (filter f l) <= length (filter g l).
Proof using Type.
  intros H. induction l as [|x l IH]; auto. cbn. pose proof (H x). destruct (f x), (g x); cbn; try lia.
Qed.
Lemma filter_fewer {A} (f g : A -> bool) l p : (forall x, f x = true -> g x = true) -> In p l -> f p = false -> g p = true ->
  length (filter f l) < length (filter g l).
Proof using Type.
  intros H HP FP GP. induction l as [|x l IH]; [easy|]. cbn. destruct HP as [->|HP].
  - rewrite FP, GP. cbn. pose proof (filter_less f g l H). lia.
  - specialize (IH HP). pose proof (H x). destruct (f x), (g x); cbn; try lia.
Qed.
Lemma rank_less p q : In (fst p) active -> In (snd p) active -> closer p q = true -> rank p < rank q.
Proof using G.
  intros H1 H2 C. unfold rank. apply filter_fewer with (p := p).
  - intros x Hx. eapply closer_trans; eauto.
  - destruct p. apply in_prod; auto.
  - apply closer_irrefl.
  - exact C.
Qed.
Lemma rank_bound q : rank q <= length active * length active.
Proof using Type.
  unfold rank. rewrite <- prod_length. generalize (list_prod active active). intros l. induction l as [|x l IH]; auto. cbn. destruct (closer x q); cbn; lia.
Qed.
Lemma position_in x l1 l2 : ~ In x l1 -> position x (l1 ++ x :: l2) = length l1.
Proof using Type.
  induction l1 as [|y l1 IH]; intros H; cbn; [now rewrite Nat.eqb_refl|].
  replace (x =? y) with false; [rewrite IH; auto; intros Q; apply H; now right|]. symmetry. apply Nat.eqb_neq. intros ->. apply H. now left.
Qed.
Lemma closest_closer u t v : NoDup active -> first_closest dist active t v -> In u active -> u <> t -> u <> v -> dist u t = dist t u -> 
  closer (t, v) (u, t) = true.
Proof using G.
  intros ND (l1 & l2 & EA & N & F & A1 & A2) HU NT NV SY. unfold closer. cbn [fst snd]. rewrite SY.
  rewrite EA in HU. apply in_app_iff in HU. destruct HU as [HU|[HU|HU]]; [|congruence|].
  - rewrite (A1 u) by auto. reflexivity.
  - apply Bool.orb_true_iff. destruct (lt R (dist t v) (dist t u)) eqn:Q; [now left|right]. rewrite Bool.andb_true_iff, Bool.negb_true_iff, Nat.ltb_lt.
    split; [now apply A2|]. unfold place. cbn [fst snd]. 
    assert (position v active < position u active); [|lia]. rewrite EA in ND |- *.
    apply in_split in HU. destruct HU as (m1 & m2 & ->).
    rewrite position_in by (apply NoDup_remove_2 in ND; rewrite in_app_iff in ND; tauto).
    replace (l1 ++ v :: m1 ++ u :: m2) with ((l1 ++ v :: m1) ++ u :: m2) in * by (rewrite <- app_assoc; reflexivity).
    rewrite position_in by (apply NoDup_remove_2 in ND; rewrite in_app_iff in ND; tauto). rewrite app_length. cbn. lia.
Qed.
End Measure.

Lemma pushed_exact n B s current rest nn dd : winv R n B s -> exact_inv s -> w_chain s = current :: rest -> neighbour R s current = Some (nn, dd) ->
  exact_inv (pushed R s current nn dd).
Proof using Type.
  intros I EX EC EN. assert (HA : In current (w_active s)) by (apply (i_chain _ _ _ _ I); rewrite EC; now left).
  constructor; cbn [pushed w_active w_dist w_cache]; try apply EX.
  intros k c HK. unfold set1. destruct (k =? current) eqn:Q; [|now apply (e_fresh _ EX)].
  apply Nat.eqb_eq in Q. subst k. intros [= <-]. rewrite <- EN. symmetry. now apply neighbour_fresh.
Qed.
Lemma linked_closest n B s x y : winv R n B s -> exact_inv s -> In x (w_active s) -> points R (w_cache s) x y -> first_closest (w_dist s) (w_active s) x y.
Proof using G.
  intros I EX HX (d & P). pose proof (e_fresh _ EX x _ HX P) as F. pose proof (nearest_shape (w_dist s) (w_active s) x) as SH. rewrite F in SH. apply SH.
Qed.
(** A chain of at least two clusters leads to a merge. *)
Lemma grow_ends n : forall m fuel B s t u rest, winv R n B s -> exact_inv s -> w_chain s = t :: u :: rest ->
  rank (w_dist s) (w_active s) (u, t) <= m -> m < fuel ->
  exists s', grow R fuel s = Some (Ok s') /\ exact_inv s'.
Proof using G RED.
  induction m as [m IH] using lt_wf_ind. intros fuel B s t u rest I EX EC RK FU. destruct fuel as [|fuel]; [lia|].
  rewrite grow_unfold, EC.
  assert (HT : In t (w_active s)) by (apply (i_chain _ _ _ _ I); rewrite EC; now left).
  assert (HU : In u (w_active s)) by (apply (i_chain _ _ _ _ I); rewrite EC; right; now left).
  assert (PU : points R (w_cache s) u t) by (pose proof (i_linked _ _ _ _ I) as L; rewrite EC in L; cbn in L; tauto).
  pose proof (linked_closest n B s u t I EX HU PU) as FU'.
  assert (NE : u <> t) by (destruct FU' as (l1 & l2 & _ & N & _); congruence).
  destruct (nearest_exists s t u EX HT HU NE) as (v & EV & FV).
  pose proof (neighbour_fresh s t EX HT) as EN. rewrite EV in EN. rewrite EN.
  pose proof (pushed_exact n B s t (u :: rest) v _ I EX EC EN) as EX'.
  destruct (pushed_inv R n B s t (u :: rest) v _ I EC EN) as (_ & HV & NV & LK & PI).
  destruct (u =? v) eqn:Q.
  - apply Nat.eqb_eq in Q. subst v. eexists. split; [reflexivity|].
    assert (I' : winv R n B {| w_dist := w_dist s; w_size := w_size s; w_active := w_active s; w_cache := w_cache (pushed R s t u (w_dist s t u));
                           w_next := w_next s; w_chain := w_chain s; w_rows := w_rows s |}).
    { destruct I as [Ia Io Ib Is In_ Ir Ic Ich Il].
      constructor; cbn [w_active w_next w_size w_rows w_chain w_cache]; auto.
      - intros k m' d HK. cbn [pushed w_cache]. unfold set1. destruct (k =? t) eqn:E; [apply Nat.eqb_eq in E; subst k; intros [= <- <-]; auto|apply Ic; auto].
      - rewrite EC. exact LK. }
    change (w_dist s t u) with (w_dist (pushed R s t u (w_dist s t u)) t u) at 2.
    assert (NTU : t <> u) by congruence.
    apply (fuse_exact n B _ t u rest) in I'; auto. constructor; apply EX'.
  - apply Nat.eqb_neq in Q. specialize (PI Q).
    assert (RL : rank (w_dist s) (w_active s) (t, v) < rank (w_dist s) (w_active s) (u, t)).
    { apply rank_less; auto. apply closest_closer; auto; [apply I|apply (e_sym _ EX); auto]. }
    apply (IH (rank (w_dist s) (w_active s) (t, v)) ltac:(lia) fuel B _ v t (u :: rest)); auto.
    + cbn [pushed w_chain]. now rewrite EC.
    + lia.
Qed.
Lemma active_count n B s : winv R n B s -> length (w_active s) = length B.
Proof using Type.
  intros I. rewrite <- (map_length fst B). apply Permutation_length.
  apply NoDup_Permutation; [apply I|apply (bo_ids _ _ _ (i_blocks _ _ _ _ I))|apply I].
Qed.
Lemma active_left n B s : winv R n B s -> length (w_active s) + length (w_rows s) = n.
Proof using Type.
  intros I. rewrite (active_count n B s I). destruct (joined_ok n _ _ _ _ (i_rows _ _ _ _ I) (singletons_ok n)) as (_ & E).
  rewrite E. unfold singletons. now rewrite map_length, seq_length.
Qed.
Lemma other_active (l : list nat) x : NoDup l -> 2 <= length l -> exists y, In y l /\ y <> x.
Proof using Type.
  destruct l as [|a [|b l]]; cbn; intros N L; try lia. inversion N as [|? ? NI _]; subst. destruct (Nat.eq_dec a x) as [->|NE].
  - exists b. split; auto. intros ->. apply NI. now left.
  - exists a. auto.
Qed.
Lemma grow_ends_any n fuel B s : winv R n B s -> exact_inv s -> w_chain s <> [] -> 2 <= length (w_active s) -> n * n + 2 <= fuel ->
  exists s', grow R fuel s = Some (Ok s') /\ exact_inv s'.
Proof using G RED.
  intros I EX NC TWO FU. pose proof (active_left n B s I) as LEN.
  assert (BD : forall d q, rank d (w_active s) q <= n * n).
  { intros d q. pose proof (rank_bound d (w_active s) q). assert (length (w_active s) * length (w_active s) <= n * n) by (apply Nat.mul_le_mono; lia). lia. }
  destruct (w_chain s) as [|t [|u rest]] eqn:EC; [contradiction| |].
  - destruct fuel as [|fuel]; [lia|]. rewrite grow_unfold, EC.
    assert (HT : In t (w_active s)) by (apply (i_chain _ _ _ _ I); rewrite EC; now left).
    destruct (other_active (w_active s) t (i_once _ _ _ _ I) TWO) as (y & HY & NY).
    destruct (nearest_exists s t y EX HT HY NY) as (v & EV & FV). pose proof (neighbour_fresh s t EX HT) as EN. rewrite EV in EN. rewrite EN.
    pose proof (pushed_exact n B s t [] v _ I EX EC EN) as EX'.
    destruct (pushed_inv R n B s t [] v _ I EC EN) as (_ & HV & NV & LK & PI). specialize (PI Logic.I).
    apply (grow_ends n (n * n) fuel B _ v t []); auto; try apply BD; try lia. cbn [pushed w_chain]. now rewrite EC.
  - apply (grow_ends n (n * n) fuel B s t u rest); auto; try apply BD; lia.
Qed.
Lemma step_ends n fuel B s : winv R n B s -> exact_inv s -> 2 <= length (w_active s) -> n * n + 2 <= fuel ->
  exists s', merge_step R fuel s = Some (Ok s') /\ exact_inv s'.
Proof using G RED.
  intros I EX TWO FU. unfold merge_step. destruct (w_chain s) as [|c ch] eqn:EC.
  - destruct (w_active s) as [|x act] eqn:EA; [cbn in TWO; lia|].
    apply (grow_ends_any n fuel B); auto; cbn [w_chain w_active]; try discriminate.
    + destruct I as [Ia Io Ib Is In_ Ir Ic Ich Il].
      constructor; cbn [w_active w_next w_size w_rows w_chain w_cache]; rewrite <- ?EA; auto; try (now rewrite <- EA in * ).
      intros c [<-|[]]. rewrite EA. now left.
    + constructor; cbn [w_active w_dist w_cache]; rewrite <- EA; apply EX.
  - apply (grow_ends_any n fuel B); auto. now rewrite EC.
Qed.
Lemma loop_ends n fuel turns : forall B s, winv R n B s -> exact_inv s -> turns + length (w_rows s) <= n - 1 -> n * n + 2 <= fuel ->
  exists s', merge_loop R fuel turns s = Some (Ok s').
Proof using G RED.
  induction turns as [|turns IH]; intros B s I EX LE FU; [eexists; reflexivity|]. cbn.
  pose proof (active_left n B s I). destruct (step_ends n fuel B s I EX) as (s1 & E & EX1); [lia|auto|]. rewrite E.
  destruct (step_inv R n fuel B s s1 I E) as (B1 & I1 & L1). apply (IH B1 s1); auto. lia.
Qed.
Lemma start_exact n distances : (forall d, In d distances -> finite R (mul R d d)) -> length distances = n * (n - 1) / 2 ->
  (forall i j, i < j -> j < n -> condensed_index n i j < n * (n - 1) / 2) ->
  exact_inv (ward_start R distances n).
Proof using Type.
  intros F L CI. constructor; cbn [ward_start w_active w_dist w_cache].
  - intros x y HX HY N. unfold initial. rewrite (Nat.min_comm y x), (Nat.max_comm y x), (Nat.eqb_sym y x), (Bool.andb_comm (y <? n)). reflexivity.
  - intros x y HX HY N. apply in_seq in HX, HY. unfold initial. replace ((x <? n) && (y <? n)) with true by lia. replace (x =? y) with false by lia.
    apply F. apply nth_In. rewrite L. apply CI; lia.
  - intros k c HK. apply in_seq in HK. replace (k <? n) with true by lia. auto.
Qed.
End End.
Lemma grow_more R fuel : forall more s r, grow R fuel s = Some r -> grow R (fuel + more) s = Some r.
Proof.
  induction fuel as [|fuel IH]; intros more s r H; [discriminate|]. cbn [Nat.add]. rewrite grow_unfold in *.
  destruct (w_chain s) as [|t rest]; auto. destruct (neighbour R s t) as [(nn & dd)|]; auto. destruct rest as [|u rest]; auto. destruct (u =? nn); auto.
Qed.
Lemma step_more R fuel more s r : merge_step R fuel s = Some r -> merge_step R (fuel + more) s = Some r.
Proof. unfold merge_step. destruct (w_chain s); [destruct (w_active s)|]; auto; apply grow_more. Qed.
Lemma loop_more R fuel more turns : forall s r, merge_loop R fuel turns s = Some r -> merge_loop R (fuel + more) turns s = Some r.
Proof.
  induction turns as [|turns IH]; intros s r H; auto. cbn in *. destruct (merge_step R fuel s) as [q|] eqn:E; [|discriminate].
  rewrite (step_more _ _ more _ _ E). destruct q; auto.
Qed.
Lemma ward_more R fuel more distances n r : linkage_ward R fuel distances n = Some r -> linkage_ward R (fuel + more) distances n = Some r.
Proof.
  unfold linkage_ward. intros H. destruct (merge_loop R fuel (n - 1) _) as [q|] eqn:E; [|discriminate]. now rewrite (loop_more _ _ more _ _ _ E).
Qed.
Lemma ward_ends R n distances : good_order R -> reducible R -> (forall d, In d distances -> finite R (mul R d d)) -> length distances = n * (n - 1) / 2 ->
  (forall i j, i < j -> j < n -> condensed_index n i j < n * (n - 1) / 2) -> 1 <= n ->
  exists rows, forall fuel, n * n + 2 <= fuel -> linkage_ward R fuel distances n = Some (Ok rows).
Proof.
  intros G RED F L CI N. destruct (loop_ends R G RED n (n * n + 2) (n - 1) _ _ (start_inv R n distances)) as (s & E); auto.
  - now apply start_exact.
  - cbn. lia.
  - exists (w_rows s). intros fuel LE. replace fuel with (n * n + 2 + (fuel - (n * n + 2))) by lia. apply ward_more.
    unfold linkage_ward. now rewrite E.
Qed.
