(** Single, complete, average and weighted linkage. *)
From Verif Require Import Base Cluster ClusterSpec ClusterUF ClusterFlat ClusterWard ClusterIndex.
Open Scope nat_scope.

Definition pairs (n : nat) : list (nat * nat) := flat_map (fun i => map (fun j => (i, j)) (seq (S i) (n - S i))) (seq 0 n).
Lemma pairs_in n i j : In (i, j) (pairs n) <-> i < j /\ j < n.
Proof.
  unfold pairs. rewrite in_flat_map. split.
  - intros (x & H & Q). apply in_seq in H. apply in_map_iff in Q. destruct Q as (y & E & Q). apply in_seq in Q. injection E as -> ->. lia.
  - intros (L & L'). exists i. rewrite in_seq, in_map_iff. split; [lia|]. exists j. rewrite in_seq. split; auto. lia.
Qed.

Section Generic.
Context (R : real) (update : update_rule R).
Implicit Types (s : generic_state R).

Lemma closest_pick s : forall l best, 
  let r := fold_left (fun best p =>
    if g_active s (fst p) && g_active s (snd p) && lt R (g_dist s (fst p) (snd p)) (snd best)
    then (p, g_dist s (fst p) (snd p)) else best) l best in
  (r = best \/ (In (fst r) l /\ g_active s (fst (fst r)) = true /\ g_active s (snd (fst r)) = true /\ snd r = g_dist s (fst (fst r)) (snd (fst r)))).
Proof.
  induction l as [|p l IH]; intros best; cbn; [now left|].
  destruct (g_active s (fst p) && g_active s (snd p) && lt R (g_dist s (fst p) (snd p)) (snd best)) eqn:Q.
  - specialize (IH (p, g_dist s (fst p) (snd p))). cbn in IH. destruct IH as [-> | (H & A & B & C)]; right.
    + rewrite !Bool.andb_true_iff in Q. repeat split; cbn; try tauto.
    + repeat split; auto.
  - specialize (IH best). cbn in IH. destruct IH as [H | (H & A & B & C)]; [now left|right; repeat split; auto].
Qed.
Lemma closest_found s i j : i < j -> j < g_next s -> g_active s i = true -> g_active s j = true -> finite R (g_dist s i j) ->
  forall ai bi d, closest R s = ((ai, bi), d) -> ai < bi /\ bi < g_next s /\ g_active s ai = true /\ g_active s bi = true /\ d = g_dist s ai bi.
Proof.
  intros L LN HI HJ F ai bi d E. unfold closest in E. change (flat_map _ (seq 0 (g_next s))) with (pairs (g_next s)) in E.
  assert (HP : In (i, j) (pairs (g_next s))) by (apply pairs_in; auto).
  apply in_split in HP. destruct HP as (l1 & l2 & EP).
  assert (SUB : forall p, In p l1 \/ p = (i, j) \/ In p l2 -> In p (pairs (g_next s))).
  { intros p H. rewrite EP. apply in_app_iff. cbn. destruct H as [H|[H|H]]; auto. }
  rewrite EP, fold_left_app in E. cbn [fold_left] in E.
  pose proof (closest_pick s l1 ((0, 0), infinity R)) as P1. cbn in P1. set (r1 := fold_left _ l1 _) in *.
  assert (FIN : forall r, (In (fst r) (pairs (g_next s)) /\ g_active s (fst (fst r)) = true /\ g_active s (snd (fst r)) = true /\ snd r = g_dist s (fst (fst r)) (snd (fst r))) ->
     fold_left (fun best p => if g_active s (fst p) && g_active s (snd p) && lt R (g_dist s (fst p) (snd p)) (snd best)
        then (p, g_dist s (fst p) (snd p)) else best) l2 r = ((ai, bi), d) ->
     ai < bi /\ bi < g_next s /\ g_active s ai = true /\ g_active s bi = true /\ d = g_dist s ai bi).
  { intros r HR ER. pose proof (closest_pick s l2 r) as P2. cbn in P2. rewrite ER in P2. cbn in P2. destruct P2 as [P2|(H & A & B & C)].
    - rewrite <- P2 in HR. cbn in HR. destruct HR as (H & A & B & C). apply pairs_in in H. tauto.
    - assert (In (ai, bi) (pairs (g_next s))) as H' by (apply SUB; auto). apply pairs_in in H'. tauto. }
  destruct P1 as [P1|(H & A & B & C)].
  - rewrite P1 in E. cbn [fst snd] in E. unfold finite in F. rewrite HI, HJ, F in E. cbn [andb] in E. apply FIN in E; auto.
  - destruct (g_active s (fst (i, j)) && g_active s (snd (i, j)) && lt R (g_dist s (fst (i, j)) (snd (i, j))) (snd r1)).
    + apply FIN in E; auto.
    + apply FIN in E; auto.
Qed.
Lemma closest_least s (G : good_order R) i j : i < j -> j < g_next s -> g_active s i = true -> g_active s j = true -> 
  le R (snd (closest R s)) (g_dist s i j).
Proof.
  intros L LN HI HJ. unfold closest. change (flat_map _ (seq 0 (g_next s))) with (pairs (g_next s)).
  assert (HP : In (i, j) (pairs (g_next s))) by (apply pairs_in; auto). revert HP.
  assert (DOWN : forall l best, le R (snd (fold_left (fun best p => if g_active s (fst p) && g_active s (snd p) && lt R (g_dist s (fst p) (snd p)) (snd best)
        then (p, g_dist s (fst p) (snd p)) else best) l best)) (snd best)).
  { induction l as [|p l IH]; intros best; cbn [fold_left].
    - destruct (lt R (snd best) (snd best)) eqn:Q; [|exact Q]. exact (lt_asym R G _ _ Q).
    - destruct (g_active s (fst p) && g_active s (snd p) && lt R (g_dist s (fst p) (snd p)) (snd best)) eqn:Q; [|apply IH].
      eapply (le_trans R G); [apply IH|]. cbn [snd]. rewrite !Bool.andb_true_iff in Q. apply (lt_asym R G). tauto. }
  generalize (0, 0, infinity R). induction (pairs (g_next s)) as [|p l IH]; intros best HP; [easy|]. cbn [fold_left]. destruct HP as [->|HP]; [|now apply IH].
  cbn [fst snd]. rewrite HI, HJ. cbn [andb]. destruct (lt R (g_dist s i j) (snd best)) eqn:Q.
  - exact (DOWN l ((i, j), g_dist s i j)).
  - eapply (le_trans R G); [apply DOWN|]. exact Q.
Qed.

Context (D : list nat -> list nat -> num R -> Prop).
Definition closed : Prop :=
  (forall ma mb mk u v dd, ma <> [] -> mb <> [] -> mk <> [] -> finite R u -> finite R v ->
    finite R (update u v dd (length ma) (length mb) (length mk)) /\
    (D ma mk u -> D mb mk v -> D (ma ++ mb) mk (update u v dd (length ma) (length mb) (length mk)))) /\
  (forall ms ms' v, D ms ms' v -> D ms' ms v).
Record ginv (n : nat) (B : list block) s : Prop := {
  g_ids : forall c, (c < g_next s /\ g_active s c = true) <-> In c (map fst B);
  g_blocks : blocks_ok n (g_next s) B;
  g_sizes : forall c ms, In (c, ms) B -> g_size s c = length ms;
  g_number : g_next s = n + length (g_rows s);
  g_joined : joined (singletons n) n (g_rows s) B;
  g_finite : forall a ma b mb, In (a, ma) B -> In (b, mb) B -> a <> b -> finite R (g_dist s a b);
  g_sym : forall a ma b mb, In (a, ma) B -> In (b, mb) B -> a <> b -> g_dist s a b = g_dist s b a;
  g_D : forall a ma b mb, In (a, ma) B -> In (b, mb) B -> a <> b -> D ma mb (g_dist s a b)
}.
Lemma two_blocks (B : list block) : NoDup (map fst B) -> 2 <= length B -> exists a ma b mb, In (a, ma) B /\ In (b, mb) B /\ a < b.
Proof.
  destruct B as [|(a & ma) [|(b & mb) B]]; cbn; intros N L; try lia. inversion N as [|? ? NI _]; subst.
  destruct (Nat.lt_trichotomy a b) as [H|[->|H]].
  - exists a, ma, b, mb. auto.
  - exfalso. apply NI. now left.
  - exists b, mb, a, ma. auto.
Qed.
Lemma block_active n B s c ms : ginv n B s -> In (c, ms) B -> c < g_next s /\ g_active s c = true.
Proof. intros I H. apply (g_ids _ _ _ I). apply in_map_iff. exists (c, ms). auto. Qed.
Lemma step_generic n B s : closed -> ginv n B s -> 2 <= length B ->
  exists a b ma mb d, In (a, ma) B /\ In (b, mb) B /\ a < b /\ closest R s = ((a, b), d) /\ d = g_dist s a b /\
    g_rows (generic_step R update s) = g_rows s ++ [Joint a b d (length ma + length mb)] /\
    g_next (generic_step R update s) = S (g_next s) /\
    (forall x y, x < g_next s -> y < g_next s -> g_dist (generic_step R update s) x y = g_dist s x y) /\
    (forall c ms, In (c, ms) (without a b B) ->
      let v := update (g_dist s a c) (g_dist s b c) d (length ma) (length mb) (length ms) in
      g_dist (generic_step R update s) (g_next s) c = v /\ g_dist (generic_step R update s) c (g_next s) = v) /\
    ginv n ((g_next s, ma ++ mb) :: without a b B) (generic_step R update s).
Proof.
  intros (CL & SY) I TWO. pose proof I as [Ii Ib Is In_ Ij If Iy ID].
  destruct (two_blocks B (bo_ids _ _ _ Ib) TWO) as (x & mx & y & my & HX & HY & LXY).
  destruct (closest R s) as ((a & b) & d) eqn:EC.
  destruct (closest_found s x y) with (ai := a) (bi := b) (d := d) as (LAB & LB & HA & HB & ED); auto;
    [apply (block_active n B s y my); auto|apply (block_active n B s x mx); auto|apply (block_active n B s y my); auto|apply (If x mx y my); auto; lia|].
  assert (HA' : In a (map fst B)) by (apply Ii; split; auto; lia). assert (HB' : In b (map fst B)) by (apply Ii; auto).
  apply in_map_iff in HA', HB'. destruct HA' as ((a' & ma) & E & HA'), HB' as ((b' & mb) & E' & HB'). cbn in E, E'. subst a' b'.
  destruct (step_ok n (g_next s) B a b ma mb Ib HA' HB' LAB) as (Ob & Lb).
  exists a, b, ma, mb, d. do 6 (split; [auto|]); [unfold generic_step; rewrite EC; cbn [g_rows]; now rewrite (Is a ma HA'), (Is b mb HB')|].
  split; [unfold generic_step; now rewrite EC|].
  set (w := g_next s) in *. set (s' := generic_step R update s).
  assert (OLDB : forall c ms, In (c, ms) (without a b B) -> In (c, ms) B /\ c <> a /\ c <> b /\ c < w /\ g_active s c = true).
  { intros c ms H. apply without_in in H. destruct H as (H & NA & NB). destruct (block_active n B s c ms I H). auto. }
  assert (ACT : forall c, g_active s' c = (c =? w) || (negb (c =? a) && negb (c =? b) && g_active s c)).
  { intros c. unfold s', generic_step. rewrite EC. cbn [g_active]. fold w. unfold set1. destruct (c =? w), (c =? b), (c =? a); reflexivity. }
  assert (OLD : forall x y, x < w -> y < w -> g_dist s' x y = g_dist s x y).
  { intros x' y' H H'. unfold s', generic_step. rewrite EC. cbn [g_dist]. fold w. replace (x' =? w) with false by lia. replace (y' =? w) with false by lia. reflexivity. }
  assert (NEW : forall c ms, In (c, ms) (without a b B) -> 
     let v := update (g_dist s a c) (g_dist s b c) d (length ma) (length mb) (length ms) in g_dist s' w c = v /\ g_dist s' c w = v).
  { intros c ms H. destruct (OLDB c ms H) as (HC & NA & NB & LW & AC). cbn zeta. unfold s', generic_step. rewrite EC. cbn [g_dist]. fold w. rewrite Nat.eqb_refl.
    assert (Q : set1 (set1 (set1 (g_active s) a false) b false) w true c = true).
    { unfold set1. replace (c =? w) with false by lia. replace (c =? b) with false by lia. replace (c =? a) with false by lia. exact AC. }
    rewrite Q. replace (c <? w) with true by lia. replace (c =? w) with false by lia. cbn [andb].
    unfold set1. replace (c =? w) with false by lia. rewrite (Is a ma HA'), (Is b mb HB'), (Is c ms HC). auto. }
  split; [exact OLD|]. split; [exact NEW|].
  assert (FIN : forall c ms, In (c, ms) (without a b B) -> finite R (g_dist s' w c) /\ D (ma ++ mb) ms (g_dist s' w c)).
  { intros c ms H. destruct (NEW c ms H) as (-> & _). destruct (OLDB c ms H) as (HC & NA & NB & LW & AC).
    destruct (CL ma mb ms (g_dist s a c) (g_dist s b c) d) as (F & DD); try (now apply (bo_some _ _ _ Ib) with (1 := HA')); try (now apply (bo_some _ _ _ Ib) with (1 := HB')); try (now apply (bo_some _ _ _ Ib) with (1 := HC)).
    - apply (If a ma c ms); auto.
    - apply (If b mb c ms); auto.
    - split; [exact F|]. apply DD; [apply (ID a ma c ms)|apply (ID b mb c ms)]; auto. }
  constructor.
  - intros c. rewrite ACT. replace (g_next s') with (S w) by (unfold s', generic_step; now rewrite EC). cbn [map fst In]. split.
    + intros (L & H). destruct (c =? w) eqn:Q; [left; symmetry; now apply Nat.eqb_eq|right]. cbn [orb] in H. rewrite !Bool.andb_true_iff in H.
      assert (HI : In c (map fst B)) by (apply Ii; split; [lia|tauto]). apply in_map_iff in HI. destruct HI as ((c' & ms) & E & HI). cbn in E. subst c'.
      apply in_map_iff. exists (c, ms). split; auto. apply without_in. repeat split; auto; lia.
    + intros [<-|H]; [split; [lia|]; now rewrite Nat.eqb_refl|]. apply in_map_iff in H. destruct H as ((c' & ms) & E & H). cbn in E. subst c'.
      destruct (OLDB c ms H) as (HC & NA & NB & LW & AC). split; [lia|]. rewrite AC. replace (c =? a) with false by lia. replace (c =? b) with false by lia. cbn. apply Bool.orb_true_r.
  - replace (g_next s') with (S w) by (unfold s', generic_step; now rewrite EC). exact Ob.
  - intros c ms H. unfold s', generic_step. rewrite EC. cbn [g_size]. fold w. unfold set1. destruct H as [H|H].
    + injection H as <- <-. rewrite Nat.eqb_refl, app_length, (Is a ma HA'), (Is b mb HB'). reflexivity.
    + destruct (OLDB c ms H) as (HC & _ & _ & LW & _). replace (c =? w) with false by lia. auto.
  - unfold s', generic_step. rewrite EC. cbn [g_next g_rows]. rewrite app_length. cbn. lia.
  - unfold s', generic_step. rewrite EC. cbn [g_rows]. fold w. rewrite (Is a ma HA'), (Is b mb HB'). replace w with (n + length (g_rows s)) by lia. now apply joined_snoc.
  - intros c mc e me HC HE N. destruct HC as [HC|HC], HE as [HE|HE].
    + injection HC as <- <-. injection HE as <- <-. contradiction.
    + injection HC as <- <-. now apply (FIN e me).
    + injection HE as <- <-. destruct (NEW c mc HC) as (E1 & E2). rewrite E2, <- E1. now apply (FIN c mc).
    + destruct (OLDB c mc HC) as (HC' & _ & _ & L1 & _), (OLDB e me HE) as (HE' & _ & _ & L2 & _). rewrite OLD by auto. apply (If c mc e me); auto.
  - intros c mc e me HC HE N. destruct HC as [HC|HC], HE as [HE|HE].
    + injection HC as <- <-. injection HE as <- <-. contradiction.
    + injection HC as <- <-. destruct (NEW e me HE) as (-> & ->). reflexivity.
    + injection HE as <- <-. destruct (NEW c mc HC) as (-> & ->). reflexivity.
    + destruct (OLDB c mc HC) as (HC' & _ & _ & L1 & _), (OLDB e me HE) as (HE' & _ & _ & L2 & _). rewrite !OLD by auto. apply (Iy c mc e me); auto.
  - intros c mc e me HC HE N. destruct HC as [HC|HC], HE as [HE|HE].
    + injection HC as <- <-. injection HE as <- <-. contradiction.
    + injection HC as <- <-. now apply (FIN e me).
    + injection HE as <- <-. destruct (NEW c mc HC) as (E1 & E2). rewrite E2, <- E1. apply SY. now apply (FIN c mc).
    + destruct (OLDB c mc HC) as (HC' & _ & _ & L1 & _), (OLDB e me HE) as (HE' & _ & _ & L2 & _). rewrite OLD by auto. apply (ID c mc e me); auto.
Qed.
Lemma iter_tail (f : generic_state R -> generic_state R) k s : Nat.iter (S k) f s = Nat.iter k f (f s).
Proof. induction k as [|k IH]; auto. change (f (Nat.iter (S k) f s) = f (Nat.iter k f (f s))). now rewrite IH. Qed.
(** The run, with the clusters it goes through. *)
Lemma run_generic n k : closed -> forall B s, ginv n B s -> length B = S k ->
  exists rows B', g_rows (Nat.iter k (generic_step R update) s) = g_rows s ++ rows /\ length rows = k /\
    joined (singletons n) n (g_rows s ++ rows) B' /\
    (good_order R -> (forall ms ms' u v, D ms ms' u -> D ms ms' v -> le R u v) -> agglomerated D B (g_next s) rows).
Proof.
  intros CL. induction k as [|k IH]; intros B s I LB.
  - exists [], B. rewrite app_nil_r. repeat split; auto; [apply I|]. intros _ _. constructor. lia.
  - destruct (step_generic n B s CL I) as (a & b & ma & mb & d & HA & HB & LAB & EC & ED & ER & EN & _ & _ & I'); [lia|].
    destruct (step_ok n (g_next s) B a b ma mb (g_blocks _ _ _ I) HA HB LAB) as (_ & Lb).
    destruct (IH _ _ I') as (rows & B' & E1 & E2 & E3 & E4); [lia|].
    exists (Joint a b d (length ma + length mb) :: rows), B'. rewrite iter_tail, E1, ER in *. rewrite <- app_assoc in *. cbn [app] in *.
    repeat split; auto; [cbn; lia|]. intros G U. rewrite EN in E4. econstructor; eauto.
    + rewrite ED. apply (g_D _ _ _ I a ma b mb); auto. lia.
    + intros c mc e me v HC HE N DV. eapply (le_trans R G); [|eapply U; [apply (g_D _ _ _ I c mc e me); auto|exact DV]].
      replace d with (snd (closest R s)) by (now rewrite EC).
      destruct (block_active n B s c mc I HC), (block_active n B s e me I HE). destruct (Nat.lt_ge_cases c e).
      * apply closest_least; auto.
      * rewrite (g_sym _ _ _ I c mc e me) by auto. apply closest_least; auto. lia.
Qed.
Lemma start_generic n distances : (forall i j, i < n -> j < n -> i <> j -> D [i] [j] (between R n distances i j)) ->
  (forall d, In d distances -> finite R d) -> length distances = n * (n - 1) / 2 -> ginv n (singletons n) (generic_start R distances n).
Proof.
  intros HD F L.
  assert (SG : forall c ms, In (c, ms) (singletons n) -> c < n /\ ms = [c]).
  { intros c ms H. apply in_map_iff in H. destruct H as (i & E & H). injection E as -> <-. apply in_seq in H. split; auto. lia. }
  assert (DI : forall x y, x < n -> y < n -> x <> y -> g_dist (generic_start R distances n) x y = between R n distances x y).
  { intros x y HX HY N. cbn. unfold initial, between. replace ((x <? n) && (y <? n)) with true by lia. replace (x =? y) with false by lia. reflexivity. }
  constructor; cbn [generic_start g_active g_next g_size g_rows length]; auto.
  - intros c. unfold singletons. rewrite map_map, (map_ext _ (fun i => i)) by reflexivity. rewrite map_id, in_seq, Nat.ltb_lt. lia.
  - apply singletons_ok.
  - intros c ms H. apply SG in H. destruct H as (_ & ->). reflexivity.
  - constructor.
  - intros a ma b mb HA HB N. apply SG in HA, HB. rewrite DI by tauto. apply F. apply nth_In. rewrite L. apply condensed_range; lia.
  - intros a ma b mb HA HB N. apply SG in HA, HB. rewrite !DI by (auto; tauto). unfold between. now rewrite (Nat.min_comm a b), (Nat.max_comm a b).
  - intros a ma b mb HA HB N. apply SG in HA, HB. rewrite DI by tauto. destruct HA as (? & ->), HB as (? & ->). now apply HD.
Qed.
Lemma generic_run n distances : closed -> (forall i j, i < n -> j < n -> i <> j -> D [i] [j] (between R n distances i j)) ->
  (forall d, In d distances -> finite R d) -> length distances = n * (n - 1) / 2 -> 1 <= n ->
  dendrogram n (linkage_generic R update distances n) /\
  (good_order R -> (forall ms ms' u v, D ms ms' u -> D ms ms' v -> le R u v) -> agglomerated D (singletons n) n (linkage_generic R update distances n)).
Proof.
  intros CL HD F L N. destruct (run_generic n (n - 1) CL (singletons n) _ (start_generic n distances HD F L)) as (rows & B' & E1 & E2 & E3 & E4).
  - unfold singletons. rewrite map_length, seq_length. lia.
  - unfold linkage_generic. rewrite E1. cbn [generic_start g_rows app] in *. split; auto. split; auto. exists B'. exact E3.
Qed.
End Generic.
