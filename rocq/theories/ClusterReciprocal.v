(** The chain merges clusters that are nearest neighbours of each other. *)
From Verif Require Import Base Cluster ClusterSpec ClusterUF ClusterFlat ClusterWard ClusterIndex ClusterEnd.
Open Scope nat_scope.

Section Reciprocal.
Context (R : real) (G : good_order R) (RED : reducible R).
Implicit Types (s : ward_state R).

Definition merged n B s s' : Prop := exists a b ma mb,
  In (a, ma) B /\ In (b, mb) B /\ a < b /\
  w_rows s' = w_rows s ++ [Joint a b (sqrt R (w_dist s a b)) (length ma + length mb)] /\ w_next s' = S (w_next s) /\
  (forall c, In c (w_active s) -> c <> a -> le R (w_dist s a b) (w_dist s a c)) /\
  (forall c, In c (w_active s) -> c <> b -> le R (w_dist s a b) (w_dist s b c)) /\
  winv R n ((w_next s, ma ++ mb) :: without a b B) s' /\
  (forall x y, x < w_next s -> y < w_next s -> w_dist s' x y = w_dist s x y) /\
  (forall c mc, In (c, mc) (without a b B) ->
     exists v, (v = ward R (length ma) (length mb) (length mc) (w_dist s a c) (w_dist s b c) (w_dist s a b) \/
                v = ward R (length mb) (length ma) (length mc) (w_dist s b c) (w_dist s a c) (w_dist s a b)) /\
       w_dist s' (w_next s) c = v /\ w_dist s' c (w_next s) = v).

Lemma fuse_merged n B s a b below : winv R n B s -> exact_inv R s -> In a (w_active s) -> In b (w_active s) -> a <> b ->
  (forall c, In c below -> In c (w_active s) /\ c <> a /\ c <> b) -> linked R (w_cache s) below ->
  first_closest R (w_dist s) (w_active s) a b -> first_closest R (w_dist s) (w_active s) b a ->
  merged n B s (fuse R s a b below (w_dist s a b)).
Proof using G.
  intros I EX HA HB NE HC HL FA FB.
  destruct (fuse_at R n B s a b below (w_dist s a b) I HA HB NE HC HL) as (ma & mb & H1 & H2 & W & _).
  assert (SY : w_dist s b a = w_dist s a b) by (apply (e_sym _ _ EX); auto).
  assert (DD : w_dist s (Nat.min a b) (Nat.max a b) = w_dist s a b).
  { destruct (Nat.lt_ge_cases a b); [rewrite Nat.min_l, Nat.max_r by lia|rewrite Nat.min_r, Nat.max_l by lia]; auto. }
  assert (LA : forall c, In c (w_active s) -> c <> a -> le R (w_dist s a b) (w_dist s a c)).
  { intros c H N. eapply closest_le; eauto. }
  assert (LB : forall c, In c (w_active s) -> c <> b -> le R (w_dist s a b) (w_dist s b c)).
  { intros c H N. rewrite <- SY. eapply closest_le; eauto. }
  assert (LOW : forall x, In x (w_active s) -> x < w_next s) by (intros x; now apply (active_low R n B)).
  exists (Nat.min a b), (Nat.max a b), ma, mb. rewrite DD.
  split; [exact H1|]. split; [exact H2|]. split; [lia|].
  split; [|split; [reflexivity|split; [|split; [|split; [exact W|split]]]]].
  - unfold fuse. cbn [w_rows]. rewrite <- (i_size _ _ _ _ I _ _ H1), <- (i_size _ _ _ _ I _ _ H2). f_equal. f_equal. f_equal.
    destruct (Nat.lt_ge_cases a b); [rewrite Nat.min_l, Nat.max_r by lia|rewrite Nat.min_r, Nat.max_l by lia]; lia.
  - intros c H N. destruct (Nat.lt_ge_cases a b); [rewrite Nat.min_l in * by lia|rewrite Nat.min_r in * by lia]; auto.
  - intros c H N. destruct (Nat.lt_ge_cases a b); [rewrite Nat.max_r in * by lia|rewrite Nat.max_l in * by lia]; auto.
  - intros x y HX HY. unfold fuse. cbn [w_dist]. replace (x =? w_next s) with false by lia. replace (y =? w_next s) with false by lia. reflexivity.
  - intros c mc H. apply without_in in H. destruct H as (H & N1 & N2).
    assert (HI : In c (w_active s)) by (apply (i_active _ _ _ _ I); apply in_map_iff; exists (c, mc); auto).
    assert (c <> a /\ c <> b) as (NA & NB) by lia. pose proof (LOW c HI).
    assert (M : mem c (filter (fun x => negb (x =? a) && negb (x =? b)) (w_active s)) = true) by (apply mem_in; apply kept_in; auto).
    eexists. split; [|unfold fuse; cbn [w_dist]; rewrite Nat.eqb_refl, M; replace (c =? w_next s) with false by lia; cbn [andb]; split; reflexivity].
    rewrite (i_size _ _ _ _ I c mc H), <- (i_size _ _ _ _ I _ _ H1), <- (i_size _ _ _ _ I _ _ H2).
    destruct (Nat.lt_ge_cases a b); [left; rewrite Nat.min_l, Nat.max_r by lia|right; rewrite Nat.min_r, Nat.max_l by lia]; reflexivity.
Qed.

Lemma grow_merged n fuel : forall B s s', winv R n B s -> exact_inv R s -> grow R fuel s = Some (Ok s') -> merged n B s s' /\ exact_inv R s'.
Proof using G RED.
  induction fuel as [|fuel IH]; intros B s s' I EX H; [discriminate|]. rewrite grow_unfold in H.
  destruct (w_chain s) as [|current rest] eqn:EC; [discriminate|].
  destruct (neighbour R s current) as [(nn & dd)|] eqn:EN; [|discriminate].
  destruct (pushed_inv R n B s current rest nn dd I EC EN) as (HA & HN & NE & LK & PI).
  pose proof (pushed_exact R n B s current rest nn dd I EX EC EN) as EX1.
  assert (NEXT : (match rest with second :: _ => second <> nn | [] => True end) -> grow R fuel (pushed R s current nn dd) = Some (Ok s') -> merged n B s s' /\ exact_inv R s').
  { intros Q E. exact (IH B _ s' (PI Q) EX1 E). }
  destruct rest as [|second below]; [now apply NEXT|].
  destruct (second =? nn) eqn:Q; [|apply NEXT; auto; now apply Nat.eqb_neq in Q].
  apply Nat.eqb_eq in Q. subst second. injection H as <-.
  assert (PC : points R (w_cache (pushed R s current nn dd)) current nn) by (exists dd; cbn; unfold set1; now rewrite Nat.eqb_refl).
  destruct (pair_alone R _ _ _ _ LK PC) as (A1 & A2); [congruence|].
  pose proof I as [Ia Io Ib Is In_ Ir Ic Ich Il].
  set (s1 := {| w_dist := w_dist s; w_size := w_size s; w_active := w_active s; w_cache := w_cache (pushed R s current nn dd);
                           w_next := w_next s; w_chain := current :: nn :: below; w_rows := w_rows s |}).
  assert (I' : winv R n B s1).
  { constructor; cbn [s1 w_active w_next w_size w_rows w_chain w_cache]; auto.
    - intros k m d HK. cbn [pushed w_cache]. unfold set1. destruct (k =? current) eqn:E; [apply Nat.eqb_eq in E; subst k; intros [= <- <-]; auto|apply Ic; auto].
    - rewrite <- EC. exact Ich. }
  assert (EXS : exact_inv R s1) by (constructor; apply EX1).
  assert (FC : first_closest R (w_dist s) (w_active s) current nn) by (apply (linked_closest R G n B s1 current nn I' EXS HA PC)).
  assert (PN : points R (w_cache s) nn current) by (rewrite EC in Il; cbn in Il; tauto).
  pose proof (linked_closest R G n B s nn current I EX HN PN) as FN.
  assert (ED : dd = w_dist s current nn).
  { rewrite (neighbour_fresh R s current EX HA) in EN. pose proof (nearest_shape R G (w_dist s) (w_active s) current) as SH. rewrite EN in SH. apply SH. }
  subst dd. change (fuse R (pushed R s current nn (w_dist s current nn)) current nn below (w_dist s current nn)) with (fuse R s1 current nn below (w_dist s1 current nn)).
  split.
  - change (merged n B s1 (fuse R s1 current nn below (w_dist s1 current nn))). apply fuse_merged; auto.
    + intros c Hc. split; [apply Ich; rewrite EC; right; now right|]. split; intros ->; contradiction.
    + cbn [s1 w_cache]. eapply linked_tail. eapply linked_tail. exact LK.
  - eapply fuse_exact; eauto.
Qed.
Lemma step_merged n fuel B s s' : winv R n B s -> exact_inv R s -> merge_step R fuel s = Some (Ok s') -> merged n B s s' /\ exact_inv R s'.
Proof using G RED.
  intros I EX H. unfold merge_step in H. destruct (w_chain s) as [|c ch] eqn:EC; [|now apply (grow_merged n fuel B) in H].
  destruct (w_active s) as [|x act] eqn:EA; [discriminate|]. rewrite <- EA in H. apply (grow_merged n fuel B) in H; [exact H| |].
  - destruct I as [Ia Io Ib Is In_ Ir Ic Ich Il].
    constructor; cbn [w_active w_next w_size w_rows w_chain w_cache]; auto.
    + intros c [<-|[]]. rewrite EA. now left.
    + exact Logic.I.
  - constructor; cbn [w_active w_dist w_cache]; apply EX.
Qed.

Context (D : list nat -> list nat -> num R -> Prop).
Definition ward_closed : Prop :=
  (forall ma mb mk u v dd, ma <> [] -> mb <> [] -> mk <> [] -> D ma mk u -> D mb mk v -> D ma mb dd ->
     D (ma ++ mb) mk (ward R (length ma) (length mb) (length mk) u v dd)) /\
  (forall ms ms' v, D ms ms' v -> D ms' ms v) /\
  (forall ma mb mk v, D (ma ++ mb) mk v -> D (mb ++ ma) mk v).
Definition tells (B : list block) s : Prop := forall a ma b mb, In (a, ma) B -> In (b, mb) B -> a <> b -> D ma mb (w_dist s a b).
Lemma loop_reciprocal n fuel turns : ward_closed -> (forall ms ms' u v, D ms ms' u -> D ms ms' v -> le R u v) ->
  forall B s s', winv R n B s -> exact_inv R s -> tells B s -> length B = S turns -> merge_loop R fuel turns s = Some (Ok s') ->
  exists rows, w_rows s' = w_rows s ++ rows /\ reciprocal D B (w_next s) rows.
Proof using G RED.
  intros (CL & SY & SW) U. induction turns as [|turns IH]; intros B s s' I EX T LB H; cbn in H.
  - injection H as <-. exists []. rewrite app_nil_r. split; auto. constructor. lia.
  - destruct (merge_step R fuel s) as [[s1| |]|] eqn:E; try discriminate.
    destruct (step_merged n fuel B s s1 I EX E) as ((a & b & ma & mb & HA & HB & LAB & ER & EN & LA & LBB & I1 & OLD & NEW) & EX1).
    destruct (step_ok n (w_next s) B a b ma mb (i_blocks _ _ _ _ I) HA HB LAB) as (_ & Lb).
    assert (BA : forall c mc, In (c, mc) B -> In c (w_active s) /\ c < w_next s /\ mc <> []).
    { intros c mc HC. assert (In c (w_active s)) by (apply (i_active _ _ _ _ I); apply in_map_iff; exists (c, mc); auto).
      split; auto. split; [now apply (active_low R n B)|]. exact (bo_some _ _ _ (i_blocks _ _ _ _ I) c mc HC). }
    assert (OUT : forall c mc, In (c, mc) (without a b B) -> In (c, mc) B /\ c <> a /\ c <> b) by (intros c mc HC; now apply without_in in HC).
    assert (FRESH : forall c mc, In (c, mc) (without a b B) -> D (ma ++ mb) mc (w_dist s1 (w_next s) c) /\ w_dist s1 c (w_next s) = w_dist s1 (w_next s) c).
    { intros c mc HC. destruct (NEW c mc HC) as (v & Q & -> & ->). split; auto. destruct (OUT c mc HC) as (HC' & N1 & N2).
      destruct Q as [-> | ->].
      - apply CL; try apply (BA _ _ HA); try apply (BA _ _ HB); try apply (BA _ _ HC'); apply T; auto. lia.
      - apply SW. apply CL; try apply (BA _ _ HA); try apply (BA _ _ HB); try apply (BA _ _ HC'); try (apply T; auto; lia). apply SY. apply T; auto. lia. }
    assert (T1 : tells ((w_next s, ma ++ mb) :: without a b B) s1).
    { intros c mc e me HC HE N. destruct HC as [HC|HC], HE as [HE|HE].
      - congruence.
      - injection HC as <- <-. now apply FRESH.
      - injection HE as <- <-. destruct (FRESH c mc HC) as (F & ->). now apply SY.
      - destruct (OUT c mc HC) as (HC' & _), (OUT e me HE) as (HE' & _). rewrite OLD by (now apply (BA _ _ HC') + now apply (BA _ _ HE')). now apply T. }
    destruct (IH _ s1 s' I1 EX1 T1) as (rows & E1 & E2); [lia|exact H|].
    eexists. split; [rewrite E1, ER, <- app_assoc; reflexivity|]. rewrite EN in E2. cbn [app].
    apply reciprocal_more; auto.
    + apply T; auto. lia.
    + intros c mc v HC N DV. eapply (le_trans R G); [apply LA; [now apply (BA _ _ HC)|exact N]|]. eapply U; [apply (T a ma c mc); auto|exact DV].
    + intros c mc v HC N DV. eapply (le_trans R G); [apply LBB; [now apply (BA _ _ HC)|exact N]|]. eapply U; [apply (T b mb c mc); auto|exact DV].
Qed.
Lemma ward_reciprocal n distances : ward_closed -> (forall ms ms' u v, D ms ms' u -> D ms ms' v -> le R u v) ->
  (forall i j, i < n -> j < n -> i <> j -> D [i] [j] (mul R (between R n distances i j) (between R n distances i j))) ->
  (forall d, In d distances -> finite R (mul R d d)) -> length distances = n * (n - 1) / 2 -> 1 <= n ->
  exists rows, (forall fuel, n * n + 2 <= fuel -> linkage_ward R fuel distances n = Some (Ok rows)) /\ reciprocal D (singletons n) n rows.
Proof using G RED.
  intros CL U HD F L N. destruct (ward_ends R n distances G RED F L) as (rows & E); auto; [intros; now apply condensed_range|].
  exists rows. split; auto. specialize (E (n * n + 2) (Nat.le_refl _)). unfold linkage_ward in E.
  destruct (merge_loop R (n * n + 2) (n - 1) _) as [[s'| |]|] eqn:EL; try discriminate. injection E as <-.
  destruct (loop_reciprocal n (n * n + 2) (n - 1) CL U (singletons n) _ s' (start_inv R n distances)) as (rows & E1 & E2).
  - apply start_exact; auto. intros. now apply condensed_range.
  - intros a ma b mb HA HB NE. apply in_map_iff in HA, HB. destruct HA as (i & EA & HA), HB as (j & EB & HB). injection EA as <- <-. injection EB as <- <-.
    apply in_seq in HA, HB. cbn [ward_start w_dist]. unfold initial. replace ((i <? n) && (j <? n)) with true by lia. replace (i =? j) with false by lia.
    apply HD; lia.
  - unfold singletons. rewrite map_length, seq_length. lia.
  - exact EL.
  - rewrite E1. exact E2.
Qed.
End Reciprocal.
