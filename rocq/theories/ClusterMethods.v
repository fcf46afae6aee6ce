(** The linkage methods, and cutting the tree at a distance. *)
From Coq Require Import Sorted.
From Verif Require Import Base Cluster ClusterSpec ClusterUF ClusterFlat ClusterWard ClusterIndex ClusterGeneric.
Open Scope nat_scope.

Lemma between_sym R n distances x y : between R n distances x y = between R n distances y x.
Proof. unfold between. now rewrite (Nat.min_comm x y), (Nat.max_comm x y). Qed.
Lemma single_closed R n distances : good_order R -> good_min R -> closed R (update_single R) (single_distance (between R n distances)).
Proof.
  intros G M. split.
  - intros ma mb mk u v dd _ _ _ FU FV. unfold update_single. destruct (M u v) as (E & L1 & L2). split; [destruct E as [-> | ->]; auto|].
    intros ((x & y & X & Y & EU) & LU) ((x' & y' & X' & Y' & EV) & LV). split.
    + destruct E as [-> | ->]; [exists x, y|exists x', y']; rewrite in_app_iff; auto.
    + intros p q HP HQ. apply in_app_iff in HP. destruct HP as [HP|HP]; [exact (le_trans R G _ _ _ L1 (LU p q HP HQ))|exact (le_trans R G _ _ _ L2 (LV p q HP HQ))].
  - intros ms ms' v ((x & y & X & Y & E) & L). split.
    + exists y, x. rewrite between_sym. auto.
    + intros p q HP HQ. rewrite between_sym. auto.
Qed.
Lemma complete_closed R n distances : good_order R -> good_max R -> closed R (update_complete R) (complete_distance (between R n distances)).
Proof.
  intros G M. split.
  - intros ma mb mk u v dd _ _ _ FU FV. unfold update_complete. destruct (M u v) as (E & L1 & L2). split; [destruct E as [-> | ->]; auto|].
    intros ((x & y & X & Y & EU) & LU) ((x' & y' & X' & Y' & EV) & LV). split.
    + destruct E as [-> | ->]; [exists x, y|exists x', y']; rewrite in_app_iff; auto.
    + intros p q HP HQ. apply in_app_iff in HP. destruct HP as [HP|HP]; [exact (le_trans R G _ _ _ (LU p q HP HQ) L1)|exact (le_trans R G _ _ _ (LV p q HP HQ) L2)].
  - intros ms ms' v ((x & y & X & Y & E) & L). split.
    + exists y, x. rewrite between_sym. auto.
    + intros p q HP HQ. rewrite between_sym. auto.
Qed.
Lemma le_refl R : good_order R -> forall x, le R x x.
Proof. intros G x. unfold le. destruct (lt R x x) eqn:E; auto. pose proof (lt_asym R G _ _ E). congruence. Qed.
Lemma single_base R n distances i j : good_order R -> single_distance (between R n distances) [i] [j] (between R n distances i j).
Proof. intros G. split; [exists i, j; cbn; auto|]. intros x y [<-|[]] [<-|[]]. now apply le_refl. Qed.
Lemma complete_base R n distances i j : good_order R -> complete_distance (between R n distances) [i] [j] (between R n distances i j).
Proof. intros G. split; [exists i, j; cbn; auto|]. intros x y [<-|[]] [<-|[]]. now apply le_refl. Qed.
Lemma single_run R n distances : good_order R -> good_min R -> (forall d, In d distances -> finite R d) -> length distances = n * (n - 1) / 2 -> 1 <= n ->
  dendrogram n (linkage_generic R (update_single R) distances n) /\
  agglomerated (single_distance (between R n distances)) (singletons n) n (linkage_generic R (update_single R) distances n).
Proof.
  intros G M F L N. destruct (generic_run R (update_single R) _ n distances (single_closed R n distances G M)) as (T & A); auto.
  - intros i j _ _ _. now apply single_base.
  - split; auto. apply A; auto. intros ms ms' u v (_ & LU) ((x & y & X & Y & ->) & _). auto.
Qed.
Lemma complete_run R n distances : good_order R -> good_max R -> (forall d, In d distances -> finite R d) -> length distances = n * (n - 1) / 2 -> 1 <= n ->
  dendrogram n (linkage_generic R (update_complete R) distances n) /\
  agglomerated (complete_distance (between R n distances)) (singletons n) n (linkage_generic R (update_complete R) distances n).
Proof.
  intros G M F L N. destruct (generic_run R (update_complete R) _ n distances (complete_closed R n distances G M)) as (T & A); auto.
  - intros i j _ _ _. now apply complete_base.
  - split; auto. apply A; auto. intros ms ms' u v ((x & y & X & Y & ->) & _) (_ & LU). auto.
Qed.

(** Distances of later rows are not smaller. *)
Lemma single_mean R : good_order R -> good_min R -> good_mean R (update_single R).
Proof. intros G M u v dd na nb nk _ _ FU FV. unfold update_single. destruct (M u v) as ([-> | ->] & _); auto. Qed.
Lemma complete_mean R : good_order R -> good_max R -> good_mean R (update_complete R).
Proof. intros G M u v dd na nb nk _ _ FU FV. unfold update_complete. destruct (M u v) as ([-> | ->] & _); auto. Qed.
Section Heights.
Context (R : real) (update : update_rule R) (G : good_order R) (M : good_mean R update).
Notation inv := (ginv R (fun _ _ _ => True)).
Lemma mean_closed : closed R update (fun _ _ _ => True).
Proof using M.
  split; auto. intros ma mb mk u v dd NA NB _ FU FV. split; auto. apply M; auto; [destruct ma|destruct mb]; try contradiction; cbn; lia.
Qed.
Definition above (m : num R) (B : list block) (s : generic_state R) : Prop :=
  forall a ma b mb, In (a, ma) B -> In (b, mb) B -> a <> b -> le R m (g_dist s a b).
Lemma run_ascends n k : forall B s, inv n B s -> length B = S k ->
  exists rows, g_rows (Nat.iter k (generic_step R update) s) = g_rows s ++ rows /\ ascending rows /\
    (forall m, above m B s -> Forall (fun r => le R m (j_dist r)) rows).
Proof using G M.
  induction k as [|k IH]; intros B s I LB.
  - exists []. rewrite app_nil_r. repeat split; constructor.
  - destruct (step_generic R update (fun _ _ _ => True) n B s mean_closed I) as (a & b & ma & mb & d & HA & HB & LAB & EC & ED & ER & EN & _ & _ & I'); [lia|].
    destruct (step_ok n (g_next s) B a b ma mb (g_blocks _ _ _ _ _ I) HA HB LAB) as (_ & Lb).
    destruct (IH _ _ I') as (rows & E1 & E2 & E3); [lia|].
    exists (Joint a b d (length ma + length mb) :: rows). rewrite iter_tail, E1, ER, <- app_assoc. cbn [app].
    assert (LEAST : above d B s).
    { intros c mc e me HC HE N. replace d with (snd (closest R s)) by (now rewrite EC).
      destruct (block_active R _ n B s c mc I HC), (block_active R _ n B s e me I HE). destruct (Nat.lt_ge_cases c e).
      - apply closest_least; auto.
      - rewrite (g_sym _ _ _ _ _ I c mc e me) by auto. apply closest_least; auto. lia. }
    assert (KEEP : forall m, above m B s -> above m ((g_next s, ma ++ mb) :: without a b B) (generic_step R update s)).
    { intros m AB. assert (OLDB : forall c ms, In (c, ms) (without a b B) -> In (c, ms) B /\ c <> a /\ c <> b /\ c < g_next s /\ g_active s c = true).
      { intros c ms H. apply without_in in H. destruct H as (H & NA & NB). destruct (block_active R _ n B s c ms I H). auto. }
      assert (SZ : forall c ms, In (c, ms) B -> 1 <= g_size s c).
      { intros c ms H. rewrite (g_sizes _ _ _ _ _ I c ms H). pose proof (bo_some _ _ _ (g_blocks _ _ _ _ _ I) c ms H). destruct ms; [contradiction|cbn; lia]. }
      assert (NEW : forall c ms, In (c, ms) (without a b B) -> le R m (g_dist (generic_step R update s) (g_next s) c)).
      { intros c ms H. destruct (OLDB c ms H) as (HC & NA & NB & LW & AC). unfold generic_step. rewrite EC. cbn [g_dist]. rewrite Nat.eqb_refl.
        replace (set1 _ (g_next s) true c) with true; [|unfold set1; replace (c =? g_next s) with false by lia; replace (c =? b) with false by lia; replace (c =? a) with false by lia; auto].
        replace (c <? g_next s) with true by lia. cbn [andb]. apply M.
        - eapply SZ; eauto.
        - eapply SZ; eauto.
        - apply (g_finite _ _ _ _ _ I a ma c ms); auto.
        - apply (g_finite _ _ _ _ _ I b mb c ms); auto.
        - apply (AB a ma c ms); auto.
        - apply (AB b mb c ms); auto. }
      intros c mc e me [HC|HC] [HE|HE] N.
      - congruence.
      - injection HC as <- <-. eapply NEW; eauto.
      - injection HE as <- <-. rewrite (g_sym _ _ _ _ _ I' c mc (g_next s) (ma ++ mb)); auto; [eapply NEW; eauto|now right|now left].
      - destruct (OLDB c mc HC) as (HC' & _ & _ & L1 & _), (OLDB e me HE) as (HE' & _ & _ & L2 & _).
        unfold generic_step. rewrite EC. cbn [g_dist]. replace (c =? g_next s) with false by lia. replace (e =? g_next s) with false by lia. cbn [andb].
        apply (AB c mc e me); auto. }
    split; [reflexivity|]. split.
    + constructor; auto.
    + intros m AB. constructor; [|apply E3; now apply KEEP]. cbn [j_dist]. rewrite ED. apply (AB a ma b mb); auto. lia.
Qed.
Lemma generic_ascends n distances : (forall d, In d distances -> finite R d) -> length distances = n * (n - 1) / 2 -> 1 <= n ->
  dendrogram n (linkage_generic R update distances n) /\ ascending (linkage_generic R update distances n).
Proof using G M.
  intros F L N. split; [apply (generic_run R update (fun _ _ _ => True)); auto; apply mean_closed|].
  destruct (run_ascends n (n - 1) (singletons n) (generic_start R distances n)) as (rows & E & A & _).
  - apply start_generic; auto.
  - unfold singletons. rewrite map_length, seq_length. lia.
  - unfold linkage_generic. rewrite E. exact A.
Qed.
End Heights.

(** Cutting at a distance. *)
Lemma count_while_le {A} (p : A -> bool) l : count_while p l <= length l.
Proof. induction l as [|x l IH]; cbn; auto. destruct (p x); lia. Qed.
Lemma count_ascending R (G : good_order R) (t : num R) rows : ascending rows -> forall i r, nth_error rows i = Some r ->
  (i < count_while (fun r => negb (lt R t (j_dist r))) rows <-> le R (j_dist r) t).
Proof.
  intros A. induction A as [|r0 rows A IH F]; intros i r E; [now destruct i|]. cbn [count_while]. destruct i as [|i]; cbn in E.
  - injection E as ->. unfold le. destruct (lt R t (j_dist r)); cbn; split; intros; try lia; congruence.
  - specialize (IH i r E). unfold le in *. destruct (lt R t (j_dist r0)) eqn:Q; cbn [negb].
    + split; [lia|]. intros H. exfalso. rewrite Forall_forall in F. apply nth_error_In in E. specialize (F r E).
      assert (X : le R (j_dist r0) t) by (eapply (le_trans R G); [exact F|exact H]). unfold le in X. congruence.
    + rewrite <- IH. lia.
Qed.
Lemma distance_cut R (G : good_order R) n rows t : 1 <= n -> dendrogram n rows -> ascending rows ->
  exists count B ls, fcluster_distance (fun x y => negb (lt R y x)) rows n t = Ok ls /\
    (forall i r, nth_error rows i = Some r -> (i < count <-> le R (j_dist r) t)) /\
    count <= length rows /\ cut n rows count B /\ length B = n - count /\ labels n (n - count) B ls.
Proof.
  intros N (L & B0 & J) A. set (count := count_while (fun r => negb (lt R t (j_dist r))) rows).
  pose proof (count_while_le (fun r => negb (lt R t (j_dist r))) rows) as CL. fold count in CL.
  destruct (joined_prefix rows _ _ _ count J) as (B & JB).
  destruct (flat_spec n rows count B N) as (LB & ls & E & LS); auto; [lia|].
  exists count, B, ls. split; [exact E|]. split; [now apply count_ascending|]. auto.
Qed.

(** Single linkage cut at a distance: the connected components. *)
Lemma agglomerated_prefix {R} D : forall count B w (rows : list (joint R)) , agglomerated D B w rows -> count <= length rows ->
  exists B', joined B w (firstn count rows) B' /\ agglomerated D B' (w + count) (skipn count rows).
Proof.
  induction count as [|count IH]; intros B w rows A L.
  - exists B. rewrite Nat.add_0_r. split; [constructor|exact A].
  - inversion A as [|? ? a b ma mb d rows' HA HB LAB DV MIN A']; subst; cbn in L; [lia|].
    destruct (IH _ _ _ A' ltac:(lia)) as (B' & J & A''). exists B'. cbn [firstn skipn]. split; [econstructor; eauto|]. now rewrite <- plus_n_Sm.
Qed.
Lemma connected_range {R} n (d : nat -> nat -> num R) t x y : connected n d t x y -> x < n /\ y < n.
Proof. induction 1; tauto. Qed.
Lemma connected_trans {R} n (d : nat -> nat -> num R) t x y z : connected n d t x y -> connected n d t y z -> connected n d t x z.
Proof. intros H H'. induction H' as [|y y' z H' IH LZ N L]; auto. apply (connected_step n d t x y' z); auto. Qed.
Lemma connected_sym {R} n (d : nat -> nat -> num R) t : (forall x y, d x y = d y x) -> forall x y, connected n d t x y -> connected n d t y x.
Proof.
  intros SY x y H. induction H as [x H|x y z H IH LZ N L]; [now constructor|].
  eapply connected_trans; [|exact IH]. apply connected_range in H. eapply connected_step; [constructor; exact LZ|tauto|auto|]. now rewrite SY.
Qed.
Lemma merged_connected {R} n d t (SY : forall x y : nat, d x y = d y x) : forall B w (rows : list (joint R)) B', joined B w rows B' ->
  blocks_ok n w B -> Forall (fun r => le R (j_dist r) t) rows -> agglomerated (single_distance d) B w rows \/ 
  (exists rest, agglomerated (single_distance d) B w (rows ++ rest)) ->
  (forall c ms x y, In (c, ms) B -> In x ms -> In y ms -> connected n d t x y) ->
  (forall c ms x y, In (c, ms) B' -> In x ms -> In y ms -> connected n d t x y).
Proof.
  intros B w rows B' J. induction J as [B w|B w a b ma mb dd rows B' HA HB LAB J IH]; intros O F A C; auto.
  assert (A' : exists rest, agglomerated (single_distance d) B w (Joint a b dd (length ma + length mb) :: rows ++ rest)).
  { destruct A as [A|(rest & A)]; [exists []; now rewrite app_nil_r|exists rest; exact A]. }
  clear A. destruct A' as (rest & A). inversion A as [|? ? a' b' ma' mb' d' rows' HA' HB' LAB' DV MIN A' Q1 Q2 [Q3 Q4 Q5 Q6 Q7]]; subst.
  assert (ma' = ma) by (eapply fst_unique; eauto; apply O). assert (mb' = mb) by (eapply fst_unique; eauto; apply O). subst ma' mb'.
  destruct (step_ok n w B a b ma mb O HA HB LAB) as (O' & _). inversion F as [|? ? F1 F2]; subst. cbn [j_dist] in F1.
  apply IH; auto; [right; exists rest; exact A'|].
  intros c ms x y H HX HY. destruct H as [H|H].
  - injection H as <- <-. destruct DV as ((p & q & HP & HQ & ->) & _).
    assert (NPQ : p <> q).
    { intros ->. pose proof (unique_block n w B a ma b mb q O HA HB HP HQ) as E. injection E as E _. lia. }
    assert (PQ : connected n d t p q) .
    { apply (connected_step n d t p p q).
      - apply connected_self. exact (member_range n w B a ma p O HA HP).
      - exact (member_range n w B b mb q O HB HQ).
      - exact NPQ.
      - exact F1. }
    assert (AA : forall x, In x ma -> connected n d t x p) by (intros x' X'; exact (C a ma x' p HA X' HP)).
    assert (BB : forall x, In x mb -> connected n d t x q) by (intros x' X'; exact (C b mb x' q HB X' HQ)).
    apply in_app_iff in HX, HY. destruct HX as [HX|HX], HY as [HY|HY].
    + exact (C a ma x y HA HX HY).
    + eapply connected_trans; [apply AA; auto|]. eapply connected_trans; [exact PQ|]. apply connected_sym; auto.
    + eapply connected_trans; [apply BB; auto|]. apply connected_sym; auto. eapply connected_trans; [apply AA; auto|]. exact PQ.
    + exact (C b mb x y HB HX HY).
  - apply without_in in H. destruct H as (H & _). eapply C; eauto.
Qed.
Lemma in_block n w B x : blocks_ok n w B -> x < n -> exists c ms, In (c, ms) B /\ In x ms.
Proof.
  intros O L. assert (H : In x (flat_map snd B)) by (rewrite (bo_all _ _ _ O); apply in_seq; lia).
  apply in_flat_map in H. destruct H as ((c & ms) & H & HX). eauto.
Qed.
Lemma least_exists R (G : good_order R) (l : list (num R)) : l <> [] -> exists v, In v l /\ forall u, In u l -> le R v u.
Proof.
  induction l as [|x l IH]; intros N; [contradiction|]. destruct l as [|y l].
  - exists x. split; [now left|]. intros u [<-|[]]. now apply le_refl.
  - destruct IH as (v & HV & LV); [discriminate|]. destruct (lt R x v) eqn:Q.
    + exists x. split; [now left|]. intros u [<-|H]; [now apply le_refl|]. eapply (le_trans R G); [apply (lt_asym R G); exact Q|auto].
    + exists v. split; [now right|]. intros u [<-|H]; auto.
Qed.
Lemma single_exists R (G : good_order R) (d : nat -> nat -> num R) ms ms' : ms <> [] -> ms' <> [] -> exists v, single_distance d ms ms' v.
Proof.
  intros N N'. destruct (least_exists R G (map (fun p => d (fst p) (snd p)) (list_prod ms ms'))) as (v & HV & LV).
  - destruct ms, ms'; try contradiction. discriminate.
  - exists v. apply in_map_iff in HV. destruct HV as ((x & y) & <- & H). apply in_prod_iff in H. split; [exists x, y; tauto|].
    intros p q HP HQ. apply LV. apply in_map_iff. exists (p, q). split; auto. now apply in_prod.
Qed.
Lemma nth_error_firstn_lt {A} (l : list A) : forall k i, i < k -> nth_error (firstn k l) i = nth_error l i.
Proof. induction l as [|x l IH]; intros [|k] [|i] H; cbn; auto; try lia. apply IH. lia. Qed.
Lemma single_cut R (G : good_order R) (M : good_min R) n distances t : 1 <= n ->
  (forall d, In d distances -> finite R d) -> length distances = n * (n - 1) / 2 ->
  exists ls, fcluster_distance (fun x y => negb (lt R y x)) (linkage_generic R (update_single R) distances n) n t = Ok ls /\ length ls = n /\
    forall x y, x < n -> y < n -> (nth x ls 0 = nth y ls 0 <-> connected n (between R n distances) t x y).
Proof.
  intros N F L. set (rows := linkage_generic R (update_single R) distances n). set (d := between R n distances).
  destruct (single_run R n distances G M F L N) as (T & AG). fold rows in T, AG. fold d in AG.
  destruct (generic_ascends R (update_single R) G (single_mean R G M) n distances F L N) as (_ & AS). fold rows in AS.
  set (count := count_while (fun r => negb (lt R t (j_dist r))) rows).
  pose proof (count_while_le (fun r => negb (lt R t (j_dist r))) rows) as CL. fold count in CL.
  assert (CT : forall i r, nth_error rows i = Some r -> (i < count <-> le R (j_dist r) t)) by (now apply count_ascending).
  destruct (agglomerated_prefix _ count _ _ _ AG CL) as (B & J & A1).
  destruct (flat_spec n rows count B N) as (LB & ls & E & (LL & LT & _)); auto; [destruct T; lia|].
  exists ls. split; [exact E|]. split; [exact LL|]. intros x y HX HY. rewrite LT by auto.
  destruct (joined_ok n _ _ _ _ J (singletons_ok n)) as (O & _). split.
  - intros (c & ms & H & H1 & H2).
    apply (merged_connected n d t (between_sym R n distances) _ _ _ _ J) with (c := c) (ms := ms); auto.
    + apply singletons_ok.
    + apply Forall_forall. intros r H'. apply In_nth_error in H'. destruct H' as (i & H'). 
      assert (LI : i < count). { assert (nth_error (firstn count rows) i <> None) as Q by congruence. apply nth_error_Some in Q. rewrite firstn_length in Q. lia. }
      apply (CT i r); auto. rewrite <- H'. symmetry. now apply nth_error_firstn_lt.
    + right. exists (skipn count rows). now rewrite firstn_skipn.
    + intros c' ms' x' y' H' X' Y'. apply in_map_iff in H'. destruct H' as (i & E' & H'). injection E' as <- <-. destruct X' as [<-|[]], Y' as [<-|[]].
      constructor. apply in_seq in H'. lia.
  - intros C. clear HX HY. induction C as [x H|x y z C IH LZ NYZ LE].
    + destruct (in_block n _ B x O H) as (c & ms & H1 & H2). exists c, ms. auto.
    + destruct IH as (c & mc & H1 & H2 & H3). destruct (in_block n _ B z O LZ) as (e & me & H4 & H5).
      destruct (Nat.eq_dec c e) as [->|NCE].
      * assert (mc = me) by (eapply fst_unique; eauto; apply O). subst me. exists e, mc. auto.
      * exfalso. destruct (single_exists R G d mc me) as (v & DV); [intros ->; easy|intros ->; easy|].
        inversion A1 as [B' w' LB' E1 E2 E3|B' w' a b ma mb dd rows' HA HB LAB DD MIN A' E1 E2 E3].
        -- subst. destruct B as [|e1 [|e2 B]]; cbn in LB'; try lia; [easy|]. destruct H1 as [H1|[]], H4 as [H4|[]]. congruence.
        -- assert (NE : nth_error rows count = Some (Joint a b dd (length ma + length mb))).
           { rewrite <- (firstn_skipn count rows), nth_error_app2, firstn_length, Nat.min_l, Nat.sub_diag, <- E3 by (rewrite ?firstn_length; lia). reflexivity. }
           apply CT in NE. cbn [j_dist] in NE. assert (LT2 : le R dd t); [|apply NE in LT2; lia].
           eapply (le_trans R G); [apply (MIN c mc e me v); auto|]. eapply (le_trans R G); [|exact LE]. destruct DV as (_ & DV). auto.
Qed.
