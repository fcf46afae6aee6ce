(** Average, weighted and Ward linkage in exact arithmetic. *)
From Coq Require Import QArith Lqa.
From Verif Require Import Base Cluster ClusterSpec ClusterUF ClusterFlat ClusterWard ClusterIndex ClusterEnd ClusterGeneric ClusterMethods ClusterExact ClusterExactSpec ClusterReciprocal.
Open Scope nat_scope.

Lemma qnum_some {A} (l : list A) : l <> [] -> (0 < qnum (length l))%Q.
Proof. intros H. apply qnum_pos. destruct l; [contradiction|cbn; lia]. Qed.

(** Sums. *)
Lemma total_cons {A} (f : A -> Q) x l : (total f (x :: l) == f x + total f l)%Q.
Proof. reflexivity. Qed.
Lemma total_app {A} (f : A -> Q) l l' : (total f (l ++ l') == total f l + total f l')%Q.
Proof. induction l as [|x l IH]; cbn [app]; rewrite ?total_cons; [cbn; lra|]. rewrite IH. lra. Qed.
Lemma total_ext {A} (f g : A -> Q) l : (forall x, In x l -> (f x == g x)%Q) -> (total f l == total g l)%Q.
Proof.
  induction l as [|x l IH]; intros H; [reflexivity|]. rewrite !total_cons, IH, (H x); [reflexivity|now left|]. intros y HY. apply H. now right.
Qed.
Lemma total_plus {A} (f g : A -> Q) l : (total (fun x => f x + g x) l == total f l + total g l)%Q.
Proof. induction l as [|x l IH]; [cbn; lra|]. rewrite !total_cons, IH. lra. Qed.
Lemma total_scale {A} (f : A -> Q) c l : (total (fun x => c * f x) l == c * total f l)%Q.
Proof. induction l as [|x l IH]; [cbn; lra|]. rewrite !total_cons, IH. lra. Qed.
Lemma total_const {A} c (l : list A) : (total (fun _ => c) l == qnum (length l) * c)%Q.
Proof.
  induction l as [|x l IH]; [change (0 == 0 * c)%Q; lra|]. rewrite total_cons, IH. change (length (x :: l)) with (1 + length l). rewrite qnum_add. change (qnum 1) with 1%Q. lra.
Qed.
Lemma total_swap {A B} (f : A -> B -> Q) l l' : (total (fun x => total (f x) l') l == total (fun y => total (fun x => f x y) l) l')%Q.
Proof.
  induction l as [|x l IH].
  - cbn. induction l' as [|y l' IH']; [reflexivity|]. rewrite total_cons, <- IH'. cbn. lra.
  - rewrite total_cons, IH. rewrite <- total_plus. apply total_ext. intros y _. rewrite total_cons. reflexivity.
Qed.
Lemma total_map {A B} (g : A -> B) (f : B -> Q) l : (total f (map g l) == total (fun x => f (g x)) l)%Q.
Proof. induction l as [|x l IH]; [reflexivity|]. cbn [map]. rewrite !total_cons, IH. reflexivity. Qed.

Section Sums.
Context (d : nat -> nat -> Q) (SYM : forall x y, d x y = d y x).
Lemma across_app_l a b k : (across d (a ++ b) k == across d a k + across d b k)%Q.
Proof using Type. unfold across. apply total_app. Qed.
Lemma across_sym a b : (across d a b == across d b a)%Q.
Proof using SYM. unfold across. rewrite total_swap. apply total_ext. intros x _. apply total_ext. intros y _. rewrite SYM. reflexivity. Qed.
Lemma across_app_r a b k : (across d k (a ++ b) == across d k a + across d k b)%Q.
Proof using SYM. rewrite across_sym, across_app_l, (across_sym a), (across_sym b). reflexivity. Qed.

(** Ward's update. *)
Lemma ward_update a b k u v w : a <> [] -> b <> [] -> k <> [] -> (u == ward_cost d a k)%Q -> (v == ward_cost d b k)%Q -> (w == ward_cost d a b)%Q ->
  exists q, ward rational (length a) (length b) (length k) (Some u) (Some v) (Some w) = Some q /\ (q == ward_cost d (a ++ b) k)%Q.
Proof using SYM.
  intros NA NB NK EU EV EW. eexists. split; [reflexivity|].
  unfold ward_cost in *. rewrite EU, EV, EW.
  rewrite across_app_l, across_app_r, !across_app_l, (across_sym b a), app_length, !qnum_add.
  pose proof (qnum_some a NA). pose proof (qnum_some b NB). pose proof (qnum_some k NK).
  field. repeat split; lra.
Qed.
Lemma ward_cost_sym a b : (ward_cost d a b == ward_cost d b a)%Q.
Proof using SYM.
  unfold ward_cost. rewrite (across_sym b a), (Qmult_comm (qnum (length b)) (qnum (length a))), (Qplus_comm (qnum (length b))).
  unfold Qminus. rewrite <- !Qplus_assoc, (Qplus_comm (- (across d b b / _))). 
  rewrite <- (Qmult_assoc 2 (qnum (length b))), <- (Qmult_assoc 2 (qnum (length a))), (Qmult_comm (qnum (length b)) (qnum (length a))). reflexivity.
Qed.
Lemma ward_cost_swap a b k : (ward_cost d (a ++ b) k == ward_cost d (b ++ a) k)%Q.
Proof using SYM.
  unfold ward_cost. rewrite !across_app_l, !across_app_r, (across_sym b a), !app_length, (Nat.add_comm (length b)).
  rewrite (Qplus_comm (across d b k)). setoid_replace (across d b b + across d a b + (across d a b + across d a a))%Q with (across d a a + across d a b + (across d a b + across d b b))%Q by lra.
  reflexivity.
Qed.
End Sums.

Lemma exactly_same cost ms ms' u v : exactly cost ms ms' u -> exactly cost ms ms' v -> le rational u v.
Proof. intros (q & -> & E) (q' & -> & E'). apply qle_some. rewrite E, E'. apply Qle_refl. Qed.
Lemma apart_sym n qs x y : apart n qs x y = apart n qs y x.
Proof. unfold apart. now rewrite (Nat.eqb_sym y x), (Nat.min_comm y x), (Nat.max_comm y x). Qed.
Lemma apart2_sym n qs x y : apart2 n qs x y = apart2 n qs y x.
Proof. unfold apart2. now rewrite apart_sym. Qed.
Lemma between_some n qs x y : x < n -> y < n -> x <> y -> length qs = n * (n - 1) / 2 ->
  between rational n (map Some qs) x y = Some (apart n qs x y).
Proof.
  intros HX HY N L. unfold between, apart. replace (x =? y) with false by lia.
  rewrite (nth_indep _ (infinity rational) (Some 0%Q)); [apply (map_nth Some qs 0%Q)|].
  rewrite map_length, L. apply condensed_range; lia.
Qed.
Lemma some_finite (qs : list Q) d : In d (map Some qs) -> finite rational d.
Proof. intros H. apply in_map_iff in H. destruct H as (q & <- & _). reflexivity. Qed.
Lemma one_apart d x y : (across d [x] [y] == d x y)%Q.
Proof. unfold across, total. cbn. lra. Qed.

(** Average linkage. *)
Lemma average_closed d : (forall x y, d x y = d y x) -> closed rational (update_average rational) (exactly (mean_cost d)).
Proof.
  intros SYM. split.
  - intros ma mb mk [u|] [v|] dd NA NB NK FU FV; try easy. split; [reflexivity|]. intros (u' & EU & QU) (v' & EV & QV). injection EU as <-. injection EV as <-.
    eexists. split; [reflexivity|]. unfold mean_cost in *. rewrite QU, QV, across_app_l, app_length, !qnum_add.
    pose proof (qnum_some ma NA). pose proof (qnum_some mb NB). pose proof (qnum_some mk NK). field. repeat split; lra.
  - intros ms ms' v (q & -> & E). exists q. split; auto. rewrite E. unfold mean_cost. rewrite (across_sym d SYM), (Qmult_comm (qnum (length ms))). reflexivity.
Qed.
Lemma average_run n qs : length qs = n * (n - 1) / 2 -> 1 <= n ->
  agglomerated (exactly (mean_cost (apart n qs))) (singletons n) n (linkage_generic rational (update_average rational) (map Some qs) n).
Proof.
  intros L N. destruct (generic_run rational (update_average rational) (exactly (mean_cost (apart n qs))) n (map Some qs)) as (_ & A); auto.
  - apply average_closed. apply apart_sym.
  - intros i j HI HJ NE. eexists. split; [now apply between_some|]. unfold mean_cost. rewrite one_apart. change (qnum (length [i])) with 1%Q. change (qnum (length [j])) with 1%Q. field.
  - apply some_finite.
  - rewrite map_length. exact L.
  - apply A; [apply rational_order|apply exactly_same].
Qed.

(** Ward linkage. *)
Lemma ward_cost_closed d : (forall x y, d x y = d y x) -> ward_closed rational (exactly (ward_cost d)).
Proof.
  intros SYM. split; [|split].
  - intros ma mb mk u v dd NA NB NK (qu & -> & EU) (qv & -> & EV) (qd & -> & ED). destruct (ward_update d SYM ma mb mk qu qv qd NA NB NK EU EV ED) as (q & E & Q). exists q. auto.
  - intros ms ms' v (q & -> & E). exists q. split; auto. rewrite E. now apply ward_cost_sym.
  - intros ma mb mk v (q & -> & E). exists q. split; auto. rewrite E. now apply ward_cost_swap.
Qed.
Lemma ward_run n qs : length qs = n * (n - 1) / 2 -> 1 <= n ->
  exists rows, (forall fuel, n * n + 2 <= fuel -> linkage_ward rational fuel (map Some qs) n = Some (Ok rows)) /\
    reciprocal (exactly (ward_cost (apart2 n qs))) (singletons n) n rows.
Proof.
  intros L N. apply ward_reciprocal; auto.
  - apply rational_order.
  - apply rational_reducible.
  - apply ward_cost_closed. apply apart2_sym.
  - apply exactly_same.
  - intros i j HI HJ NE. rewrite between_some by auto. eexists. split; [reflexivity|]. unfold ward_cost. rewrite !one_apart.
    unfold apart2, apart. rewrite !Nat.eqb_refl. replace (i =? j) with false by lia. change (qnum (length [i])) with 1%Q. change (qnum (length [j])) with 1%Q. field.
  - intros d H. apply in_map_iff in H. destruct H as (q & <- & _). reflexivity.
  - rewrite map_length. exact L.
Qed.
(** The cost is the squared distance of the centroids, scaled by the sizes. *)
Lemma across_coords coords a b : (across (euclid2 coords) a b == total (fun c => across (fun x y => (c x - c y) * (c x - c y))%Q a b) coords)%Q.
Proof.
  unfold across, euclid2. symmetry. etransitivity; [apply total_swap|]. apply total_ext. intros x _. apply total_swap.
Qed.
Lemma across_one c a b : (across (fun x y => (c x - c y) * (c x - c y)) a b ==
  qnum (length b) * total (fun x => c x * c x) a + qnum (length a) * total (fun x => c x * c x) b - 2 * total c a * total c b)%Q.
Proof.
  unfold across.
  assert (E : forall x, (total (fun y => (c x - c y) * (c x - c y)) b == qnum (length b) * (c x * c x) + (total (fun y => c y * c y) b + (- (2) * total c b) * c x))%Q).
  { intros x. rewrite (total_ext _ (fun y => c x * c x + (c y * c y + (-(2) * c x) * c y))%Q) by (intros; ring).
    rewrite !total_plus, total_const, total_scale. ring. }
  rewrite (total_ext _ _ a (fun x _ => E x)). rewrite !total_plus, !total_scale, total_const. ring.
Qed.
Lemma ward_means coords a b : a <> [] -> b <> [] ->
  (ward_cost (euclid2 coords) a b == 2 * qnum (length a) * qnum (length b) / (qnum (length a) + qnum (length b)) *
     total (fun c => (centroid c a - centroid c b) * (centroid c a - centroid c b)) coords)%Q.
Proof.
  intros NA NB. pose proof (qnum_some a NA). pose proof (qnum_some b NB). unfold ward_cost. rewrite !across_coords. unfold centroid.
  induction coords as [|c coords IH]; [cbn; field; repeat split; lra|].
  rewrite !total_cons, !across_one.
  set (na := qnum (length a)) in *. set (nb := qnum (length b)) in *.
  rewrite Qmult_plus_distr_r. rewrite <- IH. field. repeat split; lra.
Qed.

(** Weighted linkage. *)
Lemma weighted_app_l d a b k : (weighted_cost d (a ++ b) k == weighted_cost d a k + weighted_cost d b k)%Q.
Proof. apply total_app. Qed.
Lemma weighted_halves d a k : (weighted_cost d (halves a) k == weighted_cost d a k / 2)%Q.
Proof.
  unfold weighted_cost, halves. rewrite total_map.
  rewrite (total_ext _ (fun p => (1 # 2) * total (fun p' => snd p * snd p' * d (fst p) (fst p')) k)%Q).
  - rewrite total_scale. field.
  - intros p _. rewrite <- total_scale. apply total_ext. intros p' _. cbn [fst snd]. field.
Qed.
Lemma weighted_sym d a b : (forall x y, d x y = d y x) -> (weighted_cost d a b == weighted_cost d b a)%Q.
Proof.
  intros SYM. unfold weighted_cost. rewrite total_swap. apply total_ext. intros x _. apply total_ext. intros y _. rewrite (SYM (fst y)). ring.
Qed.
Definition names (W : list weighed) : list block := map (fun e => (fst e, map fst (snd e))) W.
Lemma names_in W c ms : In (c, ms) W -> In (c, map fst ms) (names W).
Proof. intros H. apply in_map_iff. exists (c, ms). auto. Qed.
Lemma names_others a b W : names (others a b W) = without a b (names W).
Proof. unfold names, others, without. induction W as [|e W IH]; [reflexivity|]. cbn. destruct (negb (fst e =? a) && negb (fst e =? b)); cbn; now rewrite IH. Qed.
Lemma names_halves a b : map fst (halves (a ++ b)) = map fst a ++ map fst b.
Proof. unfold halves. rewrite map_map, <- map_app. reflexivity. Qed.
Lemma in_names W c ms : In (c, ms) (names W) -> exists wms, In (c, wms) W /\ ms = map fst wms.
Proof. intros H. apply in_map_iff in H. destruct H as ((c' & wms) & E & H). injection E as <- <-. eauto. Qed.
Notation sound := (ginv rational (fun _ _ _ => True)).
Definition weighs (d : nat -> nat -> Q) (W : list weighed) (s : generic_state rational) : Prop :=
  forall a ma b mb, In (a, ma) W -> In (b, mb) W -> a <> b -> exists q, g_dist s a b = Some q /\ (q == weighted_cost d ma mb)%Q.
Lemma weighted_rows n d k : (forall x y, d x y = d y x) -> forall W s, sound n (names W) s -> weighs d W s -> length W = S k ->
  exists rows, g_rows (Nat.iter k (generic_step rational (update_weighted rational)) s) = g_rows s ++ rows /\ halved d W (g_next s) rows.
Proof.
  intros SYM. induction k as [|k IH]; intros W s I T LW.
  - exists []. rewrite app_nil_r. split; auto. constructor. lia.
  - assert (LN : length (names W) = S (S k)) by (unfold names; rewrite map_length; exact LW).
    destruct (step_generic rational (update_weighted rational) (fun _ _ _ => True) n (names W) s (mean_closed _ _ rational_weighted) I)
      as (a & b & ma' & mb' & dd & HA' & HB' & LAB & EC & ED & ER & EN & OLD & NEW & I'); [lia|].
    destruct (step_ok n (g_next s) (names W) a b ma' mb' (g_blocks _ _ _ _ _ I) HA' HB' LAB) as (_ & Lb).
    destruct (in_names W a ma' HA') as (ma & HA & ->). destruct (in_names W b mb' HB') as (mb & HB & ->). rewrite !map_length in *.
    rewrite <- names_halves, <- names_others in I'. change ((g_next s, map fst (halves (ma ++ mb))) :: names (others a b W)) with (names ((g_next s, halves (ma ++ mb)) :: others a b W)) in I'.
    assert (LOW : forall c mc, In (c, mc) W -> c < g_next s /\ g_active s c = true) by (intros c mc HC; apply (block_active rational _ n (names W) s c (map fst mc) I); now apply names_in).
    assert (OUT : forall c mc, In (c, mc) (others a b W) -> In (c, mc) W /\ c <> a /\ c <> b).
    { intros c mc HC. apply filter_In in HC. destruct HC as (HC & Q). cbn in Q. split; auto. lia. }
    assert (FRESH : forall c mc, In (c, mc) (others a b W) -> exists q, g_dist (generic_step rational (update_weighted rational) s) (g_next s) c = Some q /\
       g_dist (generic_step rational (update_weighted rational) s) c (g_next s) = Some q /\ (q == weighted_cost d (halves (ma ++ mb)) mc)%Q).
    { intros c mc HC. destruct (OUT c mc HC) as (HC' & NA & NB).
      destruct (NEW c (map fst mc)) as (E1 & E2); [rewrite <- names_others; now apply names_in|]. rewrite E1, E2.
      destruct (T a ma c mc HA HC') as (u & -> & QU); [auto|]. destruct (T b mb c mc HB HC') as (v & -> & QV); [auto|].
      eexists. split; [reflexivity|]. split; [reflexivity|]. rewrite weighted_halves, weighted_app_l, QU, QV. reflexivity. }
    assert (T1 : weighs d ((g_next s, halves (ma ++ mb)) :: others a b W) (generic_step rational (update_weighted rational) s)).
    { intros c mc e me HC HE N. destruct HC as [HC|HC], HE as [HE|HE].
      - congruence.
      - injection HC as <- <-. destruct (FRESH e me HE) as (q & E1 & _ & E2). eauto.
      - injection HE as <- <-. destruct (FRESH c mc HC) as (q & _ & E1 & E2). exists q. split; auto. rewrite E2. now apply weighted_sym.
      - destruct (OUT c mc HC) as (HC' & _), (OUT e me HE) as (HE' & _). rewrite OLD by (now apply (LOW _ _ HC') + now apply (LOW _ _ HE')). now apply T. }
    assert (LO : length (others a b W) = k) by (rewrite <- names_others in Lb; unfold names in Lb; cbn [length] in Lb; rewrite !map_length in Lb; lia).
    destruct (IH _ _ I' T1) as (rows & E1 & E2); [cbn; lia|].
    destruct (T a ma b mb HA HB) as (q & EQ & QQ); [lia|]. rewrite EQ in ED. subst dd.
    eexists. split; [rewrite iter_tail, E1, ER, <- app_assoc; reflexivity|]. rewrite EN in E2. cbn [app].
    econstructor; eauto. intros c mc e me HC HE N. destruct (T c mc e me HC HE N) as (q' & EQ' & QQ').
    rewrite <- QQ'. apply qle_some. rewrite <- EQ'. replace (Some q) with (snd (closest rational s)) by (now rewrite EC).
    destruct (LOW c mc HC), (LOW e me HE). destruct (Nat.lt_ge_cases c e).
    + apply closest_least; auto. apply rational_order.
    + rewrite (g_sym _ _ _ _ _ I c (map fst mc) e (map fst me)) by (auto; now apply names_in). apply closest_least; auto; [apply rational_order|lia].
Qed.
Lemma weighted_run n qs : length qs = n * (n - 1) / 2 -> 1 <= n ->
  halved (apart n qs) (own_weight n) n (linkage_generic rational (update_weighted rational) (map Some qs) n).
Proof.
  intros L N. destruct (weighted_rows n (apart n qs) (n - 1) (apart_sym n qs) (own_weight n) (generic_start rational (map Some qs) n)) as (rows & E & H).
  - replace (names (own_weight n)) with (singletons n) by (unfold names, own_weight, singletons; rewrite map_map; reflexivity).
    apply start_generic; auto; [apply some_finite|]. rewrite map_length. exact L.
  - intros a ma b mb HA HB NE. apply in_map_iff in HA, HB. destruct HA as (i & EA & HA), HB as (j & EB & HB). injection EA as <- <-. injection EB as <- <-.
    apply in_seq in HA, HB. exists (apart n qs i j). split; [|unfold weighted_cost, total; cbn; lra].
    rewrite <- between_some by (auto; lia). cbn. unfold initial, between. replace ((i <? n) && (j <? n)) with true by lia. replace (i =? j) with false by lia. reflexivity.
  - unfold own_weight. rewrite map_length, seq_length. lia.
  - unfold linkage_generic. rewrite E. exact H.
Qed.
