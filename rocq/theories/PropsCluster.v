(** C67-C72: hierarchical clustering and token pooling. *)
From Coq Require Import QArith ZArith SpecFloat Sorted.
From Verif Require Import Base Cluster ClusterSpec ClusterIndex ClusterFlat ClusterWard ClusterEnd ClusterGeneric ClusterMethods ClusterPool ClusterExact ClusterFloat ClusterExactSpec ClusterReciprocal ClusterLinkage.
Open Scope nat_scope.

(** * C67: the linkage matrix is a tree *)
(** Ward, whatever the arithmetic: when the call returns, its rows are those of a tree. *)
Theorem C67_ward_tree : forall R fuel distances n rows, 1 <= n ->
  linkage R fuel distances n Ward = Some (Ok rows) -> dendrogram n rows.
Proof.
  intros R fuel distances n rows N H. unfold linkage in H. destruct (n <=? 1) eqn:Q.
  - injection H as <-. split; [cbn; lia|]. exists (singletons n). constructor.
  - destruct (negb _); [discriminate|]. now apply ward_tree in H.
Qed.
Print Assumptions C67_ward_tree.
(** The other methods return, with a tree, when averages of finite distances are finite. *)
Lemma single_returns R fuel distances n : 1 < n -> length distances = n * (n - 1) / 2 ->
  linkage R fuel distances n Single = Some (Ok (linkage_generic R (update_single R) distances n)) /\
  linkage R fuel distances n Complete = Some (Ok (linkage_generic R (update_complete R) distances n)) /\
  linkage R fuel distances n Average = Some (Ok (linkage_generic R (update_average R) distances n)) /\
  linkage R fuel distances n Weighted = Some (Ok (linkage_generic R (update_weighted R) distances n)).
Proof. intros N L. unfold linkage. replace (n <=? 1) with false by lia. rewrite L, Nat.eqb_refl. auto. Qed.
Theorem C67_other_trees : forall R fuel distances n m, good_order R -> good_min R -> good_max R ->
  good_mean R (update_average R) -> good_mean R (update_weighted R) -> m <> Ward ->
  1 < n -> length distances = n * (n - 1) / 2 -> (forall d, In d distances -> finite R d) ->
  exists rows, linkage R fuel distances n m = Some (Ok rows) /\ dendrogram n rows /\ ascending rows.
Proof.
  intros R fuel distances n m G MI MA AV WE NW N L F. destruct (single_returns R fuel distances n N L) as (E1 & E2 & E3 & E4).
  destruct m; [contradiction| | | |]; eexists; (split; [eassumption|]); apply generic_ascends; auto; try lia.
  - now apply single_mean.
  - now apply complete_mean.
Qed.
Print Assumptions C67_other_trees.
Theorem C67_wrong_length : forall R fuel distances n m, 1 < n -> length distances <> n * (n - 1) / 2 -> linkage R fuel distances n m = Some Panic.
Proof. intros R fuel distances n m N L. unfold linkage. replace (n <=? 1) with false by lia. now replace (length distances =? n * (n - 1) / 2) with false by lia. Qed.
Print Assumptions C67_wrong_length.
(** A distance that is not a number: the rows join cluster 0 with itself. *)
Definition pairs_of {R} (r : option (res (list (joint R)))) : list (nat * nat) :=
  match r with Some (Ok rows) => map (fun j => (j_a j, j_b j)) rows | _ => [] end.
Theorem C67_not_a_number_refuted : exists distances, length distances = 3 /\
  pairs_of (linkage double 0 distances 3 Single) = [(0, 1); (0, 0)].
Proof. exists [whole 53 1024 1; S754_nan; S754_nan]. split; [reflexivity|]. vm_compute. reflexivity. Qed.
Print Assumptions C67_not_a_number_refuted.
Definition five : list (num double) := map (whole 53 1024) [5; 100; 100; 100; 100; 1].
Example C67_example : length five = 4 * (4 - 1) / 2 /\
  pairs_of (linkage double 18 five 4 Ward) = [(0, 1); (2, 3); (4, 5)] /\ pairs_of (linkage double 0 five 4 Single) = [(2, 3); (0, 1); (4, 5)].
Proof. repeat split; vm_compute; reflexivity. Qed.
Example C67_laws : good_order rational /\ good_min rational /\ good_max rational /\ good_mean rational (update_average rational) /\ good_mean rational (update_weighted rational).
Proof. exact (conj rational_order (conj rational_min (conj rational_max (conj rational_average rational_weighted)))). Qed.

(** * C68: Ward linkage and pooling end *)
(** In exact arithmetic; the full statement, for binary64, is refuted below. *)
Theorem C68_ward_ends_partial : forall R distances n, good_order R -> reducible R ->
  length distances = n * (n - 1) / 2 -> (forall d, In d distances -> finite R (mul R d d)) ->
  exists rows, forall fuel, n * n + 2 <= fuel -> linkage R fuel distances n Ward = Some (Ok rows).
Proof.
  intros R distances n G RED L F. unfold linkage. destruct (n <=? 1) eqn:Q; [exists []; auto|].
  rewrite L, Nat.eqb_refl. cbn [negb]. apply ward_ends; auto; [intros; now apply condensed_range|lia].
Qed.
Print Assumptions C68_ward_ends_partial.
Theorem C68_pooling_ends_partial : forall R (K : cell R) width rows pool_factor protected, good_order R -> reducible R -> 1 <= pool_factor ->
  (forall d, In d (pdist R (map (map (widen K)) (skipn protected rows))) -> finite R (mul R d d)) ->
  exists out, forall fuel, length rows * length rows + 2 <= fuel -> pool R K fuel width rows pool_factor protected = Some (Ok out).
Proof. exact pool_ends. Qed.
Print Assumptions C68_pooling_ends_partial.
(** Binary64: twelve finite token embeddings, exact in binary32, whose pooling runs for ever. *)
Definition finite_value (x : spec_float) : Prop := match x with S754_finite _ _ _ => True | S754_zero _ => True | _ => False end.
Theorem C68_pooling_ends_refuted : exists rows,
  length rows = 12 /\ Forall (fun r => length r = 12) rows /\
  (forall r x, In r rows -> In x r -> finite_value x) /\
  forall fuel, pool double float fuel 12 rows 2 1 = None.
Proof.
  exists endless. split; [reflexivity|]. split; [vm_compute; repeat constructor|]. split; [|exact endless_pool].
  assert (E : forallb (forallb (fun x => match x with S754_finite _ _ _ => true | S754_zero _ => true | _ => false end)) endless = true) by (vm_compute; reflexivity).
  intros r x HR HX. rewrite forallb_forall in E. specialize (E r HR). rewrite forallb_forall in E. specialize (E x HX). destruct x; cbn; auto; discriminate.
Qed.
Print Assumptions C68_pooling_ends_refuted.
(** Binary64: an infinite component makes pooling panic. *)
Theorem C68_infinite_component_refuted : exists rows, length rows = 4 /\ forall fuel, pool double float (S fuel) 1 rows 2 1 = Some Panic.
Proof. exists spoiled. split; [reflexivity|exact spoiled_pool]. Qed.
Print Assumptions C68_infinite_component_refuted.
Example C68_example : good_order rational /\ reducible rational /\
  pairs_of (linkage rational 27 (map (fun n => Some (qnum n)) [4; 9; 3; 8; 7; 2; 6; 5; 9; 1]) 5 Ward) = [(3, 4); (0, 1); (5, 6); (2, 7)].
Proof. split; [exact rational_order|]. split; [exact rational_reducible|]. vm_compute. reflexivity. Qed.

(** * C69: flat clusters by number *)
(** Asked for fewer clusters than observations, the call undoes the last merges: it returns exactly
    that many clusters, numbered from 1, and two observations share a number exactly when the
    remaining merges join them. *)
Theorem C69_number_of_clusters : forall R n (rows : list (joint R)) k, dendrogram n rows -> 1 <= k -> k < n ->
  exists B ls, fcluster_maxclust rows n k = Ok ls /\ cut n rows (n - k) B /\ length B = k /\ labels n k B ls.
Proof. intros R n rows k. exact (maxclust_spec n rows k). Qed.
Print Assumptions C69_number_of_clusters.
Theorem C69_extremes : forall R n (rows : list (joint R)) k,
  (n <= k -> fcluster_maxclust rows n k = Ok (seq 1 n)) /\ (1 <= n -> fcluster_maxclust rows n 0 = Ok (repeat 1 n)).
Proof.
  intros R n rows k. unfold fcluster_maxclust. split; intros H; [now replace (n <=? k) with true by lia|]. now replace (n <=? 0) with false by lia.
Qed.
Print Assumptions C69_extremes.
(** Ward's rows come in the order the chain finds them: the merges that are kept need not be the
    closest ones. *)
Definition cut_into (k : nat) (r : option (res (list (joint double)))) : res (list nat) :=
  match r with Some (Ok rows) => fcluster_maxclust rows 4 k | _ => Panic end.
Theorem C69_closest_first_refuted : exists (distances : list (num double)) ls,
  cut_into 3 (linkage double 18 distances 4 Ward) = Ok ls /\ length distances = 6 /\
  (forall x y, x < y -> y < 4 -> (x, y) <> (2, 3) -> lt double (between double 4 distances 2 3) (between double 4 distances x y) = true) /\
  nth 0 ls 0 = nth 1 ls 0 /\ nth 2 ls 0 <> nth 3 ls 0.
Proof.
  exists five, [1; 1; 2; 3]. split; [vm_compute; reflexivity|]. split; [reflexivity|]. split; [|split; [reflexivity|discriminate]].
  assert (E : forallb (fun p => (fst p =? 2) && (snd p =? 3) || negb (fst p <? snd p) || SFltb (between double 4 five 2 3) (between double 4 five (fst p) (snd p)))
               (list_prod (seq 0 4) (seq 0 4)) = true) by (vm_compute; reflexivity).
  intros x y L LY N. rewrite forallb_forall in E. specialize (E (x, y)). cbn [fst snd] in E.
  assert (I : In (x, y) (list_prod (seq 0 4) (seq 0 4))) by (apply in_prod; apply in_seq; lia). specialize (E I).
  replace (x <? y) with true in E by lia. replace ((x =? 2) && (y =? 3)) with false in E; [exact E|].
  symmetry. apply Bool.andb_false_iff. destruct (Nat.eq_dec x 2) as [->|]; [right; apply Nat.eqb_neq; congruence|left; now apply Nat.eqb_neq].
Qed.
Print Assumptions C69_closest_first_refuted.
Example C69_example : cut_into 2 (linkage double 18 five 4 Ward) = Ok [1; 1; 2; 2] /\ cut_into 3 (linkage double 0 five 4 Single) = Ok [1; 2; 3; 3].
Proof. split; vm_compute; reflexivity. Qed.

(** * C70: single and complete linkage; cutting at a distance *)
(** Every row joins two clusters at the smallest distance between any two of the present clusters,
    where the distance of clusters is that of their closest, or farthest, members. *)
Theorem C70_single_closest : forall R fuel distances n, good_order R -> good_min R -> 1 < n ->
  length distances = n * (n - 1) / 2 -> (forall d, In d distances -> finite R d) ->
  exists rows, linkage R fuel distances n Single = Some (Ok rows) /\
    agglomerated (single_distance (between R n distances)) (singletons n) n rows.
Proof.
  intros R fuel distances n G M N L F. destruct (single_returns R fuel distances n N L) as (E & _). eexists. split; [exact E|]. apply single_run; auto. lia.
Qed.
Print Assumptions C70_single_closest.
Theorem C70_complete_closest : forall R fuel distances n, good_order R -> good_max R -> 1 < n ->
  length distances = n * (n - 1) / 2 -> (forall d, In d distances -> finite R d) ->
  exists rows, linkage R fuel distances n Complete = Some (Ok rows) /\
    agglomerated (complete_distance (between R n distances)) (singletons n) n rows.
Proof.
  intros R fuel distances n G M N L F. destruct (single_returns R fuel distances n N L) as (_ & E & _). eexists. split; [exact E|]. apply complete_run; auto. lia.
Qed.
Print Assumptions C70_complete_closest.
(** In exact arithmetic, average linkage joins clusters at the smallest mean distance of their
    members. *)
Theorem C70_average_mean : forall fuel n qs, 1 < n -> length qs = n * (n - 1) / 2 ->
  exists rows, linkage rational fuel (map Some qs) n Average = Some (Ok rows) /\
    agglomerated (exactly (mean_cost (apart n qs))) (singletons n) n rows.
Proof.
  intros fuel n qs N L. destruct (single_returns rational fuel (map Some qs) n N) as (_ & _ & E & _); [now rewrite map_length|].
  eexists. split; [exact E|]. apply average_run; auto. lia.
Qed.
Print Assumptions C70_average_mean.
(** Weighted linkage joins clusters at the smallest weighted distance; the parts of a cluster count
    one half each, whatever their sizes. *)
Theorem C70_weighted_halves : forall fuel n qs, 1 < n -> length qs = n * (n - 1) / 2 ->
  exists rows, linkage rational fuel (map Some qs) n Weighted = Some (Ok rows) /\ halved (apart n qs) (own_weight n) n rows.
Proof.
  intros fuel n qs N L. destruct (single_returns rational fuel (map Some qs) n N) as (_ & _ & _ & E); [now rewrite map_length|].
  eexists. split; [exact E|]. apply weighted_run; auto. lia.
Qed.
Print Assumptions C70_weighted_halves.
(** Ward linkage joins clusters that are nearest neighbours of each other under Ward's cost. *)
Theorem C70_ward_reciprocal : forall fuel n qs, 1 < n -> length qs = n * (n - 1) / 2 -> n * n + 2 <= fuel ->
  exists rows, linkage rational fuel (map Some qs) n Ward = Some (Ok rows) /\
    reciprocal (exactly (ward_cost (apart2 n qs))) (singletons n) n rows.
Proof.
  intros fuel n qs N L FU. destruct (ward_run n qs L) as (rows & E & H); [lia|]. exists rows. split; [|exact H].
  unfold linkage. replace (n <=? 1) with false by lia. rewrite map_length, L, Nat.eqb_refl. cbn [negb]. now apply E.
Qed.
Print Assumptions C70_ward_reciprocal.
(** Of Euclidean distances, Ward's cost is the squared distance of the centroids times
    [2 a b / (a + b)] for clusters of [a] and [b] members. *)
Theorem C70_ward_means : forall coords a b, a <> [] -> b <> [] ->
  (ward_cost (euclid2 coords) a b == 2 * qnum (length a) * qnum (length b) / (qnum (length a) + qnum (length b)) *
     total (fun c => (centroid c a - centroid c b) * (centroid c a - centroid c b)) coords)%Q.
Proof. exact ward_means. Qed.
Print Assumptions C70_ward_means.
(** Four points: the first two are the closest, then comes the third. *)
Definition four : list Q := [1; 4; 20; 8; 20; 32]%Q.
Definition heights (r : option (res (list (joint rational)))) : list (option Q) :=
  match r with Some (Ok rows) => map (fun x : joint rational => option_map Qred (j_dist x)) rows | _ => [] end.
Example C70_exact_example :
  heights (linkage rational 18 (map Some four) 4 Average) = [Some 1; Some 6; Some 24]%Q /\
  heights (linkage rational 18 (map Some four) 4 Weighted) = [Some 1; Some 6; Some 26]%Q /\
  heights (linkage rational 18 (map Some four) 4 Ward) = [Some 1; Some 53; Some (1797 # 2)]%Q /\
  Qred (ward_cost (apart2 4 four) [0; 1] [2]) = 53%Q.
Proof. repeat split; vm_compute; reflexivity. Qed.
(** Cutting at a distance keeps exactly the merges up to that distance, when rows come in order. *)
Theorem C70_cut_at_distance : forall R n rows t, good_order R -> 1 <= n -> dendrogram n rows -> ascending rows ->
  exists count B ls, fcluster_distance (fun x y => negb (lt R y x)) rows n t = Ok ls /\
    (forall i r, nth_error rows i = Some r -> (i < count <-> le R (j_dist r) t)) /\
    count <= length rows /\ cut n rows count B /\ length B = n - count /\ labels n (n - count) B ls.
Proof. intros R n rows t G. exact (distance_cut R G n rows t). Qed.
Print Assumptions C70_cut_at_distance.
(** Single linkage cut at a distance: two observations share a cluster exactly when they are
    connected by steps of at most that distance. *)
Theorem C70_connected_components : forall R fuel distances n t, good_order R -> good_min R -> 1 < n ->
  length distances = n * (n - 1) / 2 -> (forall d, In d distances -> finite R d) ->
  exists rows ls, linkage R fuel distances n Single = Some (Ok rows) /\
    fcluster_distance (fun x y => negb (lt R y x)) rows n t = Ok ls /\ length ls = n /\
    forall x y, x < n -> y < n -> (nth x ls 0 = nth y ls 0 <-> connected n (between R n distances) t x y).
Proof.
  intros R fuel distances n t G M N L F. destruct (single_returns R fuel distances n N L) as (E & _).
  destruct (single_cut R G M n distances t) as (ls & H); auto; [lia|]. eexists. exists ls. split; [exact E|exact H].
Qed.
Print Assumptions C70_connected_components.
(** Ward's rows are not in order: a merge below the threshold is lost. *)
Definition cut_below (t : nat) (r : option (res (list (joint double)))) : res (list nat) :=
  match r with Some (Ok rows) => @fcluster_distance double SFleb rows 4 (whole 53 1024 t) | _ => Panic end.
Theorem C70_ward_cut_refuted : exists (distances : list (num double)) ls,
  cut_below 2 (linkage double 18 distances 4 Ward) = Ok ls /\ lt double (between double 4 distances 2 3) (whole 53 1024 2) = true /\
  (forall x y, x < y -> y < 4 -> nth x ls 0 <> nth y ls 0).
Proof.
  exists five, [1; 2; 3; 4]. split; [vm_compute; reflexivity|]. split; [vm_compute; reflexivity|].
  intros x y L LY. destruct x as [|[|[|x]]], y as [|[|[|[|y]]]]; try lia; discriminate.
Qed.
Print Assumptions C70_ward_cut_refuted.
Example C70_example : cut_below 2 (linkage double 0 five 4 Single) = Ok [1; 2; 3; 3] /\ cut_below 6 (linkage double 0 five 4 Single) = Ok [1; 1; 2; 2].
Proof. split; vm_compute; reflexivity. Qed.

(** * C71: the condensed distance matrix *)
(** One entry for every pair, at the index the linkage reads. *)
Theorem C71_condensed_entry : forall A n (f : nat -> nat -> A) i j d, i < j -> j < n ->
  nth (condensed_index n i j) (condensed n f) d = f i j.
Proof. intros A. exact (@condensed_entry A). Qed.
Print Assumptions C71_condensed_entry.
Theorem C71_condensed_length : forall A n (f : nat -> nat -> A), length (condensed n f) = n * (n - 1) / 2.
Proof. intros A. exact (@condensed_length A). Qed.
Print Assumptions C71_condensed_length.
(** The cosine distances of rows are the distances the linkage works with, and are never refused. *)
Theorem C71_cosine_distances : forall R rows,
  length (pdist R rows) = length rows * (length rows - 1) / 2 /\
  forall x y, x < y -> y < length rows -> between R (length rows) (pdist R rows) x y = cosine_distance R (nth x rows []) (nth y rows []).
Proof.
  intros R rows. unfold pdist. split; [apply condensed_length|]. intros x y L LY. unfold between. rewrite Nat.min_l, Nat.max_r by lia.
  exact (condensed_entry (length rows) (fun i j => cosine_distance R (nth i rows []) (nth j rows [])) x y (infinity R) L LY).
Qed.
Print Assumptions C71_cosine_distances.
Example C71_example : condensed 4 (fun i j => (i, j)) = [(0, 1); (0, 2); (0, 3); (1, 2); (1, 3); (2, 3)] /\ condensed_index 4 1 3 = 4.
Proof. split; reflexivity. Qed.

(** * C72: token pooling *)
(** Whatever the arithmetic, when pooling returns: the first rows are unchanged, the others are
    divided into [max (t / pool_factor) 1] groups, none empty, and replaced by the means of the
    groups; a matrix that is already small enough is unchanged. *)
Theorem C72_pooled_groups : forall R (K : cell R) fuel width rows pool_factor protected out,
  1 <= pool_factor -> Forall (fun r => length r = width) rows ->
  pool R K fuel width rows pool_factor protected = Some (Ok out) ->
  let k := Nat.max ((length rows - protected) / pool_factor) 1 in
  (length rows <= protected + k -> out = rows) /\ (protected + k < length rows -> pooled K width protected k rows out).
Proof. exact pool_groups. Qed.
Print Assumptions C72_pooled_groups.
(** The number of rows of a pooled document. *)
Theorem C72_pooled_count : forall R (K : cell R) fuel width rows pool_factor protected out,
  1 <= pool_factor -> Forall (fun r => length r = width) rows ->
  pool R K fuel width rows pool_factor protected = Some (Ok out) ->
  length out = Nat.min (length rows) (protected + Nat.max ((length rows - protected) / pool_factor) 1).
Proof.
  intros R K fuel width rows pf pr out PF W H. destruct (pool_groups R K fuel width rows pf pr out PF W H) as (A & B). set (k := Nat.max _ 1) in *.
  destruct (Nat.le_gt_cases (length rows) (pr + k)) as [L|L]; [rewrite (A L); lia|].
  destruct (B L) as (groups & E & _ & _ & ->). rewrite app_length, map_length, firstn_length, E. lia.
Qed.
Print Assumptions C72_pooled_count.
(** Documents are pooled one by one, and keep their places. *)
Theorem C72_documents : forall R (K : cell R) fuel width docs pool_factor out,
  pool_documents R K fuel width docs pool_factor = Some (Ok out) ->
  match pool_factor with
  | Some pf => if 1 <? pf then Forall2 (fun d o => pool R K fuel width d pf 1 = Some (Ok o)) docs out else out = docs
  | None => out = docs
  end.
Proof.
  intros R K fuel width docs [pf|] out H; unfold pool_documents in H; [|congruence]. destruct (1 <? pf); [|congruence]. now apply gather_spec.
Qed.
Print Assumptions C72_documents.
(** The groups are not the closest tokens: four equal tokens end in two groups while two different
    ones are merged. *)
Definition same_rows (a b : list spec_float) : bool := forallb (fun p => SFeqb (fst p) (snd p)) (combine a b).
Theorem C72_equal_tokens_refuted : exists rows, length rows = 7 /\
  nth 3 rows [] = nth 4 rows [] /\ nth 4 rows [] = nth 5 rows [] /\ nth 5 rows [] = nth 6 rows [] /\ nth 1 rows [] <> nth 2 rows [] /\
  match pool double float 40 3 rows 2 1 with
  | Some (Ok [_; a; b; c]) => same_rows a (mean float 3 [nth 1 rows []; nth 2 rows []]) && same_rows b (nth 3 rows []) && same_rows c (nth 3 rows [])
  | _ => false
  end = true.
Proof. exists mixed. repeat split; try (vm_compute; reflexivity). vm_compute. discriminate. Qed.
Print Assumptions C72_equal_tokens_refuted.
Example C72_example : match pool double float 40 3 mixed 3 1 with Some (Ok out) => length out | _ => 0 end = 3.
Proof. vm_compute. reflexivity. Qed.
