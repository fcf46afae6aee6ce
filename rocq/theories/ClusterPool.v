(** Flat clusters and pooling. *)
From Verif Require Import Base Cluster ClusterSpec ClusterUF ClusterFlat ClusterWard ClusterIndex ClusterEnd.
Open Scope nat_scope.

Lemma maxclust_spec {R} n (rows : list (joint R)) k : dendrogram n rows -> 1 <= k -> k < n ->
  exists B ls, fcluster_maxclust rows n k = Ok ls /\ cut n rows (n - k) B /\ length B = k /\ labels n k B ls.
Proof.
  intros (L & B0 & J) K N. destruct (joined_prefix rows _ _ _ (n - k) J) as (B & JB).
  destruct (flat_spec n rows (n - k) B) as (LB & ls & E & LS); auto; try lia.
  exists B, ls. unfold fcluster_maxclust. replace (n <=? k) with false by lia. replace (k =? 0) with false by lia.
  replace (n - (n - k)) with k in * by lia. split; [exact E|]. split; [exact JB|]. split; [exact LB|exact LS].
Qed.
Lemma classes_perm {A} (f : A -> nat) (l : list A) k :
  Permutation (concat (map (fun c => filter (fun x => f x =? c) l) (seq 0 k))) (filter (fun x => f x <? k) l).
Proof.
  induction k as [|k IH].
  - cbn. induction l as [|x l IHl]; auto.
  - rewrite seq_S, map_app, concat_app, IH. cbn [map concat Nat.add]. rewrite app_nil_r. clear IH. induction l as [|x l IH]; auto. cbn [filter].
    destruct (Nat.lt_trichotomy (f x) k) as [H|[H|H]].
    + replace (f x <? k) with true by lia. replace (f x =? k) with false by lia. replace (f x <? S k) with true by lia. cbn [app]. now rewrite IH.
    + replace (f x <? k) with false by lia. replace (f x =? k) with true by lia. replace (f x <? S k) with true by lia.
      rewrite <- IH. symmetry. apply Permutation_middle.
    + replace (f x <? k) with false by lia. replace (f x =? k) with false by lia. replace (f x <? S k) with false by lia. exact IH.
Qed.
Lemma with_label_nth {A} (d : A) (c : nat) : forall ls rows, length ls = length rows ->
  with_label ls rows c = map (fun i => nth i rows d) (filter (fun i => nth i ls 0 - 1 =? c) (seq 0 (length rows))).
Proof.
  unfold with_label. induction ls as [|x ls IH]; intros [|r rows] H; try discriminate; auto. injection H as H. cbn [length seq].
  rewrite <- (seq_shift (length rows) 0).
  assert (E : map (fun i => nth i (r :: rows) d) (filter (fun i => nth i (x :: ls) 0 - 1 =? c) (map S (seq 0 (length rows)))) =
              map (fun i => nth i rows d) (filter (fun i => nth i ls 0 - 1 =? c) (seq 0 (length rows)))).
  { set (g := fun i => nth i (x :: ls) 0 - 1 =? c). set (h := fun i => nth i (r :: rows) d).
    generalize (seq 0 (length rows)). induction l as [|i l IHl]; auto. cbn [map filter].
    change (g (S i)) with (nth i ls 0 - 1 =? c). destruct (nth i ls 0 - 1 =? c); cbn [map]; rewrite IHl; reflexivity. }
  transitivity ((if x - 1 =? c then [r] else []) ++ map snd (filter (fun p => fst p - 1 =? c) (combine ls rows))).
  - cbn [combine filter fst]. destruct (x - 1 =? c); reflexivity.
  - rewrite IH, <- E by auto. set (m := filter _ (map S _)). set (g := fun i => nth i (x :: ls) 0 - 1 =? c). cbn [filter].
    change (g 0) with (x - 1 =? c). destruct (x - 1 =? c); reflexivity.
Qed.
Lemma seq_plus p t : map (fun i => p + i) (seq 0 t) = seq p t.
Proof. induction t as [|t IH]; auto. rewrite !seq_S, map_app, IH. reflexivity. Qed.
Lemma nth_skipn {A} (d : A) (l : list A) : forall k i, nth i (skipn k l) d = nth (k + i) l d.
Proof. induction l as [|x l IH]; intros [|k] i; cbn; auto. now destruct i. Qed.

Section Sums.
Context {R : real} (K : cell R).
Lemma add_rows_length a b : length a = length b -> length (add_rows K a b) = length a.
Proof. intros E. unfold add_rows. rewrite map_length, combine_length. lia. Qed.
Lemma add_rows_nth : forall a b j, length a = length b -> j < length a -> nth j (add_rows K a b) (nought K) = plus K (nth j a (nought K)) (nth j b (nought K)).
Proof.
  induction a as [|x a IH]; intros [|y b] j E L; try discriminate; cbn in L; try lia. destruct j as [|j]; cbn; auto. apply IH; cbn in E; lia.
Qed.
Lemma list_nth_ext (l : list (value K)) : l = map (fun j => nth j l (nought K)) (seq 0 (length l)).
Proof. induction l as [|x l IH]; auto. cbn [length seq map nth]. rewrite <- seq_shift, map_map. cbn. now f_equal. Qed.
Lemma sum_columns width : forall rows acc, Forall (fun r => length r = width) rows -> length acc = width ->
  fold_left (add_rows K) rows acc = map (fun j => fold_left (plus K) (map (fun r => nth j r (nought K)) rows) (nth j acc (nought K))) (seq 0 width).
Proof.
  induction rows as [|r rows IH]; intros acc F L; cbn [fold_left map].
  - rewrite <- L. apply list_nth_ext.
  - inversion F; subst. rewrite (IH (add_rows K acc r)); auto; [|now apply add_rows_length]. apply map_ext_in. intros j H'. apply in_seq in H'.
    rewrite add_rows_nth by lia. reflexivity.
Qed.
Lemma nth_repeat_nought j w : nth j (repeat (nought K) w) (nought K) = nought K.
Proof. revert j. induction w as [|w IH]; intros [|j]; cbn; auto. Qed.
Lemma mean_of width rows : Forall (fun r => length r = width) rows -> rows <> [] ->
  map (fun x => over K x (Nat.max (length rows) 1)) (cluster_sum K width rows) = mean K width rows.
Proof.
  intros F N. unfold cluster_sum, mean. rewrite (sum_columns width) by (auto; apply repeat_length). rewrite map_map. apply map_ext. intros j.
  rewrite nth_repeat_nought. replace (Nat.max (length rows) 1) with (length rows); auto. destruct rows; [contradiction|cbn; lia].
Qed.
End Sums.

Lemma pool_groups R (K : cell R) fuel width rows pool_factor protected out :
  1 <= pool_factor -> Forall (fun r => length r = width) rows ->
  pool R K fuel width rows pool_factor protected = Some (Ok out) ->
  let k := Nat.max ((length rows - protected) / pool_factor) 1 in
  (length rows <= protected + k -> out = rows) /\ (protected + k < length rows -> pooled K width protected k rows out).
Proof.
  intros PF W. unfold pool. set (t := length rows - protected). set (k := Nat.max (t / pool_factor) 1).
  replace (pool_factor =? 0) with false by lia.
  destruct (length rows <=? protected + 1) eqn:Q1; [intros [= <-]; split; auto; lia|].
  destruct (t <=? k) eqn:Q2; [intros [= <-]; split; auto; lia|].
  set (rest := skipn protected rows). assert (LR : length rest = t) by (unfold rest; apply skipn_length).
  destruct (linkage R fuel (pdist R (map (map (widen K)) rest)) t Ward) as [[joints| |]|] eqn:EL; try discriminate.
  unfold linkage in EL. replace (t <=? 1) with false in EL by lia. destruct (negb _); [discriminate|].
  apply ward_tree in EL. destruct (maxclust_spec t joints k EL) as (B & ls & EF & _ & LB & LL & LT & LA); [lia|lia|]. rewrite EF.
  intros [= <-]. split; [lia|]. intros _.
  set (group := fun c => filter (fun i => nth i ls 0 - 1 =? c) (seq 0 t)).
  assert (WL : forall c, with_label ls rest c = map (fun i => nth i rest []) (group c)).
  { intros c. rewrite (with_label_nth []) by lia. now rewrite LR. }
  assert (NE : forall c, In c (seq 0 k) -> group c <> []).
  { intros c H. apply in_seq in H. assert (HI : In (S c) ls) by (apply LA; lia). apply (In_nth _ _ 0) in HI. destruct HI as (i & LI & E).
    intros G. assert (X : In i (group c)) by (apply filter_In; split; [apply in_seq; lia|rewrite E; lia]). rewrite G in X. easy. }
  exists (map (fun c => map (fun i => protected + i) (group c)) (seq 0 k)).
  split; [now rewrite map_length, seq_length|]. split; [|split].
  - apply Forall_forall. intros g H. apply in_map_iff in H. destruct H as (c & <- & H). intros E. apply map_eq_nil in E. now apply (NE c).
  - rewrite <- map_map, <- concat_map. fold t.
    replace (seq protected t) with (map (fun i => protected + i) (seq 0 t)).
    + apply Permutation_map. unfold group. rewrite (classes_perm (fun i => nth i ls 0 - 1)).
      replace (filter _ (seq 0 t)) with (seq 0 t); auto. symmetry. rewrite (filter_ext_in _ (fun _ => true)).
      * clear. induction (seq 0 t) as [|x l IH]; auto. cbn. now f_equal.
      * intros i H. apply in_seq in H. assert (HI : In (nth i ls 0) ls) by (apply nth_In; lia). apply LA in HI. lia.
    + apply seq_plus.
  - f_equal. rewrite map_map. apply map_ext_in. intros c H. rewrite WL, map_map.
    assert (ER : map (fun i => nth i rest []) (group c) = map (fun x => nth (protected + x) rows []) (group c)) by (apply map_ext; intros i; apply nth_skipn).
    rewrite <- ER. apply mean_of.
    + apply Forall_forall. intros r HR. apply in_map_iff in HR. destruct HR as (i & <- & HI). apply filter_In in HI. destruct HI as (HI & _). apply in_seq in HI.
      rewrite Forall_forall in W. apply W. unfold rest. rewrite nth_skipn. apply nth_In. lia.
    + intros E. apply map_eq_nil in E. now apply (NE c).
Qed.
Lemma pool_ends R (K : cell R) width rows pool_factor protected : good_order R -> reducible R -> 1 <= pool_factor ->
  (forall d, In d (pdist R (map (map (widen K)) (skipn protected rows))) -> finite R (mul R d d)) ->
  exists out, forall fuel, length rows * length rows + 2 <= fuel -> pool R K fuel width rows pool_factor protected = Some (Ok out).
Proof.
  intros G RED PF F. unfold pool. set (t := length rows - protected) in *. set (k := Nat.max (t / pool_factor) 1).
  replace (pool_factor =? 0) with false by lia.
  destruct (length rows <=? protected + 1) eqn:Q1; [exists rows; auto|].
  destruct (t <=? k) eqn:Q2; [exists rows; auto|].
  set (rest := skipn protected rows) in *. assert (LR : length rest = t) by (unfold rest; apply skipn_length).
  assert (LP : length (pdist R (map (map (widen K)) rest)) = t * (t - 1) / 2) by (unfold pdist; rewrite condensed_length, map_length; now rewrite LR).
  destruct (ward_ends R t _ G RED F LP) as (joints & E); [intros; now apply condensed_range|lia|].
  assert (EL : forall fuel, length rows * length rows + 2 <= fuel -> linkage R fuel (pdist R (map (map (widen K)) rest)) t Ward = Some (Ok joints)).
  { intros fuel LF. unfold linkage. replace (t <=? 1) with false by lia. rewrite LP, Nat.eqb_refl. cbn [negb]. apply E. unfold t in *. nia. }
  assert (T : dendrogram t joints) by (apply (ward_tree R t (t * t + 2) (pdist R (map (map (widen K)) rest))); apply E; lia).
  destruct (maxclust_spec t joints k T) as (B & ls & EF & _); [lia|lia|].
  eexists. intros fuel LF. rewrite (EL fuel LF), EF. reflexivity.
Qed.
Lemma gather_spec {A B} (f : A -> option (res B)) : forall l out, gather f l = Some (Ok out) -> Forall2 (fun x y => f x = Some (Ok y)) l out.
Proof.
  induction l as [|x l IH]; intros out H; cbn in H; [injection H as <-; constructor|].
  destruct (f x) as [[y| |]|] eqn:E; try discriminate; destruct (gather f l) as [[ys| |]|]; try discriminate. injection H as <-. constructor; auto.
Qed.
