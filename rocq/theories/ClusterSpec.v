(** What a linkage matrix, flat clusters and pooled embeddings are. *)
From Coq Require Import Sorted.
From Verif Require Import Base Cluster.
Open Scope nat_scope.

(** Clusters with their numbers.  Each row of a linkage matrix joins two of the present clusters,
    the smaller number first, and records the size of the new cluster, which gets the next
    number. *)
Notation block := (nat * list nat)%type.
Definition singletons (n : nat) : list block := map (fun i => (i, [i])) (seq 0 n).
Definition without (a b : nat) (B : list block) : list block :=
  filter (fun e => negb (fst e =? a) && negb (fst e =? b)) B.
Inductive joined {R} : list block -> nat -> list (joint R) -> list block -> Prop :=
| joined_none B w : joined B w [] B
| joined_more B w a b ma mb d rows B' :
    In (a, ma) B -> In (b, mb) B -> a < b ->
    joined ((w, ma ++ mb) :: without a b B) (S w) rows B' ->
    joined B w (Joint a b d (length ma + length mb) :: rows) B'.
(** The linkage matrix of a tree over [n] observations. *)
Definition dendrogram {R} (n : nat) (rows : list (joint R)) : Prop :=
  length rows = n - 1 /\ exists B, joined (singletons n) n rows B.
(** The clusters after the first [count] rows. *)
Definition cut {R} (n : nat) (rows : list (joint R)) (count : nat) (B : list block) : Prop :=
  joined (singletons n) n (firstn count rows) B.

(** Labels 1 to [k] name [k] clusters [B]: two observations have the same label exactly when they
    are in one cluster, and every label is used. *)
Definition together (B : list block) (x y : nat) : Prop := exists c ms, In (c, ms) B /\ In x ms /\ In y ms.
Definition labels (n k : nat) (B : list block) (ls : list nat) : Prop :=
  length ls = n /\
  (forall x y, x < n -> y < n -> (nth x ls 0 = nth y ls 0 <-> together B x y)) /\
  (forall l, In l ls <-> 1 <= l <= k).

(** Order laws; [finite] numbers are below infinity. *)
Definition finite (R : real) (x : num R) : Prop := lt R x (infinity R) = true.
Definition le (R : real) (x y : num R) : Prop := lt R y x = false.
Record good_order (R : real) : Prop := {
  lt_trans : forall x y z, lt R x y = true -> lt R y z = true -> lt R x z = true;
  lt_asym : forall x y, lt R x y = true -> lt R y x = false;
  le_trans : forall x y z, le R x y -> le R y z -> le R x z
}.
(** Exact arithmetic: a cluster is no closer to a merged pair than to the closer one of the pair. *)
Definition reducible (R : real) : Prop :=
  forall na nb nk ak bk ab, 1 <= na -> 1 <= nb -> 1 <= nk ->
    finite R ak -> finite R bk -> le R ab ak -> le R ab bk ->
    finite R (ward R na nb nk ak bk ab) /\
    (le R ak (ward R na nb nk ak bk ab) \/ le R bk (ward R na nb nk ak bk ab)).

(** Linkage that joins, at every row, two clusters at the smallest distance; [D] tells the distance
    of two clusters from their members. *)
Inductive agglomerated {R} (D : list nat -> list nat -> num R -> Prop) : list block -> nat -> list (joint R) -> Prop :=
| agglomerated_done B w : length B <= 1 -> agglomerated D B w []
| agglomerated_more B w a b ma mb d rows :
    In (a, ma) B -> In (b, mb) B -> a < b -> D ma mb d ->
    (forall c mc e me v, In (c, mc) B -> In (e, me) B -> c <> e -> D mc me v -> le R d v) ->
    agglomerated D ((w, ma ++ mb) :: without a b B) (S w) rows ->
    agglomerated D B w (Joint a b d (length ma + length mb) :: rows).
(** Linkage that joins, at every row, two clusters that are nearest neighbours of each other; the
    row records the square root of their distance. *)
Inductive reciprocal {R} (D : list nat -> list nat -> num R -> Prop) : list block -> nat -> list (joint R) -> Prop :=
| reciprocal_done B w : length B <= 1 -> reciprocal D B w []
| reciprocal_more B w a b ma mb d rows :
    In (a, ma) B -> In (b, mb) B -> a < b -> D ma mb d ->
    (forall c mc v, In (c, mc) B -> c <> a -> D ma mc v -> le R d v) ->
    (forall c mc v, In (c, mc) B -> c <> b -> D mb mc v -> le R d v) ->
    reciprocal D ((w, ma ++ mb) :: without a b B) (S w) rows ->
    reciprocal D B w (Joint a b (sqrt R d) (length ma + length mb) :: rows).
(** Distances of two clusters: of their closest members, of their farthest members. *)
Definition single_distance {R} (d : nat -> nat -> num R) (ms ms' : list nat) (v : num R) : Prop :=
  (exists x y, In x ms /\ In y ms' /\ v = d x y) /\ (forall x y, In x ms -> In y ms' -> le R v (d x y)).
Definition complete_distance {R} (d : nat -> nat -> num R) (ms ms' : list nat) (v : num R) : Prop :=
  (exists x y, In x ms /\ In y ms' /\ v = d x y) /\ (forall x y, In x ms -> In y ms' -> le R (d x y) v).
(** The distance of two observations in a condensed matrix. *)
Definition between (R : real) (n : nat) (distances : list (num R)) (x y : nat) : num R :=
  nth (condensed_index n (Nat.min x y) (Nat.max x y)) distances (infinity R).
(** Minimum and maximum. *)
Definition good_min (R : real) : Prop := forall x y, (fmin R x y = x \/ fmin R x y = y) /\ le R (fmin R x y) x /\ le R (fmin R x y) y.
Definition good_max (R : real) : Prop := forall x y, (fmax R x y = x \/ fmax R x y = y) /\ le R x (fmax R x y) /\ le R y (fmax R x y).
(** Averages of finite distances are finite and not below a common lower bound. *)
Definition good_mean (R : real) (update : update_rule R) : Prop :=
  forall u v dd na nb nk, 1 <= na -> 1 <= nb -> finite R u -> finite R v ->
    finite R (update u v dd na nb nk) /\ (forall m, le R m u -> le R m v -> le R m (update u v dd na nb nk)).
(** Rows in order of distance. *)
Definition ascending {R} (rows : list (joint R)) : Prop := StronglySorted (fun r r' => le R (j_dist r) (j_dist r')) rows.
(** Observations connected by steps no longer than [t]. *)
Inductive connected {R} (n : nat) (d : nat -> nat -> num R) (t : num R) : nat -> nat -> Prop :=
| connected_self x : x < n -> connected n d t x x
| connected_step x y z : connected n d t x y -> z < n -> y <> z -> le R (d y z) t -> connected n d t x z.

(** Mean of rows, column by column. *)
Definition mean {R} (K : cell R) (width : nat) (rows : list (list (value K))) : list (value K) :=
  map (fun j => over K (fold_left (plus K) (map (fun r => nth j r (nought K)) rows) (nought K)) (length rows)) (seq 0 width).
(** [out] is the result of pooling [rows] to [k] means: the first [protected] rows, then the means
    of [k] groups; the groups are not empty and divide the other rows. *)
Definition pooled {R} (K : cell R) (width protected k : nat) (rows out : list (list (value K))) : Prop :=
  exists groups : list (list nat),
    length groups = k /\ Forall (fun g => g <> []) groups /\
    Permutation (concat groups) (seq protected (length rows - protected)) /\
    out = firstn protected rows ++ map (fun g => mean K width (map (fun i => nth i rows []) g)) groups.
