(** Distances of clusters in exact arithmetic. *)
From Coq Require Import QArith.
From Verif Require Import Base Cluster ClusterSpec ClusterExact.
Open Scope nat_scope.

Definition total {A} (f : A -> Q) (l : list A) : Q := fold_right (fun x q => f x + q)%Q 0%Q l.
(** Sum of the distances of the members of [a] to the members of [b]. *)
Definition across (d : nat -> nat -> Q) (a b : list nat) : Q := total (fun x => total (fun y => d x y) b) a.
(** Average linkage: the mean distance of the members. *)
Definition mean_cost (d : nat -> nat -> Q) (a b : list nat) : Q := (across d a b / (qnum (length a) * qnum (length b)))%Q.
(** Ward linkage: from squared distances; see [C70_ward_means] for what it is. *)
Definition ward_cost (d : nat -> nat -> Q) (a b : list nat) : Q :=
  let na := qnum (length a) in let nb := qnum (length b) in
  (2 * na * nb / (na + nb) * (across d a b / (na * nb) - across d a a / (2 * (na * na)) - across d b b / (2 * (nb * nb))))%Q.
(** [v] is the number [cost] tells. *)
Definition exactly (cost : list nat -> list nat -> Q) (ms ms' : list nat) (v : num rational) : Prop :=
  exists q, v = Some q /\ (q == cost ms ms')%Q.
(** The distance of two observations in a condensed matrix, and its square. *)
Definition apart (n : nat) (qs : list Q) (x y : nat) : Q :=
  if x =? y then 0%Q else nth (condensed_index n (Nat.min x y) (Nat.max x y)) qs 0%Q.
Definition apart2 (n : nat) (qs : list Q) (x y : nat) : Q := (apart n qs x y * apart n qs x y)%Q.
(** Sum of squared differences of coordinates, and the coordinates of a centroid. *)
Definition euclid2 (coords : list (nat -> Q)) (x y : nat) : Q := total (fun c => (c x - c y) * (c x - c y))%Q coords.
Definition centroid (c : nat -> Q) (ms : list nat) : Q := (total c ms / qnum (length ms))%Q.
(** Weighted linkage: every cluster gives weights to its members, a new cluster the halves of the
    weights of its parts; the distance of clusters is the weighted sum. *)
Notation weighed := (nat * list (nat * Q))%type.
Definition halves (ms : list (nat * Q)) : list (nat * Q) := map (fun p => (fst p, snd p / 2)%Q) ms.
Definition weighted_cost (d : nat -> nat -> Q) (a b : list (nat * Q)) : Q :=
  total (fun p => total (fun p' => snd p * snd p' * d (fst p) (fst p'))%Q b) a.
Definition others (a b : nat) (W : list weighed) : list weighed := filter (fun e => negb (fst e =? a) && negb (fst e =? b)) W.
Inductive halved (d : nat -> nat -> Q) : list weighed -> nat -> list (joint rational) -> Prop :=
| halved_done W w : length W <= 1 -> halved d W w []
| halved_more W w a b ma mb q rows :
    In (a, ma) W -> In (b, mb) W -> a < b -> (q == weighted_cost d ma mb)%Q ->
    (forall c mc e me, In (c, mc) W -> In (e, me) W -> c <> e -> (q <= weighted_cost d mc me)%Q) ->
    halved d ((w, halves (ma ++ mb)) :: others a b W) (S w) rows ->
    halved d W w (Joint (R := rational) a b (Some q) (length ma + length mb) :: rows).
Definition own_weight (n : nat) : list weighed := map (fun i => (i, [(i, 1%Q)])) (seq 0 n).
