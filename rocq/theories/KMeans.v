(** The choice of the sample and of the number of centroids (next-plaid/src/kmeans.rs 185-219, 261-453). *)
From Verif Require Import Base F32 CodecModel IndexModel.
Open Scope nat_scope.
Open Scope list_scope.

(** The f64 operations used: [as f64], [+], [*], [/], [sqrt], [min], [as usize], and [.log2().floor() as u32] *)
Record f64_ops := {
  f64 : Type;
  d_of : nat -> f64; d_add : f64 -> f64 -> f64; d_mul : f64 -> f64 -> f64; d_div : f64 -> f64 -> f64;
  d_sqrt : f64 -> f64; d_min : f64 -> f64 -> f64; d_usize : f64 -> nat; d_log2_floor : f64 -> nat }.
(** kmeans.rs 26-43 [ComputeKmeansConfig], without the choice of device *)
Record kmeans_config := { k_niters : nat; k_max_points : nat; k_seed : Z; k_samples : option nat; k_partitions : option nat }.
(** kmeans.rs 329-338 [KMeansConfig]: what varies *)
Record training := { t_k : nat; t_iters : nat; t_seed : Z; t_max_points : nat }.

Section KMEANS.
  Variable O : f64_ops.
  (** [SliceRandom::shuffle] with the generator seeded *)
  Variable shuffle : Z -> list nat -> list nat.
  (** fastkmeans-rs *)
  Variable train : training -> list row -> res (list row).
  (** the columns of a document without tokens *)
  Variable cols : nat.
  (** [row.dot(&row).sqrt().max(1e-12)] and the division of a number *)
  Variable norm : row -> f32.
  Variable divide : f32 -> f32 -> f32.

  Definition ncols (d : doc) : nat := match d with r :: _ => length r | [] => cols end.
  (** [slice_mut(..).assign(doc)] with as many rows: an array of one column is repeated, another width panics *)
  Definition assigned (dim : nat) (d : doc) : res (list row) :=
    if ncols d =? dim then Ok d
    else if ncols d =? 1 then Ok (map (fun r => match r with x :: _ => repeat x dim | [] => [] end) d)
    else Panic.
  Fixpoint flatten (dim : nat) (docs : list doc) : res (list row) :=
    match docs with [] => Ok [] | d :: r => bind (assigned dim d) (fun a => bind (flatten dim r) (fun b => Ok (a ++ b))) end.
  (** kmeans.rs 275-278 and 436-437: the number of documents looked at *)
  Definition sample_size (n : nat) : nat :=
    d_usize O (d_min O (d_add O (d_of O 1) (d_mul O (d_of O 16) (d_sqrt O (d_mul O (d_of O 120) (d_of O n))))) (d_of O n)).
  (** kmeans.rs 314-319 and 443-447: [tokens] of [sampled] documents out of [n] *)
  Definition partitions (tokens sampled n : nat) : nat :=
    2 ^ d_log2_floor O (d_mul O (d_of O 16) (d_sqrt O (d_mul O (d_div O (d_of O tokens) (d_of O sampled)) (d_of O n)))).
  Definition normalised (r : row) : row := let n := norm r in map (fun x => divide x n) r.
  (** kmeans.rs 261-422 [compute_kmeans]; the dimension and the centroids *)
  Definition compute_kmeans (g : kmeans_config) (docs : list doc) : res (nat * list row) :=
    match docs with
    | [] => Err
    | first :: _ =>
      let n := length docs in
      let dim := ncols first in
      let asked := match k_samples g with Some s => s | None => sample_size n end in
      let sampled := Nat.min asked n in
      let indices := firstn sampled (shuffle (k_seed g) (seq 0 n)) in
      let chosen := map (fun i => nth i docs []) indices in
      let tokens := list_sum (map (@length row) chosen) in
      bind (flatten dim chosen) (fun samples =>
      let num_partitions := match k_partitions g with Some k => k | None => partitions tokens sampled n end in
      let k := Nat.min num_partitions tokens in
      if k =? 0 then Err
      else bind (train {| t_k := k; t_iters := k_niters g; t_seed := k_seed g; t_max_points := k_max_points g |} samples) (fun centroids =>
           Ok (dim, map normalised centroids)))
    end.
  (** kmeans.rs 428-453 [estimate_num_partitions] *)
  Definition estimate_num_partitions (docs : list doc) : nat :=
    match docs with
    | [] => 0
    | _ =>
      let n := length docs in
      let total := list_sum (map (@length row) docs) in
      let sampled := Nat.min (sample_size n) n in
      Nat.min (partitions total n n) (d_usize O (d_mul O (d_div O (d_of O total) (d_of O n)) (d_of O sampled)))
    end.
  (** kmeans.rs 199-219 [compute_centroids_from_documents] with the default configuration (59-71) or one given *)
  Definition compute_centroids_from_documents (docs : list doc) (num_centroids : nat) (given : option training) : res (list row) :=
    match docs with
    | [] => Err
    | first :: _ => bind (flatten (ncols first) docs) (fun flat =>
        train match given with Some t => t | None => {| t_k := num_centroids; t_iters := 4; t_seed := 42; t_max_points := 256 |} end flat)
    end.
End KMEANS.
