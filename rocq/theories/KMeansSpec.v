(** What a sample of documents is, and what may be asked of the arithmetic. *)
From Verif Require Import Base F32 CodecModel IndexModel KMeans.
Open Scope nat_scope.
Open Scope list_scope.

(** [chosen]: [n] of the documents, each at most once. *)
Definition sample_of (docs : list doc) (n : nat) (chosen : list doc) : Prop :=
  exists ids, NoDup ids /\ length ids = n /\ Forall2 (fun i d => nth_error docs i = Some d) ids chosen.
(** The shuffle rearranges. *)
Definition good_shuffle (shuffle : Z -> list nat -> list nat) : Prop := forall s l, Permutation (shuffle s l) l.
(** The training gives as many centroids as asked for, as wide as the tokens, if there are that many tokens. *)
Definition good_train (train : training -> list row -> res (list row)) : Prop :=
  forall t rows D, Forall (fun r => length r = D) rows -> 1 <= t_k t <= length rows ->
    forall c, train t rows = Ok c -> length c = t_k t /\ Forall (fun r => length r = D) c.
(** The numbers are exact: the largest power of two whose square is at most 256 times the tokens of all the documents,
    estimated from [tokens] of [sampled] out of [n]. *)
Definition exact_partitions (O : f64_ops) : Prop :=
  forall tokens sampled n, 1 <= tokens -> 1 <= sampled <= n ->
    exists k, partitions O tokens sampled n = 2 ^ k /\ 2 ^ k * 2 ^ k * sampled <= 256 * tokens * n < 2 ^ (k + 1) * 2 ^ (k + 1) * sampled.
