(** Building an index in stages. *)
From Verif Require Import Base F32 CodecModel CodecSpec CodecProofs IndexModel IndexSpec IndexLemmas IndexOps IndexExamples.
From Verif Require Import Staged StagedSpec StagedProofs StagedMain StagedIndex.
Open Scope nat_scope.

Definition at_once (V : env) := create_index_files (v_fsub V) (v_dot V) (v_mem V) (v_quantile V) (v_threshold V).
Definition in_stages (V : env) := build_in_stages (v_fsub V) (v_dot V) (v_mem V) (v_quantile V) (v_threshold V).

(** C94. Encoding the batches one by one and writing at the end leaves, in any directory, exactly
    the files that creating the index at once leaves, and succeeds exactly when that does. *)
Theorem C94_same_index : forall V centroids batches g d, snd centroids <> [] -> 1 <= g_batch_size g -> batches_of (g_batch_size g) batches ->
  (forall md d1, complete (at_once V (concat batches) centroids g) d = Ok (md, d1) ->
     exists d2, complete (in_stages V (concat batches) centroids batches g) d = Ok (md, d2) /\ same_files d1 d2) /\
  (forall md d2, complete (in_stages V (concat batches) centroids batches g) d = Ok (md, d2) ->
     exists d1, complete (at_once V (concat batches) centroids g) d = Ok (md, d1) /\ same_files d1 d2).
Proof.
  intros V cen bts g d N B1 BS. destruct (same_index (v_fsub V) (v_dot V) (v_mem V) (v_quantile V) (v_threshold V) cen bts g d N B1 BS) as (H1 & H2). split.
  - intros md d1 H. apply complete_steps in H. destruct (H1 _ _ H) as (d2 & K & S). exists d2. split; [apply complete_steps; exact K|exact S].
  - intros md d2 H. apply complete_steps in H. destruct (H2 _ _ H) as (d1 & K & S). exists d1. split; [apply complete_steps; exact K|exact S].
Qed.
Print Assumptions C94_same_index.

(** However the documents are divided, and from whatever sample the codec was made, the index is
    the list of the documents in order of arrival, and stays a list under later changes. *)
Theorem C94_any_batches : forall V D sample centroids batches g md d ops outs d' h,
  1 <= D -> good_kmeans D (v_kmeans V) -> centroids <> [] -> Forall (fun r => length r = D) centroids ->
  complete (in_stages V sample (D, centroids) batches g) empty_disk = Ok (md, d) ->
  Forall (op_ok D) ops -> disciplined true false ops ->
  exec_all (v_fsub V) (v_dot V) (v_mem V) (v_kmeans V) (v_quantile V) (v_threshold V) (v_next V) (v_outlier V) (d, md) ops = Ok (outs, (d', h)) ->
  outs = fst (spec_ops (concat batches) ops) /\ (forall x, load d' = Ok x -> env_shows V x (documents (concat batches) ops)) /\
  (concat (documents (concat batches) ops) <> [] -> exists x, load d' = Ok x).
Proof. intros V D sample cents bts g md d ops outs d' h HD KM N DIM ST. apply complete_steps in ST. apply (staged_history V D sample cents bts g md d ops outs d' h HD KM N DIM ST). Qed.
Print Assumptions C94_any_batches.

(** Creating does not fail: neither at once nor in stages. *)
Theorem C94_creation_succeeds : forall V D sample centroids docs batches g d,
  centroids <> [] -> Forall (fun r => length r = D) centroids -> good_nbits (g_nbits g) -> (D * g_nbits g) mod 8 = 0 ->
  (sample <> [] -> dim_ok D (concat batches) -> exists md d', complete (in_stages V sample (D, centroids) batches g) d = Ok (md, d')) /\
  (docs <> [] -> dim_ok D docs -> 1 <= g_batch_size g -> exists md d', complete (at_once V docs (D, centroids) g) d = Ok (md, d')).
Proof.
  intros V D sample cents docs bts g d N DIM NB DV.
  assert (ST : forall s b, s <> [] -> dim_ok D (concat b) -> exists md d', complete (in_stages V s (D, cents) b g) d = Ok (md, d')).
  { intros s b SN DB. destruct (staged_total (v_fsub V) (v_dot V) (v_mem V) (v_quantile V) (v_threshold V) D s cents b g d SN N DIM NB DV) as (md & d' & H).
    - exact DB.
    - exists md, d'. apply complete_steps. exact H. }
  split; [apply ST|]. intros DN DB B1. destruct (divide (g_batch_size g) B1 _ docs (le_n _) DN) as (b & B & <-).
  destruct (ST (concat b) b DN DB) as (md & d2 & H). destruct (C94_same_index V (D, cents) b g d N B1 B) as (_ & K). destruct (K md d2 H) as (d1 & H1 & _). exists md, d1. exact H1.
Qed.
Print Assumptions C94_creation_succeeds.

(** With a dimension that does not fill whole bytes, creating the index kills the process. *)
Theorem C94_odd_dimension_panics_refuted : ~ forall V D centroids docs g, centroids <> [] -> Forall (fun r => length r = D) centroids -> good_nbits (g_nbits g) ->
  docs <> [] -> dim_ok D docs -> 1 <= g_batch_size g -> complete (at_once V docs (D, centroids) g) empty_disk <> Panic.
Proof.
  intro H. apply (H ex_env 4 [repeat 10%Z 4] [[repeat 20%Z 4]] (cfg 2 0 0 0)); try discriminate; repeat constructor.
Qed.
Print Assumptions C94_odd_dimension_panics_refuted.

(** Five documents in batches of two, at once and in stages; in uneven batches with another
    sample, then changed. *)
Definition ex_batches := [[[tok 10; tok 20]; [tok 20]]; [[]; [tok 10]]; [[tok 20; tok 20; tok 10]]].
Definition ex_uneven := [[[tok 10; tok 20]]; []; [[tok 20]; []; [tok 10]; [tok 20; tok 20; tok 10]]].
Definition ex_cen := (8, [tok 10; tok 20]).
Definition ex_built := got (ex_meta0, empty_disk) (complete (in_stages ex_env [[tok 27]] ex_cen ex_uneven (cfg 2 3 2 0)) empty_disk).
Example C94_example :
  batches_of (g_batch_size (cfg 2 3 2 0)) ex_batches /\ concat ex_batches = ex_docs /\ concat ex_uneven = ex_docs /\ good_nbits 1 /\ (8 * 1) mod 8 = 0 /\ dim_ok 8 ex_docs /\
  is_ok (complete (at_once ex_env ex_docs ex_cen (cfg 2 3 2 0)) empty_disk) = true /\
  complete (in_stages ex_env [[tok 27]] ex_cen ex_uneven (cfg 2 3 2 0)) empty_disk = Ok ex_built /\
  num_chunks (fst ex_built) = 3 /\ num_documents (fst ex_built) = 5 /\ num_embeddings (fst ex_built) = 7 /\
  Forall (op_ok 8) [ODelete [1; 3]%Z; OReload] /\ disciplined true false [ODelete [1; 3]%Z; OReload] /\
  fst (got ([], (empty_disk, ex_meta0)) (exec_all (v_fsub ex_env) (v_dot ex_env) (v_mem ex_env) (v_kmeans ex_env) (v_quantile ex_env) (v_threshold ex_env) (v_next ex_env) (v_outlier ex_env)
     (snd ex_built, fst ex_built) [ODelete [1; 3]%Z; OReload])) = [[2]; []]%Z.
Proof.
  split; [apply batches_more; [reflexivity|]; apply batches_more; [reflexivity|]; apply batches_last; cbn; lia|]. split; [reflexivity|]. split; [reflexivity|]. split; [left; reflexivity|]. split; [reflexivity|].
  split; [repeat constructor|]. split; [vm_compute; reflexivity|]. split; [unfold ex_built; apply is_ok_got; vm_compute; reflexivity|]. split; [vm_compute; reflexivity|]. split; [vm_compute; reflexivity|]. split; [vm_compute; reflexivity|].
  split; [repeat (constructor; [first [repeat (constructor; try lia)|exact I]|]); constructor|]. split; [cbn; auto|]. vm_compute. reflexivity.
Qed.
