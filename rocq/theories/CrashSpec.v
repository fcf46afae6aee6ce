(** Specification side of crashes: an operation performs a list of file replacements; the
    process may stop after any number of them. *)
From Verif Require Import Base F32 CodecModel IndexModel IndexSpec.
Open Scope nat_scope.

(** The file replacements an operation performs, in order (also when it ends in an error). *)
Definition replacements (V : env) (s : disk * metadata) (o : op) : list write :=
  let '(d, h) := s in
  match o with
  | OUpdate docs g => fst (update (v_fsub V) (v_dot V) (v_mem V) (v_kmeans V) (v_quantile V)
      (v_threshold V) (v_next V) (v_outlier V) h docs g d)
  | OAppend docs g => fst (update_append (v_fsub V) (v_dot V) (v_mem V) (v_next V) docs g d)
  | ODelete ids => fst (delete_from_index_impl ids true d)
  | OReload => []
  end.
(** The directory when the process stops after [k] of them. *)
Definition stopped (V : env) (s : disk * metadata) (o : op) (k : nat) : disk :=
  final (fst s) (firstn k (replacements V s o)).

(** The same for creating an index in directory [d]. *)
Definition create_replacements (V : env) (docs : list doc) (g : config) (d : disk) : list write :=
  fst (create_with_kmeans (v_fsub V) (v_dot V) (v_mem V) (v_kmeans V) (v_quantile V) (v_threshold V) docs g d).

(** [x'] counts the same [n] documents as [x] and reads each of them identically. *)
Definition same_documents (V : env) (n : nat) (x x' : index) : Prop :=
  num_documents (x_meta x) = n /\ num_documents (x_meta x') = n
  /\ forall i, i < n ->
       embeddings V x' i = embeddings V x i /\ get_document_codes x' [i] = get_document_codes x [i].

(** The operation adds documents without first removing or re-encoding stored ones: an
    append; or an update that neither rebuilds the index from the kept raw embeddings nor
    moves documents out of the buffer. *)
Definition adds_in_place (d : disk) (n : nat) (o : op) : Prop :=
  match o with
  | OUpdate docs g =>
    (g_start_from_scratch g < n \/ length (load_embeddings_npy d) <> n)
    /\ (length docs + length (load_buffer d) < g_buffer_size g \/ load_buffer d = [])
  | OAppend _ _ | OReload => True
  | ODelete _ => False
  end.
(** The last chunk holds 2000 documents or more: new documents go to new chunk files. *)
Definition last_chunk_full (d : disk) : Prop :=
  forall m c, f_meta d = Some m -> f_cmeta d (num_chunks m - 1) = Some c -> last_chunk_limit <= m_ndocs c.
