(** Specification of the index: an index is an ordered list of documents. *)
From Verif Require Import Base F32 CodecModel CodecSpec IndexModel.
Open Scope nat_scope.

(** Deleting a list of ids from a plain list: keep the entries whose position is not listed. *)
Definition delete_positions {A} (ids : list Z) (l : list A) : list A :=
  map snd (filter (fun p => negb (existsb (Z.eqb (fst p)) ids))
                  (combine (map Z.of_nat (seq 0 (length l))) l)).

(** What is stored for one token: its code and its packed residual. *)
Notation stored_doc := (list (nat * list N)) (only parsing).

(** Posting list of centroid [c]: the positions of the documents having a token coded [c],
    in increasing order. *)
Definition has_code (c : nat) (sd : stored_doc) : bool := existsb (fun t => fst t =? c) sd.
Definition postings (docs : list stored_doc) (c : nat) : list Z :=
  map Z.of_nat (filter (fun i => has_code c (nth i docs [])) (seq 0 (length docs))).

(** The same operations on a plain list of documents: output and new list. *)
Definition spec_op (L : list doc) (o : op) : list Z * list doc :=
  match o with
  | OUpdate docs _ | OAppend docs _ => (map Z.of_nat (seq (length L) (length docs)), L ++ docs)
  | ODelete ids => ([Z.of_nat (length L - length (delete_positions ids L))], delete_positions ids L)
  | OReload => ([], L)
  end.
Fixpoint spec_ops (L : list doc) (ops : list op) : list (list Z) * list doc :=
  match ops with
  | [] => ([], L)
  | o :: os => let '(out, L') := spec_op L o in
               let '(outs, L'') := spec_ops L' os in (out :: outs, L'')
  end.

(** Well-formed arguments: documents of dimension [D], no empty batch, no negative id. *)
Definition dim_ok (D : nat) (docs : list doc) : Prop := Forall (fun r => length r = D) (concat docs).
Definition op_ok (D : nat) (o : op) : Prop :=
  match o with
  | OUpdate docs _ | OAppend docs _ => docs <> [] /\ dim_ok D docs
  | ODelete ids => Forall (fun id => 0 <= id)%Z ids
  | OReload => True
  end.
(** The documented discipline: the handle is reloaded between a delete (or a handle-less
    append) and the next update; the handle-less append is not used while an update smaller
    than its buffer size may be pending in the buffer. *)
Fixpoint disciplined (fresh pending : bool) (ops : list op) : Prop :=
  match ops with
  | [] => True
  | OUpdate docs g :: os => fresh = true /\ disciplined true (length docs <? g_buffer_size g) os
  | OAppend _ _ :: os => pending = false /\ disciplined false false os
  | ODelete _ :: os => disciplined false pending os
  | OReload :: os => disciplined true pending os
  end.

(** Clustering returns a non-empty list of centroids of the dimension of its input. *)
Definition good_kmeans (D : nat) (kmeans : Z -> list doc -> res (nat * list row)) : Prop :=
  forall seed docs dim cents,
    Forall (fun r => length r = D) (concat docs) -> kmeans seed docs = Ok (dim, cents) ->
    dim = D /\ cents <> [] /\ Forall (fun r => length r = D) cents.

Section SPEC.
  Variable fadd fsub : f32 -> f32 -> f32.
  Variable normalize : row -> row.
  Variable dot : row -> row -> f32.

  (** [v] is what the index returns for token [r] when it was encoded with these centroids:
      the nearest centroid (last on ties) plus the quantised difference, normalised. *)
  Definition quantised_token (cents : list row) (weights cutoffs : list f32) (r v : row) : Prop :=
    exists k, is_last_argmax (map (dot r) cents) k
      /\ v = normalize (decoded_row fadd (nth k cents []) weights cutoffs
               (map (fun p => fsub (fst p) (snd p)) (combine r (nth k cents [])))).

  (** The opened index shows exactly the documents [L]: same count, same lengths, and the
      content of document [i] is the quantisation of [L[i]] against a non-empty initial
      segment of the current centroids (centroids are only ever appended). *)
  Definition shows (x : index) (L : list doc) : Prop :=
    num_documents (x_meta x) = length L
    /\ x_doc_lengths x = map (@length row) L
    /\ exists weights cutoffs,
         c_weights (x_codec x) = Some weights /\ c_cutoffs (x_codec x) = Some cutoffs
         /\ forall i d, nth_error L i = Some d ->
              exists n e, 1 <= n <= length (c_centroids (x_codec x))
                /\ get_document_embeddings fadd normalize x i = Ok e
                /\ Forall2 (quantised_token (firstn n (c_centroids (x_codec x))) weights cutoffs) d e.
End SPEC.

(** The external ingredients: float operations, clustering, quantile estimation, outlier
    test. Every theorem quantifies over all of them. *)
Record env := {
  v_fadd : f32 -> f32 -> f32; v_fsub : f32 -> f32 -> f32; v_norm : row -> row;
  v_dot : row -> row -> f32; v_mem : nat;
  v_kmeans : Z -> list doc -> res (nat * list row);
  v_quantile : list row -> list doc -> nat -> nat -> f32;
  v_threshold : list row -> list doc -> f32;
  v_next : option f32 -> list row -> nat -> f32;
  v_outlier : list row -> f32 -> row -> bool
}.
Definition run (V : env) := history (v_fsub V) (v_dot V) (v_mem V) (v_kmeans V) (v_quantile V)
  (v_threshold V) (v_next V) (v_outlier V).
Definition step (V : env) := exec (v_fsub V) (v_dot V) (v_mem V) (v_kmeans V) (v_quantile V)
  (v_threshold V) (v_next V) (v_outlier V).
Definition embeddings (V : env) (x : index) (i : nat) := get_document_embeddings (v_fadd V) (v_norm V) x i.

(** [d], [h]: directory and handle after creating an index and a well-formed, disciplined
    sequence of successful operations; [outs]: the outputs of the operations. *)
Definition reached (V : env) (D : nat) (docs0 : list doc) (g0 : config) (ops : list op)
    (outs : list (list Z)) (d : disk) (h : metadata) : Prop :=
  1 <= D /\ good_kmeans D (v_kmeans V) /\ dim_ok D docs0 /\ Forall (op_ok D) ops
  /\ disciplined true false ops /\ run V docs0 g0 ops = Ok (outs, (d, h)).
(** The plain list after the same operations. *)
Definition documents (docs0 : list doc) (ops : list op) : list doc := snd (spec_ops docs0 ops).
Definition env_shows (V : env) := shows (v_fadd V) (v_fsub V) (v_norm V) (v_dot V).
