(** Building an index in stages: the codec from a sample, the chunks one by one, the files at the
    end. *)
From Verif Require Import Base F32 CodecModel IndexModel.
Open Scope nat_scope.

(** index.rs 168-172 [EncodedIndexChunk] *)
Record encoded_chunk := { ec_codes : list nat; ec_residuals : list (list N); ec_doclens : list nat }.
(** index.rs 174-180 [PreparedCodecArtifacts]; the average residual is only stored and read by
    nobody, as in [IndexModel]. *)
Record artifacts := { a_codec : codec; a_cutoffs : list f32; a_weights : list f32; a_threshold : f32 }.

Section STAGED.
  Variable fsub : f32 -> f32 -> f32.
  Variable dot : row -> row -> f32.
  Variable mem : nat.
  Variable quantile_at : list row -> list doc -> nat -> nat -> f32.
  Variable threshold_of : list row -> list doc -> f32.

  (** index.rs 182-287 [prepare_codec_artifacts]; sampling and quantiles as in [train] *)
  Definition prepare_codec_artifacts (docs : list doc) (cen : nat * list row) (g : config) : res artifacts :=
    if length docs =? 0 then Err else
    let '(cutoffs, weights, thr) := train quantile_at threshold_of (g_nbits g) (snd cen) docs in
    bind (new_codec (g_nbits g) (fst cen) (snd cen) (Some cutoffs) (Some weights)) (fun c =>
      Ok {| a_codec := c; a_cutoffs := cutoffs; a_weights := weights; a_threshold := thr |}).
  (** index.rs 289-371 [encode_index_chunk] (CPU) *)
  Definition encode_index_chunk (c : codec) (docs : list doc) : res encoded_chunk :=
    bind (concat_docs (c_dim c) docs) (fun batch =>
    bind (encode_rows fsub dot mem c batch) (fun enc =>
      let '(codes, _, packed) := enc in
      Ok {| ec_codes := codes; ec_residuals := packed; ec_doclens := map (@length row) docs |})).
  (** index.rs 431-483: one chunk; state: next offset, all codes, all lengths *)
  Definition write_chunk (s : nat * list nat * list nat) (ic : nat * encoded_chunk) : eff (nat * list nat * list nat) :=
    let '(offset, all_codes, doc_lengths) := s in
    let '(i, e) := ic in
    emit (WCMeta i (Some {| m_ndocs := length (ec_doclens e); m_nembs := length (ec_codes e); m_off := offset |}));;;
    emit (WDoclens i (Some (ec_doclens e)));;;
    emit (WCodes i (Some (ec_codes e)));;;
    emit (WResiduals i (Some (ec_residuals e)));;;
    ret (offset + length (ec_codes e), all_codes ++ ec_codes e, doc_lengths ++ ec_doclens e).
  (** index.rs 373-534 [write_index_from_encoded_chunks] *)
  Definition write_index_from_encoded_chunks (chunks : list encoded_chunk) (a : artifacts) (g : config) : eff metadata :=
    let c := a_codec a in
    emit (WCentroids (Some (c_dim c, c_centroids c)));;;
    emit (WCutoffs (Some (a_cutoffs a)));;;
    emit (WWeights (Some (a_weights a)));;;
    emit (WThreshold (Some (a_threshold a)));;;
    s <- forE write_chunk (combine (seq 0 (length chunks)) chunks) (0, [], []);;
    let '(_, all_codes, doc_lengths) := s in
    m <- lift (build_pmap (fun _ => []) 0%Z doc_lengths all_codes);;
    let lists := ivf_lists m (length (c_centroids c)) in
    emit (WIvf (Some (concat lists)));;;
    emit (WIvfLengths (Some (map (@length Z) lists)));;;
    let md := {| num_chunks := length chunks; nbits := g_nbits g; num_partitions := length (c_centroids c);
                 num_embeddings := sum (map (fun e => length (ec_codes e)) chunks);
                 num_documents := sum (map (fun e => length (ec_doclens e)) chunks); embedding_dim := c_dim c |} in
    emit (WMeta (Some md));;;
    ret md.
  (** The three in a row, as colgrep/src/index/mod.rs 607-669 does: the codec from [sample], then
      the chunks in the order in which they come. *)
  Definition build_in_stages (sample : list doc) (cen : nat * list row) (batches : list (list doc)) (g : config) : eff metadata :=
    a <- lift (prepare_codec_artifacts sample cen g);;
    chunks <- lift (mapM (encode_index_chunk (a_codec a)) batches);;
    write_index_from_encoded_chunks chunks a g.
End STAGED.
