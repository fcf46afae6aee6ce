(** Properties C04-C14, C16, C51: the index as an ordered list of documents. *)
From Verif Require Import Base F32 CodecModel CodecSpec CodecProofs IndexModel IndexSpec IndexAccess IndexExamples.
Open Scope nat_scope.

(** C04. An index created from [docs] shows exactly [docs], and the chunk size ([bs1] against
    [bs2]) changes nothing that can be read from the opened index. *)
Theorem C04_create_stores_documents_any_chunking :
  forall V D docs bs1 bs2 nb sfs buf seed x1 d1 x2 d2,
    1 <= D -> good_kmeans D (v_kmeans V) -> dim_ok D docs ->
    let create bs := complete (create_with_kmeans (v_fsub V) (v_dot V) (v_mem V) (v_kmeans V) (v_quantile V) (v_threshold V)
        docs {| g_nbits := nb; g_batch_size := bs; g_start_from_scratch := sfs; g_buffer_size := buf; g_seed := seed |})
        empty_disk in
    create bs1 = Ok (x1, d1) -> create bs2 = Ok (x2, d2) ->
    env_shows V x1 docs
    /\ x_codes x1 = x_codes x2 /\ x_residuals x1 = x_residuals x2 /\ x_doc_lengths x1 = x_doc_lengths x2
    /\ x_doc_offsets x1 = x_doc_offsets x2
    /\ x_ivf x1 = x_ivf x2 /\ x_ivf_lengths x1 = x_ivf_lengths x2 /\ x_ivf_offsets x1 = x_ivf_offsets x2
    /\ x_codec x1 = x_codec x2
    /\ num_documents (x_meta x1) = num_documents (x_meta x2)
    /\ num_embeddings (x_meta x1) = num_embeddings (x_meta x2)
    /\ num_partitions (x_meta x1) = num_partitions (x_meta x2).
Proof. exact create_chunking. Qed.
Print Assumptions C04_create_stores_documents_any_chunking.

Example C04_example :
  let create bs := complete (create_with_kmeans (v_fsub ex_env) (v_dot ex_env) (v_mem ex_env) (v_kmeans ex_env)
      (v_quantile ex_env) (v_threshold ex_env) ex_docs (cfg bs 3 2 0)) empty_disk in
  let x bs := fst (got (ex_index0, empty_disk) (create bs)) in
  is_ok (create 1) = true /\ is_ok (create 2) = true /\ good_kmeans 8 (v_kmeans ex_env) /\ dim_ok 8 ex_docs
  /\ num_chunks (x_meta (x 1)) = 5 /\ num_chunks (x_meta (x 2)) = 3 /\ x_codes (x 2) = [0; 1; 1; 0; 1; 1; 0].
Proof.
  split; [vm_compute; reflexivity|]. split; [vm_compute; reflexivity|]. split; [exact ex_kmeans|].
  split; [repeat constructor|]. repeat split; vm_compute; reflexivity.
Qed.

(** C05. Update: the new documents get the next ids in order, the index then shows the old
    list followed by the new documents ... *)
Theorem C05_update_appends :
  forall V D docs0 g0 ops outs d h docs g ids d' h',
    reached V D docs0 g0 ops outs d h -> docs <> [] -> dim_ok D docs ->
    disciplined true false (ops ++ [OUpdate docs g]) ->
    step V (d, h) (OUpdate docs g) = Ok (ids, (d', h')) ->
    let N := length (documents docs0 ops) in
    (exists x', load d' = Ok x' /\ env_shows V x' (documents docs0 ops ++ docs))
    /\ ids = map Z.of_nat (seq N (length docs))
    /\ (g_start_from_scratch g < N \/ length (load_embeddings_npy d) <> N ->
        load_buffer d' = if length docs + length (load_buffer d) <? g_buffer_size g
                         then load_buffer d ++ docs else []).
Proof. exact update_buffer. Qed.
Print Assumptions C05_update_appends.

(** ... and, unless the small-index rebuild applies, every document outside the re-encoded
    buffer keeps its codes and its decompressed embeddings; all of them when the buffer is
    not flushed. *)
Theorem C05_update_keeps_old_documents :
  forall V D docs0 g0 ops outs d h docs g ids d' h' x x',
    reached V D docs0 g0 ops outs d h -> docs <> [] -> dim_ok D docs ->
    disciplined true false (ops ++ [OUpdate docs g]) ->
    step V (d, h) (OUpdate docs g) = Ok (ids, (d', h')) ->
    load d = Ok x -> load d' = Ok x' ->
    let N := num_documents (x_meta x) in
    let buffered := load_buffer_info d in
    g_start_from_scratch g < N \/ length (load_embeddings_npy d) <> N ->
    (exists new, c_centroids (x_codec x') = c_centroids (x_codec x) ++ new
       /\ (length docs + buffered < g_buffer_size g -> new = []))
    /\ num_partitions (x_meta x') = length (c_centroids (x_codec x'))
    /\ c_cutoffs (x_codec x') = c_cutoffs (x_codec x) /\ c_weights (x_codec x') = c_weights (x_codec x)
    /\ forall i, i < N - buffered \/ (i < N /\ length docs + buffered < g_buffer_size g) ->
         get_document_codes x' [i] = get_document_codes x [i]
         /\ embeddings V x' i = embeddings V x i.
Proof. exact update_keeps. Qed.
Print Assumptions C05_update_keeps_old_documents.

(** Example: after a history with a buffered update, a delete and a flush, one more update. *)
Example C05_example :
  let s1 := stepped (ex_d, ex_h) OReload in
  let s2 := stepped (snd s1) (OUpdate [[tok 10; tok 10]] (cfg 2 3 2 1)) in
  let x' := opened (fst (snd s2)) in
  reached ex_env 8 ex_docs (cfg 2 3 2 0) ex_ops ex_outs ex_d ex_h /\ load ex_d = Ok ex_x
  /\ disciplined true false ((ex_ops ++ [OReload]) ++ [OUpdate [[tok 10; tok 10]] (cfg 2 3 2 1)])
  /\ is_ok (step ex_env (ex_d, ex_h) OReload) = true
  /\ is_ok (step ex_env (snd s1) (OUpdate [[tok 10; tok 10]] (cfg 2 3 2 1))) = true
  /\ is_ok (load (fst (snd s2))) = true
  /\ fst s2 = [8%Z] /\ load_buffer (fst (snd s2)) = [[tok 10; tok 10]]
  /\ map (fun i => get_document_codes x' [i]) (seq 0 8) = map (fun i => get_document_codes ex_x [i]) (seq 0 8).
Proof.
  split; [exact ex_reached|]. split; [exact ex_loaded|]. split; [cbn; auto|].
  repeat split; vm_compute; reflexivity.
Qed.

(** Finding: an update with an empty batch is accepted and drops the last chunk: document 2
    loses its token although nothing was deleted. *)
Theorem C05_empty_update_loses_documents_refuted :
  exists docs g outs d h x ids d' h' x',
    reached ex_env 8 docs g [] outs d h /\ load d = Ok x
    /\ step ex_env (d, h) (OUpdate [] g) = Ok (ids, (d', h')) /\ load d' = Ok x'
    /\ get_document_codes x [2] = Ok [[0]] /\ get_document_codes x' [2] = Ok [[]]
    /\ x_doc_lengths x = [2; 1; 1] /\ x_doc_lengths x' = [2; 1].
Proof.
  pose (s := st ex_docs3 (cfg 2 0 100 0) []). pose (s' := stepped (fst (snd s), snd (snd s)) (OUpdate [] (cfg 2 0 100 0))).
  exists ex_docs3, (cfg 2 0 100 0), (fst s), (fst (snd s)), (snd (snd s)), (opened (fst (snd s))),
    (fst s'), (fst (snd s')), (snd (snd s')), (opened (fst (snd s'))).
  split; [|split; [|split; [|split]]].
  - split; [lia|]. split; [exact ex_kmeans|]. split; [repeat constructor|]. split; [constructor|].
    split; [exact I|]. apply run_st. vm_compute. reflexivity.
  - apply load_opened. vm_compute. reflexivity.
  - apply step_stepped. vm_compute. reflexivity.
  - apply load_opened. vm_compute. reflexivity.
  - repeat split; vm_compute; reflexivity.
Qed.
Print Assumptions C05_empty_update_loses_documents_refuted.

(** C06. Delete: exactly the listed positions disappear; survivors keep their order, lengths,
    codes and embeddings; the reported count is the number of distinct existing ids. *)
Theorem C06_delete_filters_and_renumbers :
  forall V D docs0 g0 ops outs d h ids out d' h' x x',
    reached V D docs0 g0 ops outs d h -> Forall (fun z => 0 <= z)%Z ids ->
    step V (d, h) (ODelete ids) = Ok (out, (d', h')) ->
    load d = Ok x -> load d' = Ok x' ->
    let N := num_documents (x_meta x) in
    let N' := num_documents (x_meta x') in
    out = [Z.of_nat (N - N')]
    /\ N - N' = length (filter (fun i => existsb (Z.eqb (Z.of_nat i)) ids) (seq 0 N))
    /\ x_doc_lengths x' = delete_positions ids (x_doc_lengths x)
    /\ map (fun i => get_document_codes x' [i]) (seq 0 N')
       = delete_positions ids (map (fun i => get_document_codes x [i]) (seq 0 N))
    /\ map (embeddings V x') (seq 0 N') = delete_positions ids (map (embeddings V x) (seq 0 N)).
Proof. exact delete_keeps. Qed.
Print Assumptions C06_delete_filters_and_renumbers.

Example C06_example :
  let s' := stepped (ex_d, ex_h) (ODelete [2; 900; 0; 2]%Z) in
  reached ex_env 8 ex_docs (cfg 2 3 2 0) ex_ops ex_outs ex_d ex_h /\ load ex_d = Ok ex_x
  /\ is_ok (step ex_env (ex_d, ex_h) (ODelete [2; 900; 0; 2]%Z)) = true
  /\ is_ok (load (fst (snd s'))) = true
  /\ fst s' = [2%Z] /\ x_doc_lengths ex_x = [2; 0; 3; 1; 2; 1; 1; 1]
  /\ x_doc_lengths (opened (fst (snd s'))) = [0; 1; 2; 1; 1; 1].
Proof. split; [exact ex_reached|]. split; [exact ex_loaded|]. repeat split; vm_compute; reflexivity. Qed.

(** Finding: a negative id deletes nothing but shifts every posting list: the candidates of
    centroid 0 become documents -1 and 1 instead of 0 and 2. *)
Theorem C06_negative_id_corrupts_postings_refuted :
  exists docs g outs d h x out d' h' x',
    reached ex_env 8 docs g [] outs d h /\ load d = Ok x
    /\ step ex_env (d, h) (ODelete [-1]%Z) = Ok (out, (d', h')) /\ load d' = Ok x'
    /\ out = [0%Z] /\ x_codes x' = x_codes x
    /\ get_candidates x [0] = Ok [0; 2]%Z /\ get_candidates x' [0] = Ok [-1; 1]%Z.
Proof.
  pose (s := st ex_docs3 (cfg 2 0 100 0) []). pose (s' := stepped (fst (snd s), snd (snd s)) (ODelete [-1]%Z)).
  exists ex_docs3, (cfg 2 0 100 0), (fst s), (fst (snd s)), (snd (snd s)), (opened (fst (snd s))),
    (fst s'), (fst (snd s')), (snd (snd s')), (opened (fst (snd s'))).
  split; [|split; [|split; [|split]]].
  - split; [lia|]. split; [exact ex_kmeans|]. split; [repeat constructor|]. split; [constructor|].
    split; [exact I|]. apply run_st. vm_compute. reflexivity.
  - apply load_opened. vm_compute. reflexivity.
  - apply step_stepped. vm_compute. reflexivity.
  - apply load_opened. vm_compute. reflexivity.
  - repeat split; vm_compute; reflexivity.
Qed.
Print Assumptions C06_negative_id_corrupts_postings_refuted.

(** C07. After any history, [get_candidates] for any centroids returns, strictly increasing,
    exactly the existing documents having a token with one of these codes. *)
Theorem C07_inverted_file_exact :
  forall V D docs0 g0 ops outs d h x cs,
    reached V D docs0 g0 ops outs d h -> load d = Ok x ->
    exists l, get_candidates x cs = Ok l /\ StronglySorted Z.lt l
      /\ forall z, In z l <-> exists c i codes, In c cs /\ z = Z.of_nat i /\ i < num_documents (x_meta x)
            /\ get_document_codes x [i] = Ok [codes] /\ In c codes.
Proof. exact candidates_exact. Qed.
Print Assumptions C07_inverted_file_exact.

Example C07_example :
  reached ex_env 8 ex_docs (cfg 2 3 2 0) ex_ops ex_outs ex_d ex_h /\ load ex_d = Ok ex_x
  /\ get_candidates ex_x [1] = Ok [0; 2; 4; 5]%Z /\ get_candidates ex_x [2; 0; 99] = Ok [0; 2; 3; 7]%Z
  /\ get_document_codes ex_x [2; 4] = Ok [[1; 1; 0]; [3; 1]].
Proof. split; [exact ex_reached|]. split; [exact ex_loaded|]. repeat split; vm_compute; reflexivity. Qed.

(** C08. Any well-formed, disciplined history: the outputs are those of the same operations on
    a plain list, and the index shows that list. *)
Theorem C08_history_is_a_list :
  forall V D docs0 g0 ops outs d h,
    reached V D docs0 g0 ops outs d h ->
    outs = fst (spec_ops docs0 ops)
    /\ (forall x, load d = Ok x -> env_shows V x (documents docs0 ops))
    /\ (concat (documents docs0 ops) <> [] -> exists x, load d = Ok x).
Proof. exact history_list. Qed.
Print Assumptions C08_history_is_a_list.

Example C08_example :
  reached ex_env 8 ex_docs (cfg 2 3 2 0) ex_ops ex_outs ex_d ex_h
  /\ documents ex_docs ex_ops
     = [[tok 10; tok 20]; []; [tok 20; tok 20; tok 10]; [tok 10]; [tok 30; tok 20]; [tok 20]; [tok 27]; [tok 10]].
Proof. split; [exact ex_reached|]. vm_compute. reflexivity. Qed.

(** Finding (outside the discipline): an update on a handle that was not reloaded after a
    delete returns ids that do not exist. *)
Theorem C08_stale_handle_wrong_ids_refuted :
  exists docs g outs d h,
    run ex_env docs g [ODelete [0]%Z; OUpdate [[tok 10]] g] = Ok (outs, (d, h))
    /\ num_documents h = 3 /\ outs = [[1]; [3]]%Z
    /\ fst (spec_ops docs [ODelete [0]%Z; OUpdate [[tok 10]] g]) = [[1]; [2]]%Z.
Proof.
  pose (s := st ex_docs3 (cfg 2 0 100 0) [ODelete [0]%Z; OUpdate [[tok 10]] (cfg 2 0 100 0)]).
  exists ex_docs3, (cfg 2 0 100 0), (fst s), (fst (snd s)), (snd (snd s)).
  split; [apply run_st; vm_compute; reflexivity|]. repeat split; vm_compute; reflexivity.
Qed.
Print Assumptions C08_stale_handle_wrong_ids_refuted.

(** C09. The per-document slices of the token arrays are exactly the stored tokens of each
    document, in order, with nothing left over but the padding. *)
Theorem C09_document_slices :
  forall V D docs0 g0 ops outs d h x,
    reached V D docs0 g0 ops outs d h -> load d = Ok x ->
    exists tokens pad,
      map (@length _) tokens = map (@length (list f32)) (documents docs0 ops)
      /\ x_codes x = map fst (concat tokens) ++ repeat 0 pad
      /\ x_residuals x = map snd (concat tokens) ++ repeat (repeat 0%N (D * nbits (x_meta x) / 8)) pad
      /\ (forall i, get_document_codes x [i] = Ok [map fst (nth i tokens [])])
      /\ (forall i t, nth_error tokens i = Some t ->
            embeddings V x i = decompress (v_fadd V) (v_norm V) (x_codec x) (map snd t) (map fst t)).
Proof. exact slices_cover. Qed.
Print Assumptions C09_document_slices.

Example C09_example :
  reached ex_env 8 ex_docs (cfg 2 3 2 0) ex_ops ex_outs ex_d ex_h /\ load ex_d = Ok ex_x
  /\ get_document_codes ex_x [0; 1; 2; 44] = Ok [[0; 1]; []; [1; 1; 0]; []].
Proof. split; [exact ex_reached|]. split; [exact ex_loaded|]. repeat split; vm_compute; reflexivity. Qed.

(** C10. Candidate lookup on any inverted file [ps] (whatever its posting lists). *)
Theorem C10_candidates_sorted_union :
  forall x (ps : list (list Z)) cs,
    x_ivf x = concat ps -> x_ivf_lengths x = map (@length Z) ps ->
    x_ivf_offsets x = prefix_sums 0 (x_ivf_lengths x) ->
    exists l, get_candidates x cs = Ok l /\ StronglySorted Z.lt l
      /\ forall z, In z l <-> exists c p, In c cs /\ nth_error ps c = Some p /\ In z p.
Proof. exact candidates_any_ivf. Qed.
Print Assumptions C10_candidates_sorted_union.

Example C10_example :
  reached ex_env 8 ex_docs (cfg 2 3 2 0) ex_ops ex_outs ex_d ex_h /\ load ex_d = Ok ex_x
  /\ x_ivf ex_x = concat [[0; 2]; [0; 2; 4; 5]; [3; 7]; [4; 6]]%Z.
Proof. split; [exact ex_reached|]. split; [exact ex_loaded|]. repeat split; vm_compute; reflexivity. Qed.

(** C11. Counters after any history. *)
Theorem C11_bookkeeping :
  forall V D docs0 g0 ops outs d h,
    reached V D docs0 g0 ops outs d h ->
    let L := documents docs0 ops in
    exists md chunks ivf ivl cents,
      f_meta d = Some md /\ f_ivf d = Some ivf /\ f_ivf_lengths d = Some ivl /\ f_centroids d = Some (D, cents)
      /\ length chunks = num_chunks md
      /\ (forall i c, nth_error chunks i = Some c ->
            exists lens codes res, f_cmeta d i = Some c /\ f_doclens d i = Some lens
              /\ f_codes d i = Some codes /\ f_residuals d i = Some res
              /\ m_ndocs c = length lens /\ m_nembs c = sum lens
              /\ length codes = sum lens /\ length res = sum lens)
      /\ num_documents md = length L /\ num_documents md = sum (map m_ndocs chunks)
      /\ num_embeddings md = length (concat L) /\ num_embeddings md = sum (map m_nembs chunks)
      /\ num_partitions md = length cents /\ length ivl = length cents /\ sum ivl = length ivf
      /\ load_embeddings_npy d = firstn (length (load_embeddings_npy d)) L
      /\ load_buffer d = skipn (length L - length (load_buffer d)) L
      /\ load_buffer_info d = length (load_buffer d).
Proof. exact bookkeeping. Qed.
Print Assumptions C11_bookkeeping.

Example C11_example :
  reached ex_env 8 ex_docs (cfg 2 3 2 0) ex_ops ex_outs ex_d ex_h /\ load ex_d = Ok ex_x
  /\ f_meta ex_d = Some (x_meta ex_x) /\ num_documents (x_meta ex_x) = 8 /\ num_embeddings (x_meta ex_x) = 11.
Proof. split; [exact ex_reached|]. split; [exact ex_loaded|]. repeat split; vm_compute; reflexivity. Qed.

(** C12. Buffered documents are in the index at once; a flush re-encodes them in place: in
    both cases the index shows the old list followed by the new documents, and the buffer
    is exactly the tail of the list not yet re-encoded ([C11_bookkeeping]). *)
Theorem C12_buffer_flush_preserves_identity :
  forall V D docs0 g0 ops outs d h docs g ids d' h',
    reached V D docs0 g0 ops outs d h -> docs <> [] -> dim_ok D docs ->
    disciplined true false (ops ++ [OUpdate docs g]) ->
    step V (d, h) (OUpdate docs g) = Ok (ids, (d', h')) ->
    let N := length (documents docs0 ops) in
    (exists x', load d' = Ok x' /\ env_shows V x' (documents docs0 ops ++ docs))
    /\ ids = map Z.of_nat (seq N (length docs))
    /\ (g_start_from_scratch g < N \/ length (load_embeddings_npy d) <> N ->
        load_buffer d' = if length docs + length (load_buffer d) <? g_buffer_size g
                         then load_buffer d ++ docs else []).
Proof. exact update_buffer. Qed.
Print Assumptions C12_buffer_flush_preserves_identity.

(** Example: a buffered update followed by a flushing one. *)
Example C12_example :
  let s1 := st ex_docs (cfg 2 0 2 0) [OUpdate [[tok 30]] (cfg 2 0 2 1)] in
  let s2 := stepped (snd s1) (OUpdate [[tok 10]] (cfg 2 0 2 1)) in
  is_ok (run ex_env ex_docs (cfg 2 0 2 0) [OUpdate [[tok 30]] (cfg 2 0 2 1)]) = true
  /\ is_ok (step ex_env (snd s1) (OUpdate [[tok 10]] (cfg 2 0 2 1))) = true
  /\ load_buffer (fst (snd s1)) = [[tok 30]] /\ fst s2 = [6]%Z
  /\ load_buffer (fst (snd s2)) = [] /\ x_doc_lengths (opened (fst (snd s2))) = [2; 1; 0; 1; 3; 1; 1].
Proof. repeat split; vm_compute; reflexivity. Qed.

(** Finding (outside the discipline): the handle-less append used while documents are in the
    buffer makes the next flush delete the appended document instead of the buffered one:
    the buffered document is then present twice and the appended one is lost. *)
Theorem C12_append_while_buffered_loses_document_refuted :
  exists docs g g1 outs d h x,
    run ex_env docs g [OUpdate [[tok 10; tok 10]] g; OAppend [[tok 20; tok 20; tok 20]] g; OReload;
                       OUpdate [[tok 20; tok 20; tok 20; tok 20]] g1] = Ok (outs, (d, h))
    /\ load d = Ok x /\ outs = [[3]; [4]; []; [5]]%Z
    /\ x_doc_lengths x = [2; 1; 1; 2; 2; 4].
Proof.
  pose (g := cfg 2 0 100 0).
  pose (s := st ex_docs3 g [OUpdate [[tok 10; tok 10]] g; OAppend [[tok 20; tok 20; tok 20]] g; OReload;
                       OUpdate [[tok 20; tok 20; tok 20; tok 20]] (cfg 2 0 1 0)]).
  exists ex_docs3, g, (cfg 2 0 1 0), (fst s), (fst (snd s)), (snd (snd s)), (opened (fst (snd s))).
  split; [apply run_st; vm_compute; reflexivity|]. split; [apply load_opened; vm_compute; reflexivity|].
  split; vm_compute; reflexivity.
Qed.
Print Assumptions C12_append_while_buffered_loses_document_refuted.

(** C13. Centroid expansion: appends centroids; old posting lists, all codes and all decoded
    embeddings are unchanged; new centroids have no document. *)
Theorem C13_expansion_only_appends :
  forall V D docs0 g0 ops outs d h docs thr g k d' x,
    reached V D docs0 g0 ops outs d h ->
    complete (update_centroids (v_kmeans V) (v_outlier V) docs thr g) d = Ok (k, d') ->
    load d = Ok x ->
    exists new x', load d' = Ok x' /\ length new = k
      /\ c_centroids (x_codec x') = c_centroids (x_codec x) ++ new
      /\ num_partitions (x_meta x') = length (c_centroids (x_codec x'))
      /\ (forall c, c < length (c_centroids (x_codec x)) -> candidate_slice x' c = candidate_slice x c)
      /\ (forall c, length (c_centroids (x_codec x)) <= c -> candidate_slice x' c = Ok [])
      /\ (forall i, get_document_codes x' [i] = get_document_codes x [i])
      /\ (forall i, embeddings V x' i = embeddings V x i).
Proof. exact expansion. Qed.
Print Assumptions C13_expansion_only_appends.

Example C13_example :
  reached ex_env 8 ex_docs (cfg 2 3 2 0) ex_ops ex_outs ex_d ex_h /\ load ex_d = Ok ex_x
  /\ length (c_centroids (x_codec ex_x)) = 4
  /\ is_ok (complete (update_centroids (v_kmeans ex_env) (v_outlier ex_env) [[tok 99]] 0%Z (cfg 2 3 2 0)) ex_d) = true
  /\ fst (got (0, ex_d) (complete (update_centroids (v_kmeans ex_env) (v_outlier ex_env) [[tok 99]] 0%Z (cfg 2 3 2 0)) ex_d)) = 2.
Proof. split; [exact ex_reached|]. split; [exact ex_loaded|]. repeat split; vm_compute; reflexivity. Qed.

(** C14. Reconstruction. *)
Theorem C14_reconstruct_all_or_nothing :
  forall V D docs0 g0 ops outs d h x ids,
    reached V D docs0 g0 ops outs d h -> load d = Ok x ->
    let N := length (documents docs0 ops) in
    (Forall (fun z => 0 <= z < Z.of_nat N)%Z ids ->
       exists es, reconstruct_embeddings (v_fadd V) (v_norm V) x ids = Ok es
         /\ Forall2 (fun z e => embeddings V x (Z.to_nat z) = Ok e) ids es)
    /\ (~ Forall (fun z => 0 <= z < Z.of_nat N)%Z ids ->
        reconstruct_embeddings (v_fadd V) (v_norm V) x ids = Err).
Proof. exact reconstruct_spec. Qed.
Print Assumptions C14_reconstruct_all_or_nothing.

Example C14_example :
  reached ex_env 8 ex_docs (cfg 2 3 2 0) ex_ops ex_outs ex_d ex_h /\ load ex_d = Ok ex_x
  /\ map (@length _) (got [] (reconstruct_embeddings (v_fadd ex_env) (v_norm ex_env) ex_x [4; 1; 4]%Z)) = [2; 0; 2]
  /\ reconstruct_embeddings (v_fadd ex_env) (v_norm ex_env) ex_x [4; 8]%Z = Err
  /\ reconstruct_embeddings (v_fadd ex_env) (v_norm ex_env) ex_x [-1]%Z = Err.
Proof. split; [exact ex_reached|]. split; [exact ex_loaded|]. repeat split; vm_compute; reflexivity. Qed.

(** C16. Openable after any history that leaves at least one token ... *)
Theorem C16_openable_partial :
  forall V D docs0 g0 ops outs d h,
    reached V D docs0 g0 ops outs d h -> concat (documents docs0 ops) <> [] -> exists x, load d = Ok x.
Proof. intros. eapply history_list; eauto. Qed.
Print Assumptions C16_openable_partial.

(** ... but not after deleting every document: the successful delete leaves a directory that
    can no longer be opened. *)
Theorem C16_delete_all_refuted :
  exists docs g outs d h, reached ex_env 8 docs g [ODelete [0; 1]%Z] outs d h
    /\ outs = [[2]]%Z /\ load d = Err.
Proof.
  pose (s := st [[tok 10]; [tok 20]] (cfg 2 0 0 0) [ODelete [0; 1]%Z]).
  exists [[tok 10]; [tok 20]], (cfg 2 0 0 0), (fst s), (fst (snd s)), (snd (snd s)). split.
  - split; [lia|]. split; [exact ex_kmeans|]. split; [repeat constructor|].
    split; [repeat (constructor; try lia)|]. split; [exact I|].
    apply run_st. vm_compute. reflexivity.
  - split; vm_compute; reflexivity.
Qed.
Print Assumptions C16_delete_all_refuted.

Example C16_example : reached ex_env 8 ex_docs (cfg 2 3 2 0) ex_ops ex_outs ex_d ex_h
  /\ concat (documents ex_docs ex_ops) <> [].
Proof. split; [exact ex_reached|]. discriminate. Qed.

(** C51. Buffer and raw-embedding files. *)
Theorem C51_buffer_roundtrip :
  forall D docs d u d', dim_ok D docs -> docs <> [] ->
    complete (save_buffer docs) d = Ok (u, d') ->
    load_buffer d' = docs /\ load_buffer_info d' = length docs /\ load_embeddings_npy d' = load_embeddings_npy d.
Proof. exact buffer_roundtrip. Qed.
Print Assumptions C51_buffer_roundtrip.
Theorem C51_embeddings_roundtrip :
  forall D docs d u d', dim_ok D docs -> docs <> [] ->
    complete (save_embeddings_npy docs) d = Ok (u, d') ->
    load_embeddings_npy d' = docs /\ load_buffer d' = load_buffer d.
Proof. exact emb_roundtrip. Qed.
Print Assumptions C51_embeddings_roundtrip.
Theorem C51_saving_never_fails :
  forall D docs d, dim_ok D docs ->
    (exists d', complete (save_buffer docs) d = Ok (tt, d'))
    /\ (exists d', complete (save_embeddings_npy docs) d = Ok (tt, d')).
Proof. exact save_total. Qed.
Print Assumptions C51_saving_never_fails.

Example C51_example : dim_ok 8 [[tok 1; tok 2]; []; [tok 3]]
  /\ exists d', complete (save_buffer [[tok 1; tok 2]; []; [tok 3]]) empty_disk = Ok (tt, d')
     /\ load_buffer d' = [[tok 1; tok 2]; []; [tok 3]].
Proof. split; [repeat constructor|]. eexists. split; vm_compute; reflexivity. Qed.
