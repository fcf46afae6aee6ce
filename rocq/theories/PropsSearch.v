(** Properties C17-C22, C45, C55, C56: searching and ranking. *)
From Verif Require Import Base F32 CodecModel CodecSpec CodecProofs IndexModel IndexSpec IndexAccess IndexExamples
  SearchModel SearchSpec SimdProofs ProbeProofs SearchProofs SearchOps SearchStages SearchExamples.
Open Scope nat_scope.

(** C17. Whatever the index, the query, the parameters and the subset: a search that returns
    gives at most [top_k] distinct readable documents of the subset, by non-increasing score. *)
Theorem C17_search_well_formed :
  forall V K x q p subset r,
    search V K x q p subset = Ok r ->
    length (r_passage_ids r) = length (r_scores r)
    /\ length (r_passage_ids r) <= p_top_k p
    /\ NoDup (r_passage_ids r)
    /\ non_increasing (r_scores r)
    /\ forall id, In id (r_passage_ids r) ->
         (0 <= id)%Z /\ (exists e, embeddings V x (Z.to_nat id) = Ok e)
         /\ match subset with None => True | Some s => In id s end.
Proof. exact search_well_formed. Qed.
Print Assumptions C17_search_well_formed.

(** On an index reached by a history, with at least one probe and a query of the index's
    dimension, the search does return, and only existing documents. *)
Theorem C17_search_returns :
  forall V K D docs0 g0 ops outs d h x q p subset,
    good_kernel K -> reached V D docs0 g0 ops outs d h -> load d = Ok x ->
    q_dim q = D -> 1 <= p_n_ivf_probe p ->
    exists r, search V K x q p subset = Ok r
      /\ forall id, In id (r_passage_ids r) -> (0 <= id < Z.of_nat (length (documents docs0 ops)))%Z.
Proof. exact search_returns. Qed.
Print Assumptions C17_search_returns.

(** With [n_ivf_probe = 0] the search panics instead (unless the batched path is taken). *)
Theorem C17_zero_probe_refuted :
  exists V K D docs0 g0 ops outs d h x q p,
    good_kernel K /\ reached V D docs0 g0 ops outs d h /\ load d = Ok x /\ q_dim q = D /\ p_n_ivf_probe p = 0
    /\ search V K x q p None = Panic.
Proof.
  exists ex_env, ex_kernel, 8, ex_docs, (cfg 2 3 2 0), ex_ops, ex_outs, ex_d, ex_h, ex_x, ex_q, (pr 10 3 0 0 None).
  split; [exact ex_good|]. split; [exact ex_reached|]. split; [exact ex_loaded|]. split; [reflexivity|].
  split; [reflexivity|]. vm_compute. reflexivity.
Qed.
Print Assumptions C17_zero_probe_refuted.

Example C17_example :
  good_kernel ex_kernel /\ reached ex_env 8 ex_docs (cfg 2 3 2 0) ex_ops ex_outs ex_d ex_h /\ load ex_d = Ok ex_x
  /\ is_ok (search ex_env ex_kernel ex_x ex_q (pr 10 3 1 0 None) None) = true
  /\ r_passage_ids (got empty_result (search ex_env ex_kernel ex_x ex_q (pr 10 3 1 0 None) None)) = [0; 2; 4]%Z
  /\ r_passage_ids (got empty_result (search ex_env ex_kernel ex_x ex_q (pr 10 3 1 2 None) None)) = [0; 2; 4]%Z
  /\ r_passage_ids (got empty_result (search ex_env ex_kernel ex_x ex_q (pr 10 3 1 0 None) (Some [5; 4; 2; 44; 7]%Z))) = [2; 4; 5]%Z.
Proof.
  split; [exact ex_good|]. split; [exact ex_reached|]. split; [exact ex_loaded|]. vm_compute. tauto.
Qed.

(** C18. There is a set [C] of documents that were scored in full, limited by the rescoring
    parameters; the result is the best of [C] by MaxSim score against the decompressed
    documents, with those scores. *)
Theorem C18_exact_scores :
  forall V K x q p subset r,
    good_kernel K -> search V K x q p subset = Ok r ->
    exists C score,
      (forall id, In id C -> doc_score V K x q id (score id))
      /\ NoDup C /\ length C <= Nat.max (p_n_full_scores p / 4) (p_top_k p) /\ length C <= p_n_full_scores p
      /\ best_of (p_top_k p) C score (r_passage_ids r) (r_scores r).
Proof. exact search_scores. Qed.
Print Assumptions C18_exact_scores.

Example C18_example :
  search ex_env ex_kernel ex_x ex_q (pr 10 3 1 0 None) None
  = Ok {| r_query_id := 0; r_passage_ids := [0; 2; 4]%Z; r_scores := [1520; 1520; 1440]%Z |}.
Proof. vm_compute. reflexivity. Qed.

(** C19. Probing every centroid, without threshold and with rescoring limits that cover the
    searchable documents, the result is the exact [top_k] by MaxSim over all documents with
    at least one token, restricted to the subset. *)
Theorem C19_exhaustive_is_exact :
  forall V K D docs0 g0 ops outs d h x q p subset r,
    good_kernel K -> reached V D docs0 g0 ops outs d h -> load d = Ok x ->
    q_rows q <> [] -> num_partitions (x_meta x) <= p_n_ivf_probe p -> p_threshold p = None ->
    let U := searchable_docs (documents docs0 ops) subset in
    length U <= p_n_full_scores p -> length U <= Nat.max (p_n_full_scores p / 4) (p_top_k p) ->
    search V K x q p subset = Ok r ->
    exists score, (forall id, In id U -> doc_score V K x q id (score id))
      /\ best_of (p_top_k p) U score (r_passage_ids r) (r_scores r).
Proof. exact search_exact. Qed.
Print Assumptions C19_exhaustive_is_exact.

(** When the rescoring limit is below [top_k], fewer than [top_k] documents come back
    although more exist. *)
Theorem C19_small_rescoring_limit_refuted :
  exists V K D docs0 g0 ops outs d h x q p r,
    good_kernel K /\ reached V D docs0 g0 ops outs d h /\ load d = Ok x /\ q_rows q <> []
    /\ num_partitions (x_meta x) <= p_n_ivf_probe p /\ p_threshold p = None
    /\ search V K x q p None = Ok r
    /\ length (r_passage_ids r) < p_top_k p /\ p_top_k p < length (searchable_docs (documents docs0 ops) None).
Proof.
  exists ex_env, ex_kernel, 8, ex_docs, (cfg 2 3 2 0), ex_ops, ex_outs, ex_d, ex_h, ex_x, ex_q, (pr 2 4 9 0 None).
  eexists. split; [exact ex_good|]. split; [exact ex_reached|]. split; [exact ex_loaded|]. split; [discriminate|].
  split; [vm_compute; lia|]. split; [reflexivity|]. split; [vm_compute; reflexivity|]. vm_compute. lia.
Qed.
Print Assumptions C19_small_rescoring_limit_refuted.

Example C19_example :
  num_partitions (x_meta ex_x) <= 9 /\ length (searchable_docs (documents ex_docs ex_ops) None) = 7
  /\ search ex_env ex_kernel ex_x ex_q (pr 28 3 9 0 None) None
     = Ok {| r_query_id := 0; r_passage_ids := [0; 2; 3]%Z; r_scores := [1520; 1520; 1520]%Z |}.
Proof. vm_compute. repeat split; lia. Qed.

(** C20. Without threshold, the batched probe selects, for every batch size, the union of
    [n_ivf_probe] best centroids per query token; ... *)
Theorem C20_batched_probe :
  forall K qrows centroids n batch,
    good_kernel K -> 1 <= batch ->
    best_cells_union n (map (fun q => map (k_mat K q) centroids) qrows)
      (ivf_probe_batched (k_mat K) (k_heap K) qrows centroids n batch None).
Proof. exact batched_cells. Qed.
Print Assumptions C20_batched_probe.
(** ... so does the standard probe; ... *)
Theorem C20_standard_probe :
  forall K x q p cells,
    good_kernel K -> p_threshold p = None ->
    cells_to_probe (k_select K) x (map (fun qr => map (k_mat K qr) (c_centroids (x_codec x))) (q_rows q)) p None = Ok cells ->
    best_cells_union (p_n_ivf_probe p) (map (fun qr => map (k_mat K qr) (c_centroids (x_codec x))) (q_rows q)) cells.
Proof. exact standard_cells. Qed.
Print Assumptions C20_standard_probe.
(** ... and without ties the two select the same set. *)
Theorem C20_probes_agree :
  forall K x q p batch cells,
    good_kernel K -> 1 <= batch -> p_threshold p = None ->
    let scores := map (fun qr => map (k_mat K qr) (c_centroids (x_codec x))) (q_rows q) in
    Forall no_ties scores ->
    cells_to_probe (k_select K) x scores p None = Ok cells ->
    forall c, In c cells <->
      In c (ivf_probe_batched (k_mat K) (k_heap K) (q_rows q) (c_centroids (x_codec x)) (p_n_ivf_probe p) batch None).
Proof. exact probes_agree. Qed.
Print Assumptions C20_probes_agree.

(** With a threshold the two probes disagree, even without ties: the batched probe forgets
    the scores of a centroid for the tokens that did not select it. *)
Theorem C20_threshold_disagreement_refuted :
  exists K x q p batch cells c,
    good_kernel K /\ 1 <= batch
    /\ (let scores := map (fun qr => map (k_mat K qr) (c_centroids (x_codec x))) (q_rows q) in
        Forall no_ties scores /\ cells_to_probe (k_select K) x scores p None = Ok cells)
    /\ In c cells
    /\ ~ In c (ivf_probe_batched (k_mat K) (k_heap K) (q_rows q) (c_centroids (x_codec x)) (p_n_ivf_probe p) batch (p_threshold p)).
Proof. exact threshold_disagreement. Qed.
Print Assumptions C20_threshold_disagreement_refuted.

Example C20_example :
  ivf_probe_batched (k_mat ex_kernel) (k_heap ex_kernel) (q_rows ex_q) [tok 9; tok 10; tok 8; tok 20] 1 3 None = [3; 1]
  /\ ivf_probe_batched (k_mat ex_kernel) (k_heap ex_kernel) (q_rows ex_q) [tok 9; tok 10; tok 8; tok 20] 1 1 None = [3; 1]
  /\ cells_to_probe (k_select ex_kernel) ex_x
       (map (fun qr => map (k_mat ex_kernel qr) (c_centroids (x_codec ex_x))) (q_rows ex_q)) (pr 10 3 1 0 None) None = Ok [1; 0].
Proof. vm_compute. repeat split. Qed.

(** C21. One result per query, in order, labelled with the query's position and otherwise
    equal to the search of that query alone; the two execution modes agree. *)
Theorem C21_one_result_per_query :
  forall V K x qs p parallel subset rs,
    search_batch V K x qs p parallel subset = Ok rs ->
    length rs = length qs
    /\ forall i q, nth_error qs i = Some q ->
         exists r, search V K x q p subset = Ok r
           /\ nth_error rs i = Some {| r_query_id := i; r_passage_ids := r_passage_ids r; r_scores := r_scores r |}.
Proof. exact search_many_spec. Qed.
Print Assumptions C21_one_result_per_query.
Theorem C21_modes_agree :
  forall V K x qs p subset,
    search_batch V K x qs p true subset = search_batch V K x qs p false subset.
Proof. exact search_many_parallel. Qed.
Print Assumptions C21_modes_agree.
Theorem C21_batch_returns :
  forall V K x qs p parallel subset,
    (forall q, In q qs -> exists r, search V K x q p subset = Ok r) ->
    exists rs, search_batch V K x qs p parallel subset = Ok rs.
Proof. exact search_many_ok. Qed.
Print Assumptions C21_batch_returns.

Example C21_example :
  search_batch ex_env ex_kernel ex_x [ex_q; {| q_dim := 8; q_rows := [tok 27] |}] (pr 10 2 1 0 None) true None
  = Ok [{| r_query_id := 0; r_passage_ids := [0; 2]%Z; r_scores := [1520; 1520]%Z |};
        {| r_query_id := 1; r_passage_ids := [4; 6]%Z; r_scores := [784; 760]%Z |}].
Proof. vm_compute. reflexivity. Qed.

(** C22. On every architecture and for every slice, the vectorised maximum is an element of
    the slice, numerically at least every finite element, and numerically equal to the scalar
    maximum. *)
Theorem C22_simd_max :
  forall arch l, Forall f32_wf l -> l <> [] ->
    In (simd_max arch l) l
    /\ (forall v, In v l -> is_finite v = true -> is_finite (simd_max arch l) = true /\ f_lt (simd_max arch l) v = false)
    /\ same_number (simd_max arch l) (scalar_max l).
Proof. exact simd_max_spec. Qed.
Print Assumptions C22_simd_max.
Theorem C22_simd_max_empty : forall arch, simd_max arch [] = f_neg_inf /\ scalar_max [] = f_neg_inf.
Proof. intro a. split; [apply simd_max_nil|reflexivity]. Qed.
Print Assumptions C22_simd_max_empty.
(** Bit for bit the two differ on zeros of different sign. *)
Theorem C22_bitwise_refuted :
  exists arch l, Forall f32_wf l /\ l <> [] /\ simd_max arch l <> scalar_max l.
Proof.
  exists Avx2, (f_zero :: repeat 2147483648%Z 15).
  split; [apply Forall_forall; intros v Hv; cbn in Hv; unfold f32_wf, f_zero in *; lia|]. split; [discriminate|]. vm_compute. discriminate.
Qed.
Print Assumptions C22_bitwise_refuted.

Example C22_example :
  simd_max Avx2 (map (fun i => (1065353216 + Z.of_nat (i * 7 mod 41))%Z) (seq 0 40)) = (1065353216 + 40)%Z
  /\ simd_max Neon (map (fun i => (1065353216 + Z.of_nat (i * 7 mod 41))%Z) (seq 0 40)) = (1065353216 + 40)%Z
  /\ simd_max Avx2 (f_quiet_nan :: f_inf :: repeat f_one 17) = f_one.
Proof. vm_compute. repeat split. Qed.

(** C45. Reranking returns every document index once, with the document's own MaxSim score,
    better scores first and equal scores in input order. *)
Theorem C45_rerank_sorted_permutation :
  forall fadd dot q docs l,
    rerank fadd dot q docs = Ok l ->
    map fst l <> [] /\ Permutation (map fst l) (map Z.of_nat (seq 0 (length docs)))
    /\ (forall i s, In (Z.of_nat i, s) l -> exists d, nth_error docs i = Some d /\ q_dim d = q_dim q
                       /\ rerank_score fadd dot (q_rows q) (q_rows d) s)
    /\ StronglySorted (fun a b => ~ better (snd b) (snd a) /\ (better (snd a) (snd b) \/ (fst a < fst b)%Z)) l.
Proof. exact rerank_ok. Qed.
Print Assumptions C45_rerank_sorted_permutation.
(** It never panics, and fails exactly on an empty list, a document of another dimension, or
    a document with a non-finite similarity or running total. *)
Theorem C45_rerank_fails_iff :
  forall fadd dot q docs,
    rerank fadd dot q docs <> Panic
    /\ (rerank fadd dot q docs = Err <->
        docs = [] \/ (exists d, In d docs /\ q_dim d <> q_dim q)
        \/ exists d, In d docs /\ forall s, ~ rerank_score fadd dot (q_rows q) (q_rows d) s).
Proof. exact rerank_total. Qed.
Print Assumptions C45_rerank_fails_iff.

Example C45_example :
  let d l := {| q_dim := 8; q_rows := l |} in
  rerank Z.add ex_sim ex_q [d [tok 1]; d [tok 10]; d []; d [tok 10; tok 20]; d [tok 20]]
  = Ok [(3, 1600); (1, 1520); (4, 1520); (0, 1376); (2, 0)]%Z
  /\ rerank Z.add (fun _ _ => f_inf) ex_q [d [tok 1]] = Err
  /\ (forall s, ~ rerank_score Z.add (fun _ _ => f_inf) (q_rows ex_q) [tok 1] s).
Proof.
  split; [vm_compute; reflexivity|]. split; [vm_compute; reflexivity|].
  intros s H. inversion H; subst. inversion H2; subst. vm_compute in H5. discriminate.
Qed.

(** C55. Assigning embeddings to centroids gives one index per embedding, in range, of a
    numerically largest finite similarity, on the small and on the vectorised path, for every
    batch size. *)
Theorem C55_assign_to_centroids :
  forall K batch embeddings centroids,
    good_kernel K -> 1 <= batch -> centroids <> [] ->
    let sim := if length embeddings * length centroids <? 1024 then k_dot K else k_mat K in
    Forall2 (fun e k => is_best_index (map (sim e) centroids) k) embeddings
      (assign_to_centroids (k_mat K) (k_dot K) (k_arch K) batch embeddings centroids).
Proof. exact (fun K batch embs cents HK => assign_spec K HK batch embs cents). Qed.
Print Assumptions C55_assign_to_centroids.
(** The two paths break ties differently: the first best index against the last. *)
Theorem C55_tie_break_refuted :
  exists arch l, Forall f32_wf l /\ simd_argmax arch l <> argmax_row l.
Proof.
  exists Avx2, (repeat f_one 8). split; [apply Forall_forall; intros v Hv; apply repeat_spec in Hv; subst; unfold f32_wf, f_one; lia|]. vm_compute. discriminate.
Qed.
Print Assumptions C55_tie_break_refuted.

Example C55_example :
  assign_to_centroids (k_mat ex_kernel) (k_dot ex_kernel) Avx2 5 [tok 20; tok 10; tok 3] [tok 10; tok 20] = [1; 0; 0].
Proof. vm_compute. reflexivity. Qed.

(** C56. Which documents are scored in full, on an index reached by any history. The probe
    picks centroids; the candidates are exactly the documents of the subset having one of
    them as a code; each candidate has the centroid-level approximate MaxSim score; the
    [min n_full (max (n_full / 4) top_k)] best candidates by that score are scored in full;
    the result is the [top_k] best of those. *)
Theorem C56_search_stages :
  forall V K D docs0 g0 ops outs d h x q p subset r,
    good_kernel K -> reached V D docs0 g0 ops outs d h -> load d = Ok x ->
    search V K x q p subset = Ok r ->
    let scores := map (fun qr => map (k_mat K qr) (c_centroids (x_codec x))) (q_rows q) in
    let sim := if batched x p then k_vec K else k_mat K in
    exists cells cands approx C score,
      (if batched x p then batched_probe x p scores cells else standard_probe x p subset scores cells)
      /\ NoDup cands
      /\ (forall z, In z cands <-> match subset with None => True | Some s => In z s end
            /\ exists i codes c, z = Z.of_nat i /\ i < length (x_doc_lengths x)
                 /\ get_document_codes x [i] = Ok [codes] /\ In c codes /\ In c cells)
      /\ (forall i codes, In (Z.of_nat i) cands -> get_document_codes x [i] = Ok [codes] ->
            approx_score (v_fadd V) sim (q_rows q) (c_centroids (x_codec x)) codes (approx (Z.of_nat i)))
      /\ best_of (Nat.min (p_n_full_scores p) (Nat.max (p_n_full_scores p / 4) (p_top_k p))) cands approx C (map approx C)
      /\ (forall id, In id C -> doc_score V K x q id (score id))
      /\ best_of (p_top_k p) C score (r_passage_ids r) (r_scores r).
Proof. exact search_stages_reached. Qed.
Print Assumptions C56_search_stages.

(** Both probes occur, with a subset and a threshold, and return documents. *)
Example C56_example :
  batched ex_x (pr 10 3 1 2 (Some 100%Z)) = true /\ batched ex_x (pr 10 3 1 0 (Some 100%Z)) = false
  /\ is_ok (search ex_env ex_kernel ex_x ex_q (pr 10 3 1 2 (Some 100%Z)) None) = true
  /\ is_ok (search ex_env ex_kernel ex_x ex_q (pr 10 3 1 0 (Some 100%Z)) (Some [0; 2; 5]%Z)) = true
  /\ reached ex_env 8 ex_docs (cfg 2 3 2 0) ex_ops ex_outs ex_d ex_h /\ load ex_d = Ok ex_x.
Proof. repeat (split; [vm_compute; reflexivity|]). split; [exact ex_reached|exact ex_loaded]. Qed.
