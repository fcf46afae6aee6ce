(** Model of query processing: maxsim.rs (SIMD reductions, MaxSim), search.rs (IVF probing,
    candidate scoring, ranking, multi-query search) and the API's rerank.rs.

    Simplifications that hold for the whole file:
    - a floating-point product of two rows is one arbitrary value per pair of rows
      ([k_mat] for matrix products, [k_vec] for matrix-vector products, [k_dot] for row
      products, which may all differ); that BLAS may round differently for different
      blockings of the same rows is not modelled;
    - rayon's [par_iter]/[par_chunks] with [collect] keep the input order, so they are [map];
    - machine integers are unbounded. *)
From Verif Require Import Base F32 CodecModel IndexModel.
Open Scope nat_scope.

Notation row := (list f32) (only parsing).

(** search.rs 110-117 [cmp_score_ascending] and maxsim.rs 22-30 [cmp_f32_for_max] are the
    same function as codec.rs 22-30, see [cmp_f32_for_max] in CodecModel.v. *)
(** search.rs 119-121 [cmp_score_descending] *)
Definition cmp_score_descending (a b : f32) : comparison := cmp_f32_for_max b a.
(** search.rs 123-125 and maxsim.rs 32-35 [is_score_better] *)
Definition is_score_better (candidate current : f32) : bool :=
  match cmp_f32_for_max candidate current with Gt => true | _ => false end.
(** search.rs 127-133 [max_score] *)
Definition max_score (a b : f32) : f32 := if is_score_better b a then b else a.

(** [Iterator::max_by] over plain values (keeps the later of two equal elements). *)
Definition max_by_val (l : list f32) : option f32 :=
  fold_left (fun acc x => match acc with
                          | None => Some x
                          | Some a => match cmp_f32_for_max a x with Gt => Some a | _ => Some x end
                          end) l None.

(** ** maxsim.rs *)

(** maxsim.rs 57-63 [scalar_max] *)
Definition scalar_max (l : list f32) : f32 :=
  match max_by_val l with Some m => m | None => f_neg_inf end.
(** maxsim.rs 51-53 [has_non_finite] *)
Definition has_non_finite (l : list f32) : bool := existsb (fun v => negb (is_finite v)) l.

(** The CPU the code runs on: [Scalar] is any target without AVX2/NEON. *)
Inductive arch := Scalar | Avx2 | Neon.
(** One lane of [_mm256_max_ps]/[_mm_max_ps] (Intel SDM, MAXPS: the second operand unless
    the first is greater). *)
Definition avx_max (a b : f32) : f32 := if f_gt a b then a else b.
(** One lane of [vmaxq_f32] (Arm ARM, FMAX: NaN propagates, +0 > -0). *)
Definition neon_max (a b : f32) : f32 :=
  if is_nan a then a else if is_nan b then b
  else match total_cmp a b with Lt => b | _ => a end.
Definition map2 {A B C} (f : A -> B -> C) (l : list A) (m : list B) : list C :=
  map (fun ab => f (fst ab) (snd ab)) (combine l m).

(** The two accumulation loops: maxsim.rs 93-117 (AVX2, lanes w = 8) and 166-188
    (NEON, w = 4); [fuel] bounds the iterations ([length l] is always enough). Returns the four accumulators and the tail. *)
Fixpoint simd_loop32 (vmax : f32 -> f32 -> f32) (w fuel : nat) (l : list f32)
    (v0 v1 v2 v3 : list f32) : list f32 * list f32 * list f32 * list f32 * list f32 :=
  match fuel with
  | O => (v0, v1, v2, v3, l)
  | S f =>
    if 4 * w <=? length l then
      simd_loop32 vmax w f (skipn (4 * w) l)
        (map2 vmax v0 (firstn w l)) (map2 vmax v1 (firstn w (skipn w l)))
        (map2 vmax v2 (firstn w (skipn (2 * w) l))) (map2 vmax v3 (firstn w (skipn (3 * w) l)))
    else (v0, v1, v2, v3, l)
  end.
Fixpoint simd_loop8 (vmax : f32 -> f32 -> f32) (w fuel : nat) (l : list f32) (v0 : list f32)
    : list f32 * list f32 :=
  match fuel with
  | O => (v0, l)
  | S f => if w <=? length l then simd_loop8 vmax w f (skipn w l) (map2 vmax v0 (firstn w l))
           else (v0, l)
  end.
(** maxsim.rs 124-134: horizontal maximum of eight lanes (upper and lower half, then the
    shuffles 0b01001110 and 0b00000001). *)
Definition hmax8 (v : list f32) : f32 :=
  let max128 := map2 avx_max (skipn 4 v) (firstn 4 v) in
  let shuffled := skipn 2 max128 ++ firstn 2 max128 in
  let max64 := map2 avx_max max128 shuffled in
  avx_max (nth 0 max64 f_neg_inf) (nth 1 max64 f_neg_inf).
(** maxsim.rs 196-198: horizontal maximum of four lanes ([vextq] by 2, then by 1). *)
Definition hmax4 (v : list f32) : f32 :=
  let max_pair := map2 neon_max v (skipn 2 v ++ firstn 2 v) in
  let max_val := map2 neon_max max_pair (skipn 1 max_pair ++ firstn 1 max_pair) in
  nth 0 max_val f_neg_inf.
(** maxsim.rs 81-149 (AVX2) and 154-213 (NEON) after the length test. *)
Definition simd_body (vmax : f32 -> f32 -> f32) (hmax : list f32 -> f32) (w : nat) (l : list f32) : f32 :=
  let init := repeat f_neg_inf w in
  let '(v0, v1, v2, v3, t) := simd_loop32 vmax w (length l) l init init init init in
  let '(v0', t') := simd_loop8 vmax w (length t) t v0 in
  let v01 := map2 vmax v0' v1 in
  let v23 := map2 vmax v2 v3 in
  let r := fold_left (fun r v => if is_score_better v r then v else r) t' (hmax (map2 vmax v01 v23)) in
  if negb (is_finite r) || has_non_finite l then scalar_max l else r.
(** maxsim.rs 79-220 [simd_max] *)
Definition simd_max (a : arch) (l : list f32) : f32 :=
  match a with
  | Scalar => scalar_max l
  | Avx2 => if length l <? 8 then scalar_max l else simd_body avx_max hmax8 8 l
  | Neon => if length l <? 4 then scalar_max l else simd_body neon_max hmax4 4 l
  end.

(** [Iterator::position] *)
Fixpoint position {A} (p : A -> bool) (l : list A) : option nat :=
  match l with
  | [] => None
  | x :: xs => if p x then Some 0 else option_map S (position p xs)
  end.
(** maxsim.rs 66-75 [scalar_argmax] *)
Definition scalar_argmax (l : list f32) : nat := argmax_row l.
(** maxsim.rs 222-246 [simd_argmax] *)
Definition simd_argmax (a : arch) (l : list f32) : nat :=
  match l with
  | [] => 0
  | _ => if (length l <? 8) || match a with Scalar => true | _ => false end then scalar_argmax l
         else match position (fun v => f_eq v (simd_max a l)) l with Some i => i | None => 0 end
  end.

Section SEARCH.
  Variables (fadd : f32 -> f32 -> f32) (normalize : row -> row).
  Variables (k_mat k_vec k_dot : row -> row -> f32) (k_arch : arch).
  (** [select_nth_unstable_by(n - 1, descending)]: the reordered vector. *)
  Variable k_select : nat -> list (nat * f32) -> list (nat * f32).
  (** [BinaryHeap::into_iter]: arbitrary order. *)
  Variable k_heap : list (f32 * nat) -> list (f32 * nat).

  (** maxsim.rs 296-315 [maxsim_score_simple] *)
  Definition best_sim (q : row) (docs : list row) : f32 :=
    fold_left (fun m d => if is_score_better (k_dot q d) m then k_dot q d else m) docs f_neg_inf.
  Definition add_finite (total m : f32) : f32 := if is_finite m then fadd total m else total.
  Definition maxsim_score_simple (query docs : list row) : f32 :=
    fold_left (fun total q => add_finite total (best_sim q docs)) query f_zero.
  (** maxsim.rs 269-294 [maxsim_score] *)
  Definition maxsim_score (query docs : list row) : f32 :=
    if length query * length docs <? 256 then maxsim_score_simple query docs
    else fold_left (fun total q => add_finite total (simd_max k_arch (map (k_mat q) docs))) query f_zero.

  (** maxsim.rs 330-385 [assign_to_centroids]; [bs] is the batch size computed from the
      memory limit (lines 362-363, at least 1). *)
  Definition assign_simple (centroids : list row) (e : row) : nat :=
    fst (fold_left (fun best ic =>
           let score := k_dot e (snd ic) in
           if is_score_better score (snd best) then (fst ic, score) else best)
         (combine (seq 0 (length centroids)) centroids) (0, f_neg_inf)).
  Definition assign_to_centroids (bs : nat) (embeddings centroids : list row) : list nat :=
    let n := length embeddings in
    let k := length centroids in
    if (n =? 0) || (k =? 0) then repeat 0 n else
    if n * k <? 1024 then map (assign_simple centroids) embeddings
    else concat (map (map (fun e => simd_argmax k_arch (map (k_mat e) centroids)))
                     (chunks bs embeddings)).

  (** ** search.rs *)

  (** A query: [Array2<f32>] (the column count is kept because it exists without rows). *)
  Record query := { q_dim : nat; q_rows : list row }.
  (** search.rs 28-48 [SearchParameters] ([batch_size] is not read by the search code) *)
  Record params := {
    p_n_full_scores : nat; p_top_k : nat; p_n_ivf_probe : nat;
    p_centroid_batch_size : nat; p_threshold : option f32 }.
  (** search.rs 72-80 [QueryResult] *)
  Record result := { r_query_id : nat; r_passage_ids : list Z; r_scores : list f32 }.

  (** Heap entry [(Reverse(OrdF32(score)), centroid)] and [a > b] on entries: the smaller
      score is the greater entry, ties by the larger centroid (search.rs 92-108). *)
  Definition entry_gt (a b : f32 * nat) : bool :=
    match cmp_f32_for_max (fst b) (fst a) with Gt => true | Lt => false | Eq => snd b <? snd a end.
  (** A [BinaryHeap] as the list of its entries, greatest first. *)
  Definition heap_push (e : f32 * nat) (h : list (f32 * nat)) : list (f32 * nat) :=
    insert (fun a b => negb (entry_gt b a)) e h.
  (** search.rs 182-197 and 216-223: offer one entry to a heap of at most [n]; the flag
      says whether it went in. *)
  Definition heap_offer (n : nat) (h : list (f32 * nat)) (e : f32 * nat) : list (f32 * nat) * bool :=
    if length h <? n then (heap_push e h, true)
    else match h with
         | [] => (h, false)
         | m :: rest => if is_score_better (fst e) (fst m) then (heap_push e rest, true) else (h, false)
         end.
  (** [HashMap<usize, f32>] *)
  Definition fmap := nat -> option f32.
  Definition fm_merge (join : f32 -> f32 -> f32) (m : fmap) (c : nat) (s : f32) : fmap :=
    fun c' => if c' =? c then Some (match m c with Some s0 => join s0 s | None => s end) else m c'.
  (** search.rs 178-198: one query token over the centroids of one batch. *)
  Definition probe_token (n start : nat) (scores : list f32) (mx : fmap) : list (f32 * nat) * fmap :=
    fold_left (fun s ls =>
        let '(h, mx) := s in
        let '(local_c, score) := ls in
        let '(h', taken) := heap_offer n h (score, start + local_c) in
        (h', if taken : bool then fm_merge max_score mx (start + local_c) score else mx))
      (combine (seq 0 (length scores)) scores) ([], mx).
  (** search.rs 164-202: one batch (the map is shared by the tokens). *)
  Definition probe_batch (qrows cents : list row) (n start : nat) : list (list (f32 * nat)) * fmap :=
    fold_left (fun s q =>
        let '(hs, mx) := s in
        let '(h, mx') := probe_token n start (map (k_mat q) cents) mx in
        (hs ++ [h], mx'))
      qrows ([], fun _ => None).
  (** search.rs 205-232: merge of one batch into the totals. The keys of a map are visited
      in arbitrary order; since they are distinct the result does not depend on it. *)
  Definition merge_heap (n : nat) (final local : list (f32 * nat)) : list (f32 * nat) :=
    fold_left (fun h e => fst (heap_offer n h e)) (k_heap local) final.
  Definition fm_merge_all (m local : fmap) : fmap :=
    fun c => match local c with
             | None => m c
             | Some s => Some (match m c with Some s0 => f_max s0 s | None => s end)
             end.
  Definition merge_batch (n : nat) (acc : list (list (f32 * nat)) * fmap)
      (local : list (list (f32 * nat)) * fmap) : list (list (f32 * nat)) * fmap :=
    (map2 (merge_heap n) (fst acc) (fst local), fm_merge_all (snd acc) (snd local)).
  (** search.rs 151-154: the batches with their first row number. *)
  Fixpoint with_starts (start : nat) (bs : list (list row)) : list (nat * list row) :=
    match bs with [] => [] | b :: r => (start, b) :: with_starts (start + length b) r end.
  Definition thr_ge (o : option f32) (t : f32) : bool :=
    f_ge (match o with Some s => s | None => f_neg_inf end) t.
  (** search.rs 140-254 [ivf_probe_batched]; [selected] as a list without repetitions. *)
  Definition ivf_probe_batched (qrows centroids : list row) (n batch : nat) (thr : option f32) : list nat :=
    let locals := map (fun sb => probe_batch qrows (snd sb) n (fst sb)) (with_starts 0 (chunks batch centroids)) in
    let '(heaps, mx) := fold_left (merge_batch n) locals (map (fun _ => []) qrows, fun _ => None) in
    let selected := nodup Nat.eq_dec (concat (map (fun h => map snd (k_heap h)) heaps)) in
    match thr with
    | None => selected
    | Some t => filter (fun c => thr_ge (mx c) t) selected
    end.

  (** Codes of one document: [doc_offsets[doc_id as usize]] etc. A negative id becomes a
      huge index and panics. *)
  Definition doc_codes (x : index) (id : Z) : res (list nat) :=
    if (id <? 0)%Z then Panic else
    bind (doc_range x (Z.to_nat id)) (fun se => slice (x_codes x) (fst se) (snd se)).

  (** search.rs 347-364: centroids of the subset's documents (a set; unknown ids skipped). *)
  Definition eligible_centroids (x : index) (subset : list Z) : res (list nat) :=
    bind (mapM (fun id => if (0 <=? id)%Z && (Z.to_nat id <? length (x_doc_lengths x))
                          then doc_codes x id else Ok []) subset)
      (fun ls => Ok (nodup Nat.eq_dec (concat ls))).
  (** search.rs 366-382 *)
  Definition effective_n_ivf_probe (x : index) (n : nat) (eligible : option (list nat)) (subset : option (list Z)) : nat :=
    match eligible, subset with
    | Some el, Some sub =>
      match el with
      | [] => n
      | _ => let scaled := if 0 <? length sub then n * length (x_doc_lengths x) / length sub else n in
             Nat.min (Nat.max scaled n) (length el)
      end
    | _, _ => n
    end.
  (** search.rs 391-414: cells for one query token, [scores] being its row of
      [query_centroid_scores]. [select_nth_unstable_by(0 - 1)] panics. *)
  Definition token_cells (n : nat) (pool : list nat) (scores : list f32) : res (list nat) :=
    bind (mapM (fun c => bind (idx scores c) (fun s => Ok (c, s))) pool) (fun l =>
      let n_probe := Nat.min n (length l) in
      if n_probe <? length l then
        if n_probe =? 0 then Panic else Ok (map fst (firstn n_probe (k_select n_probe l)))
      else Ok (map fst (firstn n_probe l))).
  (** search.rs 417-425 *)
  Definition column_max (scores : list (list f32)) (c : nat) : res f32 :=
    bind (mapM (fun r => idx r c) scores) (fun col =>
      Ok (match max_by_val col with Some m => m | None => f_neg_inf end)).
  Fixpoint retainM {A} (p : A -> res bool) (l : list A) : res (list A) :=
    match l with
    | [] => Ok []
    | a :: r => bind (p a) (fun b => bind (retainM p r) (fun t => Ok (if b then a :: t else t)))
    end.
  (** search.rs 388-428: the cells to probe, as a list without repetitions. *)
  Definition cells_to_probe (x : index) (scores : list (list f32)) (p : params) (subset : option (list Z)) : res (list nat) :=
    bind (match subset with
          | None => Ok None
          | Some s => bind (eligible_centroids x s) (fun e => Ok (Some e))
          end) (fun eligible =>
    let n := effective_n_ivf_probe x (p_n_ivf_probe p) eligible subset in
    let pool := match eligible with Some e => e | None => seq 0 (length (c_centroids (x_codec x))) end in
    bind (mapM (token_cells n pool) scores) (fun ls =>
    let selected := nodup Nat.eq_dec (concat ls) in
    match p_threshold p with
    | None => Ok selected
    | Some t => retainM (fun c => bind (column_max scores c) (fun m => Ok (f_ge m t))) selected
    end)).

  (** search.rs 433-437: [subset_set.contains] *)
  Definition in_subset (subset : option (list Z)) (id : Z) : bool :=
    match subset with None => true | Some s => existsb (Z.eqb id) s end.

  (** search.rs 305-324 [approximate_score_mmap]: [scores] is the matrix of all
      query-centroid scores, by query token. *)
  Definition approx_token (scores : list f32) (codes : list nat) : res f32 :=
    foldM (fun m code => bind (idx scores code) (fun s => Ok (if f_gt s m then s else m))) codes f_neg_inf.
  Definition add_above (total m : f32) : f32 := if f_gt m f_neg_inf then fadd total m else total.
  Definition approximate_score_mmap (scores : list (list f32)) (codes : list nat) : res f32 :=
    foldM (fun total r => bind (approx_token r codes) (fun m => Ok (add_above total m))) scores f_zero.
  (** search.rs 256-272 [build_sparse_centroid_scores] *)
  Definition build_sparse (qrows centroids : list row) (ids : list nat) : res (list (nat * list f32)) :=
    mapM (fun c => bind (idx centroids c) (fun cent => Ok (c, map (fun q => k_vec q cent) qrows))) ids.
  Fixpoint lookup {A} (k : nat) (l : list (nat * A)) : option A :=
    match l with [] => None | (k', a) :: r => if k =? k' then Some a else lookup k r end.
  (** search.rs 275-302 [approximate_score_sparse] *)
  Definition sparse_token (sparse : list (nat * list f32)) (codes : list nat) (q_idx : nat) : res f32 :=
    foldM (fun m code => match lookup code sparse with
                         | None => Ok m
                         | Some scores => bind (idx scores q_idx) (fun s => Ok (if f_gt s m then s else m))
                         end) codes f_neg_inf.
  Definition approximate_score_sparse (sparse : list (nat * list f32)) (codes : list nat) (nq : nat) : res f32 :=
    foldM (fun total q_idx => bind (sparse_token sparse codes q_idx) (fun m => Ok (add_above total m))) (seq 0 nq) f_zero.

  (** [sort_by(|a, b| cmp_score_descending(a.1, b.1))], a stable sort. *)
  Definition sort_desc (l : list (Z * f32)) : list (Z * f32) :=
    isort (fun a b => match cmp_score_descending (snd a) (snd b) with Gt => false | _ => true end) l.

  (** search.rs 481-493 and 605-617: documents that cannot be read are skipped. *)
  Fixpoint exact_scores (x : index) (qrows : list row) (ids : list Z) : res (list (Z * f32)) :=
    match ids with
    | [] => Ok []
    | id :: rest =>
      match (if (id <? 0)%Z then Err else get_document_embeddings fadd normalize x (Z.to_nat id)) with
      | Panic => Panic
      | Err => exact_scores x qrows rest
      | Ok embs => bind (exact_scores x qrows rest) (fun r => Ok ((id, maxsim_score qrows embs) :: r))
      end
    end.
  Definition empty_result : result := {| r_query_id := 0; r_passage_ids := []; r_scores := [] |}.
  (** search.rs 459-515 and 583-639: rank by approximate score, rescore, rank again. *)
  Definition rank (x : index) (qrows : list row) (p : params) (approx : list (Z * f32)) : res result :=
    let top_candidates := map fst (firstn (p_n_full_scores p) (sort_desc approx)) in
    let n_decompress := Nat.max (p_n_full_scores p / 4) (p_top_k p) in
    let to_decompress := firstn n_decompress top_candidates in
    match to_decompress with
    | [] => Ok empty_result
    | _ => bind (exact_scores x qrows to_decompress) (fun ex =>
             let sorted := sort_desc ex in
             let count := Nat.min (p_top_k p) (length sorted) in
             Ok {| r_query_id := 0; r_passage_ids := map fst (firstn count sorted);
                   r_scores := map snd (firstn count sorted) |})
    end.

  Definition with_scores (score : list nat -> res f32) (x : index) (candidates : list Z) : res (list (Z * f32)) :=
    mapM (fun id => bind (doc_codes x id) (fun codes => bind (score codes) (fun s => Ok (id, s)))) candidates.

  (** search.rs 521-640 [search_one_mmap_batched]; a query of another dimension panics in
      the first matrix product (there is at least one batch, see the caller). *)
  Definition search_one_mmap_batched (x : index) (q : query) (p : params) (subset : option (list Z)) : res result :=
    let cents := c_centroids (x_codec x) in
    if negb (q_dim q =? c_dim (x_codec x)) then Panic else
    let cells := ivf_probe_batched (q_rows q) cents (p_n_ivf_probe p) (p_centroid_batch_size p) (p_threshold p) in
    bind (get_candidates x cells) (fun cands =>
    let candidates := filter (in_subset subset) cands in
    match candidates with
    | [] => Ok empty_result
    | _ =>
      bind (mapM (doc_codes x) candidates) (fun ls =>
      bind (build_sparse (q_rows q) cents (nodup Nat.eq_dec (concat ls))) (fun sparse =>
      bind (with_scores (fun codes => approximate_score_sparse sparse codes (length (q_rows q))) x candidates) (fun approx =>
      rank x (q_rows q) p approx)))
    end).

  (** search.rs 327-516 [search_one_mmap] *)
  Definition search_one_mmap (x : index) (q : query) (p : params) (subset : option (list Z)) : res result :=
    let cents := c_centroids (x_codec x) in
    if (0 <? p_centroid_batch_size p) && (p_centroid_batch_size p <? length cents) then
      search_one_mmap_batched x q p subset
    else
    if negb (q_dim q =? c_dim (x_codec x)) then Panic else
    let scores := map (fun qr => map (k_mat qr) cents) (q_rows q) in
    bind (cells_to_probe x scores p subset) (fun cells =>
    bind (get_candidates x cells) (fun cands =>
    let candidates := filter (in_subset subset) cands in
    match candidates with
    | [] => Ok empty_result
    | _ => bind (with_scores (approximate_score_mmap scores) x candidates) (fun approx =>
           rank x (q_rows q) p approx)
    end)).

  Definition label (i : nat) (r : result) : result :=
    {| r_query_id := i; r_passage_ids := r_passage_ids r; r_scores := r_scores r |}.
  (** search.rs 643-675 [search_many_mmap]: in parallel mode an error becomes an empty
      result, in sequential mode it is returned. *)
  Definition search_many_mmap (x : index) (qs : list query) (p : params) (parallel : bool)
      (subset : option (list Z)) : res (list result) :=
    mapM (fun iq => match search_one_mmap x (snd iq) p subset with
                    | Ok r => Ok (label (fst iq) r)
                    | Err => if parallel then Ok (label (fst iq) empty_result) else Err
                    | Panic => Panic
                    end) (combine (seq 0 (length qs)) qs).

  (** ** next-plaid-api/src/handlers/rerank.rs *)

  (** rerank.rs 42-49 [score_desc_cmp] is [cmp_score_descending]. *)
  (** rerank.rs 57-94 [compute_maxsim]: [k_dot] is the zip-multiply-sum. *)
  Definition rr_token (q : row) (docs : list row) : res f32 :=
    foldM (fun m d => let sim := k_dot q d in
                      if negb (is_finite sim) then Err else Ok (if f_gt sim m then sim else m)) docs f_neg_inf.
  Definition compute_maxsim (query docs : list row) : res f32 :=
    foldM (fun total q => bind (rr_token q docs) (fun m =>
             if f_gt m f_neg_inf then
               let t := fadd total m in if negb (is_finite t) then Err else Ok t
             else Ok total)) query f_zero.
  (** rerank.rs 110-182 [rerank] after decoding: query and documents with their column
      counts; an empty document list and a document of another dimension are rejected. *)
  Definition rerank (q : query) (documents : list query) : res (list (Z * f32)) :=
    match documents with
    | [] => Err
    | _ =>
      if negb (forallb (fun d => q_dim d =? q_dim q) documents) then Err else
      bind (mapM (fun id => bind (compute_maxsim (q_rows q) (q_rows (snd id)))
                              (fun s => Ok (Z.of_nat (fst id), s)))
                 (combine (seq 0 (length documents)) documents)) (fun l => Ok (sort_desc l))
    end.
End SEARCH.
