(** Model of the on-disk index of next-plaid: create (index.rs), update (update.rs,
    index.rs), delete (delete.rs), load and the read accessors (index.rs, embeddings.rs).

    Simplifications that hold for the whole file:
    - machine integers (i64, i32, usize) are unbounded; document ids are [Z];
    - file names are record fields, per-chunk files are partial maps from the chunk number;
    - [None] stands for an absent file and for a file that cannot be parsed (see
      [trunc]-writes in [delete_from_index_impl]);
    - the f64 average document length, avg_residual.npy and plan.json are not modelled:
      no modelled function reads them;
    - the merged files written by [load] are a cache of the chunk files; their
      revalidation is the subject of MergeModel.v, here [load] concatenates the chunks;
    - only the CPU code path (no CUDA/Metal). *)
From Verif Require Import Base F32 CodecModel.
Open Scope nat_scope.

(** One token embedding ([Array2::row]) and one document ([Array2<f32>]). *)
Notation row := (list f32) (only parsing).
Notation doc := (list (list f32)) (only parsing).

(** index.rs 159-168 [ChunkMetadata] *)
Record chunk_meta := { m_ndocs : nat; m_nembs : nat; m_off : nat }.
(** index.rs 105-128 [Metadata] (without [avg_doclen] and [next_plaid_compatible] = true) *)
Record metadata := {
  num_chunks : nat; nbits : nat; num_partitions : nat;
  num_embeddings : nat; num_documents : nat; embedding_dim : nat
}.

(** The index directory. [f_centroids] carries the column count next to the rows. *)
Record disk := {
  f_meta : option metadata;
  f_centroids : option (nat * list row);
  f_cutoffs : option (list f32);
  f_weights : option (list f32);
  f_threshold : option f32;
  f_ivf : option (list Z);
  f_ivf_lengths : option (list nat);
  f_doclens : nat -> option (list nat);
  f_codes : nat -> option (list nat);
  f_residuals : nat -> option (list (list N));
  f_cmeta : nat -> option chunk_meta;
  f_buffer : option (list row);
  f_buffer_lengths : option (list nat);
  f_buffer_info : option nat;
  f_emb : option (list row);
  f_emb_lengths : option (list nat)
}.
Definition empty_disk : disk :=
  {| f_meta := None; f_centroids := None; f_cutoffs := None; f_weights := None;
     f_threshold := None; f_ivf := None; f_ivf_lengths := None;
     f_doclens := fun _ => None; f_codes := fun _ => None; f_residuals := fun _ => None;
     f_cmeta := fun _ => None; f_buffer := None; f_buffer_lengths := None;
     f_buffer_info := None; f_emb := None; f_emb_lengths := None |}.

(** One file replacement (utils.rs 16-60 [atomic_write_file], atomic by C35) or removal. *)
Inductive write :=
| WMeta (v : option metadata)
| WCentroids (v : option (nat * list row))
| WCutoffs (v : option (list f32))
| WWeights (v : option (list f32))
| WThreshold (v : option f32)
| WIvf (v : option (list Z))
| WIvfLengths (v : option (list nat))
| WDoclens (i : nat) (v : option (list nat))
| WCodes (i : nat) (v : option (list nat))
| WResiduals (i : nat) (v : option (list (list N)))
| WCMeta (i : nat) (v : option chunk_meta)
| WBuffer (v : option (list row))
| WBufferLengths (v : option (list nat))
| WBufferInfo (v : option nat)
| WEmb (v : option (list row))
| WEmbLengths (v : option (list nat)).

Definition put {A} (m : nat -> option A) (i : nat) (v : option A) : nat -> option A :=
  fun j => if j =? i then v else m j.

Definition apply_write (d : disk) (w : write) : disk :=
  let '(Build_disk meta cen cut wei thr ivf ivl dl co re cm bu bl bi em el) := d in
  match w with
  | WMeta v => Build_disk v cen cut wei thr ivf ivl dl co re cm bu bl bi em el
  | WCentroids v => Build_disk meta v cut wei thr ivf ivl dl co re cm bu bl bi em el
  | WCutoffs v => Build_disk meta cen v wei thr ivf ivl dl co re cm bu bl bi em el
  | WWeights v => Build_disk meta cen cut v thr ivf ivl dl co re cm bu bl bi em el
  | WThreshold v => Build_disk meta cen cut wei v ivf ivl dl co re cm bu bl bi em el
  | WIvf v => Build_disk meta cen cut wei thr v ivl dl co re cm bu bl bi em el
  | WIvfLengths v => Build_disk meta cen cut wei thr ivf v dl co re cm bu bl bi em el
  | WDoclens i v => Build_disk meta cen cut wei thr ivf ivl (put dl i v) co re cm bu bl bi em el
  | WCodes i v => Build_disk meta cen cut wei thr ivf ivl dl (put co i v) re cm bu bl bi em el
  | WResiduals i v => Build_disk meta cen cut wei thr ivf ivl dl co (put re i v) cm bu bl bi em el
  | WCMeta i v => Build_disk meta cen cut wei thr ivf ivl dl co re (put cm i v) bu bl bi em el
  | WBuffer v => Build_disk meta cen cut wei thr ivf ivl dl co re cm v bl bi em el
  | WBufferLengths v => Build_disk meta cen cut wei thr ivf ivl dl co re cm bu v bi em el
  | WBufferInfo v => Build_disk meta cen cut wei thr ivf ivl dl co re cm bu bl v em el
  | WEmb v => Build_disk meta cen cut wei thr ivf ivl dl co re cm bu bl bi v el
  | WEmbLengths v => Build_disk meta cen cut wei thr ivf ivl dl co re cm bu bl bi em v
  end.
Definition final (d : disk) (ws : list write) : disk := fold_left apply_write ws d.

(** A computation on the directory: from the current content, the file writes it performed
    (in order) and its outcome. A later step sees the earlier writes. The writes performed
    before an error or panic stay on disk. *)
Definition eff (A : Type) : Type := disk -> list write * res A.
Definition lift {A} (r : res A) : eff A := fun _ => ([], r).
Definition ret {A} (a : A) : eff A := lift (Ok a).
Definition ask {A} (f : disk -> res A) : eff A := fun d => ([], f d).
Definition emit (w : write) : eff unit := fun _ => ([w], Ok tt).
Definition bindE {A B} (m : eff A) (k : A -> eff B) : eff B := fun d =>
  let '(ws, r) := m d in
  match r with
  | Ok a => let '(ws', r') := k a (final d ws) in (ws ++ ws', r')
  | Err => (ws, Err)
  | Panic => (ws, Panic)
  end.
Notation "x <- m ;; k" := (bindE m (fun x => k)) (at level 61, m at next level, right associativity).
Notation "m ;;; k" := (bindE m (fun _ => k)) (at level 61, right associativity).
(** [for x in l { s = f(s, x)?; }] *)
Fixpoint forE {X S} (f : S -> X -> eff S) (l : list X) (s : S) : eff S :=
  match l with
  | [] => ret s
  | x :: xs => s' <- f s x;; forE f xs s'
  end.
Definition whenE (b : bool) (m : eff unit) : eff unit := if b then m else ret tt.

Definition need {A} (o : option A) : res A := match o with Some a => Ok a | None => Err end.

(** [v[a..b]]: panics unless a <= b <= len *)
Definition slice {A} (l : list A) (a b : nat) : res (list A) :=
  if (a <=? b) && (b <=? length l) then Ok (firstn (b - a) (skipn a l)) else Panic.

Fixpoint sum (l : list nat) : nat := match l with [] => 0 | x :: xs => x + sum xs end.

(** [(n as f64 / b as f64).ceil() as usize]; exact below 2^53. [None] when b = 0 (the
    quotient is infinite or NaN). *)
Definition ceil_div (n b : nat) : option nat :=
  if b =? 0 then None else Some ((n + b - 1) / b).

(** Copying documents into one zeroed (total, dim) matrix, e.g. update.rs 847-857.
    [assign] panics on a different column count (a one-column document would be broadcast
    by ndarray; that case is not modelled and treated as a panic). *)
Definition concat_docs (dim : nat) (docs : list doc) : res (list row) :=
  if forallb (fun r => length r =? dim) (concat docs) then Ok (concat docs) else Panic.

(** [sort_unstable(); dedup()] on document ids. *)
Definition sort_dedup (l : list Z) : list Z := dedup Z.eqb (isort Z.leb l).

(** A posting map: [HashMap<usize, Vec<i64>>] / [BTreeMap<usize, Vec<i64>>] with
    [entry(code).or_default().push(id)]. *)
Definition pmap := nat -> list Z.
Definition push (m : pmap) (code : nat) (id : Z) : pmap :=
  fun c => if c =? code then m c ++ [id] else m c.

(** Prefix sums starting with 0 (e.g. index.rs 1083-1087). *)
Fixpoint prefix_sums (acc : nat) (l : list nat) : list nat :=
  match l with
  | [] => [acc]
  | x :: xs => acc :: prefix_sums (acc + x) xs
  end.

(** The part of [IndexConfig]/[UpdateConfig] the model needs; [g_seed] stands for the
    k-means options (they only reach the k-means oracle). *)
Record config := {
  g_nbits : nat; g_batch_size : nat; g_start_from_scratch : nat; g_buffer_size : nat; g_seed : Z
}.

Section MODEL.
  (** Arithmetic and clustering are arbitrary functions. [mem]: memory budget of the
      nearest-centroid search. *)
  Variable fadd : f32 -> f32 -> f32.
  Variable fsub : f32 -> f32 -> f32.
  Variable normalize : row -> row.
  Variable dot : row -> row -> f32.
  Variable mem : nat.
  (** kmeans.rs 261-422 [compute_kmeans]: options and documents to (dim, centroids). *)
  Variable kmeans : Z -> list doc -> res (nat * list row).
  (** index.rs 572-633 and utils.rs 125-149 [quantiles]: the quantile at numerator/denominator
      of the residual components of the held-out sample, from centroids and documents. *)
  Variable quantile_at : list row -> list doc -> nat -> nat -> f32.
  (** index.rs 622-628: the 0.75 quantile of the residual norms of that sample. *)
  Variable threshold_of : list row -> list doc -> f32.
  (** update.rs 385-416: new cluster threshold from the old one, the residuals, the old count. *)
  Variable next_threshold : option f32 -> list row -> nat -> f32.
  (** update.rs 490-608 [find_outliers]: is this token farther than the threshold from all
      centroids? *)
  Variable is_outlier : list row -> f32 -> row -> bool.

  (** ** Encoding *)

  (** index.rs 17-40 [compress_and_residuals_cpu]: one row minus its centroid. *)
  Definition residual_row (c : codec) (ec : row * nat) : res row :=
    bind (idx (c_centroids c) (snd ec)) (fun cen =>
      Ok (map (fun p => fsub (fst p) (snd p)) (combine (fst ec) cen))).
  (** index.rs 17-40 and codec.rs 356-411: codes, residuals, packed residuals of the rows. *)
  Definition encode_rows (c : codec) (rows : list row) : res (list nat * list row * list (list N)) :=
    bind (compress_into_codes dot mem (c_centroids c) rows) (fun codes =>
    bind (mapM (residual_row c) (combine rows codes)) (fun residuals =>
    bind (quantize_residuals c (c_dim c) residuals) (fun packed =>
      Ok (codes, residuals, packed)))).

  (** ** Reading helpers *)

  (** index.rs 131-155 [Metadata::load_from_path] *)
  Definition load_metadata (d : disk) : res metadata :=
    bind (need (f_meta d)) (fun m =>
      if num_documents m =? 0 then
        Ok {| num_chunks := num_chunks m; nbits := nbits m; num_partitions := num_partitions m;
              num_embeddings := num_embeddings m;
              num_documents := sum (map (fun i => match f_doclens d i with
                                                  | Some l => length l | None => 0 end)
                                        (seq 0 (num_chunks m)));
              embedding_dim := embedding_dim m |}
      else Ok m).

  (** codec.rs 473-539 [load_from_dir] *)
  Definition load_codec (d : disk) : res codec :=
    bind (need (f_centroids d)) (fun dc =>
    bind (need (f_meta d)) (fun m =>
      new_codec (nbits m) (fst dc) (snd dc) (f_cutoffs d) (f_weights d))).

  (** update.rs 152-167: split the flat matrix by the lengths, stopping at the first
      document that does not fit ([offset] is the number of rows already consumed). *)
  Fixpoint split_docs (flat : list row) (lengths : list nat) : list doc :=
    match lengths with
    | [] => []
    | n :: ns => if n <=? length flat then firstn n flat :: split_docs (skipn n flat) ns else []
    end.
  (** update.rs 132-171 [load_buffer] and 265-301 [load_embeddings_npy] *)
  Definition load_docs (file : option (list row)) (lengths : option (list nat)) : list doc :=
    match file with
    | None => []
    | Some flat => match lengths with
                   | Some ls => split_docs flat ls
                   | None => [flat]
                   end
    end.
  Definition load_buffer (d : disk) : list doc := load_docs (f_buffer d) (f_buffer_lengths d).
  Definition load_embeddings_npy (d : disk) : list doc := load_docs (f_emb d) (f_emb_lengths d).
  (** update.rs 231-240 [load_buffer_info] *)
  Definition load_buffer_info (d : disk) : nat :=
    match f_buffer_info d with Some n => n | None => 0 end.

  (** ** Buffer and raw-embedding files *)

  (** update.rs 186-201 / 315-328: the column count is that of the first document. *)
  Definition flatten_docs (docs : list doc) : res (list row) :=
    match concat docs with
    | [] => Ok []
    | r :: _ => concat_docs (length r) docs
    end.
  (** update.rs 176-226 [save_buffer] *)
  Definition save_buffer (docs : list doc) : eff unit :=
    match docs with
    | [] => ret tt
    | _ =>
      flat <- lift (flatten_docs docs);;
      emit (WBuffer (Some flat));;;
      emit (WBufferLengths (Some (map (@length row) docs)));;;
      emit (WBufferInfo (Some (length docs)))
    end.
  (** update.rs 243-259 [clear_buffer] *)
  Definition clear_buffer : eff unit :=
    emit (WBuffer None);;; emit (WBufferLengths None);;; emit (WBufferInfo None).
  (** update.rs 308-346 [save_embeddings_npy] *)
  Definition save_embeddings_npy (docs : list doc) : eff unit :=
    match docs with
    | [] => ret tt
    | _ =>
      flat <- lift (flatten_docs docs);;
      emit (WEmb (Some flat));;;
      emit (WEmbLengths (Some (map (@length row) docs)))
    end.
  (** update.rs 349-360 [clear_embeddings_npy] *)
  Definition clear_embeddings_npy : eff unit :=
    emit (WEmb None);;; emit (WEmbLengths None).

  (** ** Create *)

  (** index.rs 851-860 / update.rs 999-1009: push [id] under the code of each token. *)
  Definition push_codes (m : pmap) (idc : Z * list nat) : pmap :=
    fold_left (fun m c => push m c (fst idc)) (snd idc) m.
  (** index.rs 850-860: documents numbered from 0; [all_codes[emb_idx]] panics when the
      codes run out. *)
  Fixpoint build_pmap (m : pmap) (id : Z) (doclens codes : list nat) : res pmap :=
    match doclens with
    | [] => Ok m
    | n :: ns =>
      if n <=? length codes
      then build_pmap (push_codes m (id, firstn n codes)) (id + 1) ns (skipn n codes)
      else Panic
    end.
  (** index.rs 862-876: per centroid sort, dedup; data and lengths. *)
  Definition ivf_lists (m : pmap) (num_centroids : nat) : list (list Z) :=
    map (fun c => sort_dedup (m c)) (seq 0 num_centroids).

  (** index.rs 719-826: one iteration of the chunk loop of [create_index_files];
      state: (all_codes, doc_lengths). *)
  Definition create_chunk (docs : list doc) (c : codec) (bs : nat)
      (s : list nat * list nat) (chunk_idx : nat) : eff (list nat * list nat) :=
    let '(all_codes, doc_lengths) := s in
    let start := chunk_idx * bs in
    let stop := Nat.min (start + bs) (length docs) in
    chunk_docs <- lift (slice docs start stop);;
    let chunk_doclens := map (@length row) chunk_docs in
    batch <- lift (concat_docs (c_dim c) chunk_docs);;
    enc <- lift (encode_rows c batch);;
    let '(codes, _, packed) := enc in
    emit (WCMeta chunk_idx (Some {| m_ndocs := stop - start; m_nembs := length codes; m_off := 0 |}));;;
    emit (WDoclens chunk_idx (Some chunk_doclens));;;
    emit (WCodes chunk_idx (Some codes));;;
    emit (WResiduals chunk_idx (Some packed));;;
    ret (all_codes ++ codes, doc_lengths ++ chunk_doclens).
  (** index.rs 828-847: second pass over the chunk metadata files. *)
  Definition fix_offset (current : nat) (chunk_idx : nat) : eff nat :=
    m <- ask (fun d => need (f_cmeta d chunk_idx));;
    emit (WCMeta chunk_idx (Some {| m_ndocs := m_ndocs m; m_nembs := m_nembs m; m_off := current |}));;;
    ret (current + m_nembs m).

  (** index.rs 636-652: the 2^nbits - 1 cutoffs at i/2^nbits and the 2^nbits weights at
      (i + 1/2)/2^nbits. *)
  Definition train (nb : nat) (cents : list row) (docs : list doc) : list f32 * list f32 * f32 :=
    (map (fun i => quantile_at cents docs (2 * i) (2 * 2 ^ nb)) (seq 1 (2 ^ nb - 1)),
     map (fun i => quantile_at cents docs (2 * i + 1) (2 * 2 ^ nb)) (seq 0 (2 ^ nb)),
     threshold_of cents docs).

  (** index.rs 551-911 [create_index_files]; [cen] is (ncols, rows). A zero batch size
      makes the chunk count infinite: the loop never ends; modelled as [Panic]. *)
  Definition create_index_files (docs : list doc) (cen : nat * list row) (g : config) : eff metadata :=
    if length docs =? 0 then lift Err else
    let '(cutoffs, weights, thr) := train (g_nbits g) (snd cen) docs in
    c <- lift (new_codec (g_nbits g) (fst cen) (snd cen) (Some cutoffs) (Some weights));;
    emit (WCentroids (Some cen));;;
    emit (WCutoffs (Some cutoffs));;;
    emit (WWeights (Some weights));;;
    emit (WThreshold (Some thr));;;
    match ceil_div (length docs) (g_batch_size g) with
    | None => lift Panic
    | Some n_chunks =>
      s <- forE (create_chunk docs c (g_batch_size g)) (seq 0 n_chunks) ([], []);;
      let '(all_codes, doc_lengths) := s in
      forE fix_offset (seq 0 n_chunks) 0;;;
      m <- lift (build_pmap (fun _ => []) 0%Z doc_lengths all_codes);;
      let lists := ivf_lists m (length (snd cen)) in
      emit (WIvf (Some (concat lists)));;;
      emit (WIvfLengths (Some (map (@length Z) lists)));;;
      let md := {| num_chunks := n_chunks; nbits := g_nbits g;
                   num_partitions := length (snd cen);
                   num_embeddings := sum (map (@length row) docs);
                   num_documents := length docs; embedding_dim := fst cen |} in
      emit (WMeta (Some md));;;
      ret md
    end.

  (** index.rs 927-971 [create_index_with_kmeans_files] *)
  Definition create_index_with_kmeans_files (docs : list doc) (g : config) : eff metadata :=
    if length docs =? 0 then lift Err else
    cen <- lift (kmeans (g_seed g) docs);;
    md <- create_index_files docs cen g;;
    whenE (length docs <=? g_start_from_scratch g) (save_embeddings_npy docs);;;
    ret md.

  (** ** Load and read *)

  (** index.rs 993-1015 [MmapIndex] *)
  Record index := {
    x_meta : metadata; x_codec : codec;
    x_ivf : list Z; x_ivf_lengths : list nat; x_ivf_offsets : list nat;
    x_doc_lengths : list nat; x_doc_offsets : list nat;
    x_codes : list nat; x_residuals : list (list N)
  }.
  (** mmap.rs 1266-1477, 1483-1704: concatenation of the existing chunk files plus padding
      rows; an error when there is no row. Zero-width residuals are also an error (mmap.rs
      1574-1578), checked in [load]: the width there is the column count of the chunk
      files, here the width given by the codec. *)
  Definition merge_chunks {A} (files : nat -> option (list A)) (n padding : nat) (zero : A) : res (list A) :=
    let all := concat (map (fun i => match files i with Some l => l | None => [] end) (seq 0 n)) in
    if length all =? 0 then Err else Ok (all ++ repeat zero padding).
  (** index.rs 1026-1139 [MmapIndex::load] (without the fast-plaid conversion) *)
  Definition load (d : disk) : res index :=
    bind (load_metadata d) (fun md =>
    bind (load_codec d) (fun c =>
    bind (need (f_ivf d)) (fun ivf =>
    bind (need (f_ivf_lengths d)) (fun ivl =>
    bind (mapM (fun i => need (f_doclens d i)) (seq 0 (num_chunks md))) (fun dls =>
    let doc_lengths := concat dls in
    let max_len := fold_right Nat.max 0 doc_lengths in
    let padding := max_len - last doc_lengths 0 in
    bind (merge_chunks (f_codes d) (num_chunks md) padding 0) (fun codes =>
    bind (if c_dim c * nbits md / 8 =? 0 then Err else
          merge_chunks (f_residuals d) (num_chunks md) padding
            (repeat 0%N (c_dim c * nbits md / 8))) (fun residuals =>
    Ok {| x_meta := md; x_codec := c; x_ivf := ivf; x_ivf_lengths := ivl;
          x_ivf_offsets := prefix_sums 0 ivl;
          x_doc_lengths := doc_lengths; x_doc_offsets := prefix_sums 0 doc_lengths;
          x_codes := codes; x_residuals := residuals |}))))))).

  (** index.rs 1142-1156 [get_candidates] *)
  Definition candidate_slice (x : index) (i : nat) : res (list Z) :=
    if i <? length (x_ivf_lengths x) then
      bind (idx (x_ivf_offsets x) i) (fun start =>
      bind (idx (x_ivf_lengths x) i) (fun len => slice (x_ivf x) start (start + len)))
    else Ok [].
  Definition get_candidates (x : index) (centroids : list nat) : res (list Z) :=
    bind (mapM (candidate_slice x) centroids) (fun ls => Ok (sort_dedup (concat ls))).

  Definition doc_range (x : index) (doc_id : nat) : res (nat * nat) :=
    bind (idx (x_doc_offsets x) doc_id) (fun s =>
    bind (idx (x_doc_offsets x) (S doc_id)) (fun e => Ok (s, e))).
  (** index.rs 1159-1179 [get_document_embeddings] *)
  Definition get_document_embeddings (x : index) (doc_id : nat) : res (list row) :=
    if length (x_doc_lengths x) <=? doc_id then Err else
    bind (doc_range x doc_id) (fun se =>
    bind (slice (x_codes x) (fst se) (snd se)) (fun codes =>
    bind (slice (x_residuals x) (fst se) (snd se)) (fun residuals =>
      decompress fadd normalize (x_codec x) residuals codes))).
  (** index.rs 1182-1194 [get_document_codes] *)
  Definition get_document_codes1 (x : index) (doc_id : nat) : res (list nat) :=
    if length (x_doc_lengths x) <=? doc_id then Ok [] else
    bind (doc_range x doc_id) (fun se => slice (x_codes x) (fst se) (snd se)).
  Definition get_document_codes (x : index) (ids : list nat) : res (list (list nat)) :=
    mapM (get_document_codes1 x) ids.
  (** index.rs 1197-1245 [decompress_documents] *)
  Definition decompress_documents (x : index) (ids : list nat) : res (list row * list nat) :=
    bind (mapM (fun id => if length (x_doc_lengths x) <=? id then Ok 0
                          else bind (doc_range x id) (fun se => Ok (snd se - fst se))) ids)
    (fun lengths =>
      if sum lengths =? 0 then Ok ([], lengths) else
      let live := filter (fun id => id <? length (x_doc_lengths x)) ids in
      bind (mapM (fun id => bind (doc_range x id) (fun se => slice (x_codes x) (fst se) (snd se))) live)
      (fun codes =>
      bind (mapM (fun id => bind (doc_range x id) (fun se => slice (x_residuals x) (fst se) (snd se))) live)
      (fun residuals =>
      bind (decompress fadd normalize (x_codec x) (concat residuals) (concat codes)) (fun embs =>
        Ok (embs, lengths))))).
  (** embeddings.rs 56-102 [reconstruct_embeddings] ([num_documents()] is index.rs 1290-1292) *)
  Definition reconstruct1 (x : index) (doc_id : nat) : res (list row) :=
    bind (doc_range x doc_id) (fun se =>
      if snd se - fst se =? 0 then Ok [] else
      bind (slice (x_codes x) (fst se) (snd se)) (fun codes =>
      bind (slice (x_residuals x) (fst se) (snd se)) (fun residuals =>
        decompress fadd normalize (x_codec x) residuals codes))).
  Definition reconstruct_embeddings (x : index) (ids : list Z) : res (list (list row)) :=
    if forallb (fun id => (0 <=? id)%Z && (id <? Z.of_nat (length (x_doc_lengths x)))%Z) ids
    then mapM (fun id => reconstruct1 x (Z.to_nat id)) ids
    else Err.

  (** ** Update *)

  (** update.rs 621-751 [update_centroids] *)
  Definition update_centroids (docs : list doc) (thr : f32) (g : config) : eff nat :=
    cen0 <- ask (fun d => Ok (f_centroids d));;
    match cen0 with
    | None => ret 0
    | Some (dim, existing) =>
      if sum (map (@length row) docs) =? 0 then ret 0 else
      flat <- lift (concat_docs dim docs);;
      let outliers := filter (is_outlier existing thr) flat in
      if length outliers =? 0 then ret 0 else
      new <- lift (kmeans (g_seed g) (map (fun r => [r]) outliers));;
      let all := existing ++ snd new in
      (if fst new =? dim then ret tt else lift Panic);;;
      emit (WCentroids (Some (dim, all)));;;
      ivl <- ask (fun d => Ok (f_ivf_lengths d));;
      match ivl with
      | None => ret tt
      | Some old =>
        if length old <=? length all
        then emit (WIvfLengths (Some (old ++ repeat 0 (length all - length old))))
        else lift Panic
      end;;;
      md <- ask (fun d => Ok (f_meta d));;
      match md with
      | None => ret tt
      | Some m => emit (WMeta (Some {| num_chunks := num_chunks m; nbits := nbits m;
                                       num_partitions := length all;
                                       num_embeddings := num_embeddings m;
                                       num_documents := num_documents m;
                                       embedding_dim := embedding_dim m |}))
      end;;;
      ret (length (snd new))
    end.

  (** update.rs 879-889: the codes of each document. *)
  Fixpoint split_codes (doclens codes : list nat) : list (list nat) :=
    match doclens with
    | [] => []
    | n :: ns => firstn n codes :: split_codes ns (skipn n codes)
    end.

  Record upd_state := {
    u_codes : list (list nat);   (* new_codes_accumulated *)
    u_doclens : list nat;        (* new_doclens_accumulated *)
    u_norms : list row;          (* all_residual_norms: the residual rows themselves *)
    u_off : nat                  (* current_emb_offset *)
  }.
  (** update.rs 839-989: one iteration of the chunk loop of [update_index]. *)
  Definition update_chunk (docs : list doc) (c : codec) (md : metadata) (bs start_chunk : nat)
      (append : bool) (s : upd_state) (i : nat) : eff upd_state :=
    let g := start_chunk + i in
    let chk_offset := i * bs in
    let chk_end := Nat.min (chk_offset + bs) (length docs) in
    chunk_docs <- lift (slice docs chk_offset chk_end);;
    let doclens := map (@length row) chunk_docs in
    batch <- lift (concat_docs (c_dim c) chunk_docs);;
    enc <- lift (encode_rows c batch);;
    let '(codes, residuals, packed) := enc in
    let acc_codes := u_codes s ++ split_codes doclens codes in
    let acc_doclens := u_doclens s ++ doclens in
    let acc_norms := u_norms s ++ residuals in
    comb <- (if (i =? 0) && append then
               odl <- ask (fun d => Ok (f_doclens d g));;
               match odl with
               | None => ret (doclens, codes, packed)
               | Some old_doclens =>
                 old_codes <- ask (fun d => need (f_codes d g));;
                 old_res <- ask (fun d => need (f_residuals d g));;
                 ret (old_doclens ++ doclens, old_codes ++ codes, old_res ++ packed)
               end
             else ret (doclens, codes, packed));;
    let '(doclens', codes', packed') := comb in
    emit (WCodes g (Some codes'));;;
    (if length (concat packed') =? length codes' * (c_dim c * nbits md / 8)
     then ret tt else lift Err);;;
    emit (WResiduals g (Some packed'));;;
    emit (WDoclens g (Some doclens'));;;
    emit (WCMeta g (Some {| m_ndocs := length doclens'; m_nembs := length codes'; m_off := u_off s |}));;;
    ret {| u_codes := acc_codes; u_doclens := acc_doclens; u_norms := acc_norms;
           u_off := u_off s + length codes' |}.

  (** update.rs 810-836: does the update append to the last chunk (fewer than 2000
      documents), and from which embedding offset. Result: (start_chunk_idx, append,
      current_emb_offset). *)
  Definition last_chunk_limit : nat := 2000.
  Definition start_position (md : metadata) : eff (nat * bool * nat) :=
    if 0 <? num_chunks md then
      lm <- ask (fun d => Ok (f_cmeta d (num_chunks md - 1)));;
      match lm with
      | Some m => if m_ndocs m <? last_chunk_limit
                  then ret (num_chunks md - 1, true, m_off m)
                  else ret (num_chunks md, false, num_embeddings md)
      | None => ret (num_chunks md, false, num_embeddings md)
      end
    else ret (num_chunks md, false, num_embeddings md).

  (** update.rs 1046-1053: the old posting list of a centroid; [old_offsets[c]] panics when
      there are fewer old lengths than centroids minus one. *)
  Definition old_pids (ivf : list Z) (lens : list nat) (c : nat) : res (list Z) :=
    bind (idx (prefix_sums 0 lens) c) (fun start =>
      let len := match nth_error lens c with Some n => n | None => 0 end in
      if (0 <? len) && (start + len <=? length ivf)
      then Ok (firstn len (skipn start ivf)) else Ok []).
  (** update.rs 1039-1070: merged posting lists *)
  Definition merge_ivf (ivf : list Z) (lens : list nat) (m : pmap) (num_centroids : nat)
    : res (list (list Z)) :=
    mapM (fun c => bind (old_pids ivf lens c) (fun old => Ok (sort_dedup (old ++ m c))))
         (seq 0 num_centroids).

  (** update.rs 771-1120 [update_index] *)
  Definition update_index (docs : list doc) (c : codec) (bs : nat) (update_threshold : bool) : eff nat :=
    md <- ask load_metadata;;
    pos <- start_position md;;
    let '(start_chunk, append, off) := pos in
    match ceil_div (length docs) bs with
    | None => lift Panic
    | Some n_new =>
      s <- forE (update_chunk docs c md bs start_chunk append) (seq 0 n_new)
             {| u_codes := []; u_doclens := []; u_norms := []; u_off := off |};;
      (if update_threshold && negb (length (u_norms s) =? 0) then
         old <- ask (fun d => Ok (f_threshold d));;
         emit (WThreshold (Some (next_threshold old (u_norms s) (num_embeddings md))))
       else ret tt);;;
      let pm := fold_left push_codes
                  (combine (map Z.of_nat (seq (num_documents md) (length (u_codes s)))) (u_codes s))
                  (fun _ => []) in
      oivf <- ask (fun d => Ok (match f_ivf d with Some l => l | None => [] end));;
      olen <- ask (fun d => Ok (match f_ivf_lengths d with
                                | Some l => l | None => repeat 0 (length (c_centroids c)) end));;
      lists <- lift (merge_ivf oivf olen pm (length (c_centroids c)));;
      emit (WIvf (Some (concat lists)));;;
      emit (WIvfLengths (Some (map (@length Z) lists)));;;
      emit (WMeta (Some {| num_chunks := start_chunk + n_new; nbits := nbits md;
                           num_partitions := length (c_centroids c);
                           num_embeddings := num_embeddings md + sum (u_doclens s);
                           num_documents := num_documents md + length docs;
                           embedding_dim := c_dim c |}));;;
      ret (length docs)
    end.

  (** ** Delete *)

  Definition in_ids (ids : list Z) (id : Z) : bool := existsb (Z.eqb id) ids.
  (** [slice::partition_point]: length of the longest prefix satisfying the predicate (its
      meaning on a partitioned slice; the slice is sorted here). *)
  Fixpoint partition_point {A} (P : A -> bool) (l : list A) : nat :=
    match l with
    | [] => 0
    | x :: xs => if P x then S (partition_point P xs) else 0
    end.
  (** delete.rs 102-117: (new_doclens, mask, deleted) of a chunk whose first id is [id]. *)
  Fixpoint delete_mask (ids : list Z) (id : Z) (doclens : list nat) : list nat * list bool :=
    match doclens with
    | [] => ([], [])
    | n :: ns =>
      let '(dl, mask) := delete_mask ids (id + 1) ns in
      if in_ids ids id then (dl, repeat false n ++ mask) else (n :: dl, repeat true n ++ mask)
    end.
  (** delete.rs 133-138: zip with the mask, keep the marked codes. *)
  Definition keep_codes (codes : list nat) (mask : list bool) : list nat :=
    map fst (filter snd (combine codes mask)).
  (** delete.rs 151-161: copy the marked rows; [residuals.row(old_idx)] panics out of range. *)
  Fixpoint keep_rows (rows : list (list N)) (mask : list bool) : res (list (list N)) :=
    match mask with
    | [] => Ok []
    | b :: bs =>
      match rows with
      | r :: rs => bind (keep_rows rs bs) (fun k => Ok (if b then r :: k else k))
      | [] => if b then Panic else keep_rows [] bs
      end
    end.
  Record del_state := { e_docs : nat; e_embs : nat; e_offset : Z; e_deleted : nat }.
  (** A non-atomic rewrite ([File::create] then write, e.g. delete.rs 124): the file is
      first truncated, i.e. unreadable, then complete. *)
  (** delete.rs 91-184: one chunk *)
  Definition delete_chunk (ids : list Z) (s : del_state) (i : nat) : eff del_state :=
    doclens <- ask (fun d => need (f_doclens d i));;
    let '(new_doclens, mask) := delete_mask ids (e_offset s) doclens in
    (if length new_doclens <? length doclens then
       emit (WDoclens i None);;; emit (WDoclens i (Some new_doclens));;;
       codes <- ask (fun d => need (f_codes d i));;
       let new_codes := keep_codes codes mask in
       emit (WCodes i None);;; emit (WCodes i (Some new_codes));;;
       residuals <- ask (fun d => need (f_residuals d i));;
       new_res <- lift (keep_rows residuals mask);;
       emit (WResiduals i None);;; emit (WResiduals i (Some new_res));;;
       cm <- ask (fun d => need (f_cmeta d i));;
       emit (WCMeta i None);;;
       emit (WCMeta i (Some {| m_ndocs := length new_doclens; m_nembs := length new_codes;
                               m_off := m_off cm |}))
     else ret tt);;;
    ret {| e_docs := e_docs s + length new_doclens; e_embs := e_embs s + sum new_doclens;
           e_offset := (e_offset s + Z.of_nat (length doclens))%Z;
           e_deleted := e_deleted s + (length doclens - length new_doclens) |}.

  (** delete.rs 207-229: drop deleted ids, renumber survivors, list by list. *)
  Definition renumber (sorted_deleted : list Z) (id : Z) : Z :=
    (id - Z.of_nat (partition_point (fun x => x <? id)%Z sorted_deleted))%Z.
  Fixpoint patch_ivf (ids sorted_deleted ivf : list Z) (lens : list nat) : res (list (list Z)) :=
    match lens with
    | [] => Ok []
    | n :: ns =>
      if n <=? length ivf then
        bind (patch_ivf ids sorted_deleted (skipn n ivf) ns) (fun ls =>
          Ok (map (renumber sorted_deleted)
                  (filter (fun id => negb (in_ids ids id)) (firstn n ivf)) :: ls))
      else Panic
    end.

  (** delete.rs 300-314 / 356-369: surviving rows and lengths, ids counted from [id]. *)
  Fixpoint clean_docs (ids : list Z) (id : Z) (flat : list row) (lengths : list nat)
    : list row * list nat :=
    match lengths with
    | [] => ([], [])
    | n :: ns =>
      let '(rows, ls) := clean_docs ids (id + 1) (skipn n flat) ns in
      if in_ids ids id then (rows, ls) else (firstn n flat ++ rows, n :: ls)
    end.
  (** delete.rs 286-398 [clean_embeddings_files] *)
  Definition clean_embeddings_files (ids : list Z) (original : nat) : eff unit :=
    e <- ask (fun d => Ok (f_emb d, f_emb_lengths d));;
    match e with
    | (Some flat, Some lengths) =>
      let '(rows, ls) := clean_docs ids 0%Z flat lengths in
      if negb (length ls =? 0) then
        emit (WEmb None);;; emit (WEmb (Some rows));;;
        emit (WEmbLengths None);;; emit (WEmbLengths (Some ls))
      else emit (WEmb None);;; emit (WEmbLengths None)
    | _ => ret tt
    end;;;
    b <- ask (fun d => Ok (f_buffer d, f_buffer_lengths d));;
    match b with
    | (Some flat, Some lengths) =>
      let '(rows, ls) :=
        clean_docs ids (Z.of_nat original - Z.of_nat (length lengths))%Z flat lengths in
      if negb (length ls =? 0) then
        emit (WBuffer None);;; emit (WBuffer (Some rows));;;
        emit (WBufferLengths None);;; emit (WBufferLengths (Some ls));;;
        emit (WBufferInfo None);;; emit (WBufferInfo (Some (length ls)))
      else emit (WBuffer None);;; emit (WBufferLengths None);;; emit (WBufferInfo None)
    | _ => ret tt
    end.

  (** delete.rs 66-273 [delete_from_index_impl] *)
  Definition delete_from_index_impl (ids : list Z) (clean_buffer : bool) : eff nat :=
    md <- ask load_metadata;;
    s <- forE (delete_chunk ids) (seq 0 (num_chunks md))
           {| e_docs := 0; e_embs := 0; e_offset := 0%Z; e_deleted := 0 |};;
    ivf <- ask (fun d => need (f_ivf d));;
    lens <- ask (fun d => need (f_ivf_lengths d));;
    let sorted_deleted := isort Z.leb (nodup Z.eq_dec ids) in
    lists <- lift (patch_ivf ids sorted_deleted ivf lens);;
    emit (WIvf None);;; emit (WIvf (Some (concat lists)));;;
    emit (WIvfLengths None);;; emit (WIvfLengths (Some (map (@length Z) lists)));;;
    emit (WMeta None);;;
    emit (WMeta (Some {| num_chunks := num_chunks md; nbits := nbits md;
                         num_partitions := num_partitions md;
                         num_embeddings := e_embs s; num_documents := e_docs s;
                         embedding_dim := embedding_dim md |}));;;
    whenE clean_buffer (clean_embeddings_files ids (num_documents md));;;
    ret (e_deleted s).

  (** ** The handle-level operations *)

  Definition new_ids (start n : nat) : list Z := map Z.of_nat (seq start n).

  (** index.rs 1431-1591 [MmapIndex::update]. [h] is the metadata snapshot held by the
      handle. Returns the assigned ids and the reloaded handle. *)
  Definition update (h : metadata) (docs : list doc) (g : config) : eff (list Z * index) :=
    existing <- ask (fun d => Ok (load_embeddings_npy d));;
    if (num_documents h <=? g_start_from_scratch g) && (length existing =? num_documents h) then
      let combined := existing ++ docs in
      create_index_with_kmeans_files combined
        {| g_nbits := nbits h; g_batch_size := g_batch_size g;
           g_start_from_scratch := g_start_from_scratch g;
           g_buffer_size := g_buffer_size g; g_seed := g_seed g |};;;
      x <- ask load;;
      has <- ask (fun d => Ok (match f_emb d with Some _ => true | None => false end));;
      whenE ((g_start_from_scratch g <? length combined) && has) clear_embeddings_npy;;;
      ret (new_ids (length existing) (length docs), x)
    else
      buffer <- ask (fun d => Ok (load_buffer d));;
      c <- ask load_codec;;
      start <-
        (if g_buffer_size g <=? length docs + length buffer then
           num_buffered <- ask (fun d => Ok (load_buffer_info d));;
           h' <- (if (0 <? num_buffered) && (num_buffered <=? num_documents h) then
                    delete_from_index_impl
                      (new_ids (num_documents h - num_buffered) num_buffered) false;;;
                    ask load_metadata
                  else ret h);;
           let combined := buffer ++ docs in
           thr <- ask (fun d => Ok (f_threshold d));;
           c' <- match thr with
                 | None => ret c
                 | Some t =>
                   k <- update_centroids combined t g;;
                   if 0 <? k then ask load_codec else ret c
                 end;;
           clear_buffer;;;
           update_index combined c' (g_batch_size g) true;;;
           ret (num_documents h' + length buffer)
         else
           save_buffer (buffer ++ docs);;;
           update_index docs c (g_batch_size g) false;;;
           ret (num_documents h));;
      x <- ask load;;
      ret (new_ids start (length docs), x).

  (** index.rs 1675-1699 [update_append] (no handle) *)
  Definition update_append (docs : list doc) (g : config) : eff (list Z) :=
    md <- ask load_metadata;;
    c <- ask load_codec;;
    update_index docs c (g_batch_size g) false;;;
    ret (new_ids (num_documents md) (length docs)).

  (** MmapIndex::create_with_kmeans (index.rs 1392-1402): create the files, then load. *)
  Definition create_with_kmeans (docs : list doc) (g : config) : eff index :=
    create_index_with_kmeans_files docs g;;; ask load.

  (** ** Sequences of operations *)

  (** A computation run to completion: its result and the directory it leaves. *)
  Definition complete {A} (m : eff A) (d : disk) : res (A * disk) :=
    let '(ws, r) := m d in bind r (fun a => Ok (a, final d ws)).

  (** One call of the public interface on the directory and one open handle ([metadata]
      snapshot). The output is the list of assigned ids, or the number of deleted documents.
      [delete] does not reload the handle (index.rs 1788); [reload] does (index.rs 1767). *)
  Inductive op :=
  | OUpdate (docs : list doc) (g : config)
  | OAppend (docs : list doc) (g : config)
  | ODelete (ids : list Z)
  | OReload.
  Definition exec (s : disk * metadata) (o : op) : res (list Z * (disk * metadata)) :=
    let '(d, h) := s in
    match o with
    | OUpdate docs g => bind (complete (update h docs g) d) (fun r =>
        let '((ids, x), d') := r in Ok (ids, (d', x_meta x)))
    | OAppend docs g => bind (complete (update_append docs g) d) (fun r =>
        let '(ids, d') := r in Ok (ids, (d', h)))
    | ODelete ids => bind (complete (delete_from_index_impl ids true) d) (fun r =>
        let '(n, d') := r in Ok ([Z.of_nat n], (d', h)))
    | OReload => bind (load d) (fun x => Ok ([], (d, x_meta x)))
    end.
  Fixpoint exec_all (s : disk * metadata) (ops : list op) : res (list (list Z) * (disk * metadata)) :=
    match ops with
    | [] => Ok ([], s)
    | o :: os => bind (exec s o) (fun r => let '(out, s') := r in
        bind (exec_all s' os) (fun r' => let '(outs, s'') := r' in Ok (out :: outs, s'')))
    end.
  (** Create in an empty directory, then run the operations. *)
  Definition history (docs0 : list doc) (g0 : config) (ops : list op)
    : res (list (list Z) * (disk * metadata)) :=
    bind (complete (create_with_kmeans docs0 g0) empty_disk) (fun r =>
      let '(x, d) := r in exec_all (d, x_meta x) ops).
End MODEL.
