(** Specification of query processing, independent of how the code computes it. *)
From Verif Require Import Base F32 CodecModel CodecSpec IndexModel IndexSpec SearchModel.
Open Scope nat_scope.

(** The external ingredients of a search: the float products, the CPU, the choice among
    equal elements made by [select_nth_unstable_by], the iteration order of a heap. *)
Record kernel := {
  k_mat : list f32 -> list f32 -> f32; k_vec : list f32 -> list f32 -> f32;
  k_dot : list f32 -> list f32 -> f32; k_arch : arch;
  k_select : nat -> list (nat * f32) -> list (nat * f32);
  k_heap : list (f32 * nat) -> list (f32 * nat)
}.
(** What the Rust standard library documents: [select_nth_unstable_by(n - 1)] permutes the
    vector and puts no element before position [n] that compares greater than one after it;
    iterating a heap visits each entry once. Products are 32-bit patterns. *)
Definition good_kernel (K : kernel) : Prop :=
  (forall n l, 1 <= n <= length l ->
     Permutation (k_select K n l) l
     /\ forall a b, In a (firstn n (k_select K n l)) -> In b (skipn n (k_select K n l)) -> ~ better (snd b) (snd a))
  /\ (forall h, Permutation (k_heap K h) h)
  /\ (forall a b, f32_wf (k_mat K a b)) /\ (forall a b, f32_wf (k_dot K a b)).

Definition search (V : env) (K : kernel) := search_one_mmap (v_fadd V) (v_norm V)
  (k_mat K) (k_vec K) (k_dot K) (k_arch K) (k_select K) (k_heap K).
Definition search_batch (V : env) (K : kernel) := search_many_mmap (v_fadd V) (v_norm V)
  (k_mat K) (k_vec K) (k_dot K) (k_arch K) (k_select K) (k_heap K).

(** [m] is a numerically largest element of the row, ignoring infinities and NaN. *)
Definition row_max (l : list f32) (m : f32) : Prop :=
  In m l /\ is_finite m = true /\ forall s, In s l -> is_finite s = true -> f_lt m s = false.
(** Sum, from [t] on, of the row maxima; a row without finite element contributes nothing. *)
Inductive sum_of_max (fadd : f32 -> f32 -> f32) : list (list f32) -> f32 -> f32 -> Prop :=
| som_nil t : sum_of_max fadd [] t t
| som_skip l ls t u : (forall s, In s l -> is_finite s = false) ->
    sum_of_max fadd ls t u -> sum_of_max fadd (l :: ls) t u
| som_add l ls m t u : row_max l m -> sum_of_max fadd ls (fadd t m) u -> sum_of_max fadd (l :: ls) t u.
(** MaxSim: for each query token the largest similarity with a document token, summed. The
    similarities come from [sim] (row products for small inputs, matrix products above). *)
Definition maxsim (fadd : f32 -> f32 -> f32) (K : kernel) (query doc : list (list f32)) (u : f32) : Prop :=
  let sim := if length query * length doc <? 256 then k_dot K else k_mat K in
  sum_of_max fadd (map (fun q => map (sim q) doc) query) f_zero u.
(** [s] is the MaxSim score of the query against the decompressed document [id]. *)
Definition doc_score (V : env) (K : kernel) (x : index) (q : query) (id : Z) (s : f32) : Prop :=
  (0 <= id)%Z /\ exists e, embeddings V x (Z.to_nat id) = Ok e /\ maxsim (v_fadd V) K (q_rows q) e s.

(** Scores never increase along the list. *)
Definition non_increasing (l : list f32) : Prop := ForallOrdPairs (fun a b => ~ better b a) l.

(** [ids], [scores] are the [k] best of the candidates [U] according to [f]. *)
Definition best_of (k : nat) (U : list Z) (f : Z -> f32) (ids : list Z) (scores : list f32) : Prop :=
  NoDup ids /\ incl ids U /\ length ids = Nat.min k (length U)
  /\ scores = map f ids /\ non_increasing scores
  /\ forall u i, In u U -> ~ In u ids -> In i ids -> ~ better (f u) (f i).

(** The documents a search may return: those with a token, restricted to the subset. *)
Definition searchable_docs (L : list doc) (subset : option (list Z)) : list Z :=
  filter (fun z => match subset with None => true | Some s => existsb (Z.eqb z) s end)
    (map Z.of_nat (filter (fun i => negb (length (nth i L []) =? 0)) (seq 0 (length L)))).

(** [cells] are the [n] best of the [K] centroids for one query token with these scores. *)
Definition best_cells (n : nat) (scores : list f32) (cells : list nat) : Prop :=
  NoDup cells /\ length cells = Nat.min n (length scores)
  /\ (forall c, In c cells -> c < length scores)
  /\ forall c c', In c cells -> ~ In c' cells -> c' < length scores ->
       ~ better (nth c' scores f_zero) (nth c scores f_zero).
(** [selected] is the union of one such choice per query token. *)
Definition best_cells_union (n : nat) (scores : list (list f32)) (selected : list nat) : Prop :=
  exists choice, Forall2 (best_cells n) scores choice
    /\ NoDup selected /\ forall c, In c selected <-> In c (concat choice).

(** No two centroids are equally good for the query token. *)
Definition no_ties (scores : list f32) : Prop :=
  forall c c', c < length scores -> c' < length scores -> c <> c' ->
    better (nth c scores f_zero) (nth c' scores f_zero) \/ better (nth c' scores f_zero) (nth c scores f_zero).

(** Numerically the same value. *)
Definition same_number (a b : f32) : Prop := a = b \/ f_eq a b = true.

(** The first largest element of a list of finite numbers. *)
Definition first_max (l : list f32) (m : f32) : Prop :=
  exists a b, l = a ++ m :: b /\ (forall s, In s a -> f_lt s m = true) /\ (forall s, In s b -> f_lt m s = false).
(** MaxSim for reranking: every similarity and every running total is finite. *)
Inductive finite_sum_of_max (fadd : f32 -> f32 -> f32) : list (list f32) -> f32 -> f32 -> Prop :=
| fsom_nil t : finite_sum_of_max fadd [] t t
| fsom_skip ls t u : finite_sum_of_max fadd ls t u -> finite_sum_of_max fadd ([] :: ls) t u
| fsom_add l ls m t u : Forall (fun s => is_finite s = true) l -> first_max l m -> is_finite (fadd t m) = true ->
    finite_sum_of_max fadd ls (fadd t m) u -> finite_sum_of_max fadd (l :: ls) t u.
Definition rerank_score (fadd : f32 -> f32 -> f32) (dot : list f32 -> list f32 -> f32) (query doc : list (list f32)) (u : f32) : Prop :=
  finite_sum_of_max fadd (map (fun q => map (dot q) doc) query) f_zero u.

(** [k] designates a numerically largest finite score, if there is a finite one. *)
Definition is_best_index (scores : list f32) (k : nat) : Prop :=
  k < length scores
  /\ forall s, In s scores -> is_finite s = true ->
       is_finite (nth k scores f_zero) = true /\ f_lt (nth k scores f_zero) s = false.

(** ** What is rescored *)
(** Sum over the query tokens of the largest centroid score among the document's codes;
    a token without a score above -inf contributes nothing. *)
Definition largest_above (l : list f32) (m : f32) : Prop :=
  In m l /\ f_gt m f_neg_inf = true /\ forall s, In s l -> f_lt m s = false.
Inductive approx_sum (fadd : f32 -> f32 -> f32) : list (list f32) -> f32 -> f32 -> Prop :=
| as_nil t : approx_sum fadd [] t t
| as_skip l ls t u : (forall s, In s l -> f_gt s f_neg_inf = false) ->
    approx_sum fadd ls t u -> approx_sum fadd (l :: ls) t u
| as_add l ls m t u : largest_above l m -> approx_sum fadd ls (fadd t m) u -> approx_sum fadd (l :: ls) t u.
Definition approx_score (fadd : f32 -> f32 -> f32) (sim : row -> row -> f32) (query cents : list row) (codes : list nat) (u : f32) : Prop :=
  approx_sum fadd (map (fun q => map (fun c => sim q (nth c cents [])) codes) query) f_zero u.

(** The [n] best centroids of [pool] for one query token. *)
Definition best_among (n : nat) (pool : list nat) (scores : list f32) (cells : list nat) : Prop :=
  NoDup cells /\ length cells = Nat.min n (length pool) /\ incl cells pool
  /\ forall c c', In c cells -> In c' pool -> ~ In c' cells -> ~ better (nth c' scores f_zero) (nth c scores f_zero).
(** The best score of centroid [c] over the query tokens (the last one among equals) is at
    least [t]. *)
Definition reaches (scores : list (list f32)) (t : f32) (c : nat) : Prop :=
  exists i, is_last_argmax (map (fun r => nth c r f_zero) scores) i
    /\ f_ge (nth i (map (fun r => nth c r f_zero) scores) f_zero) t = true.
Definition above_threshold (scores : list (list f32)) (thr : option f32) (c : nat) : Prop :=
  match thr with None => True | Some t => reaches scores t c end.
(** The standard probe. Without subset: [n_ivf_probe] of all centroids per query token. With
    a subset of the [N] documents: the pool is the set of centroids of the subset's documents
    and the number of probes is scaled up by [N / |subset|]. *)
Definition standard_probe (x : index) (p : params) (subset : option (list Z)) (scores : list (list f32)) (cells : list nat) : Prop :=
  exists pool n choice,
    match subset with
    | None => pool = seq 0 (length (c_centroids (x_codec x))) /\ n = p_n_ivf_probe p
    | Some s =>
      NoDup pool
      /\ (forall c, In c pool <-> exists i codes, In (Z.of_nat i) s /\ i < length (x_doc_lengths x)
                                   /\ get_document_codes x [i] = Ok [codes] /\ In c codes)
      /\ (pool <> [] -> n = Nat.min (Nat.max (p_n_ivf_probe p * length (x_doc_lengths x) / length s) (p_n_ivf_probe p)) (length pool))
    end
    /\ Forall2 (best_among n pool) scores choice
    /\ NoDup cells
    /\ forall c, In c cells <-> In c (concat choice) /\ above_threshold scores (p_threshold p) c.
(** The batched probe: the best centroids per query token; with a threshold, some of those
    that reach it for a query token. *)
Definition batched_probe (x : index) (p : params) (scores : list (list f32)) (cells : list nat) : Prop :=
  exists selected, best_cells_union (p_n_ivf_probe p) scores selected
    /\ match p_threshold p with
       | None => cells = selected
       | Some t => NoDup cells /\ forall c, In c cells -> In c selected
                     /\ (f_ge f_neg_inf t = true
                         \/ exists s, In s (map (fun r => nth c r f_zero) scores) /\ f_ge s t = true)
       end.
Definition batched (x : index) (p : params) : bool :=
  (0 <? p_centroid_batch_size p) && (p_centroid_batch_size p <? length (c_centroids (x_codec x))).
