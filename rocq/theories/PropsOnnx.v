(** C73-C78: encoding of documents and queries. *)
From Verif Require Import Base Onnx OnnxSpec OnnxPrepare OnnxEncode OnnxPaths OnnxShapes OnnxBatches OnnxStream OnnxMore.
Open Scope nat_scope.

(** * Examples: a configuration and models *)
Definition toy_config : config toy_tokenizer := {|
  query_prefix := ([1] : text toy_tokenizer); document_prefix := [2]; query_prefix_id := None; document_prefix_id := Some 2;
  query_length := 6; document_length := 5; do_query_expansion := true; uses_token_type_ids := true;
  mask_token_id := 103; pad_token_id := 0; skiplist_words := [[46]; [44]; [8; 9]]; do_lower_case := false |}.
Definition toy_model (sessions batch_size : nat) (dynamic : bool) : model toy_tokenizer :=
  {| m_config := toy_config; m_sessions := sessions; m_batch_size := batch_size; m_dynamic := dynamic; m_cpu := false |}.
Definition toy_texts : list (list nat) := [[32; 7]; [7; 46; 8; 9; 10; 11]; []; [44; 46]].
Definition toy_embeddings : list (list (list (value toy_network))) :=
  [[[101; 212]; [2; 212]; [7; 212]; [102; 212]];
   [[101; 258]; [2; 258]; [7; 258]; [102; 258]];
   [[101; 205]; [2; 205]; [102; 205]];
   [[101; 295]; [2; 295]; [102; 295]]].

(** * C73: every document gets its own embedding, in order, on every path *)
Theorem C73_documents : forall T (N : network) (M : model T) dim f prefix texts out,
  steady T -> ignores_padding N dim f -> 3 <= document_length (m_config M) ->
  prefix_of (document_prefix_id (m_config M)) (document_prefix (m_config M)) prefix ->
  encode_documents N M texts = Ok out ->
  Forall2 (embeds (m_config M) (document_embedding (m_config M) f prefix)) texts out.
Proof.
  intros T N M dim f prefix texts out HT HN M3 HP H. apply prefix_document in HP.
  eapply embeds_ext; [intros v; apply (own_document N)|]. eapply encode_all_spec; eauto.
Qed.
Print Assumptions C73_documents.
Theorem C73_batches : forall T (N : network) (M : model T) dim f prefix cap cancelled texts batches out,
  steady T -> ignores_padding N dim f -> 3 <= document_length (m_config M) ->
  prefix_of (document_prefix_id (m_config M)) (document_prefix (m_config M)) prefix ->
  tokenize_batches cap M texts = Ok batches -> encode_batches N M cancelled batches = Ok out ->
  Forall2 (embeds (m_config M) (document_embedding (m_config M) f prefix)) texts out.
Proof.
  intros T N M dim f prefix cap cancelled texts batches out HT HN M3 HP H1 H2. apply prefix_document in HP.
  eapply embeds_ext; [intros v; apply (own_document N)|]. eapply batches_in_order; eauto.
Qed.
Print Assumptions C73_batches.
(** Sessions, batch size, batching mode and provider change nothing. *)
Theorem C73_same_everywhere : forall T (N : network) (M M' : model T) dim f prefix cap cancelled texts batches out out',
  steady T -> ignores_padding N dim f -> 3 <= document_length (m_config M) ->
  prefix_of (document_prefix_id (m_config M)) (document_prefix (m_config M)) prefix -> m_config M' = m_config M ->
  encode_documents N M texts = Ok out ->
  (encode_documents N M' texts = Ok out' \/ (tokenize_batches cap M' texts = Ok batches /\ encode_batches N M' cancelled batches = Ok out')) ->
  out' = out.
Proof.
  intros T N M M' dim f prefix cap cancelled texts batches out out' HT HN M3 HP EC H H'. pose proof (C73_documents T N M dim f prefix texts out HT HN M3 HP H) as F. rewrite <- EC in *.
  destruct H' as [H'|(H1 & H2)]; eapply embeds_det; [eapply C73_documents|exact F|eapply C73_batches|exact F]; eauto.
Qed.
Print Assumptions C73_same_everywhere.
(** They do answer. *)
Theorem C73_answers : forall T (N : network) (M : model T) dim f prefix cap texts,
  steady T -> ignores_padding N dim f -> 3 <= document_length (m_config M) ->
  prefix_of (document_prefix_id (m_config M)) (document_prefix (m_config M)) prefix ->
  answers N dim -> (forall t, exists e, encode T t = Ok e) -> (forall ts, exists es, encode_batch T ts = Ok es) -> 1 <= m_batch_size M ->
  exists out batches, encode_documents N M texts = Ok out /\ tokenize_batches cap M texts = Ok batches /\
    encode_batches N M (fun _ => false) batches = Ok out.
Proof.
  intros T N M dim f prefix cap texts HT HN M3 HP AN E1 E2 B. pose proof (prefix_document _ _ HP) as HP2.
  destruct (encode_all_total N M dim f false true prefix texts HT HN M3 HP2 AN E2 B) as (out & O).
  destruct (in_order_total N M dim f HT HN prefix M3 HP2 cap texts AN) as (bs & out' & B1 & B2); [apply Forall_forall; auto|].
  exists out, bs. split; [exact O|]. split; auto. rewrite B2. f_equal. eapply C73_same_everywhere with (M' := M); eauto.
Qed.
Print Assumptions C73_answers.
Example C73_example : steady toy_tokenizer /\ ignores_padding toy_network 2 toy_f /\ answers toy_network 2 /\
  prefix_of (document_prefix_id toy_config) (document_prefix toy_config) 2 /\
  encode_documents toy_network (toy_model 1 2 false) toy_texts = Ok toy_embeddings /\
  encode_documents toy_network (toy_model 3 1 false) toy_texts = Ok toy_embeddings /\
  bind (tokenize_batches 1000 (toy_model 3 2 true) toy_texts) (encode_batches toy_network (toy_model 3 2 true) (fun _ => false)) = Ok toy_embeddings /\
  bind (tokenize_batches 1000 (toy_model 3 2 true) toy_texts) (fun bs => Ok (map b_origin bs)) = Ok [[2; 0]; [1; 3]] /\
  bind (tokenize_batches 1000 (toy_model 3 2 true) toy_texts) (encode_batches toy_network (toy_model 3 2 true) (Nat.eqb 1)) = Err.
Proof.
  split; [exact toy_steady|]. split; [exact toy_ignores|]. split; [exact toy_answers|]. split; [now left|].
  split; [vm_compute; reflexivity|]. split; [vm_compute; reflexivity|]. split; [vm_compute; reflexivity|]. split; vm_compute; reflexivity.
Qed.

(** * C74: queries; numbers of rows *)
Theorem C74_queries : forall T (N : network) (M : model T) dim f prefix texts out,
  steady T -> ignores_padding N dim f -> 3 <= query_length (m_config M) ->
  prefix_of (query_prefix_id (m_config M)) (query_prefix (m_config M)) prefix ->
  encode_queries N M texts = Ok out ->
  Forall2 (embeds (m_config M) (query_embedding (m_config M) f prefix)) texts out.
Proof.
  intros T N M dim f prefix texts out HT HN M3 HP H. apply prefix_query in HP.
  eapply embeds_ext; [intros v; apply (own_query N); apply HN|]. eapply encode_all_spec; eauto.
Qed.
Print Assumptions C74_queries.
(** Exactly [query_length] rows with expansion; without, one per token up to that length. *)
Theorem C74_query_rows : forall T (N : network) (M : model T) dim f prefix texts out,
  steady T -> ignores_padding N dim f -> 3 <= query_length (m_config M) ->
  prefix_of (query_prefix_id (m_config M)) (query_prefix (m_config M)) prefix ->
  encode_queries N M texts = Ok out ->
  Forall2 (fun t rows => exists e, encode T (cleaned (m_config M) t) = Ok e /\
    length rows = if do_query_expansion (m_config M) then query_length (m_config M) else Nat.min (length (visible e) + 1) (query_length (m_config M))) texts out.
Proof.
  intros T N M dim f prefix texts out HT HN M3 HP H. pose proof (C74_queries T N M dim f prefix texts out HT HN M3 HP H) as F.
  eapply Forall2_impl_in; [|exact F]. intros t rows _ (e & E & ->). exists e. split; auto. apply query_rows; auto; [|apply HN].
  apply visible_nonempty. now apply HT in E.
Qed.
Print Assumptions C74_query_rows.
Theorem C74_document_rows : forall T (N : network) (M : model T) dim f prefix texts out,
  steady T -> ignores_padding N dim f -> 3 <= document_length (m_config M) ->
  prefix_of (document_prefix_id (m_config M)) (document_prefix (m_config M)) prefix ->
  encode_documents N M texts = Ok out -> Forall (fun rows => length rows <= document_length (m_config M)) out.
Proof.
  intros T N M dim f prefix texts out HT HN M3 HP H. pose proof (C73_documents T N M dim f prefix texts out HT HN M3 HP H) as F.
  clear H. induction F as [|t rows ts out (e & E & ->) _ IH]; constructor; auto. now apply document_rows.
Qed.
Print Assumptions C74_document_rows.
Theorem C74_answers : forall T (N : network) (M : model T) dim f prefix texts,
  steady T -> ignores_padding N dim f -> 3 <= query_length (m_config M) ->
  prefix_of (query_prefix_id (m_config M)) (query_prefix (m_config M)) prefix ->
  answers N dim -> (forall ts, exists es, encode_batch T ts = Ok es) -> 1 <= m_batch_size M ->
  exists out, encode_queries N M texts = Ok out.
Proof. intros T N M dim f prefix texts HT HN M3 HP AN E2 B. exact (encode_all_total N M dim f true false prefix texts HT HN M3 (prefix_query _ _ HP) AN E2 B). Qed.
Print Assumptions C74_answers.
Example C74_example : prefix_of (query_prefix_id toy_config) (query_prefix toy_config) 1 /\
  encode_queries toy_network (toy_model 2 2 false) [[7; 46]; [7; 8; 9; 10; 11]] =
    Ok [[[101; 360]; [1; 360]; [7; 360]; [46; 360]; [102; 360]; [103; 360]]; [[101; 228]; [1; 228]; [7; 228]; [8; 228]; [9; 228]; [102; 228]]].
Proof. split; [right; split; reflexivity|vm_compute; reflexivity]. Qed.

(** * C75: encoding does not panic *)
Theorem C75_no_panic : forall T (N : network) (M : model T) dim f prefix cap cancelled texts,
  steady T -> ignores_padding N dim f -> calm T N ->
  3 <= document_length (m_config M) -> 3 <= query_length (m_config M) -> 1 <= m_batch_size M ->
  prefix_of (document_prefix_id (m_config M)) (document_prefix (m_config M)) prefix ->
  encode_documents N M texts <> Panic /\ encode_queries N M texts <> Panic /\ tokenize_batches cap M texts <> Panic /\
  forall batches, tokenize_batches cap M texts = Ok batches -> encode_batches N M cancelled batches <> Panic.
Proof.
  intros T N M dim f prefix cap cancelled texts HT HN HC MD MQ B HP. apply prefix_document in HP.
  split; [now apply (encode_all_calm N M dim f)|]. split; [now apply (encode_all_calm N M dim f)|].
  split; [eapply tokenize_batches_calm; eauto|]. intros bs. eapply encode_batches_calm; eauto.
Qed.
Print Assumptions C75_no_panic.
Example C75_example : calm toy_tokenizer toy_network /\ encode_documents toy_network (toy_model 1 2 false) [] = Ok [] /\
  encode_documents toy_network (toy_model 1 2 false) [[]] = Ok [[[101; 205]; [2; 205]; [102; 205]]].
Proof. split; [exact toy_calm|]. split; vm_compute; reflexivity. Qed.
(** One session and batch size 0; a length of 2; an encoding without tokens. *)
Definition short_config : config toy_tokenizer := {|
  query_prefix := ([1] : text toy_tokenizer); document_prefix := [2]; query_prefix_id := None; document_prefix_id := Some 2;
  query_length := 2; document_length := 2; do_query_expansion := true; uses_token_type_ids := true;
  mask_token_id := 103; pad_token_id := 0; skiplist_words := []; do_lower_case := false |}.
Theorem C75_batch_size_zero_refuted : forall texts, texts <> [] -> encode_documents toy_network (toy_model 1 0 false) texts = Panic.
Proof. intros [|t texts] H; [congruence|reflexivity]. Qed.
Print Assumptions C75_batch_size_zero_refuted.
Theorem C75_short_length_refuted :
  encode_documents toy_network {| m_config := short_config; m_sessions := 1; m_batch_size := 2; m_dynamic := false; m_cpu := true |} [[7]] = Panic /\
  encode_queries toy_network {| m_config := short_config; m_sessions := 1; m_batch_size := 2; m_dynamic := false; m_cpu := true |} [[7]] = Panic.
Proof. split; vm_compute; reflexivity. Qed.
Print Assumptions C75_short_length_refuted.
Definition bare_tokenizer : tokenizer := {|
  text := list nat; trim t := t; lower t := t;
  encode t := Ok {| e_ids := t; e_masks := repeat 1 (length t); e_types := repeat 0 (length t) |};
  encode_batch ts := Ok (map (fun t => {| e_ids := t; e_masks := repeat 1 (length t); e_types := repeat 0 (length t) |}) ts);
  token_id t := None |}.
Definition bare_config : config bare_tokenizer := {|
  query_prefix := ([] : text bare_tokenizer); document_prefix := []; query_prefix_id := Some 1; document_prefix_id := Some 2;
  query_length := 6; document_length := 5; do_query_expansion := true; uses_token_type_ids := true;
  mask_token_id := 103; pad_token_id := 0; skiplist_words := []; do_lower_case := false |}.
Theorem C75_no_tokens_refuted :
  encode_documents toy_network {| m_config := bare_config; m_sessions := 1; m_batch_size := 2; m_dynamic := false; m_cpu := true |} [[]] = Panic /\
  tokenize_batches 1000 {| m_config := bare_config; m_sessions := 1; m_batch_size := 2; m_dynamic := false; m_cpu := true |} [[]] = Panic.
Proof. split; vm_compute; reflexivity. Qed.
Print Assumptions C75_no_tokens_refuted.

(** * C76: sizes of prepared batches *)
Theorem C76_sizes : forall T (M : model T) prefix cap texts batches,
  steady T -> 3 <= document_length (m_config M) ->
  prefix_of (document_prefix_id (m_config M)) (document_prefix (m_config M)) prefix ->
  tokenize_batches cap M texts = Ok batches ->
  Permutation (flat_map b_origin batches) (seq 0 (length texts)) /\
  Forall (fun b => 1 <= b_size b /\ length (b_origin b) = b_size b /\ b_len b <= document_length (m_config M) /\
    length (b_ids b) = b_size b * b_len b /\ length (b_mask b) = b_size b * b_len b /\
    b_size b * b_len b <= Nat.max (m_batch_size M) 1 * document_length (m_config M)) batches.
Proof.
  intros T M prefix cap texts batches HT M3 HP H. apply prefix_document in HP.
  pose proof (batch_sizes M HT prefix M3 HP cap texts batches H) as BS.
  destruct (tokenize_batches_spec M HT prefix M3 HP cap texts batches H) as (docs & ps & F2 & -> & CV & MP). split.
  - rewrite origins. destruct CV as (P & _). rewrite P, numbered_fst. apply f2_len in F2. now rewrite F2.
  - assert (F : Forall proper_tokenized docs) by (clear -F2; induction F2 as [|x d l r (e & _ & _ & PR) _ IH]; constructor; auto).
    pose proof (covers_proper docs ps F CV) as CP. rewrite Forall_forall in *. intros b I. destruct (BS b I) as (B1 & B2 & B3). apply in_map_iff in I. destruct I as (p & <- & I).
    unfold piece_batch in *. cbn [batch b_size b_len b_origin b_ids b_mask] in *. rewrite !map_length in *.
    set (vs := map pairs (map snd (fst p))) in *.
    assert (HF : Forall (fits (m_config M) false (batch_len (m_config M) false (snd p) vs)) vs).
    { pose proof (batch_len_enough (m_config M) false (snd p) vs ltac:(cbn [max_length]; lia)) as B. rewrite Forall_forall in *. intros w J. split; [|exact (B w J)].
      unfold vs in J. rewrite map_map in J. apply in_map_iff in J. destruct J as (x & <- & J). apply pairs_nonempty. specialize (CP p I). rewrite Forall_forall in CP. now apply CP. }
    pose proof (flat_length (m_config M) false prefix (batch_len (m_config M) false (snd p) vs) vs M3 HF) as FL.
    replace (length vs) with (length (fst p)) in FL by (unfold vs; now rewrite !map_length). repeat split; auto.
Qed.
Print Assumptions C76_sizes.
(** Dynamic batches have few lengths: the document length or a multiple of 32. *)
Theorem C76_lengths : forall T (M : model T) prefix cap texts batches,
  steady T -> 3 <= document_length (m_config M) ->
  prefix_of (document_prefix_id (m_config M)) (document_prefix (m_config M)) prefix ->
  m_dynamic M = true -> m_cpu M = false -> tokenize_batches cap M texts = Ok batches ->
  Forall (fun b => b_len b = document_length (m_config M) \/ exists k, b_len b = 32 * k) batches.
Proof. intros T M prefix cap texts batches HT M3 HP D C H. apply prefix_document in HP. eapply batch_shapes; eauto. Qed.
Print Assumptions C76_lengths.
(** The loop that lists the shapes ends: more rounds change nothing. *)
Theorem C76_loop_ends : forall more budget max_len, 1 <= max_len ->
  shape_loop (S max_len + more) max_len (Nat.min 128 max_len) budget [] max_len = shape_loop (S max_len) max_len (Nat.min 128 max_len) budget [] max_len.
Proof.
  intros more budget max_len L. apply (shape_loop_ends max_len (Nat.min 128 max_len) budget); try lia.
Qed.
Print Assumptions C76_loop_ends.
Definition long_model : model toy_tokenizer := {|
  m_config := {| query_prefix := ([1] : text toy_tokenizer); document_prefix := [2]; query_prefix_id := None; document_prefix_id := Some 2;
    query_length := 32; document_length := 300; do_query_expansion := true; uses_token_type_ids := false;
    mask_token_id := 103; pad_token_id := 0; skiplist_words := []; do_lower_case := false |};
  m_sessions := 2; m_batch_size := 2; m_dynamic := true; m_cpu := false |}.
Example C76_example : dynamic_shapes 1000 2 300 = [(4, 128); (3, 160); (2, 300)] /\
  bind (tokenize_batches 1000 long_model [repeat 7 150; [7]; repeat 7 140; [8]; repeat 7 400; [9]; [10]; [11]]) (fun bs => Ok (map (fun b => (b_len b, b_origin b)) bs)) =
  Ok [(128, [1; 3; 5; 6]); (128, [7]); (160, [2; 0]); (300, [4])].
Proof. split; vm_compute; reflexivity. Qed.

(** * C77: streams *)
(** Whatever the schedule: when the stream ends without an error, the chunks it gave, put in
    order of their index, are the embeddings of the documents; each chunk came once. *)
Theorem C77_stream : forall T (N : network) (M : model T) dim f prefix texts s,
  steady T -> ignores_padding N dim f -> calm T N -> 3 <= document_length (m_config M) -> 1 <= m_sessions M ->
  prefix_of (document_prefix_id (m_config M)) (document_prefix (m_config M)) prefix ->
  stream_run N M (stream_start N M texts) s -> stream_over N s -> (forall r, In r (q_sent N s) -> r <> Err) ->
  exists parts whole, Permutation (q_sent N s) (map Ok parts) /\ assembles parts whole /\
    Forall2 (embeds (m_config M) (document_embedding (m_config M) f prefix)) texts whole.
Proof.
  intros T N M dim f prefix texts s HT HN HC M3 S1 HP R O NE. apply prefix_document in HP.
  assert (NP : forall w, In w (work_queue M texts) -> answer N M w <> Panic).
  { intros ((ci & off) & us) _. cbn [answer]. pose proof (encode_texts_calm N (m_config M) dim f HT HN HC false true us M3) as K.
    destruct (encode_texts N (m_config M) false true us); congruence. }
  destruct (stream_delivers N M texts s R O S1 NP) as (_ & P).
  assert (OK : forall w, In w (work_queue M texts) -> exists p, answer N M w = Ok p).
  { intros w I. specialize (NP w I). destruct (answer N M w) as [p| |] eqn:E; [eauto| |congruence]. exfalso. apply (NE Err); auto.
    eapply Permutation_in; [symmetry; exact P|]. rewrite <- E. now apply in_map. }
  assert (FP : exists parts, Forall2 (fun w p => answer N M w = Ok p) (work_queue M texts) parts).
  { revert OK. generalize (work_queue M texts). clear. induction l as [|w l IH]; intros OK; [exists []; constructor|].
    destruct (OK w (or_introl eq_refl)) as (p & E). destruct IH as (parts & F); [intros w' I; apply OK; now right|]. exists (p :: parts). now constructor. }
  destruct FP as (parts & FP). destruct (answers_assemble N M dim f HT HN prefix M3 HP texts parts FP) as (whole & A & F).
  exists parts, whole. split; [|split; [exact A|eapply embeds_ext; [intros v; apply (own_document N)|exact F]]]. rewrite P.
  assert (E : map (answer N M) (work_queue M texts) = map Ok parts) by (clear -FP; induction FP as [|w p l r E _ IH]; cbn [map]; [auto|rewrite E, IH; auto]).
  now rewrite E.
Qed.
Print Assumptions C77_stream.
(** A failing chunk is reported: as many results as chunks, in every schedule. *)
Theorem C77_every_chunk : forall T (N : network) (M : model T) dim f texts s,
  steady T -> ignores_padding N dim f -> calm T N -> 3 <= document_length (m_config M) -> 1 <= m_sessions M ->
  stream_run N M (stream_start N M texts) s -> stream_over N s -> q_queue N s = [] /\
  length (q_sent N s) = length (chunks (Nat.max (m_batch_size M) 1) texts).
Proof.
  intros T N M dim f texts s HT HN HC M3 S1 R O.
  destruct (stream_delivers N M texts s R O S1) as (Q & P).
  - intros ((ci & off) & us) _. cbn [answer]. pose proof (encode_texts_calm N (m_config M) dim f HT HN HC false true us M3) as K.
    destruct (encode_texts N (m_config M) false true us); congruence.
  - split; auto. rewrite (Permutation_length P). unfold work_queue, numbered. rewrite !map_length, combine_length, seq_length. lia.
Qed.
Print Assumptions C77_every_chunk.
(** Every schedule ends, and no state is stuck. *)
Theorem C77_ends : forall T (N : network) (M : model T), well_founded (fun s' s => stream_step N M s s') /\
  forall s, (stream_over N s \/ exists s', stream_step N M s s') /\ exists s', stream_run N M s s' /\ stream_over N s'.
Proof.
  intros T N M. split.
  - apply (well_founded_lt_compat _ (remaining N)). intros s' s H. now apply step_remaining in H.
  - intros s. split; [apply over_or_step|apply reaches_over].
Qed.
Print Assumptions C77_ends.
Example C77_example : exists s, stream_run toy_network (toy_model 2 2 false) (stream_start toy_network (toy_model 2 2 false) toy_texts) s /\ stream_over toy_network s /\
  q_sent toy_network s = [Ok (1, 2, skipn 2 toy_embeddings); Ok (0, 0, firstn 2 toy_embeddings)].
Proof.
  exists (@Build_stream toy_tokenizer toy_network [] [Ended; Ended] [Ok (1, 2, skipn 2 toy_embeddings); Ok (0, 0, firstn 2 toy_embeddings)]).
  split; [|split; [repeat constructor|reflexivity]].
  eapply run_step; [apply (step_pop toy_network (toy_model 2 2 false) 0); reflexivity|].
  eapply run_step; [apply (step_pop toy_network (toy_model 2 2 false) 1); reflexivity|].
  eapply run_step; [eapply (step_send toy_network (toy_model 2 2 false) 1); [reflexivity|vm_compute; reflexivity]|].
  eapply run_step; [eapply (step_send toy_network (toy_model 2 2 false) 0); [reflexivity|vm_compute; reflexivity]|].
  eapply run_step; [apply (step_end toy_network (toy_model 2 2 false) 1); reflexivity|].
  eapply run_step; [apply (step_end toy_network (toy_model 2 2 false) 0); reflexivity|].
  apply run_refl.
Qed.
(** A worker that panics loses its chunk, and with one session all chunks after it: the stream
    just ends. *)
Theorem C77_panic_loses_refuted : exists T (N : network) (M : model T) texts s, m_sessions M = 1 /\ texts <> [] /\
  stream_run N M (stream_start N M texts) s /\ stream_over N s /\ q_sent N s = [].
Proof.
  set (M := {| m_config := short_config; m_sessions := 1; m_batch_size := 1; m_dynamic := false; m_cpu := true |}).
  exists toy_tokenizer, toy_network, M, [[7]; [8]; [9]]. eexists. split; [reflexivity|]. split; [discriminate|]. split.
  - eapply run_step; [apply (step_pop toy_network M 0); reflexivity|].
    eapply run_step; [eapply (step_panic toy_network M 0); [reflexivity|vm_compute; reflexivity]|]. apply run_refl.
  - split; [repeat constructor|reflexivity].
Qed.
Print Assumptions C77_panic_loses_refuted.

(** * C78: prepared batches in another order, or only some of them *)
Theorem C78_any_order : forall T (N : network) (M : model T) dim f prefix cap cancelled texts batches batches' out,
  steady T -> ignores_padding N dim f -> 3 <= document_length (m_config M) ->
  prefix_of (document_prefix_id (m_config M)) (document_prefix (m_config M)) prefix ->
  tokenize_batches cap M texts = Ok batches -> Permutation batches batches' -> encode_batches N M cancelled batches' = Ok out ->
  Forall2 (embeds (m_config M) (document_embedding (m_config M) f prefix)) texts out.
Proof.
  intros T N M dim f prefix cap cancelled texts batches batches' out HT HN M3 HP H P E. pose proof (prefix_document _ _ HP) as HP2.
  eapply embeds_ext; [intros v; apply (own_document N)|].
  destruct (some_batches_texts N M dim f HT HN prefix M3 HP2 cap cancelled texts batches batches' [] out H) as (F & L); auto; [now rewrite app_nil_r|].
  destruct (C76_sizes T M prefix cap texts batches HT M3 HP H) as (PO & FB).
  assert (LT : length texts = length out).
  { rewrite L. rewrite <- (seq_length (length texts) 0), <- (Permutation_length PO). clear -P FB. rewrite Forall_forall in FB.
    assert (E : length (flat_map b_origin batches) = list_sum (map b_size batches)).
    { clear P. unfold list_sum. induction batches as [|b l IH]; cbn; auto. rewrite app_length, IH; [|intros x I; apply FB; now right]. now rewrite (proj1 (proj2 (FB b (or_introl eq_refl)))). }
    rewrite E. clear -P. unfold list_sum. induction P; cbn; lia. }
  rewrite <- LT, firstn_all in F. exact F.
Qed.
Print Assumptions C78_any_order.
(** Some of the batches: an error, or the embeddings of the first documents. *)
Theorem C78_some : forall T (N : network) (M : model T) dim f prefix cap cancelled texts batches some rest out,
  steady T -> ignores_padding N dim f -> 3 <= document_length (m_config M) ->
  prefix_of (document_prefix_id (m_config M)) (document_prefix (m_config M)) prefix ->
  tokenize_batches cap M texts = Ok batches -> Permutation batches (some ++ rest) -> encode_batches N M cancelled some = Ok out ->
  length out = list_sum (map b_size some) /\
  Forall2 (embeds (m_config M) (document_embedding (m_config M) f prefix)) (firstn (length out) texts) out.
Proof.
  intros T N M dim f prefix cap cancelled texts batches some rest out HT HN M3 HP H P E. apply prefix_document in HP.
  destruct (some_batches_texts N M dim f HT HN prefix M3 HP cap cancelled texts batches some rest out H P E) as (F & L). split; [exact L|].
  eapply embeds_ext; [intros v; apply (own_document N)|]. exact F.
Qed.
Print Assumptions C78_some.
(** Batches of whatever origin: their results come back rearranged, none lost or repeated, or an
    error is returned. *)
Theorem C78_rearranged : forall A (indices : list nat) (encoded out : list A), length indices = length encoded -> restore indices encoded = Ok out ->
  Permutation indices (seq 0 (length encoded)) /\ length out = length encoded /\
  forall i t x, nth_error indices i = Some t -> nth_error encoded i = Some x -> nth_error out t = Some x.
Proof. intros A indices encoded out L H. pose proof (restore_length _ _ _ H). destruct (restore_general _ _ _ L H). auto. Qed.
Print Assumptions C78_rearranged.
Example C78_example :
  bind (tokenize_batches 1000 (toy_model 3 2 true) toy_texts) (fun bs => encode_batches toy_network (toy_model 3 2 true) (fun _ => false) (rev bs)) = Ok toy_embeddings /\
  bind (tokenize_batches 1000 (toy_model 3 2 true) toy_texts) (fun bs => encode_batches toy_network (toy_model 3 2 true) (fun _ => false) (firstn 1 bs)) = Err /\
  bind (tokenize_batches 1000 (toy_model 3 2 false) toy_texts) (fun bs => encode_batches toy_network (toy_model 3 2 false) (fun _ => false) (firstn 1 bs)) = Ok (firstn 2 toy_embeddings).
Proof. split; [vm_compute; reflexivity|]. split; vm_compute; reflexivity. Qed.
