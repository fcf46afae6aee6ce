(** Model of the encoding half of next-plaid-onnx/src/lib.rs: preparation of token batches,
    batching modes, reading the output of the network, streams of chunks.

    The tokenizer and the network are arguments.  Token ids (u32) and attention values are [nat].
    The three vectors all_input_ids, all_attention_mask and all_token_type_ids, of equal length,
    are one vector of triples until they are handed to the network. *)
From Verif Require Import Base.
Open Scope nat_scope.

(** An encoding of the tokenizers library: ids, attention mask, type ids. *)
Record encoding := { e_ids : list nat; e_masks : list nat; e_types : list nat }.
(** The tokenizer and the string functions used before it. *)
Record tokenizer := {
  text : Type;
  trim : text -> text;
  lower : text -> text;
  encode : text -> res encoding;
  encode_batch : list text -> res (list encoding);
  token_id : text -> option nat
}.
(** The network: batch size, row length, ids, attention mask and type ids of all rows, to the
    shape and the values of the output tensor. *)
Record network := {
  value : Type;
  run : nat -> nat -> list nat -> list nat -> option (list nat) -> res (list nat * list value)
}.
(** lib.rs 559-614 [ColbertConfig], the fields the encoder reads. *)
Record config (T : tokenizer) := {
  query_prefix : text T; document_prefix : text T;
  query_prefix_id : option nat; document_prefix_id : option nat;
  query_length : nat; document_length : nat;
  do_query_expansion : bool; uses_token_type_ids : bool;
  mask_token_id : nat; pad_token_id : nat;
  skiplist_words : list (text T); do_lower_case : bool
}.
Arguments query_prefix {T} _. Arguments document_prefix {T} _. Arguments query_prefix_id {T} _. Arguments document_prefix_id {T} _.
Arguments query_length {T} _. Arguments document_length {T} _. Arguments do_query_expansion {T} _. Arguments uses_token_type_ids {T} _.
Arguments mask_token_id {T} _. Arguments pad_token_id {T} _. Arguments skiplist_words {T} _. Arguments do_lower_case {T} _.

(** lib.rs 1691-1697 [preprocess_texts]. *)
Definition preprocess {T} (c : config T) (texts : list (text T)) : list (text T) :=
  map (fun t => if do_lower_case c then lower T (trim T t) else trim T t) texts.
(** lib.rs 1806-1814 [build_skiplist]. *)
Definition build_skiplist {T} (c : config T) : list nat :=
  flat_map (fun w => match token_id T w with Some i => [i] | None => [] end) (skiplist_words c).

(** lib.rs 742-758 [PreparedDocumentBatch]. *)
Record prepared := {
  b_size : nat; b_len : nat;
  b_ids : list nat; b_mask : list nat; b_types : option (list nat);
  b_tokens : list (list nat); b_lengths : list nat;
  b_query : bool; b_filter : bool;
  b_origin : list nat
}.

(** The leading part of a mask without zeros: lib.rs 1723-1728, 2042-2049. *)
Fixpoint leading (masks : list nat) : nat :=
  match masks with m :: ms => if m =? 0 then 0 else S (leading ms) | [] => 0 end.

(** A document as the row loops read it: ids, masks, types and real length. *)
Record source := { s_ids : list nat; s_masks : list nat; s_types : list nat; s_real : nat }.
Notation triple := (nat * nat * nat)%type.
(** Writing three values at one position; out of range panics. *)
Definition put (flat : list triple) (pos : nat) (x : triple) : res (list triple) :=
  if pos <? length flat then Ok (upd flat pos x) else Panic.
Definition at_source (s : source) (i : nat) : res triple :=
  match nth_error (s_ids s) i, nth_error (s_masks s) i, nth_error (s_types s) i with
  | Some a, Some b, Some c => Ok (a, b, c)
  | _, _, _ => Panic
  end.
(** lib.rs 1966-1973 and 2103-2110: the loop over content tokens, from [src] for [count] tokens. *)
Fixpoint copy (s : source) (src count : nat) (flat : list triple) (pos : nat) (tokens : list nat)
  : res (list triple * nat * list nat) :=
  match count with
  | 0 => Ok (flat, pos, tokens)
  | S count' =>
      bind (at_source s src) (fun x =>
      bind (put flat pos x) (fun flat' => copy s (S src) count' flat' (S pos) (tokens ++ [fst (fst x)])))
  end.
(** lib.rs 1940-1984 and 2078-2119: one row; returns the vector, the token ids and the length. *)
Definition fill_row (max_length prefix batch_len row : nat) (s : source) (flat : list triple)
  : res (list triple * list nat * nat) :=
  let truncate_limit := max_length - 1 in
  let row_start := row * batch_len in
  let keep_sep := truncate_limit <? s_real s in
  let content_prefix_len := if keep_sep then truncate_limit - 1 else s_real s in
  let final_len := if keep_sep then max_length else s_real s + 1 in
  bind (at_source s 0) (fun first =>
  bind (put flat row_start first) (fun flat1 =>
  bind (put flat1 (row_start + 1) (prefix, 1, 0)) (fun flat2 =>
  bind (copy s 1 (content_prefix_len - 1) flat2 (row_start + 2) [fst (fst first); prefix]) (fun '(flat3, pos, tokens) =>
  if keep_sep then
    bind (at_source s (s_real s - 1)) (fun last =>
    bind (put flat3 pos last) (fun flat4 => Ok (flat4, tokens ++ [fst (fst last)], final_len)))
  else Ok (flat3, tokens, final_len))))).
Fixpoint fill_rows (max_length prefix batch_len row : nat) (docs : list source) (flat : list triple)
  : res (list triple * list (list nat) * list nat) :=
  match docs with
  | [] => Ok (flat, [], [])
  | s :: docs' =>
      bind (fill_row max_length prefix batch_len row s flat) (fun '(flat1, tokens, len) =>
      bind (fill_rows max_length prefix batch_len (S row) docs' flat1) (fun '(flat2, all, lens) =>
      Ok (flat2, tokens :: all, len :: lens)))
  end.
(** lib.rs 1888-1911 and 2014-2036: prefix token and maximal length. *)
Definition max_length {T} (c : config T) (is_query : bool) : nat := if is_query then query_length c else document_length c.
Definition prefix_token {T} (c : config T) (is_query : bool) : res nat :=
  match (if is_query then query_prefix_id c else document_prefix_id c) with
  | Some id => Ok id
  | None => match token_id T (if is_query then query_prefix c else document_prefix c) with Some id => Ok id | None => Err end
  end.
(** lib.rs 1914-1922 and 2053-2060: the length a row needs. *)
Definition effective_len (m real : nat) : nat := if m - 1 <? real then m else real + 1.
(** lib.rs 1930-2002 and 2066-2150: vectors of defaults, rows, result. *)
Definition prepare {T} (c : config T) (is_query filter_skiplist : bool) (prefix batch_len : nat) (docs : list source)
  (origin : list nat) : res prepared :=
  let expand := is_query && do_query_expansion c in
  let default := (if expand then mask_token_id c else pad_token_id c, if expand then 1 else 0, 0) in
  bind (fill_rows (max_length c is_query) prefix batch_len 0 docs (repeat default (length docs * batch_len)))
    (fun '(flat, tokens, lens) =>
     Ok {| b_size := length docs; b_len := batch_len;
           b_ids := map (fun x => fst (fst x)) flat; b_mask := map (fun x => snd (fst x)) flat;
           b_types := if uses_token_type_ids c then Some (map snd flat) else None;
           b_tokens := tokens; b_lengths := lens;
           b_query := is_query; b_filter := filter_skiplist; b_origin := origin |}).
(** lib.rs 1879-2005 [prepare_batch_from_tokenized_documents]; a tokenized document is its ids and
    type ids, its attention is 1. *)
Definition prepare_tokenized {T} (c : config T) (docs : list (list nat * list nat)) (is_query filter_skiplist : bool)
  (origin : list nat) (pad_to_len : option nat) : res prepared :=
  bind (prefix_token c is_query) (fun prefix =>
  let m := max_length c is_query in
  let len0 := fold_left (fun acc d => Nat.max acc (effective_len m (length (fst d)))) docs 0 in
  let len1 := match pad_to_len with Some p => Nat.max len0 (Nat.min p m) | None => len0 end in
  let len := if is_query && do_query_expansion c then m else len1 in
  prepare c is_query filter_skiplist prefix len
    (map (fun d => {| s_ids := fst d; s_masks := repeat 1 (length (fst d)); s_types := snd d; s_real := Nat.max (length (fst d)) 1 |}) docs)
    origin).
(** lib.rs 2007-2152 [prepare_batch_from_tokenizer_encodings]. *)
Definition prepare_encodings {T} (c : config T) (encs : list encoding) (is_query filter_skiplist : bool) : res prepared :=
  bind (prefix_token c is_query) (fun prefix =>
  let m := max_length c is_query in
  let real e := Nat.max (leading (e_masks e)) 1 in
  let len1 := fold_left (fun acc e => Nat.max acc (effective_len m (real e))) encs 0 in
  let len := if is_query && do_query_expansion c then m else len1 in
  prepare c is_query filter_skiplist prefix len
    (map (fun e => {| s_ids := e_ids e; s_masks := e_masks e; s_types := e_types e; s_real := real e |}) encs) []).
(** lib.rs 1838-1877 [prepare_batch_for_session]. *)
Definition prepare_texts {T} (c : config T) (texts : list (text T)) (is_query filter_skiplist : bool) : res prepared :=
  match texts with
  | [] => Ok {| b_size := 0; b_len := 0; b_ids := []; b_mask := []; b_types := if uses_token_type_ids c then Some [] else None;
                b_tokens := []; b_lengths := []; b_query := is_query; b_filter := filter_skiplist; b_origin := [] |}
  | _ => bind (encode_batch T (preprocess c texts)) (fun encs => prepare_encodings c encs is_query filter_skiplist)
  end.

(** A slice of the output; out of range panics. *)
Definition slice {A} (l : list A) (start len : nat) : res (list A) :=
  if start + len <=? length l then Ok (firstn len (skipn start l)) else Panic.
(** lib.rs 2154-2246 [encode_prepared_batch_with_session]; a matrix is the list of its rows.  The
    tensors are built from vectors of size times length, which [prepare] makes. *)
Definition skipped (skiplist : list nat) (filter_skiplist : bool) (t : nat) : bool :=
  filter_skiplist && existsb (Nat.eqb t) skiplist.
Definition read_rows {V} (data : list V) (offset dim : nat) (js : list nat) : res (list (list V)) :=
  mapM (fun j => slice data (offset + j * dim) dim) js.
Definition read_document {V} (p : prepared) (expansion : bool) (skiplist : list nat) (dim : nat) (data : list V) (i : nat)
  : res (list (list V)) :=
  let offset := i * b_len p * dim in
  if b_query p && expansion then read_rows data offset dim (seq 0 (b_len p))
  else
    bind (idx (b_lengths p) i) (fun len =>
    bind (idx (b_tokens p) i) (fun tokens =>
    if length tokens <? len then Panic
    else read_rows data offset dim (filter (fun j => negb (skipped skiplist (b_filter p) (nth j tokens 0))) (seq 0 len)))).
Definition encode_prepared {T} (N : network) (c : config T) (p : prepared) : res (list (list (list (value N)))) :=
  if b_size p =? 0 then Ok []
  else
    bind (run N (b_size p) (b_len p) (b_ids p) (b_mask p) (b_types p)) (fun '(shape, data) =>
    bind (idx shape 2) (fun dim =>
    mapM (read_document p (do_query_expansion c) (build_skiplist c) dim data) (seq 0 (b_size p)))).
(** lib.rs 1820-1836 [encode_batch_with_session]. *)
Definition encode_texts {T} (N : network) (c : config T) (is_query filter_skiplist : bool) (texts : list (text T))
  : res (list (list (list (value N)))) :=
  match texts with
  | [] => Ok []
  | _ => bind (prepare_texts c texts is_query filter_skiplist) (encode_prepared N c)
  end.

(** lib.rs 729-740 [Colbert]: configuration, number of sessions, batch size, batching mode; [m_cpu]:
    the requested execution provider is the CPU. *)
Record model (T : tokenizer) := {
  m_config : config T;
  m_sessions : nat;
  m_batch_size : nat;
  m_dynamic : bool;
  m_cpu : bool
}.
Arguments m_config {T} _. Arguments m_sessions {T} _. Arguments m_batch_size {T} _. Arguments m_dynamic {T} _. Arguments m_cpu {T} _.

(** lib.rs 1537-1560 [encode_single_session]: [chunks(0)] panics. *)
Definition single_session {T} (N : network) (M : model T) (is_query filter_skiplist : bool) (texts : list (text T)) :=
  if m_batch_size M =? 0 then Panic
  else bind (mapM (encode_texts N (m_config M) is_query filter_skiplist) (chunks (m_batch_size M) texts)) (fun l => Ok (concat l)).
(** A scope of threads: the results are joined in order, a panicking thread panics the caller. *)
Definition panicked {A} (r : res A) : bool := match r with Panic => true | _ => false end.
Definition join_all {A} (rs : list (res A)) : res (list A) :=
  if existsb panicked rs then Panic else mapM (fun r => r) rs.
(** lib.rs 1562-1610 [encode_parallel]. *)
Definition parallel {T} (N : network) (M : model T) (is_query filter_skiplist : bool) (texts : list (text T)) :=
  bind (join_all (map (encode_texts N (m_config M) is_query filter_skiplist) (chunks (Nat.max (m_batch_size M) 1) texts)))
    (fun l => Ok (concat l)).
(** lib.rs 1129-1140 [encode_documents_raw] and 1499-1509 [encode_queries]. *)
Definition encode_all {T} (N : network) (M : model T) (is_query filter_skiplist : bool) (texts : list (text T)) :=
  match texts with
  | [] => Ok []
  | _ => if m_sessions M =? 1 then single_session N M is_query filter_skiplist texts
         else parallel N M is_query filter_skiplist texts
  end.
Definition encode_documents {T} (N : network) (M : model T) := encode_all N M false true.
Definition encode_queries {T} (N : network) (M : model T) := encode_all N M true false.

(** lib.rs 1709-1738 [tokenize_processed_texts_individually]: every text is encoded, then results
    are collected. *)
Definition tokenize_one {T} (t : text T) : res (list nat * list nat) :=
  bind (encode T t) (fun e =>
  let real := Nat.max (leading (e_masks e)) 1 in
  if (real <=? length (e_ids e)) && (real <=? length (e_types e)) then Ok (firstn real (e_ids e), firstn real (e_types e)) else Panic).
(** lib.rs 1740-1746 [round_up_len_for_planning]. *)
Definition round_up (len : nat) : nat := if len <=? 8 then Nat.max len 1 else (len + 31) / 32 * 32.
(** lib.rs 1756-1787 [build_fixed_dynamic_shapes]: (documents, planned length); [cap] is the bound
    of the saturating product, [fuel] bounds the rounds of the loop. *)
Fixpoint shape_loop (fuel max_len min_planned budget : nat) (shapes : list (nat * nat)) (planned : nat) : list (nat * nat) :=
  match fuel with
  | 0 => shapes
  | S fuel' =>
      let docs := Nat.max (budget / planned) 1 in
      let shapes' := if match shapes with [] => true | _ => negb (snd (last shapes (0, 0)) =? planned) end
                     then shapes ++ [(docs, planned)] else shapes in
      if planned <=? min_planned then shapes'
      else
        let next := Nat.min (round_up (Nat.max (planned / 2) min_planned)) max_len in
        if next =? planned then shapes' else shape_loop fuel' max_len min_planned budget shapes' next
  end.
Definition dynamic_shapes (cap batch_size document_length : nat) : list (nat * nat) :=
  let max_len := Nat.max document_length 1 in
  let budget := Nat.min (Nat.max batch_size 1 * max_len) cap in
  let planned := Nat.min (round_up max_len) max_len in
  let min_planned := Nat.min 128 (Nat.max planned 1) in
  isort (fun x y => snd x <=? snd y) (shape_loop (S max_len) max_len min_planned budget [] planned).
(** Position of the first element that satisfies a test. *)
Fixpoint first_index {A} (p : A -> bool) (l : list A) : option nat :=
  match l with [] => None | x :: l' => if p x then Some 0 else option_map S (first_index p l') end.
(** lib.rs 1148-1247 [tokenize_documents_in_batches].  A bucket of index [i] collects, in order,
    the documents whose index is [i]; an index beyond the buckets panics. *)
Notation tokenized := (list nat * list nat)%type.
Definition numbered {A} (l : list A) : list (nat * A) := combine (seq 0 (length l)) l.
Definition static_batches {T} (M : model T) (docs : list tokenized) : res (list prepared) :=
  mapM (fun piece => prepare_tokenized (m_config M) (map snd piece) false true (map fst piece) None)
       (chunks (Nat.max (m_batch_size M) 1) (numbered docs)).
Definition prepared_len (m : nat) (d : tokenized) : nat := Nat.min (length (fst d)) (m - 1) + 1.
Definition bucket_index (shapes : list (nat * nat)) (len : nat) : nat :=
  match first_index (fun s => len <=? snd s) shapes with Some i => i | None => length shapes - 1 end.
Definition dynamic_batches {T} (cap : nat) (M : model T) (docs : list tokenized) : res (list prepared) :=
  let m := document_length (m_config M) in
  let items := isort (fun x y => prepared_len m (snd x) <=? prepared_len m (snd y)) (numbered docs) in
  let shapes := dynamic_shapes cap (Nat.max (m_batch_size M) 1) m in
  let bucket i := filter (fun x => bucket_index shapes (prepared_len m (snd x)) =? i) items in
  if existsb (fun x => length shapes <=? bucket_index shapes (prepared_len m (snd x))) items then Panic
  else
    bind (mapM (fun '(i, (docs_per_batch, planned)) =>
            mapM (fun piece => prepare_tokenized (m_config M) (map snd piece) false true (map fst piece) (Some planned))
                 (chunks (Nat.max docs_per_batch 1) (bucket i)))
          (numbered shapes)) (fun l => Ok (concat l)).
Definition tokenize_batches {T} (cap : nat) (M : model T) (texts : list (text T)) : res (list prepared) :=
  match texts with
  | [] => Ok []
  | _ =>
      bind (join_all (map tokenize_one (preprocess (m_config M) texts))) (fun docs =>
      if m_dynamic M && negb (m_cpu M) then dynamic_batches cap M docs else static_batches M docs)
  end.
(** lib.rs 1344-1374: restoring the order. *)
Fixpoint place {A} (n : nat) (targets : list nat) (items : list A) (slots : list (option A)) : res (list (option A)) :=
  match items, targets with
  | x :: items', t :: targets' => if n <=? t then Err else place n targets' items' (upd slots t (Some x))
  | _, _ => Ok slots
  end.
Definition restore {A} (indices : list nat) (encoded : list A) : res (list A) :=
  let n := length encoded in
  bind (place n indices encoded (repeat None n)) (fun slots => mapM (fun o => match o with Some x => Ok x | None => Err end) slots).
(** lib.rs 1273-1375 [encode_prepared_document_batches_cancellable]; [cancelled i] is what the
    callback answers before batch [i]. *)
Definition encode_batches {T} (N : network) (M : model T) (cancelled : nat -> bool) (batches : list prepared)
  : res (list (list (list (value N)))) :=
  match batches with
  | [] => Ok []
  | _ =>
      let indices := flat_map b_origin batches in
      let has_reordering := existsb (fun b => negb (length (b_origin b) =? 0)) batches in
      let one '(i, b) := if cancelled i then Err else encode_prepared N (m_config M) b in
      bind (if (m_sessions M <=? 1) || (length batches =? 1) then mapM one (numbered batches)
            else join_all (map one (numbered batches))) (fun parts =>
      let encoded := concat parts in
      if negb has_reordering || negb (length indices =? length encoded) then Ok encoded
      else restore indices encoded)
  end.

(** lib.rs 1612-1624 [build_document_work_queue]: (chunk index, start offset, texts). *)
Definition work_queue {T} (M : model T) (texts : list (text T)) : list (nat * nat * list (text T)) :=
  map (fun '(i, chunk) => (i, i * Nat.max (m_batch_size M) 1, chunk)) (numbered (chunks (Nat.max (m_batch_size M) 1) texts)).
(** lib.rs 1418-1490 [encode_documents_raw_stream] and its workers: the queue, what each worker
    has in hand ([None]: it will pop next; [Some None]: it ended), the results sent so far.  A
    worker that panics ends without sending; the consumer sees the channel closed when all workers
    have ended (lib.rs 791-804). *)
Section Stream.
  Context {T : tokenizer} (N : network) (M : model T).
  Notation chunk := (nat * nat * list (text T))%type.
  Notation embedded := (nat * nat * list (list (list (value N))))%type.
  Inductive worker := Idle | Busy (w : chunk) | Ended.
  Record stream := { q_queue : list chunk; q_workers : list worker; q_sent : list (res embedded) }.
  Definition stream_start (texts : list (text T)) : stream :=
    {| q_queue := work_queue M texts; q_workers := repeat Idle (m_sessions M); q_sent := [] |}.
  Inductive stream_step : stream -> stream -> Prop :=
  | step_pop i w queue workers sent : nth_error workers i = Some Idle ->
      stream_step {| q_queue := w :: queue; q_workers := workers; q_sent := sent |}
                  {| q_queue := queue; q_workers := upd workers i (Busy w); q_sent := sent |}
  | step_end i workers sent : nth_error workers i = Some Idle ->
      stream_step {| q_queue := []; q_workers := workers; q_sent := sent |}
                  {| q_queue := []; q_workers := upd workers i Ended; q_sent := sent |}
  | step_send i ci off texts out queue workers sent : nth_error workers i = Some (Busy (ci, off, texts)) ->
      encode_texts N (m_config M) false true texts = Ok out ->
      stream_step {| q_queue := queue; q_workers := workers; q_sent := sent |}
                  {| q_queue := queue; q_workers := upd workers i Idle; q_sent := sent ++ [Ok (ci, off, out)] |}
  | step_error i ci off texts queue workers sent : nth_error workers i = Some (Busy (ci, off, texts)) ->
      encode_texts N (m_config M) false true texts = Err ->
      stream_step {| q_queue := queue; q_workers := workers; q_sent := sent |}
                  {| q_queue := queue; q_workers := upd workers i Idle; q_sent := sent ++ [Err] |}
  | step_panic i ci off texts queue workers sent : nth_error workers i = Some (Busy (ci, off, texts)) ->
      encode_texts N (m_config M) false true texts = Panic ->
      stream_step {| q_queue := queue; q_workers := workers; q_sent := sent |}
                  {| q_queue := queue; q_workers := upd workers i Ended; q_sent := sent |}.
  Inductive stream_run : stream -> stream -> Prop :=
  | run_refl s : stream_run s s
  | run_step s1 s2 s3 : stream_step s1 s2 -> stream_run s2 s3 -> stream_run s1 s3.
  (** lib.rs 794-804, 807-818: the channel is closed, and dropping the stream returns, when every
      worker has ended. *)
  Definition stream_over (s : stream) : Prop := Forall (fun w => w = Ended) (q_workers s).
End Stream.
