(** What encoding should give: every text by itself, whatever the batch it travels in. *)
From Verif Require Import Base Onnx.
Open Scope nat_scope.

(** The attended part of an encoding: tokens with their types. *)
Definition visible (e : encoding) : list (nat * nat) :=
  combine (firstn (leading (e_masks e)) (e_ids e)) (firstn (leading (e_masks e)) (e_types e)).
(** An encoding as the tokenizers library makes them: three vectors of one length, mask of ones
    then zeros, at least one token. *)
Definition proper (e : encoding) : Prop :=
  length (e_masks e) = length (e_ids e) /\ length (e_types e) = length (e_ids e) /\
  Forall (fun m => m = 0 \/ m = 1) (e_masks e) /\ 1 <= leading (e_masks e).
(** A tokenizer that gives a text the same tokens alone and in a batch, up to padding. *)
Definition steady (T : tokenizer) : Prop :=
  (forall t e, encode T t = Ok e -> proper e) /\
  (forall ts es, encode_batch T ts = Ok es ->
     Forall2 (fun t e => proper e /\ exists e', encode T t = Ok e' /\ visible e' = visible e) ts es).

(** The tokens sent to the network: the first token, the prefix token, the rest; a text with more
    than [m - 1] tokens loses tokens before its last one, so that [m] remain. *)
Definition sequence (m prefix : nat) (v : list (nat * nat)) : list (nat * nat) :=
  match v with
  | [] => []
  | first :: rest => first :: (prefix, 0) :: (if length v <=? m - 1 then rest else firstn (m - 3) rest ++ [last rest first])
  end.

(** A network that ignores padding: where a row of the mask is ones followed by zeros, the output
    at the ones is a function [f] of the tokens (and types) under the ones. *)
Definition row {A} (l : list A) (len i : nat) : list A := firstn len (skipn (i * len) l).
Definition ignores_padding (N : network) (dim : nat) (f : list nat -> option (list nat) -> list (list (value N))) : Prop :=
  (forall ids types, length (f ids types) = length ids) /\
  forall size len ids mask types shape data,
    length ids = size * len -> length mask = size * len -> (forall t, types = Some t -> length t = size * len) ->
    run N size len ids mask types = Ok (shape, data) ->
    nth_error shape 2 = Some dim /\ length data = size * len * dim /\
    forall i r, i < size -> r <= len -> row mask len i = repeat 1 r ++ repeat 0 (len - r) ->
    forall j, j < r ->
      firstn dim (skipn ((i * len + j) * dim) data) =
      nth j (f (firstn r (row ids len i)) (option_map (fun t => firstn r (row t len i)) types)) [].

(** The tensor handed to the network for a sequence. *)
Definition outputs {T V} (c : config T) (f : list nat -> option (list nat) -> list (list V)) (s : list (nat * nat)) : list (list V) :=
  f (map fst s) (if uses_token_type_ids c then Some (map snd s) else None).
(** A token that is the id of a skiplist word the tokenizer knows. *)
Definition skip_token {T} (c : config T) (t : nat) : bool :=
  existsb (fun w => match token_id T w with Some i => i =? t | None => false end) (skiplist_words c).
(** The embedding of a document: one row for every token of its sequence that is not the id of a
    skiplist word, in order. *)
Definition document_embedding {T V} (c : config T) f (prefix : nat) (v : list (nat * nat)) : list (list V) :=
  let s := sequence (document_length c) prefix v in
  map snd (filter (fun p => negb (skip_token c (fst p))) (combine (map fst s) (outputs c f s))).
(** The embedding of a query: one row for every token; with expansion the sequence is completed
    with mask tokens to the query length. *)
Definition query_embedding {T V} (c : config T) f (prefix : nat) (v : list (nat * nat)) : list (list V) :=
  let s := sequence (query_length c) prefix v in
  outputs c f (if do_query_expansion c then s ++ repeat (mask_token_id c, 0) (query_length c - length s) else s).

(** The text as the tokenizer sees it. *)
Definition cleaned {T} (c : config T) (t : text T) : text T := if do_lower_case c then lower T (trim T t) else trim T t.
(** [embeds g t out]: [out] is [g] of the tokens the tokenizer gives for [t]. *)
Definition embeds {T V} (c : config T) (g : list (nat * nat) -> list (list V)) (t : text T) (out : list (list V)) : Prop :=
  exists e, encode T (cleaned c t) = Ok e /\ out = g (visible e).

(** A network that answers, with an output of the right size. *)
Definition answers (N : network) (dim : nat) : Prop :=
  forall size len ids mask types, exists shape data,
    run N size len ids mask types = Ok (shape, data) /\ nth_error shape 2 = Some dim /\ length data = size * len * dim.
(** The prefix token of documents and queries: the configured id, or the id of the configured
    string. *)
Definition prefix_of {T} (id : option nat) (string : text T) (prefix : nat) : Prop :=
  id = Some prefix \/ (id = None /\ token_id T string = Some prefix).
(** A tokenizer and a network that fail with an error, never by panicking. *)
Definition calm (T : tokenizer) (N : network) : Prop :=
  (forall t, encode T t <> Panic) /\ (forall ts, encode_batch T ts <> Panic) /\
  (forall size len ids mask types, run N size len ids mask types <> Panic).

(** The chunks of a stream, put in order of their index: the offset of a chunk is the number of
    documents before it, and together they are the whole. *)
Definition assembles {V} (parts : list (nat * nat * list V)) (whole : list V) : Prop :=
  concat (map snd parts) = whole /\
  forall k index offset out, nth_error parts k = Some (index, offset, out) ->
    index = k /\ offset = length (concat (map snd (firstn k parts))).
