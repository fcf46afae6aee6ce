(** The Python client of the HTTP API (next-plaid-api/python-sdk/next_plaid_client/_base.py, client.py,
    models.py; async_client.py is client.py with awaits) and how the server reads what it sends.
    Numbers are the binary32 values that [struct.pack] makes of the Python floats; a number too large
    for it raises in the client and is left out. *)
From Verif Require Import Base F32 Text FtsText Base64 Base64Spec Npy SqlModel MetaModel MetaQuery FtsRank ApiEmbed ApiRead.

From Coq Require Import String.
Open Scope string_scope.
Open Scope nat_scope.
Open Scope list_scope.

Definition rows_of : Type := list (list f32).
(** An element of [queries] or [documents]: a text, a nested list, a dict with "embeddings" (or a [Document]) *)
Inductive item := IText (t : text) | IRows (r : rows_of) | IDict (r : rows_of).
(** An element of a JSON list that the server reads: embeddings in one of their forms, a text, something else *)
Inductive jitem := JSent (s : sent) | JText (t : text) | JOther.

(** _base.py 24-29 [_is_text_input] *)
Definition is_text_input (l : list item) : bool := match l with IText _ :: _ => true | _ => false end.
(** _base.py 32-44 [_encode_embeddings_b64] *)
Definition client_b64 (rows : rows_of) : sent :=
  {| s_rows := None; s_b64 := Some (base64_encode (flat_map (le_bytes 4) (List.concat rows))); s_shape := Some (len rows, Z.of_nat (cols_of rows)) |}.
Definition plain_rows (rows : rows_of) : sent := {| s_rows := Some rows; s_b64 := None; s_shape := None |}.
(** _base.py 183-200 and 218-232: one query; an empty list is sent as it is *)
Definition query_item (q : item) : jitem :=
  match q with
  | IDict [] | IRows [] => JSent (plain_rows [])
  | IDict rows | IRows rows => JSent (client_b64 rows)
  | IText _ => JOther
  end.
Definition as_it_is (q : item) : jitem := match q with IText t => JText t | _ => JOther end.
(** _base.py 162-176 [_prepare_documents_payload]: a text or a bare list has no [get], which raises *)
Definition document_item (d : item) : res jitem :=
  match d with
  | IDict [] => Ok (JSent (plain_rows []))
  | IDict rows => Ok (JSent (client_b64 rows))
  | _ => Panic
  end.

(** ** Names of indices in addresses: _base.py 93-95 [_build_url] *)
(** what is left of an address without the query and the fragment *)
Fixpoint before_query (s : text) : text :=
  match s with [] => [] | c :: r => if (c =? 63)%Z || (c =? 35)%Z then [] else c :: before_query r end.
Definition dot : text := txt ".".
Definition dots : text := txt "..".
(** [urllib.parse.urljoin] of a base whose path is a slash: empty parts go except the last, dots are resolved *)
Definition no_empty (l : list text) : list text := filter (fun p => negb (text_eqb p [])) (removelast l) ++ match l with [] => [] | _ => [last l []] end.
Definition resolve_dots (l : list text) : list text :=
  fold_left (fun a p => if text_eqb p dots then removelast a else if text_eqb p dot then a else a ++ [p]) l []
  ++ (if text_eqb (last l []) dots || text_eqb (last l []) dot then [[]] else []).
Definition address (endpoint : text) : list text := resolve_dots (no_empty (Npy.split_on 47 (before_query endpoint))).
(** The endpoints with an index name in them (client.py), without the first slash *)
Definition index_endpoint (name : text) (suffix : list text) : text := txt "indices/" ++ name ++ flat_map (fun p => 47%Z :: p) suffix.
(** main.rs 322-465: what the server does with an address; the name is what stands in its place *)
Inductive action := OnIndex (name : text) | OnPart (name : text) (suffix : list text) | Elsewhere.
Definition routed (parts : list text) : action :=
  match parts with
  | k :: n :: suffix => if text_eqb k (txt "indices") && negb (text_eqb n []) then match suffix with [] => OnIndex n | _ => OnPart n suffix end else Elsewhere
  | _ => Elsewhere
  end.

(** ** Answers: _base.py 97-160 [_handle_response] *)
Inductive failure := NotFound | Exists | Invalid | RateLimited | NoModel | ServerFailure | OtherFailure.
Section ANSWERS.
  Variable U : unicode.
  (** the body as JSON: [None] if it is not, else the strings under "code" and "message", where absent with
      their defaults; [message.lower()] is [u_lower], [code.upper()] is [u_upper] *)
  Inductive reply := Parsed | Nothing | Words (t : text) | Raised (f : failure).
  Definition default_code : text := txt "UNKNOWN_ERROR".
  Definition handle_response (status : Z) (content : option (text * text)) (empty : bool) (body : text) : reply :=
    if (status =? 202)%Z then Words (trim (fun c => (c =? 34)%Z) body)
    else if (status =? 200)%Z || (status =? 201)%Z then if empty then Nothing else Parsed
    else
    let '(code, message) := match content with Some p => p | None => (default_code, body) end in
    if (status =? 404)%Z then
      if contains (txt "INDEX_NOT_FOUND") code || contains (txt "not found") (u_lower U message) then Raised NotFound else Raised OtherFailure
    else if (status =? 409)%Z then Raised Exists
    else if (status =? 400)%Z then Raised Invalid
    else if (status =? 429)%Z then Raised RateLimited
    else if (status =? 503)%Z then
      if contains (txt "MODEL") (u_upper U code) || contains (txt "model") (u_lower U message) then Raised NoModel else Raised ServerFailure
    else if (500 <=? status)%Z then Raised ServerFailure
    else Raised OtherFailure.
End ANSWERS.

(** ** Encoded texts: models.py 220-241 [EncodeResponse.from_dict], one text.  [b64decode] of a text that is not
    base64 and [unpack] of another number of bytes raise. *)
Definition sliced (floats : list f32) (r c : nat) : rows_of := map (fun i => firstn c (skipn (i * c) floats)) (seq 0 r).
Definition decode_answer (b64 : text) (r c : nat) : res rows_of :=
  match base64_decode b64 with
  | None => Panic
  | Some raw => if List.length raw =? 4 * (r * c) then Ok (sliced (elements 4 raw) r c) else Panic
  end.

(** ** Search *)
Section SEARCH.
  Variable U : unicode.
  Variable E : engine.
  Variable reg : option (text -> bool).
  Variable A : arith.
  Notation F := (num A).
  Variable iter : list (Z * F) -> list (Z * F).
  (** models.rs 266-285 [SearchParamsRequest]: for each parameter what was sent, if anything.  A threshold
      of [null] and no threshold are the same to serde. *)
  Record index_params := { ip_probe : nat; ip_full : nat; ip_threshold : option F }.
  (** the index, for the parameters that only it sees *)
  Variable X : index_params -> searcher A.
  Variable default_top_k : nat.
  Variable alpha_default : F.
  (** the model of the server: texts to rows *)
  Variable encode : list text -> res (list rows_of).

  (** models.py 122-151 [SearchParams] *)
  Record search_params := { sp_top_k : nat; sp_probe : nat; sp_full : nat; sp_threshold : option F }.
  (** The JSON object of a search request: its keys, [None] where absent *)
  Record body := {
    b_queries : option (list jitem); b_params : option search_params; b_subset : option (list Z); b_text : option (list text);
    b_alpha : option F; b_fusion : option text; b_filter : option text; b_filter_params : option (list json) }.
  Inductive endpoint := Plain | Filtered | WithEncoding | FilteredWithEncoding.

  (** What the caller passes to [search] (client.py 280-291) *)
  Record call := {
    q_queries : list item; q_params : option search_params; q_filter : option text; q_filter_params : option (list json);
    q_subset : option (list Z); q_text : option (list text); q_alpha : option F; q_fusion : option text }.
  (** Python's [if x:] of a list or a string *)
  Definition if_any {B} (o : option (list B)) : option (list B) := match o with Some [] => None | _ => o end.

  (** ** The server: models.rs 227-329, 752-781 and handlers/search.rs 434-612 *)
  Definition sents (l : list jitem) : res (list sent) := mapM (fun j => match j with JSent s => Ok s | _ => Err end) l.
  Definition texts (l : list jitem) : res (list text) := mapM (fun j => match j with JText t => Ok t | _ => Err end) l.
  (** search.rs 212-219: the parameters given or the defaults of the handler *)
  Definition server_params (p : option search_params) : index_params :=
    match p with
    | Some p => {| ip_probe := sp_probe p; ip_full := sp_full p; ip_threshold := sp_threshold p |}
    | None => {| ip_probe := 8; ip_full := 4096; ip_threshold := None |}
    end.
  Definition answered (s : store) (p : option search_params) (r : request A) : res (nat * list (answer A)) :=
    search U E reg A iter (X (server_params p)) default_top_k alpha_default s r.
  Definition mk_request (qs : option (list sent)) (b : body) (sub : option (list Z)) (filter : option text) (ps : option (list json)) : request A :=
    {| r_queries := qs; r_text := b_text b; r_alpha := b_alpha b; r_fusion := b_fusion b; r_top_k := option_map sp_top_k (b_params b);
       r_subset := sub; r_filter := filter; r_params := ps |}.
  Definition needed {B} (o : option B) : res B := match o with Some x => Ok x | None => Err end.
  Definition serve (s : store) (e : endpoint) (b : body) : res (nat * list (answer A)) :=
    match e with
    | Plain =>
      bind (match b_queries b with Some l => bind (sents l) (fun q => Ok (Some q)) | None => Ok None end) (fun qs =>
      answered s (b_params b) (mk_request qs b (b_subset b) (b_filter b) (b_filter_params b)))
    | Filtered =>
      bind (bind (needed (b_queries b)) sents) (fun qs =>
      bind (needed (b_filter b)) (fun c =>
      match qs with
      | [] => Err
      | _ => answered s (b_params b) {| r_queries := Some qs; r_text := None; r_alpha := None; r_fusion := None; r_top_k := option_map sp_top_k (b_params b);
                                        r_subset := None; r_filter := Some c; r_params := Some (listed (b_filter_params b)) |}
      end))
    | WithEncoding =>
      bind (bind (needed (b_queries b)) texts) (fun ts =>
      match ts with
      | [] => Err
      | _ => bind (encode ts) (fun rs => answered s (b_params b) (mk_request (Some (map plain_rows rs)) b (b_subset b) None None))
      end)
    | FilteredWithEncoding =>
      bind (bind (needed (b_queries b)) texts) (fun ts =>
      bind (needed (b_filter b)) (fun c =>
      match ts with
      | [] => Err
      | _ => bind (encode ts) (fun rs => answered s (b_params b) (mk_request (Some (map plain_rows rs)) b None (Some c) (Some (listed (b_filter_params b)))))
      end))
    end.
  (** POST /encode (encode.rs), read as JSON *)
  Definition serve_encode (l : list jitem) : res (list rows_of) := bind (texts l) encode.

  (** ** The client: client.py 361-444 [search] *)
  Definition ask (s : store) (c : call) : res (nat * list (answer A)) :=
    let is_text := is_text_input (q_queries c) in
    match q_text c with
    | Some _ =>
      let blank qs := {| b_queries := qs; b_params := q_params c; b_subset := if_any (q_subset c); b_text := q_text c; b_alpha := q_alpha c; b_fusion := q_fusion c;
                         b_filter := if_any (q_filter c); b_filter_params := match if_any (q_filter c) with Some _ => if_any (q_filter_params c) | None => None end |} in
      match q_queries c with
      | [] => serve s Plain (blank None)
      | _ =>
        if is_text then bind (serve_encode (map as_it_is (q_queries c))) (fun rs => serve s Plain (blank (Some (map (fun r => JSent (plain_rows r)) rs))))
        else serve s Plain (blank (Some (map query_item (q_queries c))))
      end
    | None =>
      let blank qs sub filter := {| b_queries := Some qs; b_params := q_params c; b_subset := sub; b_text := None; b_alpha := None; b_fusion := None;
                                    b_filter := filter; b_filter_params := match filter with Some _ => if_any (q_filter_params c) | None => None end |} in
      let qs := if is_text then map as_it_is (q_queries c) else map query_item (q_queries c) in
      match q_filter c with
      | Some f => serve s (if is_text then FilteredWithEncoding else Filtered) (blank qs None (Some f))
      | None => serve s (if is_text then WithEncoding else Plain) (blank qs (if_any (q_subset c)) None)
      end
    end.

  (** ** Adding documents: client.py 234-258 [add], models.rs 637-642 and 783-791, documents.rs 1509-1551 and 1682-1716
      (up to the queue) *)
  Definition add_embeddings (documents : option (list jitem)) (metadata : option (list json)) : res (list matrix * list json) :=
    bind (bind (needed documents) sents) (fun ds =>
    bind (needed metadata) (fun md =>
    bind (mapM to_ndarray ds) (fun ms =>
    match ms with [] => Err | _ => if List.length md =? List.length ms then Ok (ms, md) else Err end))).
  Definition add_texts (documents : option (list jitem)) (metadata : option (list json)) : res (list text * list json) :=
    bind (bind (needed documents) texts) (fun ts =>
    bind (needed metadata) (fun md =>
    match ts with [] => Err | _ => if List.length md =? List.length ts then Ok (ts, md) else Err end)).
  Definition added : Type := (list matrix * list json) + (list text * list json).
  Definition client_add (docs : list item) (metadata : option (list json)) : res added :=
    if is_text_input docs then bind (add_texts (Some (map as_it_is docs)) (if_any metadata)) (fun x => Ok (inr x))
    else bind (mapM document_item docs) (fun js => bind (add_embeddings (Some js) (if_any metadata)) (fun x => Ok (inl x))).

  (** ** Metadata: client.py 555-574 [get_metadata_by_ids]; the server's handler is [get_metadata] *)
  Definition client_get (s : store) (ids : option (list Z)) (condition : option text) (params : option (list json)) (limit : option nat) : res (list json) :=
    get_metadata U E reg s (if_any condition) (listed (if_any params)) (if_any ids) (match limit with Some 0 => None | _ => limit end).
End SEARCH.
