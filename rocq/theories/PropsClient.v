(** C110: the Python client asks the server for what its caller passes. *)
From Coq Require Import QArith String.
From Verif Require Import Base F32 CodecModel IndexModel IndexSpec IndexExamples SearchModel SearchSpec SearchExamples.
From Verif Require Import Text SqlModel SqlSpec MetaModel MetaQuery MetaSpec MetaProofs MetaCreate MetaExamples MetaFilter MetaWhere.
From Verif Require Import FtsRank FtsExamples ApiEmbed ApiEmbedSpec ApiRead ApiReadSpec PropsRead Client ClientSpec ClientProofs.
Open Scope string_scope. Open Scope nat_scope. Open Scope list_scope.

(** C110. A search by embeddings is the server's search of these embeddings with the other arguments as passed:
    the same answers, the same refusals.  This holds of rectangular embeddings of finite numbers, and of a subset or a
    filter that are not empty, but not both. *)
Theorem C110_search_embeddings :
  forall U E reg A iter X dk ad encode s (c : call A) rows,
    Forall2 given_as (q_queries A c) rows -> Forall (fun r => r = [] \/ good_rows r) rows -> plain_call c ->
    ask U E reg A iter X dk ad encode s c = search U E reg A iter (X (settings (q_params A c))) dk ad s (asked_for c rows).
Proof. intros. apply ask_embeddings; assumption. Qed.
Print Assumptions C110_search_embeddings.
(** A search by texts is the search of what the model of the server makes of them. *)
Theorem C110_search_texts :
  forall U E reg A iter X dk ad encode s (c : call A) ts,
    q_queries A c = map IText ts -> ts <> [] -> plain_call c ->
    ask U E reg A iter X dk ad encode s c
    = bind (encode ts) (fun rows => search U E reg A iter (X (settings (q_params A c))) dk ad s (asked_for c rows)).
Proof. intros. apply ask_texts; assumption. Qed.
Print Assumptions C110_search_texts.

(** Example: the index of PropsRead.v, asked through the client.  A threshold closes it. *)
Definition ex_index (p : index_params qarith) : searcher qarith :=
  match ip_threshold qarith p with
  | None => ex_searcher
  | Some _ => Build_searcher qarith 2%Z (fun _ _ _ => Ok ([], [])) (fun t k sub => i_keyword qarith ex_searcher t k sub)
  end.
Definition ex_encode (ts : list text) : res (list rows_of) := Ok (map (fun _ => [[f_one; 0%Z]]) ts).
Definition ex_call (qs : list item) (ts : option (list text)) (sub : option (list Z)) (f : option text) (p : option (search_params qarith)) : call qarith :=
  {| q_queries := qs; q_params := p; q_filter := f; q_filter_params := match f with Some _ => Some [JInt 2000] | None => None end;
     q_subset := sub; q_text := ts; q_alpha := None; q_fusion := None |}.
Definition ex_ask (c : call qarith) := ask ascii_unicode ex_engine None qarith (fun l => l) ex_index 10 (Fin (3 # 4)) ex_encode ex_store2 c.
Definition found (o : res (nat * list (answer qarith))) : res (list (list Z)) := match o with Ok (_, l) => Ok (map (a_ids _) l) | Err => Err | Panic => Panic end.
Definition two_params : option (search_params qarith) := Some {| sp_top_k := 2; sp_probe := 8; sp_full := 4096; sp_threshold := None |}.
Lemma ex_good : good_rows [[f_one; 0%Z]].
Proof.
  exists 1%Z, 2%Z. split; [split; [reflexivity|constructor; [reflexivity|constructor]]|]. split; [lia|]. split; [lia|]. split; [reflexivity|].
  constructor; [|constructor]. constructor; [|constructor; [|constructor]]; (split; [unfold f32_wf, f_one; lia|reflexivity]).
Qed.
Example C110_example :
  Forall2 given_as [IRows [[f_one; 0%Z]]; IDict [[f_one; 0%Z]]] [[[f_one; 0%Z]]; [[f_one; 0%Z]]]
  /\ good_rows [[f_one; 0%Z]] /\ plain_call (ex_call [IRows [[f_one; 0%Z]]] None (Some [0; 1]%Z) None two_params)
  /\ found (ex_ask (ex_call [IRows [[f_one; 0%Z]]; IDict [[f_one; 0%Z]]] None (Some [0; 1]%Z) None two_params)) = Ok [[1; 0]; [1; 0]]%Z
  /\ found (ex_ask (ex_call [IRows [[f_one; 0%Z]]] None None None two_params)) = Ok [[3; 1]]%Z
  /\ found (ex_ask (ex_call [IText (txt "a query")] None (Some [0; 1]%Z) None two_params)) = Ok [[1; 0]]%Z
  /\ found (ex_ask (ex_call [] (Some [txt "a"]) None None two_params)) = Ok [[0; 3]]%Z
  /\ found (ex_ask (ex_call [IText (txt "a query")] (Some [txt "a"]) None None two_params)) = Ok [[3; 1]]%Z.
Proof.
  split; [constructor; [left; reflexivity|constructor; [right; reflexivity|constructor]]|]. split; [exact ex_good|]. split; [split; [discriminate|split; [discriminate|right; reflexivity]]|].
  repeat match goal with |- _ /\ _ => split end; vm_compute; reflexivity.
Qed.

(** C110. The name of an index in an address: without slashes, question marks, hash signs and percent signs, and not one
    or two dots, it is the name the server acts on. *)
Theorem C110_name :
  forall n part, plain_name n -> plain_name part ->
    routed (address (index_endpoint n [])) = OnIndex n /\ routed (address (index_endpoint n [part])) = OnPart n [part]
    /\ forall part', plain_name part' -> routed (address (index_endpoint n [part; part'])) = OnPart n [part; part'].
Proof.
  intros n p N P. assert (NE : text_eqb n [] = false) by (apply text_eqb_no; apply N).
  split; [|split]; [| |intros p' P']; rewrite name_arrives by (repeat (assumption || apply Forall_cons || apply Forall_nil)); cbn [routed]; rewrite text_eqb_refl, NE; reflexivity.
Qed.
Print Assumptions C110_name.
Example C110_name_example : plain_name (txt "my docs:v1.2") /\ plain_name (txt "documents")
  /\ routed (address (index_endpoint (txt "my docs:v1.2") [txt "documents"])) = OnPart (txt "my docs:v1.2") [txt "documents"].
Proof. split; [|split]; try reflexivity; unfold plain_name; repeat match goal with |- _ /\ _ => split end; try discriminate; try (intro H; cbn in H; intuition discriminate); repeat constructor; vm_compute; discriminate. Qed.

Ltac one_way := first [intros (? & ?); discriminate | intro; discriminate | intros _; lia | intros; exfalso; lia | intros _; eexists; reflexivity | intros _; reflexivity
  | intros _; left; reflexivity | intros _; right; reflexivity].
Ltac each_one := repeat match goal with |- _ /\ _ => split end; first [one_way | split; one_way].
(** C110. Answers: a status other than 200, 201 and 202 raises, and the class says which it was: 409, 400, 429 and
    everything from 500 on have theirs. *)
Theorem C110_responses :
  forall U status content empty body,
    ((exists f, handle_response U status content empty body = Raised f) <-> status <> 200 /\ status <> 201 /\ status <> 202)%Z
    /\ (handle_response U status content empty body = Raised Exists <-> status = 409)%Z
    /\ (handle_response U status content empty body = Raised Invalid <-> status = 400)%Z
    /\ (handle_response U status content empty body = Raised RateLimited <-> status = 429)%Z
    /\ (handle_response U status content empty body = Raised NotFound -> status = 404)%Z
    /\ (handle_response U status content empty body = Raised NoModel -> status = 503)%Z
    /\ (handle_response U status content empty body = Raised ServerFailure -> 500 <= status)%Z
    /\ ((500 <= status)%Z -> handle_response U status content empty body = Raised ServerFailure \/ handle_response U status content empty body = Raised NoModel).
Proof.
  intros U st ct e b. unfold handle_response. destruct (match ct with Some p => p | None => (default_code, b) end) as (code, message).
  destruct (Z.eqb_spec st 202) as [->|N2]; [each_one|]. destruct (Z.eqb_spec st 200) as [->|N0]; [destruct e; each_one|].
  destruct (Z.eqb_spec st 201) as [->|N1]; [destruct e; each_one|]. cbn [orb].
  destruct (Z.eqb_spec st 404) as [->|N4]; [destruct (_ || _); each_one|]. destruct (Z.eqb_spec st 409) as [->|N9]; [each_one|]. destruct (Z.eqb_spec st 400) as [->|N40]; [each_one|].
  destruct (Z.eqb_spec st 429) as [->|N29]; [each_one|]. destruct (Z.eqb_spec st 503) as [->|N53]; [destruct (_ || _); each_one|]. destruct (Z.leb_spec 500 st); each_one.
Qed.
Print Assumptions C110_responses.
(** The documented class of a missing index and of a server without a model, for what the server sends *)
Theorem C110_not_found_and_no_model :
  forall U empty body code message,
    (contains (txt "INDEX_NOT_FOUND") code = true -> handle_response U 404 (Some (code, message)) empty body = Raised NotFound)
    /\ (contains (txt "MODEL") (u_upper U code) = true -> handle_response U 503 (Some (code, message)) empty body = Raised NoModel).
Proof. intros U e b c m. split; intro H; unfold handle_response; cbn [Z.eqb Pos.eqb orb]; rewrite H; reflexivity. Qed.
Print Assumptions C110_not_found_and_no_model.
Example C110_responses_example :
  contains (txt "INDEX_NOT_FOUND") (txt "INDEX_NOT_FOUND") = true /\ contains (txt "MODEL") (u_upper ascii_unicode (txt "MODEL_NOT_LOADED")) = true
  /\ handle_response ascii_unicode 404 (Some (txt "METADATA_NOT_FOUND", txt "No metadata")) false [] = Raised OtherFailure
  /\ handle_response ascii_unicode 202 None false (34%Z :: txt "Update accepted" ++ [34%Z]) = Words (txt "Update accepted").
Proof. repeat split; vm_compute; reflexivity. Qed.

(** C110. What the server's /encode answers in base64 (models.rs 996-1004, C51) the client reads back, bit for bit. *)
Theorem C110_encoded :
  forall rows r c b64, rectangular rows r c -> Forall (Forall f32_wf) rows -> fst (encode_b64_embeddings rows) = b64 ->
    decode_answer b64 (Z.to_nat r) (Z.to_nat c) = Ok rows.
Proof. exact decoded. Qed.
Print Assumptions C110_encoded.
Example C110_encoded_example : rectangular [[f_one; 0%Z]; [0%Z; f_one]; [f_one; f_one]] 3 2 /\ Forall (Forall f32_wf) [[f_one; 0%Z]; [0%Z; f_one]; [f_one; f_one]]
  /\ decode_answer (fst (encode_b64_embeddings [[f_one; 0%Z]; [0%Z; f_one]; [f_one; f_one]])) 3 2 = Ok [[f_one; 0%Z]; [0%Z; f_one]; [f_one; f_one]].
Proof. split; [split; [reflexivity|repeat constructor]|]. split; [repeat (apply Forall_cons || apply Forall_nil); unfold f32_wf, f_one; lia|vm_compute; reflexivity]. Qed.

(** C110. Adding: documents with as many metadata arrive at the queue as they are; nothing else is accepted. *)
Theorem C110_add :
  (forall docs md, docs <> [] -> Forall good_rows docs -> List.length md = List.length docs ->
     client_add (map IDict docs) (Some md) = Ok (inl (map (fun rows => (len rows, Z.of_nat (cols_of rows), List.concat rows)) docs, md)))
  /\ (forall ts md, ts <> [] -> List.length md = List.length ts -> client_add (map IText ts) (Some md) = Ok (inr (ts, md)))
  /\ (forall docs md x, client_add docs md = Ok x -> docs <> [] /\ exists l, md = Some l /\ List.length l = List.length docs).
Proof.
  split; [exact add_good|]. split; [exact add_texts_good|]. intros docs md x H. destruct (add_as_many docs md x H) as (l & H1 & H2 & H3). split; [exact H3|]. exists l. split; assumption.
Qed.
Print Assumptions C110_add.
Example C110_add_example : client_add [IDict [[f_one; 0%Z]]; IDict [[0%Z; f_one]; [f_one; f_one]]] (Some [JObj []; JNull])
  = Ok (inl ([(1, 2, [f_one; 0]); (2, 2, [0; f_one; f_one; f_one])]%Z, [JObj []; JNull])).
Proof. vm_compute. reflexivity. Qed.

(** Findings. *)
(** "subset: Optional list of document IDs to search within": an empty list searches all documents. *)
Theorem C110_empty_subset_refuted :
  found (ex_ask (ex_call [IRows [[f_one; 0%Z]]] None (Some []) None two_params)) = Ok [[3; 1]]%Z
  /\ found (search ascii_unicode ex_engine None qarith (fun l => l) (ex_index (settings two_params)) 10 (Fin (3 # 4)) ex_store2
              (asked_for (ex_call [IRows [[f_one; 0%Z]]] None (Some []) None two_params) [[[f_one; 0%Z]]])) = Ok [[]].
Proof. split; vm_compute; reflexivity. Qed.
Print Assumptions C110_empty_subset_refuted.
(** With a filter the subset is not sent at all. *)
Theorem C110_subset_and_filter_refuted :
  forall U E reg A iter X dk ad encode s (c : call A) f sub, q_text A c = None -> q_filter A c = Some f ->
    ask U E reg A iter X dk ad encode s c
    = ask U E reg A iter X dk ad encode s {| q_queries := q_queries A c; q_params := q_params A c; q_filter := q_filter A c; q_filter_params := q_filter_params A c;
                                             q_subset := sub; q_text := q_text A c; q_alpha := q_alpha A c; q_fusion := q_fusion A c |}.
Proof. intros U E reg A iter X dk ad encode s c f sub Ht Hf. unfold ask. cbn [q_queries q_params q_filter q_filter_params q_subset q_text q_alpha q_fusion]. rewrite Ht, Hf. reflexivity. Qed.
Print Assumptions C110_subset_and_filter_refuted.
(** Embeddings whose rows differ in width are accepted if the number of values fits, cut into other rows than the caller's;
    the same rows in plain JSON are refused. *)
Definition ragged : rows_of := [[1; 2]; [3]; [4; 5; 6]]%Z.
Theorem C110_ragged_refuted :
  query_item (IRows ragged) = JSent (client_b64 ragged) /\ to_ndarray (client_b64 ragged) = Ok (3, 2, [1; 2; 3; 4; 5; 6])%Z /\ to_ndarray (plain_rows ragged) = Err
  /\ client_add [IDict ragged] (Some [JNull]) = Ok (inl ([(3, 2, [1; 2; 3; 4; 5; 6])]%Z, [JNull])).
Proof. repeat split; vm_compute; reflexivity. Qed.
Print Assumptions C110_ragged_refuted.
(** "queries and text_query (same length)": several queries together with text queries are always an error, as in the
    documented example with two of each. *)
Theorem C110_documented_hybrid_refuted :
  forall U E reg A iter X dk ad s (c : call A) rows t ts,
    Forall2 given_as (q_queries A c) rows -> Forall (fun r => r = [] \/ good_rows r) rows -> plain_call c -> q_text A c = Some (t :: ts) -> 2 <= List.length rows ->
    forall encode n l, ask U E reg A iter X dk ad encode s c <> Ok (n, l).
Proof.
  intros U E reg A iter X dk ad s c rows t ts G F P T L encode n l. rewrite (ask_embeddings U E reg A iter X dk ad encode s c rows G F P).
  destruct rows as [|r1 [|r2 rows]]; cbn [List.length] in L; try lia. unfold search, asked_for. cbn [r_queries r_text r_alpha r_fusion map nonempty listed negb andb]. rewrite T. cbn [nonempty negb andb List.length Nat.eqb].
  destruct (negb _); [discriminate|]. destruct (negb _ && negb _); discriminate.
Qed.
Print Assumptions C110_documented_hybrid_refuted.
Example C110_documented_hybrid_example :
  found (ex_ask (ex_call [IText (txt "What is AI?"); IText (txt "How does ML work?")] (Some [txt "artificial intelligence"; txt "machine learning"]) None None two_params)) = Err.
Proof. vm_compute. reflexivity. Qed.
(** "params: Search parameters (optional)": no parameters and the default parameters are different searches: without any
    there is no threshold, the default parameters have one. *)
Definition default_params : search_params qarith := Build_search_params qarith 10 8 4096 (Some (Fin (2 # 5))).
Theorem C110_params_default_refuted :
  found (ex_ask (ex_call [IRows [[f_one; 0%Z]]] None None None None)) = Ok [[3; 1; 0]]%Z
  /\ found (ex_ask (ex_call [IRows [[f_one; 0%Z]]] None None None (Some default_params))) = Ok [[]].
Proof. split; vm_compute; reflexivity. Qed.
Print Assumptions C110_params_default_refuted.
(** "rrf (reciprocal rank fusion, default)": no fusion named is the other one. *)
Theorem C110_fusion_default_refuted :
  forall U E reg A iter X dk ad s r, r_fusion A r = None ->
    search U E reg A iter X dk ad s r
    = search U E reg A iter X dk ad s {| r_queries := r_queries A r; r_text := r_text A r; r_alpha := r_alpha A r; r_fusion := Some (txt "relative_score"); r_top_k := r_top_k A r;
                                         r_subset := r_subset A r; r_filter := r_filter A r; r_params := r_params A r |}.
Proof. intros U E reg A iter X dk ad s r H. unfold search. cbn [r_queries r_text r_alpha r_fusion r_top_k r_subset r_filter r_params]. rewrite H. reflexivity. Qed.
Print Assumptions C110_fusion_default_refuted.
(** "metadata: Optional": without metadata nothing is ever added. *)
Theorem C110_add_without_metadata_refuted :
  forall docs x, client_add docs None <> Ok x /\ client_add docs (Some []) <> Ok x.
Proof. intros docs x. split; intro H; destruct (add_as_many _ _ _ H) as (l & H1 & H2 & H3); [discriminate|]. injection H1 as <-. destruct docs; [contradiction H3; reflexivity|discriminate]. Qed.
Print Assumptions C110_add_without_metadata_refuted.
(** Metadata of no documents is the metadata of all documents, as is a limit of zero. *)
Theorem C110_get_metadata_empty_refuted :
  forall U E reg s, client_get U E reg s (Some []) None None None = get_metadata U E reg s None [] None None
    /\ client_get U E reg s None None None (Some 0) = get_metadata U E reg s None [] None None.
Proof. intros. split; reflexivity. Qed.
Print Assumptions C110_get_metadata_empty_refuted.
(** Deleting the index "docs?old" deletes the index "docs"; deleting by condition from "docs#1" is sent to the address that
    deletes the whole index "docs"; dots between slashes are resolved. *)
Theorem C110_delete_refuted :
  routed (address (index_endpoint (txt "docs?old") [])) = OnIndex (txt "docs")
  /\ routed (address (index_endpoint (txt "docs#1") [txt "documents"])) = OnIndex (txt "docs")
  /\ routed (address (index_endpoint (txt "old/../docs") [])) = OnIndex (txt "docs").
Proof. repeat split; vm_compute; reflexivity. Qed.
Print Assumptions C110_delete_refuted.
(** A body the server cannot read (422) is not a [ValidationError]. *)
Theorem C110_unprocessable_refuted :
  forall U content empty body, handle_response U 422 content empty body = Raised OtherFailure.
Proof. intros U [(c, m)|] e b; reflexivity. Qed.
Print Assumptions C110_unprocessable_refuted.
