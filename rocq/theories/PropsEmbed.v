(** C44: embeddings sent to and returned by the HTTP API. *)
From Verif Require Import Base F32 Text Base64 Npy ApiEmbed ApiEmbedSpec ApiEmbedProofs.
Open Scope Z_scope.

(** Decoding succeeds exactly on the base64 text of finite values filling the shape, and returns
    those values; in every other case it is refused, without a panic. *)
Theorem C44_decode_exact :
  forall b64 r c v, usize r -> usize c ->
    decode_b64_embeddings b64 r c = Ok v <-> text_of_values b64 v /\ fills r c v /\ Forall finite v.
Proof. exact decode_iff. Qed.
Print Assumptions C44_decode_exact.
Theorem C44_decode_never_panics : forall b64 r c, decode_b64_embeddings b64 r c <> Panic.
Proof. exact decode_no_panic. Qed.
Print Assumptions C44_decode_never_panics.
(** Encoding then decoding with the returned shape gives the matrix back. *)
Theorem C44_round_trip :
  forall rows r c b64 shape, encode_b64_embeddings rows = (b64, shape) -> rectangular rows r c -> 1 <= r -> usize r -> usize c ->
    r * c * 4 < 2 ^ 64 -> Forall (Forall finite) rows ->
    shape = (r, c) /\ decode_b64_embeddings b64 r c = Ok (concat rows).
Proof. exact round_trip. Qed.
Print Assumptions C44_round_trip.
(** Documents and queries of add, update and search: exactly the matrices sent. *)
Theorem C44_documents_exact :
  forall d r c v, sent_ok d -> to_ndarray d = Ok (r, c, v) <-> (sent_b64 d r c v \/ sent_json d r c v) /\ allocatable r c.
Proof. exact to_ndarray_iff. Qed.
Print Assumptions C44_documents_exact.
(** Rerank: moreover at least one row and one column, and finite values only. *)
Theorem C44_rerank_exact :
  forall d r c v, sent_ok d ->
    rerank_to_ndarray d = Ok (r, c, v) <->
    (sent_b64 d r c v \/ sent_json d r c v) /\ allocatable r c /\ 1 <= r /\ 1 <= c /\ Forall finite v.
Proof. exact rerank_to_ndarray_iff. Qed.
Print Assumptions C44_rerank_exact.

Definition ex_rows : list (list f32) := [[f_one; 0]; [3212836864; 1056964608]].
Definition ex_b64 : text := fst (encode_b64_embeddings ex_rows).
Definition ex_sent : sent := {| s_rows := None; s_b64 := Some ex_b64; s_shape := Some (2, 2) |}.
Example C44_example :
  ex_b64 = txt "AACAPwAAAAAAAIC/AAAAPw==" /\ rectangular ex_rows 2 2 /\ Forall (Forall finite) ex_rows /\ sent_ok ex_sent
  /\ decode_b64_embeddings ex_b64 2 2 = Ok (concat ex_rows)
  /\ to_ndarray ex_sent = Ok (2, 2, concat ex_rows)
  (* wrong shape, wrong padding, unused bits set, and a NaN *)
  /\ decode_b64_embeddings ex_b64 2 3 = Err /\ decode_b64_embeddings (txt "AACAPwAAAAAAAIC/AAAAPw=") 2 2 = Err
  /\ decode_b64_embeddings (txt "AACAPwAAAAAAAIC/AAAAPx==") 2 2 = Err
  /\ decode_b64_embeddings (fst (encode_b64_embeddings [[f_quiet_nan]])) 1 1 = Err
  /\ decode_b64_embeddings [] (2 ^ 63) 4 = Err.
Proof.
  split; [vm_compute; reflexivity|]. split; [split; [reflexivity|repeat constructor]|].
  split; [repeat constructor; cbv; (reflexivity || discriminate)|].
  split; [split; [intros a b [= <- <-]; split; split; cbv; (reflexivity || discriminate)|intros rows [=]]|].
  repeat split; vm_compute; reflexivity.
Qed.

(** Embeddings sent as JSON to add, update and search are not checked for being finite, unlike
    base64 ones (a JSON number such as 1e39 becomes infinity when read as f32). *)
Theorem C44_json_infinity_accepted_refuted :
  exists d v, sent_ok d /\ s_rows d = Some [[v]] /\ ~ finite v /\ to_ndarray d = Ok (1, 1, [v]).
Proof.
  exists {| s_rows := Some [[f_inf]]; s_b64 := None; s_shape := None |}, f_inf.
  split; [split; [intros a b [=]|intros rows [= <-]; repeat constructor; cbv; (reflexivity || discriminate)]|].
  split; [reflexivity|]. split; [intros (_ & H); vm_compute in H; discriminate|vm_compute; reflexivity].
Qed.
Print Assumptions C44_json_infinity_accepted_refuted.
(** A document without any vector is refused as JSON and accepted as base64. *)
Theorem C44_empty_document_accepted_refuted :
  exists d j, sent_ok d /\ sent_ok j /\ to_ndarray d = Ok (0, 4, []) /\ s_rows j = Some [] /\ to_ndarray j = Err.
Proof.
  exists {| s_rows := None; s_b64 := Some []; s_shape := Some (0, 4) |}, {| s_rows := Some []; s_b64 := None; s_shape := None |}.
  split; [split; [intros a b [= <- <-]; split; split; cbv; (reflexivity || discriminate)|intros rows [=]]|].
  split; [split; [intros a b [=]|intros rows [= <-]; constructor]|]. repeat split; vm_compute; reflexivity.
Qed.
Print Assumptions C44_empty_document_accepted_refuted.
