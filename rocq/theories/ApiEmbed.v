(** Embeddings in HTTP requests and responses (next-plaid-api/src/models.rs 903-1004,
    handlers/documents.rs 585-628, handlers/search.rs 28-72). *)
From Verif Require Import Base F32 Text Base64 Base64Spec Npy.
Open Scope nat_scope.

(** The [base64] crate's STANDARD engine (padding required and canonical, unused bits zero, no
    character outside the alphabet) is [base64_decode] of Base64Spec.v; its encoder is the
    same function as filtering.rs 2399-2425, [base64_encode] of Base64.v.  The crate itself is
    not modelled further.  usize is 64 bits. *)
Definition usize (z : Z) : Prop := (0 <= z < 2 ^ 64)%Z.
Definition checked_mul (a b : Z) : option Z := if (a * b <? 2 ^ 64)%Z then Some (a * b)%Z else None.

(** models.rs 903-935 [decode_b64_embeddings]; [f32::from_le_bytes] of four bytes is
    [le_value].  [chunks_exact 4] is [chunks 4]: the length is a multiple of 4 by then. *)
Definition decode_b64_embeddings (b64 : text) (s0 s1 : Z) : res (list f32) :=
  match base64_decode b64 with
  | None => Err
  | Some b =>
    match checked_mul s0 s1 with
    | None => Err
    | Some n =>
      match checked_mul n 4 with
      | None => Err
      | Some expected =>
        if negb (size b =? expected)%Z then Err
        else let floats := elements 4 b in
             match find (fun v => negb (is_finite v)) floats with Some _ => Err | None => Ok floats end
      end
    end
  end.

(** [Array2]: row count, column count, values in row order. *)
Definition matrix : Type := Z * Z * list f32.
(** ndarray [Array2::from_shape_vec]: the product of the non-zero lengths must fit in isize and
    the vector must have as many elements as the shape. *)
Definition from_shape_vec (r c : Z) (v : list f32) : res matrix :=
  let nz x := if (x =? 0)%Z then 1%Z else x in
  if (nz r * nz c <? 2 ^ 63)%Z && (Z.of_nat (length v) =? r * c)%Z then Ok (r, c, v) else Err.

(** models.rs 937-945 [validate_embedding_shape] *)
Definition validate_embedding_shape (s0 s1 : Z) : res unit :=
  if (s0 =? 0)%Z then Err else if (s1 =? 0)%Z then Err else Ok tt.
(** models.rs 948-957 [decode_b64_embeddings_to_array2] *)
Definition decode_b64_embeddings_to_array2 (b64 : text) (s0 s1 : Z) : res matrix :=
  bind (validate_embedding_shape s0 s1) (fun _ =>
  bind (decode_b64_embeddings b64 s0 s1) (fun v => from_shape_vec s0 s1 v)).

(** A JSON array of arrays of numbers. *)
Definition len {A} (l : list A) : Z := Z.of_nat (length l).
Definition cols_of (rows : list (list f32)) : nat := match rows with [] => 0 | r :: _ => length r end.
(** models.rs 960-992 [json_embeddings_to_array2].  [cols] is [embeddings[0].len()]; the index
    cannot fail after the shape check. *)
Definition json_embeddings_to_array2 (rows : list (list f32)) : res matrix :=
  bind (validate_embedding_shape (len rows) (Z.of_nat (cols_of rows))) (fun _ =>
  if forallb (fun r => (length r =? cols_of rows) && forallb is_finite r) rows
  then from_shape_vec (len rows) (Z.of_nat (cols_of rows)) (concat rows) else Err).

(** Embeddings of one document or query in a request: models.rs [DocumentEmbeddings],
    [QueryEmbeddings]. *)
Record sent := { s_rows : option (list (list f32)); s_b64 : option text; s_shape : option (Z * Z) }.
(** documents.rs 586-628 and search.rs 29-72 [to_ndarray] (the same function twice) *)
Definition to_ndarray (d : sent) : res matrix :=
  match s_b64 d, s_shape d with
  | Some b64, Some (s0, s1) => bind (decode_b64_embeddings b64 s0 s1) (fun v => from_shape_vec s0 s1 v)
  | _, _ =>
    match s_rows d with
    | None => Err
    | Some rows =>
      if length rows =? 0 then Err
      else if cols_of rows =? 0 then Err
      else if forallb (fun r => length r =? cols_of rows) rows
           then from_shape_vec (len rows) (Z.of_nat (cols_of rows)) (concat rows) else Err
    end
  end.
(** rerank.rs 25-39 [doc_to_ndarray], and rerank.rs 123-133 for the query *)
Definition rerank_to_ndarray (d : sent) : res matrix :=
  match s_b64 d, s_shape d with
  | Some b64, Some (s0, s1) => decode_b64_embeddings_to_array2 b64 s0 s1
  | _, _ => match s_rows d with None => Err | Some rows => json_embeddings_to_array2 rows end
  end.

(** models.rs 996-1004 [encode_b64_embeddings] *)
Definition encode_b64_embeddings (rows : list (list f32)) : text * (Z * Z) :=
  (base64_encode (flat_map (fun r => flat_map (le_bytes 4) r) rows), (len rows, Z.of_nat (cols_of rows))).
