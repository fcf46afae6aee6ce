(** Specification of embeddings in requests. *)
From Verif Require Import Base F32 Text Base64 Npy ApiEmbed.
Open Scope Z_scope.

Definition finite (v : f32) : Prop := f32_wf v /\ is_finite v = true.
(** [b64] is the base64 text of the values [v], four bytes each, least significant first. *)
Definition text_of_values (b64 : text) (v : list f32) : Prop := b64 = base64_encode (flat_map (le_bytes 4) v).
(** [v] fills an [r] by [c] matrix whose size in bytes is a 64-bit number. *)
Definition fills (r c : Z) (v : list f32) : Prop := Z.of_nat (length v) = r * c /\ r * c * 4 < 2 ^ 64.
(** Rows of a JSON matrix. *)
Definition rectangular (rows : list (list f32)) (r c : Z) : Prop :=
  Z.of_nat (length rows) = r /\ Forall (fun x => Z.of_nat (length x) = c) rows.
(** A matrix in memory: at most 2^63 - 1 elements, a zero-length side counting as one. *)
Definition allocatable (r c : Z) : Prop := Z.max 1 r * Z.max 1 c < 2 ^ 63.
(** The client sent the matrix [r] by [c] of values [v] as base64 text, or as JSON. *)
Definition sent_b64 (d : sent) (r c : Z) (v : list f32) : Prop :=
  exists b, s_b64 d = Some b /\ s_shape d = Some (r, c) /\ text_of_values b v /\ fills r c v /\ Forall finite v.
Definition sent_json (d : sent) (r c : Z) (v : list f32) : Prop :=
  (s_b64 d = None \/ s_shape d = None) /\ exists rows, s_rows d = Some rows /\ rectangular rows r c /\ v = concat rows /\ 1 <= r /\ 1 <= c.
(** Numbers in the request: shapes are 64-bit, values are bit patterns of binary32. *)
Definition sent_ok (d : sent) : Prop :=
  (forall a b, s_shape d = Some (a, b) -> usize a /\ usize b) /\ (forall rows, s_rows d = Some rows -> Forall (Forall f32_wf) rows).
