(** Loading an index while it is written, the file changes of the library's operations as Shared.v
    sees them, and a handle whose maps were given up (next-plaid/src/index.rs). *)
From Verif Require Import Base F32 CodecModel IndexModel SearchModel.
From Verif Require Shared.
Open Scope nat_scope.

(** ** index.rs 1026-1139 [MmapIndex::load], read by read *)

(** The reads of one load, in the order the code makes them. *)
Inductive read :=
| RMeta                  (* metadata.json: index.rs 131-140 *)
| RCount (i : nat)       (* doclens.i.json, only when metadata.json gives no number of documents: index.rs 141-155 *)
| RCentroids | RCutoffs | RWeights | RMetaBits   (* codec.rs 548-597 *)
| RIvf | RIvfLengths     (* index.rs 1075-1090 *)
| RDoclens (i : nat)     (* index.rs 1101-1107 *)
| RCodes (i : nat)       (* mmap.rs 1266-1477 *)
| RResiduals (i : nat).  (* mmap.rs 1483-1704 *)
Definition phase (r : read) : nat :=
  match r with
  | RMeta => 0 | RCount _ => 1 | RCentroids => 2 | RCutoffs => 3 | RWeights => 4 | RMetaBits => 5 | RIvf => 6 | RIvfLengths => 7
  | RDoclens _ => 8 | RCodes _ => 9 | RResiduals _ => 10
  end.
Definition chunk (r : read) : nat := match r with RCount i | RDoclens i | RCodes i | RResiduals i => i | _ => 0 end.
(** [r] comes before [r'] *)
Definition before (r r' : read) : bool := (phase r <? phase r') || ((phase r =? phase r') && (chunk r <? chunk r')).

(** [see r] is the directory at the moment of the read [r].  The merges are taken as reads of the
    chunk files (merged files are left out: reusing one is C15's matter, and mapping it is Shared.v's). *)
Definition load_seen (see : read -> disk) : res index :=
  bind (bind (need (f_meta (see RMeta))) (fun m =>
      if num_documents m =? 0 then
        Ok {| num_chunks := num_chunks m; nbits := nbits m; num_partitions := num_partitions m;
              num_embeddings := num_embeddings m;
              num_documents := sum (map (fun i => match f_doclens (see (RCount i)) i with Some l => length l | None => 0 end) (seq 0 (num_chunks m)));
              embedding_dim := embedding_dim m |}
      else Ok m)) (fun md =>
  bind (bind (need (f_centroids (see RCentroids))) (fun dc =>
        bind (need (f_meta (see RMetaBits))) (fun m =>
          new_codec (nbits m) (fst dc) (snd dc) (f_cutoffs (see RCutoffs)) (f_weights (see RWeights))))) (fun c =>
  bind (need (f_ivf (see RIvf))) (fun ivf =>
  bind (need (f_ivf_lengths (see RIvfLengths))) (fun ivl =>
  bind (mapM (fun i => need (f_doclens (see (RDoclens i)) i)) (seq 0 (num_chunks md))) (fun dls =>
  let doc_lengths := concat dls in
  let max_len := fold_right Nat.max 0 doc_lengths in
  let padding := max_len - last doc_lengths 0 in
  bind (merge_chunks (fun i => f_codes (see (RCodes i)) i) (num_chunks md) padding 0) (fun codes =>
  bind (if c_dim c * nbits md / 8 =? 0 then Err else
        merge_chunks (fun i => f_residuals (see (RResiduals i)) i) (num_chunks md) padding (repeat 0%N (c_dim c * nbits md / 8))) (fun residuals =>
  Ok {| x_meta := md; x_codec := c; x_ivf := ivf; x_ivf_lengths := ivl; x_ivf_offsets := prefix_sums 0 ivl;
        x_doc_lengths := doc_lengths; x_doc_offsets := prefix_sums 0 doc_lengths; x_codes := codes; x_residuals := residuals |}))))))).

(** ** The file changes of an operation *)

(** A number for each file besides centroids.npy. *)
Definition file_number (w : write) : nat :=
  match w with
  | WMeta _ => 0 | WCutoffs _ => 1 | WWeights _ => 2 | WThreshold _ => 3 | WIvf _ => 4 | WIvfLengths _ => 5 | WBuffer _ => 6 | WBufferLengths _ => 7
  | WBufferInfo _ => 8 | WEmb _ => 9 | WEmbLengths _ => 10 | WCentroids _ => 11
  | WDoclens i _ => 12 + 4 * i | WCodes i _ => 13 + 4 * i | WResiduals i _ => 14 + 4 * i | WCMeta i _ => 15 + 4 * i
  end.
(** How Shared.v sees a write of IndexModel.v, whose [None] is also a file cut to nothing by
    [File::create]: centroids.npy as it is, every other file as rewritten in place, the worst case.
    [enc]: the bytes written. *)
Definition as_change (enc : write -> Shared.bytes) (w : write) : Shared.wop :=
  match w with
  | WCentroids (Some _) => Shared.Replace Shared.Centroids (enc w)
  | WCentroids None => Shared.Rewrite Shared.Centroids []
  | _ => Shared.Rewrite (Shared.Other (file_number w)) [enc w]
  end.

(** ** Handles *)

(** index.rs 1323-1327 [release_mmaps] (on every system, not only Windows): update (1451), reload
    (1771) and delete (1812) do it first; update and reload load the index again at their end, if
    nothing fails before; delete does not. *)
Definition release (x : index) : index :=
  {| x_meta := x_meta x;
     x_codec := {| c_nbits := c_nbits (x_codec x); c_dim := 0; c_centroids := []; c_cutoffs := c_cutoffs (x_codec x); c_weights := c_weights (x_codec x);
                   c_revmap := c_revmap (x_codec x); c_lookup := c_lookup (x_codec x) |};
     x_ivf := x_ivf x; x_ivf_lengths := x_ivf_lengths x; x_ivf_offsets := x_ivf_offsets x;
     x_doc_lengths := x_doc_lengths x; x_doc_offsets := x_doc_offsets x; x_codes := []; x_residuals := [] |}.
