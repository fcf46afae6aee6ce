(** Model of next-plaid/src/codec.rs (ResidualCodec) and of the bit helpers of
    next-plaid/src/utils.rs. *)
From Verif Require Import Base F32.
Open Scope nat_scope.

(** codec.rs 22-30 [cmp_f32_for_max] *)
Definition cmp_f32_for_max (a b : f32) : comparison :=
  match is_finite a, is_finite b with
  | true, true => total_cmp a b
  | true, false => Gt
  | false, true => Lt
  | false, false => Eq
  end.

(** codec.rs 170-193: inner loop [for k in 0..nbits] reversing one segment. *)
Definition rev_segment (nbits : nat) (segment : N) : N :=
  fold_left (fun acc k =>
      if N.eqb (N.land segment (N.shiftl 1 (N.of_nat k))) 0 then acc
      else N.lor acc (N.shiftl 1 (N.of_nat (nbits - 1 - k))))
    (seq 0 nbits) 0%N.

(** codec.rs 175-193: the [while pos >= nbits] loop. Fuel 9 is never exhausted because
    nbits >= 1 and pos starts at 8; exhaustion returns [None]. *)
Fixpoint rev_loop (fuel nbits : nat) (val : N) (pos : nat) (out : N) : option N :=
  match fuel with
  | O => None
  | S f =>
    if nbits <=? pos then
      let segment := N.land (N.shiftr val (N.of_nat (pos - nbits))) (2 ^ N.of_nat nbits - 1) in
      let out1 := N.lor out (rev_segment nbits segment) in
      let out2 := if nbits <? pos then N.shiftl out1 (N.of_nat nbits) else out1 in
      rev_loop f nbits val (pos - nbits) out2
    else Some out
  end.

(** codec.rs 168-196: [byte_reversed_bits_map] ([out as u8] truncates). *)
Definition byte_reversed_bits_map (nbits : nat) : list N :=
  map (fun i => match rev_loop 9 nbits (N.of_nat i) 8 0%N with
                | Some out => (out mod 256)%N
                | None => 0%N
                end) (seq 0 256).

(** codec.rs 198-214: [bucket_weight_indices_lookup]: row [byte], column
    [keys_per_byte - 1 - k] holds [(byte >> k*nbits) & mask], k from keys_per_byte-1 down to 0. *)
Definition lookup_row (nbits : nat) (byte : nat) : list nat :=
  map (fun k => N.to_nat (N.land (N.shiftr (N.of_nat byte) (N.of_nat (k * nbits)))
                                 (2 ^ N.of_nat nbits - 1)))
      (rev (seq 0 (8 / nbits))).
Definition bucket_weight_indices_lookup (nbits : nat) : list (list nat) :=
  map (lookup_row nbits) (seq 0 256).

(** codec.rs 120-141 [ResidualCodec]; [avg_residual] is not used by the modelled functions. *)
Record codec := {
  c_nbits : nat;
  c_dim : nat;                       (* centroids.ncols() *)
  c_centroids : list (list f32);
  c_cutoffs : option (list f32);
  c_weights : option (list f32);
  c_revmap : list N;
  c_lookup : option (list (list nat))
}.

(** codec.rs 154-225 [new_with_store] *)
Definition new_codec (nbits dim : nat) (centroids : list (list f32))
    (cutoffs weights : option (list f32)) : res codec :=
  if (nbits =? 0) || negb (8 mod nbits =? 0) then Err
  else Ok {| c_nbits := nbits; c_dim := dim; c_centroids := centroids;
             c_cutoffs := cutoffs; c_weights := weights;
             c_revmap := byte_reversed_bits_map nbits;
             c_lookup := match weights with
                         | Some _ => Some (bucket_weight_indices_lookup nbits)
                         | None => None
                         end |}.

(** codec.rs 385-395: [packed_row[byte_idx] |= bit << bit_pos] *)
Definition or_at (row : list N) (i : nat) (v : N) : res (list N) :=
  match nth_error row i with
  | Some x => Ok (upd row i (N.lor x v))
  | None => Panic
  end.
Definition put_bit (st : list N * nat) (bit : N) : res (list N * nat) :=
  let '(row, bit_idx) := st in
  let byte_idx := bit_idx / 8 in
  let bit_pos := 7 - bit_idx mod 8 in
  bind (or_at row byte_idx (N.shiftl bit (N.of_nat bit_pos)))
       (fun row' => Ok (row', bit_idx + 1)).

(** codec.rs 381-395: one component: bucket search then bit packing. *)
Definition put_value (nbits : nat) (cutoffs : list f32) (st : list N * nat) (val : f32)
  : res (list N * nat) :=
  let bucket := length (filter (fun c => f_gt val c) cutoffs) in
  foldM (fun st b => put_bit st (N.land (N.shiftr (N.of_nat bucket) (N.of_nat b)) 1))
        (seq 0 nbits) st.

(** codec.rs 376-399: one row *)
Definition quantize_row (nbits packed_dim : nat) (cutoffs : list f32) (row : list f32)
  : res (list N) :=
  bind (foldM (put_value nbits cutoffs) row (repeat 0%N packed_dim, 0))
       (fun st => Ok (fst st)).

(** codec.rs 356-411 [quantize_residuals]; [dim] is [residuals.ncols()]. The parallel
    iterator is a map. *)
Definition quantize_residuals (c : codec) (dim : nat) (residuals : list (list f32))
  : res (list (list N)) :=
  match c_cutoffs c with
  | None => Err
  | Some cutoffs =>
    let packed_dim := dim * c_nbits c / 8 in
    mapM (quantize_row (c_nbits c) packed_dim cutoffs) residuals
  end.

Section ARITH.
  (** f32 addition, row normalisation (codec.rs 463-466) and dot product: arbitrary. *)
  Variable fadd : f32 -> f32 -> f32.
  Variable normalize : list f32 -> list f32.
  Variable dot : list f32 -> list f32 -> f32.

  (** codec.rs 450-459: the loops over bytes and table entries of one row; the output row
      is written left to right, [residual_idx] being the length written so far. *)
  Definition decompress_entry (dim : nat) (centroid weights : list f32)
      (out : list f32) (bucket_idx : nat) : res (list f32) :=
    if length out <? dim then
      bind (idx centroid (length out)) (fun cv =>
      bind (idx weights bucket_idx) (fun w => Ok (out ++ [fadd cv w])))
    else Ok out.
  Definition decompress_byte (dim : nat) (revmap : list N) (lookup : list (list nat))
      (centroid weights : list f32) (out : list f32) (byte_val : N) : res (list f32) :=
    bind (idx revmap (N.to_nat byte_val)) (fun reversed =>
    bind (idx lookup (N.to_nat reversed)) (fun indices =>
    foldM (decompress_entry dim centroid weights) indices out)).
  (** codec.rs 444-466: one row; components never written keep the initial 0.0. *)
  Definition decompress_row (c : codec) (lookup : list (list nat)) (weights : list f32)
      (code : nat) (packed : list N) : res (list f32) :=
    bind (idx (c_centroids c) code) (fun centroid =>
    bind (foldM (decompress_byte (c_dim c) (c_revmap c) lookup centroid weights) packed [])
      (fun out => Ok (normalize (out ++ repeat f_zero (c_dim c - length out))))).
  (** codec.rs 423-470 [decompress]; [codes[i]] panics when there are fewer codes. *)
  Fixpoint decompress_rows (c : codec) lookup weights (packed : list (list N)) (codes : list nat)
    : res (list (list f32)) :=
    match packed with
    | [] => Ok []
    | p :: ps =>
      match codes with
      | [] => Panic
      | code :: cs =>
        bind (decompress_row c lookup weights code p) (fun r =>
        bind (decompress_rows c lookup weights ps cs) (fun rs => Ok (r :: rs)))
      end
    end.
  Definition decompress (c : codec) (packed : list (list N)) (codes : list nat)
    : res (list (list f32)) :=
    match c_weights c, c_lookup c with
    | Some weights, Some lookup => decompress_rows c lookup weights packed codes
    | _, _ => Err
    end.

  (** [Iterator::max_by] over an enumerated row: keep the accumulator only when it compares
      Greater, so the last maximal element wins (codec.rs 330-336). *)
  Definition max_by_step (cmp : f32 -> f32 -> comparison) (acc : option (nat * f32))
      (x : nat * f32) : option (nat * f32) :=
    match acc with
    | None => Some x
    | Some a => match cmp (snd a) (snd x) with Gt => Some a | _ => Some x end
    end.
  Definition argmax_row (scores : list f32) : nat :=
    match fold_left (max_by_step cmp_f32_for_max)
            (combine (seq 0 (length scores)) scores) None with
    | Some (i, _) => i
    | None => 0
    end.

  (** codec.rs 313-322: batch size from the memory budget; division by zero panics. *)
  Definition nearest_batch_size (mem num_centroids : nat) : res nat :=
    if num_centroids * 4 =? 0 then Panic
    else Ok (Nat.max 1 (Nat.min 1024 (mem / (num_centroids * 4)))).
  (** codec.rs 297-343 [compress_into_codes_cpu]: ranges (start, min(start+batch,n)) are
      [chunks]; each batch scores all centroids; results are concatenated in order. *)
  Definition compress_into_codes (mem : nat) (centroids : list (list f32))
      (embeddings : list (list f32)) : res (list nat) :=
    match embeddings with
    | [] => Ok []
    | _ =>
      bind (nearest_batch_size mem (length centroids)) (fun bs =>
      Ok (concat (map (fun batch =>
             map (fun e => argmax_row (map (dot e) centroids)) batch) (chunks bs embeddings))))
    end.
End ARITH.

(** utils.rs 193-203 [packbits]; the bit values are u8, [bit << (7-i)] drops overflow. *)
Definition packbits (bits : list N) : list N :=
  map (fun chunk =>
         fold_left (fun byte ib => N.lor byte (N.shiftl (snd ib) (N.of_nat (7 - fst ib)) mod 256)%N)
                   (combine (seq 0 (length chunk)) chunk) 0%N)
      (chunks 8 bits).
(** utils.rs 214-222 [unpackbits] *)
Definition unpackbits (bytes : list N) : list N :=
  flat_map (fun byte => map (fun i => N.land (N.shiftr byte (N.of_nat i)) 1) (rev (seq 0 8))) bytes.
