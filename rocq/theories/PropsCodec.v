(** Properties C01, C02, C03. *)
From Verif Require Import Base F32 CodecModel CodecSpec CodecProofs.
Open Scope nat_scope.

(** C01. Quantising residual rows and decompressing them gives, for every component,
    centroid + weight of the bucket of that component. *)
Theorem C01_quantize_decompress_roundtrip :
  forall (fadd : f32 -> f32 -> f32) (normalize : list f32 -> list f32)
         nbits dim cents cutoffs weights c rows codes,
    new_codec nbits dim cents (Some cutoffs) (Some weights) = Ok c ->
    length cutoffs < 2 ^ nbits -> length weights = 2 ^ nbits ->
    Forall (fun r => length r = dim) cents -> Forall (fun r => length r = dim) rows ->
    (dim * nbits) mod 8 = 0 ->
    length codes = length rows -> Forall (fun k => k < length cents) codes ->
    exists packed, quantize_residuals c dim rows = Ok packed
      /\ Forall (fun p => length p = dim * nbits / 8) packed
      /\ decompress fadd normalize c packed codes
         = Ok (map (fun kr => normalize (decoded_row fadd (nth (fst kr) cents []) weights cutoffs (snd kr)))
                   (combine codes rows)).
Proof. exact quantize_decompress. Qed.
Print Assumptions C01_quantize_decompress_roundtrip.

(** Non-vacuity: 2 bits, dimension 4, two rows (with a NaN component), "addition" = Z.add. *)
Example C01_example :
  exists c packed,
    new_codec 2 4 [[0;0;0;0]; [100;200;300;400]]%Z (Some [10;20;30]%Z) (Some [1;2;3;4]%Z) = Ok c
    /\ quantize_residuals c 4 [[5;15;25;35]; [f_quiet_nan;31;21;11]]%Z = Ok packed
    /\ decompress Z.add (fun r => r) c packed [1;0]
       = Ok [[101;202;303;404]; [1;4;3;2]]%Z.
Proof. eexists; eexists; repeat split; vm_compute; reflexivity. Qed.

(** The accepted widths are exactly 1, 2, 4, 8. *)
Theorem C01_accepted_nbits :
  forall nbits dim cents cutoffs weights,
    (exists c, new_codec nbits dim cents cutoffs weights = Ok c)
    <-> (nbits = 1 \/ nbits = 2 \/ nbits = 4 \/ nbits = 8).
Proof. exact new_codec_ok. Qed.
Print Assumptions C01_accepted_nbits.

(** A NaN residual falls in bucket 0. *)
Theorem C01_nan_bucket : forall cutoffs v, is_nan v = true -> bucket cutoffs v = 0.
Proof. exact bucket_nan. Qed.
Print Assumptions C01_nan_bucket.

(** With cutoffs in order, the bucket is the sorted insertion point: cutoff [i] is below the
    value exactly for the first [bucket] indices. *)
Theorem C01_bucket_is_searchsorted :
  forall cutoffs v i c,
    Forall (fun c => is_nan c = false) cutoffs ->
    StronglySorted (fun a b => (fval a <= fval b)%Z) cutoffs ->
    nth_error cutoffs i = Some c ->
    (f_lt c v = true <-> i < bucket cutoffs v).
Proof. exact bucket_searchsorted_fval. Qed.
Print Assumptions C01_bucket_is_searchsorted.

(** Outside the admissible dimensions the quantiser panics (documented limitation). *)
Theorem C01_bad_dimension_panics :
  forall nbits cutoffs row,
    1 <= nbits -> (length row * nbits) mod 8 <> 0 ->
    quantize_row nbits (length row * nbits / 8) cutoffs row = Panic.
Proof. exact quantize_row_panic. Qed.
Print Assumptions C01_bad_dimension_panics.

Example C01_bad_dimension_example : quantize_row 4 (3 * 4 / 8) [10]%Z [5;15;25]%Z = Panic.
Proof. reflexivity. Qed.

(** C02. *)
Theorem C02_unpack_pack :
  forall bits, Forall (fun b => b = 0 \/ b = 1)%N bits ->
    unpackbits (packbits bits) = bits ++ repeat 0%N ((8 - length bits mod 8) mod 8).
Proof. exact unpack_pack. Qed.
Print Assumptions C02_unpack_pack.

Theorem C02_pack_unpack :
  forall bytes, Forall (fun b => b < 256)%N bytes -> packbits (unpackbits bytes) = bytes.
Proof. exact pack_unpack. Qed.
Print Assumptions C02_pack_unpack.

Example C02_example :
  packbits [1;0;1;1;0;0;0;1;1;1]%N = [177; 192]%N /\
  unpackbits [177; 192]%N = [1;0;1;1;0;0;0;1;1;1;0;0;0;0;0;0]%N.
Proof. split; reflexivity. Qed.

(** C03. Every token gets the last maximal centroid, whatever the memory budget (and so the
    batch size) is; [dot] is any scoring function, including one returning NaN. *)
Theorem C03_nearest_centroid :
  forall (dot : list f32 -> list f32 -> f32) mem cents embs,
    cents <> [] ->
    exists codes, compress_into_codes dot mem cents embs = Ok codes
      /\ Forall2 (fun e k => is_last_argmax (map (dot e) cents) k) embs codes.
Proof. exact compress_ok. Qed.
Print Assumptions C03_nearest_centroid.

(** The promised index is unique, so the previous theorem determines the codes. *)
Theorem C03_argmax_unique :
  forall scores i j, is_last_argmax scores i -> is_last_argmax scores j -> i = j.
Proof. exact is_last_argmax_unique. Qed.
Print Assumptions C03_argmax_unique.

(** Batching is irrelevant: any two memory budgets give the same codes. *)
Theorem C03_batch_independent :
  forall (dot : list f32 -> list f32 -> f32) mem1 mem2 cents embs,
    compress_into_codes dot mem1 cents embs = compress_into_codes dot mem2 cents embs.
Proof. exact compress_batch_independent. Qed.
Print Assumptions C03_batch_independent.

(** A NaN score and a tie: the winner is the last maximal finite index. *)
Example C03_example :
  compress_into_codes (fun e c => hd 0%Z c) 8 [[f_quiet_nan]; [7]; [5]; [7]; [f_inf]]%Z [[1]; [2]; [3]]%Z
  = Ok [3; 3; 3].
Proof. reflexivity. Qed.
