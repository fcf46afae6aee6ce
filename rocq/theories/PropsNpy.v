(** Properties of the array files (next-plaid/src/mmap.rs). *)
From Verif Require Import Base Text Calendar Npy NpySpec NpyProofs NpyHeader.
Open Scope Z_scope.

(** C36. An array written in the raw format is read back unchanged: shape and all elements, and
    each row. *)
Theorem C36_raw_array_round_trip :
  forall w nrows ncols data, (1 <= w)%nat -> array2_ok w nrows ncols data ->
    raw2_to_owned w (write_array2 w nrows ncols data) = Ok (nrows, ncols, data).
Proof. exact raw2_round. Qed.
Print Assumptions C36_raw_array_round_trip.
Theorem C36_raw_row :
  forall w nrows ncols data i, (1 <= w)%nat -> array2_ok w nrows ncols data -> 0 <= i < nrows ->
    raw2_row w (write_array2 w nrows ncols data) i = Ok (rows_of data ncols i (i + 1)).
Proof. exact raw2_row_ok. Qed.
Print Assumptions C36_raw_row.
Theorem C36_raw_i64_round_trip :
  forall data i, array1_ok 8 data -> numbers 8 data -> (i < length data)%nat -> get_i64 (write_array1_i64 data) 8 (Z.of_nat i) = Ok (nth i data 0).
Proof. exact raw1_get. Qed.
Print Assumptions C36_raw_i64_round_trip.
(** Every proper prefix of such a file is rejected with an error; the file itself is accepted
    with its shape. *)
Theorem C36_raw_truncated_rejected :
  forall w nrows ncols data k, (1 <= w)%nat -> array2_ok w nrows ncols data -> (k <= length (write_array2 w nrows ncols data))%nat ->
    from_raw2 w (firstn k (write_array2 w nrows ncols data)) = if (k <? length (write_array2 w nrows ncols data))%nat then Err else Ok (nrows, ncols).
Proof. exact raw2_shape. Qed.
Print Assumptions C36_raw_truncated_rejected.
Theorem C36_raw_i64_truncated_rejected :
  forall data k, array1_ok 8 data -> (k <= length (write_array1_i64 data))%nat ->
    from_raw1 (firstn k (write_array1_i64 data)) = if (k <? length (write_array1_i64 data))%nat then Err else Ok (Z.of_nat (length data)).
Proof. exact raw1_shape. Qed.
Print Assumptions C36_raw_i64_truncated_rejected.
(** The same for NPY files: one-dimensional [i64] arrays … *)
Theorem C36_npy_i64_round_trip :
  forall U, good_unicode U -> forall utf8, good_utf8 utf8 -> forall dtype data a n, In dtype dtypes -> array1_ok 8 data -> numbers 8 data ->
    (a + n <= length data)%nat -> npy_slice_i64 U utf8 (write_npy_1d 8 dtype data) a n = Ok (firstn n (skipn a data)).
Proof. exact npy_1d_slice. Qed.
Print Assumptions C36_npy_i64_round_trip.
Theorem C36_npy_i64_truncated_rejected :
  forall U, good_unicode U -> forall utf8, good_utf8 utf8 -> forall dtype data k, In dtype dtypes -> array1_ok 8 data ->
    (k <= length (write_npy_1d 8 dtype data))%nat ->
    from_npy_1d U utf8 (firstn k (write_npy_1d 8 dtype data)) =
      if (k <? length (write_npy_1d 8 dtype data))%nat then Err
      else Ok (Z.of_nat (length data), Z.of_nat (npy_header_size_1d (Z.of_nat (length data)) dtype)).
Proof. exact npy_1d_shape. Qed.
Print Assumptions C36_npy_i64_truncated_rejected.
(** … and two-dimensional ones. *)
Theorem C36_npy_round_trip :
  forall U, good_unicode U -> forall utf8, good_utf8 utf8 -> forall w dtype nrows ncols data, (1 <= w)%nat -> In dtype dtypes -> array2_ok w nrows ncols data ->
    npy_view U utf8 w (write_npy_2d w dtype nrows ncols data) = Ok (nrows, ncols, data).
Proof. exact npy_2d_view. Qed.
Print Assumptions C36_npy_round_trip.
Theorem C36_npy_rows :
  forall U, good_unicode U -> forall utf8, good_utf8 utf8 -> forall w dtype nrows ncols data a b, (1 <= w)%nat -> In dtype dtypes -> array2_ok w nrows ncols data ->
    0 <= a <= b -> b <= nrows -> npy_rows U utf8 w (write_npy_2d w dtype nrows ncols data) a b = Ok (rows_of data ncols a b).
Proof. exact npy_2d_rows. Qed.
Print Assumptions C36_npy_rows.
Theorem C36_npy_truncated_rejected :
  forall U, good_unicode U -> forall utf8, good_utf8 utf8 -> forall w dtype nrows ncols data k, (1 <= w)%nat -> In dtype dtypes -> array2_ok w nrows ncols data ->
    (k <= length (write_npy_2d w dtype nrows ncols data))%nat ->
    from_npy_2d U utf8 w (firstn k (write_npy_2d w dtype nrows ncols data)) =
      if (k <? length (write_npy_2d w dtype nrows ncols data))%nat then Err
      else Ok (nrows, ncols, Z.of_nat (npy_header_size_2d nrows ncols dtype)).
Proof. exact npy_2d_shape. Qed.
Print Assumptions C36_npy_truncated_rejected.
(** Findings about files the code did not write.  A 16-byte raw file can claim 2^62 rows: the
    size check wraps around, and reading the array is an unchecked view of 2^62 elements. *)
Theorem C36_wrapped_size_accepted_refuted :
  exists f, length f = 16%nat /\ from_raw2 4 f = Ok (2 ^ 62, 1) /\ raw2_to_owned 4 f = Panic.
Proof. exists (write_array2 4 (2 ^ 62) 1 []). repeat split; vm_compute; reflexivity. Qed.
Print Assumptions C36_wrapped_size_accepted_refuted.
(** A header whose parentheses are in the wrong order makes the parser panic. *)
Theorem C36_bad_header_panics_refuted :
  exists f, from_npy_2d ascii_unicode Some 1 f = Panic.
Proof. exists (write_npy_header (txt "{'shape': )(, }")). vm_compute. reflexivity. Qed.
Print Assumptions C36_bad_header_panics_refuted.
(** Fortran order is ignored: the array [[1,2],[3,4]] stored column by column reads as
    [[1,3],[2,4]]. *)
Theorem C36_fortran_order_ignored_refuted :
  let f := write_npy_header (txt "{'descr': '|u1', 'fortran_order': True, 'shape': (2, 2), }") ++ [1; 3; 2; 4] in
  npy_view ascii_unicode Some 1 f = Ok (2, 2, [1; 3; 2; 4]) /\ exists off, parse_npy_header ascii_unicode Some f = Ok ([2; 2], off, true).
Proof. split; [vm_compute; reflexivity|eexists; vm_compute; reflexivity]. Qed.
Print Assumptions C36_fortran_order_ignored_refuted.
Definition ex_u8 : list Z := [1; 2; 3; 250; 0; 255].
Example C36_example :
  array2_ok 1 2 3 ex_u8 /\ npy_view ascii_unicode Some 1 (write_npy_2d 1 (txt "|u1") 2 3 ex_u8) = Ok (2, 3, ex_u8)
  /\ npy_slice_i64 ascii_unicode Some (write_npy_1d 8 (txt "<i8") [7; -1; 2 ^ 40]) 1 2 = Ok [-1; 2 ^ 40]
  /\ length (write_npy_1d 8 (txt "<i8") [7; -1; 2 ^ 40]) = (129 + 24)%nat
  /\ raw2_to_owned 4 (write_array2 4 1 2 [1065353216; 3212836864]) = Ok (1, 2, [1065353216; 3212836864])
  /\ good_utf8 Some.
Proof. repeat split; try (vm_compute; congruence); try (vm_compute; reflexivity); repeat constructor; vm_compute; congruence. Qed.

(** C60. Converting the files of a fast-plaid index keeps their contents: a file of [i64] numbers
    that fit in an [i32] becomes the [i32] file of the same numbers … *)
Theorem C60_i64_to_i32 :
  forall U, good_unicode U -> forall utf8 f data, holds U utf8 8 f [Z.of_nat (length data)] data -> array1_ok 8 data ->
    convert_i64_to_i32 U utf8 f = Ok (write_npy_1d 4 (txt "<i4") data).
Proof. exact convert_i32_ok. Qed.
Print Assumptions C60_i64_to_i32.
(** (whose elements are those numbers) *)
Theorem C60_i32_elements :
  forall data, numbers 4 data -> map (signed 4) (elements 4 (flat_map (le_bytes 4) data)) = data.
Proof. exact signed_elements. Qed.
Print Assumptions C60_i32_elements.
(** … a file of half floats becomes the file of the widened ones … *)
Theorem C60_f16_to_f32 :
  forall U, good_unicode U -> forall utf8 widen f nrows ncols data, holds U utf8 2 f [nrows; ncols] data -> array2_ok 2 nrows ncols data ->
    convert_f16_to_f32 U utf8 widen f = Ok (write_npy_2d 4 (txt "<f4") nrows ncols (map widen data)).
Proof. exact convert_f32_ok. Qed.
Print Assumptions C60_f16_to_f32.
Theorem C60_f16_to_f32_vector :
  forall U, good_unicode U -> forall utf8 widen f data, holds U utf8 2 f [Z.of_nat (length data)] data -> array1_ok 2 data -> patterns 2 data ->
    convert_f16_to_f32 U utf8 widen f = Ok (write_npy_1d 4 (txt "<f4") (map widen data)).
Proof. exact convert_f32_1d_ok. Qed.
Print Assumptions C60_f16_to_f32_vector.
(** … and a byte array keeps its bytes. *)
Theorem C60_bytes :
  forall U, good_unicode U -> forall utf8 f nrows ncols data, holds U utf8 1 f [nrows; ncols] data -> array2_ok 1 nrows ncols data ->
    normalize_u8 U utf8 f = Ok (write_npy_2d 1 (txt "|u1") nrows ncols data).
Proof. exact normalize_ok. Qed.
Print Assumptions C60_bytes.
(** A converted file holds what was written and announces the new type, so that a second pass
    leaves it alone. *)
Theorem C60_converted_1d :
  forall U, good_unicode U -> forall utf8, good_utf8 utf8 -> forall w dtype data, In dtype dtypes -> Z.of_nat (length data) < 2 ^ 64 ->
    holds U utf8 w (write_npy_1d w dtype data) [Z.of_nat (length data)] data /\ detect_npy_dtype utf8 (write_npy_1d w dtype data) = Ok dtype.
Proof. exact (fun U GU utf8 G8 w dtype data D L => conj (written_1d_holds U GU utf8 G8 w dtype data D L) (detect_1d U GU utf8 G8 w dtype data D L)). Qed.
Print Assumptions C60_converted_1d.
Theorem C60_converted_2d :
  forall U, good_unicode U -> forall utf8, good_utf8 utf8 -> forall w dtype nrows ncols data, In dtype dtypes -> 0 <= nrows < 2 ^ 64 -> 0 <= ncols < 2 ^ 64 ->
    holds U utf8 w (write_npy_2d w dtype nrows ncols data) [nrows; ncols] data /\ detect_npy_dtype utf8 (write_npy_2d w dtype nrows ncols data) = Ok dtype.
Proof. exact (fun U GU utf8 G8 w dtype n m data D L1 L2 => conj (written_2d_holds U GU utf8 G8 w dtype n m data D L1 L2) (detect_2d U GU utf8 G8 w dtype n m data D L1 L2)). Qed.
Print Assumptions C60_converted_2d.
(** Larger numbers are cut: 2^32 + 1 becomes 1. *)
Theorem C60_large_lengths_cut_refuted : map (signed 4) (elements 4 (flat_map (le_bytes 4) [2 ^ 32 + 1])) = [1].
Proof. vm_compute. reflexivity. Qed.
Print Assumptions C60_large_lengths_cut_refuted.
(** The header written always has length 1 modulo 64, so the [f32] data of a converted file is
    not aligned to 4 bytes in the mapped file, and the views of it are unaligned. *)
Theorem C60_converted_floats_misaligned_refuted :
  forall dict, (length (write_npy_header dict) mod 64 = 1)%nat.
Proof. exact (header_aligned ascii_unicode ascii_good). Qed.
Print Assumptions C60_converted_floats_misaligned_refuted.
Definition ex_numpy : bytes :=
  NPY_MAGIC ++ [2; 0] ++ le_bytes 4 54 ++ txt "{'descr':'<i8','shape':(2,),'fortran_order':False,}   " ++ flat_map (le_bytes 8) [5; 70000].
Lemma ex_numpy_holds : holds ascii_unicode Some 8 ex_numpy [2] [5; 70000].
Proof.
  exists (NPY_MAGIC ++ [2; 0] ++ le_bytes 4 54 ++ txt "{'descr':'<i8','shape':(2,),'fortran_order':False,}   "), false.
  split; [vm_compute; reflexivity|]. split; [vm_compute; reflexivity|]. vm_compute; reflexivity.
Qed.
Example C60_example :
  holds ascii_unicode Some 8 ex_numpy [2] [5; 70000] /\ detect_npy_dtype Some ex_numpy = Ok (txt "<i8")
  /\ convert_i64_to_i32 ascii_unicode Some ex_numpy = Ok (write_npy_1d 4 (txt "<i4") [5; 70000]) /\ numbers 4 [5; 70000].
Proof.
  split; [exact ex_numpy_holds|]. split; [vm_compute; reflexivity|]. split; [vm_compute; reflexivity|].
  unfold numbers. change (8 * Z.of_nat 4 - 1) with 31. repeat constructor; lia.
Qed.
