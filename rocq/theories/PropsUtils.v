(** Properties of padding, masks and quantiles (next-plaid/src/utils.rs). *)
From Coq Require Import QArith Qround Qabs.
From Verif Require Import Base Utils UtilsProofs.
Open Scope nat_scope.

(** C52. Documents of the same width are padded to the longest one: the array has
    [number of documents * max_len] rows, row [i * max_len + j] is token [j] of document [i], or
    the padding row when the document has no token [j], and the lengths are those of the
    documents. *)
Theorem C52_padding :
  forall (A : Type) (pad : A) (dim : nat) (docs : list (array2 A)), docs <> [] ->
    Forall (fun d : array2 A => fst d = dim /\ Forall (fun r => length r = dim) (snd d)) docs ->
    exists rows lens max_len, pad_sequences pad docs = Ok ((dim, rows), lens)
      /\ (forall d, In d docs -> length (snd d) <= max_len) /\ (exists d, In d docs /\ length (snd d) = max_len)
      /\ length rows = length docs * max_len
      /\ lens = map (fun d : array2 A => Z.of_nat (length (snd d))) docs
      /\ (forall i j d, nth_error docs i = Some d -> j < max_len ->
            nth_error rows (i * max_len + j) = Some (match nth_error (snd d) j with Some r => r | None => repeat pad dim end)).
Proof. exact padding. Qed.
Print Assumptions C52_padding.
(** The mask of those lengths is true exactly on the tokens. *)
Theorem C52_mask :
  forall (A : Type) (docs : list (array2 A)) max_len i j d, nth_error docs i = Some d -> j < max_len ->
    exists row, nth_error (create_mask (map (fun d : array2 A => Z.of_nat (length (snd d))) docs) max_len) i = Some row
      /\ length row = max_len /\ (nth_error row j = Some true <-> j < length (snd d)) /\ (nth_error row j = Some false <-> length (snd d) <= j).
Proof. exact mask_docs. Qed.
Print Assumptions C52_mask.
(** A negative length masks nothing out: the i64 becomes a huge usize. *)
Theorem C52_negative_length_refuted : create_mask [(-1)%Z] 2 = [[true; true]].
Proof. reflexivity. Qed.
Print Assumptions C52_negative_length_refuted.
Example C52_example :
  pad_sequences 0%Z [(2, [[1; 2]; [3; 4]]%Z); (2, [[5; 6]]%Z)] = Ok ((2, [[1; 2]; [3; 4]; [5; 6]; [0; 0]]%Z), [2; 1]%Z)
  /\ create_mask [2; 1]%Z 2 = [[true; true]; [true; false]]
  /\ Forall (fun d : array2 Z => fst d = 2 /\ Forall (fun r => length r = 2) (snd d)) [(2, [[1; 2]; [3; 4]]%Z); (2, [[5; 6]]%Z)].
Proof. repeat split; repeat constructor. Qed.

Open Scope Q_scope.
(** C54. Between neighbouring order statistics, whatever the rounding: [rnd64] is monotone and
    exact on the indices.  The call does not panic. *)
Theorem C54_no_panic :
  forall rnd64 rnd32, monotone rnd64 -> forall arr q, arr <> [] ->
    (forall z, (0 <= z < Z.of_nat (length arr))%Z -> rnd64 (inject_Z z) == inject_Z z) -> 0 <= q <= 1 ->
    exists v, quantile rnd64 rnd32 arr q = Ok v.
Proof. exact quantile_no_panic. Qed.
Print Assumptions C54_no_panic.
(** With exact arithmetic the value lies between the two order statistics around
    [q * (n - 1)]. *)
Theorem C54_between :
  forall arr q v, arr <> [] -> 0 <= q <= 1 -> quantile exact exact arr q = Ok v ->
    exists l u a b, (l <= u <= S l)%nat /\ inject_Z (Z.of_nat l) <= q * inject_Z (Z.of_nat (length arr - 1)) <= inject_Z (Z.of_nat u)
      /\ nth_error (isort Qle_bool arr) l = Some a /\ nth_error (isort Qle_bool arr) u = Some b /\ a <= v <= b.
Proof. exact quantile_between. Qed.
Print Assumptions C54_between.
(** … it is the point of the segment between them at that position *)
Theorem C54_interpolates :
  forall arr q, arr <> [] -> 0 <= q <= 1 ->
    exists l u a b w v, (l <= u <= S l)%nat /\ (u < length arr)%nat
      /\ q * inject_Z (Z.of_nat (length arr - 1)) == inject_Z (Z.of_nat l) + w
      /\ 0 <= w /\ w <= 1 /\ (l = u -> w == 0)
      /\ nth_error (isort Qle_bool arr) l = Some a /\ nth_error (isort Qle_bool arr) u = Some b
      /\ quantile exact exact arr q = Ok v /\ v == a * (1 - w) + b * w.
Proof. exact exact_shape. Qed.
Print Assumptions C54_interpolates.
(** … and it grows with [q]. *)
Theorem C54_monotone :
  forall arr q1 q2 v1 v2, arr <> [] -> 0 <= q1 -> q1 <= q2 -> q2 <= 1 ->
    quantile exact exact arr q1 = Ok v1 -> quantile exact exact arr q2 = Ok v2 -> v1 <= v2.
Proof. exact quantile_monotone. Qed.
Print Assumptions C54_monotone.
(** With rounding of relative error at most [e] it leaves that range by at most [4 e M], [M]
    bounding the data. *)
Theorem C54_rounded_near :
  forall rnd64 rnd32 e arr q v M, monotone rnd64 -> monotone rnd32 ->
    (forall z, (0 <= z < Z.of_nat (length arr))%Z -> rnd64 (inject_Z z) == inject_Z z) -> rnd64 1 == 1 -> rnd32 0 == 0 -> rnd32 1 == 1 ->
    (forall x, Qabs (rnd32 x - x) <= e * Qabs x) -> 0 <= e <= 1 # 4 -> arr <> [] -> 0 <= q <= 1 -> (forall x, In x arr -> - M <= x <= M) ->
    quantile rnd64 rnd32 arr q = Ok v ->
    exists i a b, nth_error (isort Qle_bool arr) i = Some a /\ nth_error (isort Qle_bool arr) (Nat.min (S i) (length arr - 1)) = Some b
      /\ a - 4 * e * M <= v <= b + 4 * e * M.
Proof. exact quantile_rounded_near. Qed.
Print Assumptions C54_rounded_near.
(** It does leave it: with f64 and f32 roundings the 0.1-quantile of [3, 3] is below 3. *)
Theorem C54_between_refuted :
  let f64 := round_to 53 in let f32 := round_to 24 in let q := round_to 53 (1 # 10) in
  exists v, quantile f64 f32 [3; 3] q = Ok v /\ v < 3.
Proof. exact quantile_leaves_data. Qed.
Print Assumptions C54_between_refuted.
(** The sorted array is the data in order. *)
Theorem C54_order_statistics : forall arr, Permutation (isort Qle_bool arr) arr /\ StronglySorted Qle (isort Qle_bool arr).
Proof. exact order_statistics. Qed.
Print Assumptions C54_order_statistics.
(** [quantiles] is [quantile] at each point, for every rounding and every array. *)
Theorem C54_pointwise : forall rnd64 rnd32 arr qs, quantiles rnd64 rnd32 arr qs = mapM (quantile rnd64 rnd32 arr) qs.
Proof. exact quantiles_pointwise. Qed.
Print Assumptions C54_pointwise.
Example C54_example :
  quantile (round_to 53) (round_to 24) [4; 1; 3; 2] (1 # 2) = Ok (5 # 2)
  /\ quantile (round_to 53) (round_to 24) [4; 1; 3; 2] 1 = Ok 4
  /\ (exists v, quantile exact exact [4; 1; 3; 2] (1 # 3) = Ok v /\ v == 2)
  /\ round_to 24 (1 # 10) = 13421773 # 134217728 /\ round_to 24 (inject_Z 16777217) = 16777216.
Proof. repeat split; try (vm_compute; reflexivity). eexists. split; vm_compute; reflexivity. Qed.
