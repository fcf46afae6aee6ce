(** Numeric helpers (next-plaid/src/utils.rs 94-149, 234-280). *)
From Coq Require Import QArith Qround.
From Verif Require Import Base.
Open Scope nat_scope.

Section PAD.
  Variable A : Type.
  Variable pad_value : A.
  (** an [Array2]: number of columns and rows *)
  Definition array2 := (nat * list (list A))%type.
  (** utils.rs 272-274: row [p] of the array := the first [dim] entries of [r] *)
  Definition put_row (dim : nat) (m : list (list A)) (p : nat) (r : list A) : res (list (list A)) :=
    bind (mapM (idx r) (seq 0 dim)) (fun v => if p <? length m then Ok (upd m p v) else Panic).
  Fixpoint put_rows (dim : nat) (m : list (list A)) (p : nat) (rs : list (list A)) : res (list (list A)) :=
    match rs with
    | [] => Ok m
    | r :: rs => bind (put_row dim m p r) (fun m => put_rows dim m (S p) rs)
    end.
  Fixpoint put_docs (dim max_len : nat) (m : list (list A)) (i : nat) (docs : list array2) : res (list (list A)) :=
    match docs with
    | [] => Ok m
    | d :: ds => bind (put_rows dim m (i * max_len) (snd d)) (fun m => put_docs dim max_len m (S i) ds)
    end.
  (** utils.rs 257-280 [pad_sequences]: the padded array (columns, rows) and the lengths *)
  Definition pad_sequences (docs : list array2) : res (array2 * list Z) :=
    match docs with
    | [] => Ok ((0, []), [])
    | d0 :: _ =>
      let max_len := fold_right Nat.max 0 (map (fun d => length (snd d)) docs) in
      let dim := fst d0 in
      bind (put_docs dim max_len (repeat (repeat pad_value dim) (length docs * max_len)) 0 docs) (fun m =>
      Ok ((dim, m), map (fun d => Z.of_nat (length (snd d))) docs))
    end.
End PAD.
Arguments pad_sequences {A} _ _.
Arguments put_docs {A}. Arguments put_rows {A}. Arguments put_row {A}.

(** [as usize] of an i64 (two's complement) *)
Definition as_usize (z : Z) : Z := if (z <? 0)%Z then (z + 2 ^ 64)%Z else z.
(** utils.rs 234-245 [create_mask] *)
Definition create_mask (lengths : list Z) (max_len : nat) : list (list bool) :=
  map (fun len => map (fun j => (Z.of_nat j <? Z.min (as_usize len) (Z.of_nat max_len))%Z) (seq 0 max_len)) lengths.

(** Finite floats are rationals here, and an operation is the exact one followed by a rounding:
    [rnd64] and [rnd32].  Infinities and NaN are not covered. *)
Section QUANTILE.
  Variables rnd64 rnd32 : Q -> Q.
  (** utils.rs 99-112 / 135-147, after sorting *)
  Definition quantile_sorted (sorted : list Q) (q : Q) : res Q :=
    let n := length sorted in
    let idx_float := rnd64 (q * rnd64 (inject_Z (Z.of_nat (n - 1))))%Q in
    let lower := Z.to_nat (Qfloor idx_float) in
    let upper := Z.to_nat (Qceiling idx_float) in
    if lower =? upper then idx sorted lower
    else
      let weight := rnd32 (rnd64 (idx_float - inject_Z (Z.of_nat lower)))%Q in
      bind (idx sorted lower) (fun a => bind (idx sorted upper) (fun b =>
      Ok (rnd32 (rnd32 (a * rnd32 (1 - weight)) + rnd32 (b * weight)))%Q)).
  (** utils.rs 94-113 [quantile] *)
  Definition quantile (arr : list Q) (q : Q) : res Q :=
    match arr with [] => Ok 0%Q | _ => quantile_sorted (isort Qle_bool arr) q end.
  (** utils.rs 125-149 [quantiles] *)
  Definition quantiles (arr : list Q) (qs : list Q) : res (list Q) :=
    match arr with
    | [] => Ok (repeat 0%Q (length qs))
    | _ => let sorted := isort Qle_bool arr in mapM (quantile_sorted sorted) qs
    end.
End QUANTILE.
