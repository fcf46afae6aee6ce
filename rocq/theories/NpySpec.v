(** Specification of arrays in files: what counts as an array of each kind. *)
From Verif Require Import Base Text Npy.
Open Scope Z_scope.

(** Bit patterns of [w] bytes. *)
Definition patterns (w : nat) (data : list Z) : Prop := Forall (fun x => 0 <= x < 256 ^ Z.of_nat w) data.
(** Signed numbers of [w] bytes. *)
Definition numbers (w : nat) (data : list Z) : Prop :=
  Forall (fun x => - 2 ^ (8 * Z.of_nat w - 1) <= x < 2 ^ (8 * Z.of_nat w - 1)) data.
(** A two-dimensional array that fits in memory (the limit is [isize::MAX] bytes; 2^20 leaves room for
    the header). *)
Definition array2_ok (w : nat) (nrows ncols : Z) (data : list Z) : Prop :=
  0 <= nrows < 2 ^ 63 /\ 0 <= ncols < 2 ^ 63 /\ Z.of_nat (length data) = nrows * ncols /\ nrows * ncols * Z.of_nat w < 2 ^ 63 - 2 ^ 20
  /\ patterns w data.
Definition array1_ok (w : nat) (data : list Z) : Prop := Z.of_nat (length data) * Z.of_nat w < 2 ^ 63 - 2 ^ 20.
(** The element types written by the code. *)
Definition dtypes : list text := [txt "<i8"; txt "|u1"; txt "<f4"; txt "<i4"].
(** [from_utf8] accepts ASCII text as it is. *)
Definition good_utf8 (utf8 : bytes -> option text) : Prop := forall b, ascii_text b -> utf8 b = Some b.
(** rows [a..b] of the array *)
Definition rows_of (data : list Z) (ncols a b : Z) : list Z := firstn (Z.to_nat ((b - a) * ncols)) (skipn (Z.to_nat (a * ncols)) data).
(** The file [f] is a header, from which the shape is read, followed by the elements [data] of
    [w] bytes. *)
Definition holds (U : unicode) (utf8 : bytes -> option text) (w : nat) (f : bytes) (shape data : list Z) : Prop :=
  exists h fo, f = h ++ flat_map (le_bytes w) data /\ parse_npy_header U utf8 f = Ok (shape, size h, fo) /\ size h < 2 ^ 20.
