(** Specification of the codec, independent of the bit layout. *)
From Verif Require Import Base F32.

(** Number of cutoffs strictly below the value (0 for NaN, which is below nothing). *)
Definition bucket (cutoffs : list f32) (v : f32) : nat :=
  length (filter (fun c => f_lt c v) cutoffs).

(** What quantising then decompressing one residual row must give (before normalisation). *)
Definition decoded_row (fadd : f32 -> f32 -> f32) (centroid weights cutoffs row : list f32)
  : list f32 :=
  map (fun cv => fadd (fst cv) (nth (bucket cutoffs (snd cv)) weights f_zero))
      (combine centroid row).

(** [i] is the index the documentation promises: maximal, and the last such index. *)
Definition better (a b : f32) : Prop :=          (* a beats b *)
  match is_finite a, is_finite b with
  | true, true => (fkey b < fkey a)%Z
  | true, false => True
  | false, _ => False
  end.
Definition is_last_argmax (scores : list f32) (i : nat) : Prop :=
  exists s, nth_error scores i = Some s
    /\ (forall j t, nth_error scores j = Some t -> ~ better t s)
    /\ (forall j t, nth_error scores j = Some t -> i < j -> better s t).
