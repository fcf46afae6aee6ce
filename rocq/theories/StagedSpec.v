(** What it means that two directories hold the same index, and how documents are divided. *)
From Verif Require Import Base F32 CodecModel IndexModel.
Open Scope nat_scope.

Definition same_files (d d' : disk) : Prop :=
  f_meta d = f_meta d' /\ f_centroids d = f_centroids d' /\ f_cutoffs d = f_cutoffs d' /\ f_weights d = f_weights d' /\
  f_threshold d = f_threshold d' /\ f_ivf d = f_ivf d' /\ f_ivf_lengths d = f_ivf_lengths d' /\
  (forall i, f_doclens d i = f_doclens d' i /\ f_codes d i = f_codes d' i /\ f_residuals d i = f_residuals d' i /\ f_cmeta d i = f_cmeta d' i) /\
  f_buffer d = f_buffer d' /\ f_buffer_lengths d = f_buffer_lengths d' /\ f_buffer_info d = f_buffer_info d' /\
  f_emb d = f_emb d' /\ f_emb_lengths d = f_emb_lengths d'.
(** Batches of [size], the last one may be smaller but not empty. *)
Inductive batches_of {A} (size : nat) : list (list A) -> Prop :=
| batches_last b : 1 <= length b <= size -> batches_of size [b]
| batches_more b bs : length b = size -> batches_of size bs -> batches_of size (b :: bs).
