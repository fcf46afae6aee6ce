(** Specification of the merged files: what array the chunk files of a directory stand for, and
    when the modification times can be trusted. *)
From Verif Require Import Base Text Npy Merge.
Open Scope nat_scope.

Section SPEC.
  Context {A : Type}.
  (** rows of chunk [i] *)
  Definition rows_at (v : version A) (i : nat) : list A := match v_chunks v i with Some k => k_rows k | None => [] end.
  (** all rows, chunk after chunk *)
  Definition all_rows (v : version A) : list A := flat_map (rows_at v) (seq 0 (v_num v)).
  (** columns: those of the last chunk file present *)
  Definition columns (v : version A) : nat :=
    match find (fun i => match v_chunks v i with Some _ => true | None => false end) (rev (seq 0 (v_num v))) with
    | Some i => match v_chunks v i with Some k => k_cols k | None => 0 end
    | None => 0
    end.
  (** the array of the directory: every row, then the padding rows *)
  Definition array (zero_row : nat -> A) (v : version A) : list A := all_rows v ++ repeat (zero_row (columns v)) (v_padding v).

  (** Number of rows and modification time of chunk [i], when it has rows. *)
  Definition stamp (v : version A) (i : nat) : option (nat * Z) :=
    if i <? v_num v
    then match v_chunks v i with
         | Some k => match k_rows k with [] => None | r => Some (length r, k_mtime k) end
         | None => None end
    else None.
  Definition same_stamps (v w : version A) : Prop := forall i, stamp v i = stamp w i.
  (** metadata.json has a modification time, the same one up to less than a millisecond *)
  Definition same_meta_time (v w : version A) : Prop :=
    (0 < meta_mtime v)%Z /\ (Z.abs (meta_mtime v - meta_mtime w) < 1000000)%Z.
  Definition same_array (v w : version A) : Prop :=
    all_rows v = all_rows w /\ v_padding v = v_padding w /\ columns v = columns w.

  (** Equal times mean equal arrays: whenever an earlier version has the times of a later one, it
      also has its array. *)
  Definition times_tell (vs : list (version A)) : Prop :=
    forall i k v w, i <= k -> nth_error vs i = Some v -> nth_error vs k = Some w ->
      v_padding v = v_padding w -> same_stamps v w \/ (v_num v = v_num w /\ same_meta_time v w) -> same_array v w.
  (** In addition no version in between had another array. *)
  Definition times_never_return (vs : list (version A)) : Prop :=
    forall i j k v u w, i <= j -> j <= k -> nth_error vs i = Some v -> nth_error vs j = Some u -> nth_error vs k = Some w ->
      v_padding v = v_padding w -> same_stamps v w \/ (v_num v = v_num w /\ same_meta_time v w) -> same_array u w.

  (** no merge of the history was interrupted (a merge makes at most four changes) *)
  Definition merges_complete (es : list (event A)) : Prop := Forall (fun e => match e with Merge k => 4 <= k | _ => True end) es.
End SPEC.

(** Every row of every chunk file has the columns of the directory. *)
Definition regular (v : version bytes) : Prop :=
  forall i k, i < v_num v -> v_chunks v i = Some k -> k_cols k = columns v /\ Forall (fun r => length r = columns v /\ Forall (fun x => 0 <= x < 256)%Z r) (k_rows k).
(** Every change of the directory is followed by a complete clear before anything else (as
    update.rs 1117 and delete.rs 263 do). *)
Inductive cleared {A} : list (event A) -> Prop :=
  | cleared_nil : cleared []
  | cleared_edit v k es : 2 <= k -> cleared es -> cleared (Edit v :: Clear k :: es)
  | cleared_merge k es : cleared es -> cleared (Merge k :: es)
  | cleared_clear k es : cleared es -> cleared (Clear k :: es).
(** padding rows of residuals are zero bytes *)
Definition residual_array (v : version bytes) : list bytes := array (fun c => repeat 0%Z c) v.
(** The three ways in which a history can be trusted: its merges ran to the end and equal times
    mean equal arrays; or, with merges stopped anywhere, arrays never come back to earlier times;
    or every change was followed by a clear, and then nothing is asked of the times. *)
Definition trusted {A} (vs : list (version A)) (es : list (event A)) : Prop :=
  (merges_complete es /\ times_tell vs) \/ times_never_return vs \/ cleared es.
