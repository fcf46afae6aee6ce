(** What C102 says about processes that share an index directory. *)
From Verif Require Import Base Shared.
Open Scope nat_scope.

(** What a loaded index shows of the three files it maps. *)
Definition seen (w : world) (m : maps) : bytes * bytes * bytes := (data w (m_centroids m), data w (m_codes m), data w (m_residuals m)).

(** The changes the library makes to the files: centroids.npy is only ever replaced as a whole; other
    files are replaced, rewritten in place or removed; the merged files and the locks are left to
    [clear_merged_files] and the merges. *)
Definition by_library (o : wop) : Prop :=
  match o with
  | Replace Centroids _ | Replace (Other _) _ | Rewrite (Other _) _ | Remove (Other _) => True
  | _ => False
  end.
(** A schedule of loads, writes by the library and kills, without conversion of an old index. *)
Definition ordinary (l : list (nat * choice)) : Prop :=
  Forall (fun pc => match snd pc with BeginWrite todo _ => Forall by_library todo | ConvertIt _ => False | _ => True end) l.
(** What was written: by some writer to centroids.npy, by some merge of the codes, or of the residuals, to its merged file. *)
Definition a_centroids_file (l : list (nat * choice)) (b : bytes) : Prop := exists p todo clear, In (p, BeginWrite todo clear) l /\ In (Replace Centroids b) todo.
Definition a_merged_file (l : list (nat * choice)) (a : arr) (b : bytes) : Prop := exists p pieces, In (p, Rebuild a pieces) l /\ b = concat pieces.
(** The same, with conversions of an old index (centroids.npy written in place by [load]). *)
Definition with_conversion (l : list (nat * choice)) : Prop :=
  Forall (fun pc => match snd pc with BeginWrite todo _ => Forall by_library todo | _ => True end) l.
(** The same, with removals of the directory (delete an index in the API, colgrep clear): any file may go. *)
Definition with_removal (l : list (nat * choice)) : Prop :=
  Forall (fun pc => match snd pc with BeginWrite todo _ => Forall (fun o => by_library o \/ exists f, o = Remove f) todo | ConvertIt _ => False | _ => True end) l.
