(** The index together with its metadata database (index.rs 1592-1848). *)
From Verif Require Import Base F32 IndexModel IndexSpec.
From Verif Require Import Text MetaModel.
Open Scope nat_scope.

(** Directory and handle of the index, and the metadata database.  The full-text tables kept in
    the same database are modelled in Fts*.v and left out here. *)
Definition synced : Type := (disk * IndexModel.metadata) * store.

(** Calls: [SAdd] is [update_with_metadata] on the open handle (index.rs 1592); [SAddPath] is
    [update_or_create_with_metadata] on an existing index (index.rs 1719), which opens its own
    handle; [SAppend] is [update_append] (index.rs 1675); [SDelete] is [delete] (index.rs 1788). *)
Inductive sop :=
| SAdd (docs : list doc) (g : config) (md : option (list json))
| SAddPath (docs : list doc) (g : config) (md : option (list json))
| SAppend (docs : list doc) (g : config)
| SDelete (ids : list Z)
| SReload.

(** filtering.rs 585 [exists] *)
Definition db_exists (m : store) : bool := match m with NoDb => false | _ => true end.

(** index.rs 1605-1613 and 1726-1734: the length check *)
Definition bad_length (docs : list doc) (md : option (list json)) : bool :=
  match md with Some l => negb (length l =? length docs) | None => false end.

(** What a call returns once the index part has succeeded and returned [out]: an error of the
    metadata part is returned to the caller, the index part stays done. *)
Definition after_metadata (out : list Z) (r : res nat) : res (list Z) :=
  match r with Ok _ => Ok out | Err => Err | Panic => Panic end.

Section SYNC.
  Variable V : env.
  Variable E : engine.

  (** index.rs 1618-1622: rows for the new documents, in an existing database *)
  Definition add_rows (m : store) (md : option (list json)) (ids : list Z) : store * res nat :=
    match md with None => (m, Ok 0) | Some l => MetaModel.update E m l ids end.
  (** index.rs 1747-1752: the same, creating the database if there is none *)
  Definition add_or_create_rows (m : store) (md : option (list json)) (ids : list Z) : store * res nat :=
    match md with
    | None => (m, Ok 0)
    | Some l => if db_exists m then MetaModel.update E m l ids else MetaModel.create E m l ids
    end.
  (** index.rs 1815-1844: rows are deleted only if documents were, and if there is a database *)
  Definition delete_metadata_rows (m : store) (deleted : Z) (ids : list Z) : store * res nat :=
    if (0 <? deleted)%Z && db_exists m then MetaModel.delete m ids else (m, Ok 0).

  (** One call.  The outer [Err]/[Panic] is a failure of the index part (nothing is claimed then);
      the inner result is what the caller gets. *)
  Definition sexec (s : synced) (o : sop) : res (res (list Z) * synced) :=
    let '(i, m) := s in
    match o with
    | SAdd docs g md =>
      if bad_length docs md then Ok (Err, s)
      else bind (step V i (OUpdate docs g)) (fun r => let '(ids, i') := r in
           let (m', mr) := add_rows m md ids in Ok (after_metadata ids mr, (i', m')))
    | SAddPath docs g md =>
      if bad_length docs md then Ok (Err, s)
      else bind (step V i OReload) (fun r => let '(_, i1) := r in
           bind (step V i1 (OUpdate docs g)) (fun r => let '(ids, i') := r in
           let (m', mr) := add_or_create_rows m md ids in Ok (after_metadata ids mr, (i', m'))))
    | SAppend docs g => bind (step V i (OAppend docs g)) (fun r => let '(ids, i') := r in Ok (Ok ids, (i', m)))
    | SDelete ids => bind (step V i (ODelete ids)) (fun r => let '(out, i') := r in
        let (m', mr) := delete_metadata_rows m (hd 0%Z out) ids in Ok (after_metadata out mr, (i', m')))
    | SReload => bind (step V i OReload) (fun r => let '(_, i') := r in Ok (Ok [], (i', m)))
    end.
  Fixpoint sexec_all (s : synced) (ops : list sop) : res (list (res (list Z)) * synced) :=
    match ops with
    | [] => Ok ([], s)
    | o :: os => bind (sexec s o) (fun r => let '(out, s') := r in
        bind (sexec_all s' os) (fun r' => let '(outs, s'') := r' in Ok (out :: outs, s'')))
    end.
  (** index.rs 1719-1757 in an empty directory: create the index, then the database. *)
  Definition screate (docs0 : list doc) (g0 : config) (md0 : option (list json)) : res (res (list Z) * synced) :=
    if bad_length docs0 md0 then Err
    else bind (run V docs0 g0 []) (fun r => let '(_, i) := r in
         let ids := map Z.of_nat (seq 0 (length docs0)) in
         let (m, mr) := add_or_create_rows NoDb md0 ids in Ok (after_metadata ids mr, (i, m))).
  Definition srun (docs0 : list doc) (g0 : config) (md0 : option (list json)) (ops : list sop)
    : res (list (res (list Z)) * synced) :=
    bind (screate docs0 g0 md0) (fun r => let '(out, s) := r in
    bind (sexec_all s ops) (fun r' => let '(outs, s') := r' in Ok (out :: outs, s'))).
End SYNC.
