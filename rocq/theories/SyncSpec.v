(** Specification: a collection is a list of documents, each with its metadata item or none. *)
From Verif Require Import Base F32 IndexModel IndexSpec.
From Verif Require Import Text MetaModel MetaSpec SyncModel.
Open Scope nat_scope.

Definition collection := list (doc * option json).
Definition bare (docs : list doc) : collection := map (fun d => (d, None)) docs.
Definition with_items (docs : list doc) (md : list json) : collection := combine docs (map Some md).
Definition positions (a n : nat) : list Z := map Z.of_nat (seq a n).

(** Adding documents, possibly with metadata: what the caller gets and the collection then.
    When the metadata are refused, the caller gets an error and the documents are there without
    metadata. *)
Inductive adds (L : collection) (docs : list doc) : option (list json) -> res (list Z) -> collection -> Prop :=
| add_plain : adds L docs None (Ok (positions (length L) (length docs))) (L ++ bare docs)
| add_items md : length md = length docs ->
    adds L docs (Some md) (Ok (positions (length L) (length docs))) (L ++ with_items docs md)
| add_wrong_length md : length md <> length docs -> adds L docs (Some md) Err L
| add_refused md r : length md = length docs -> (forall ids, r <> Ok ids) -> adds L docs (Some md) r (L ++ bare docs).
Inductive calls (L : collection) : sop -> res (list Z) -> collection -> Prop :=
| call_add docs g md r L' : adds L docs md r L' -> calls L (SAdd docs g md) r L'
| call_add_path docs g md r L' : adds L docs md r L' -> calls L (SAddPath docs g md) r L'
| call_append docs g : calls L (SAppend docs g) (Ok (positions (length L) (length docs))) (L ++ bare docs)
| call_delete ids r : (forall out, r = Ok out -> out = [Z.of_nat (length L - length (delete_positions ids L))]) ->
    calls L (SDelete ids) r (delete_positions ids L)
| call_reload : calls L SReload (Ok []) L.
Inductive call_history : collection -> list sop -> list (res (list Z)) -> collection -> Prop :=
| ch_nil L : call_history L [] [] L
| ch_cons L o r L1 ops rs L2 : calls L o r L1 -> call_history L1 ops rs L2 -> call_history L (o :: ops) (r :: rs) L2.

(** The metadata database describes the collection: document [i] has a row exactly if it has an
    item, and the row holds that item. *)
Definition described (E : engine) (m : store) (L : collection) : Prop :=
  forall i, match (if (i <? 0)%Z then None else nth_error L (Z.to_nat i)) with
            | Some (_, Some v) => exists f, row_at E m i = Some f /\ reflects E m v f
            | _ => row_at E m i = None
            end.

(** The operations on the index proper behind the calls. *)
Definition index_ops (o : sop) : list op :=
  match o with
  | SAdd docs g md => if bad_length docs md then [] else [OUpdate docs g]
  | SAddPath docs g md => if bad_length docs md then [] else [OReload; OUpdate docs g]
  | SAppend docs g => [OAppend docs g]
  | SDelete ids => [ODelete ids]
  | SReload => [OReload]
  end.
(** Items are objects with distinct keys. *)
Definition items_ok (md : option (list json)) : Prop := match md with Some l => Forall item_ok l | None => True end.
Definition sop_ok (o : sop) : Prop :=
  match o with SAdd _ _ md | SAddPath _ _ md => items_ok md | _ => True end.
(** State after creating a collection and a well-formed, disciplined sequence of calls whose
    index part succeeded; the metadata part may fail. *)
Definition sreached (V : env) (E : engine) (D : nat) (docs0 : list doc) (g0 : config) (md0 : option (list json))
    (ops : list sop) (outs : list (res (list Z))) (s : synced) : Prop :=
  1 <= D /\ good_kmeans D (v_kmeans V) /\ good_engine E /\ dim_ok D docs0 /\ items_ok md0 /\ Forall sop_ok ops
  /\ Forall (op_ok D) (flat_map index_ops ops) /\ disciplined true false (flat_map index_ops ops)
  /\ srun V E docs0 g0 md0 ops = Ok (outs, s).
