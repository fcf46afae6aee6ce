(** Specification of the background writers of the HTTP API. *)
From Verif Require Import Base F32 IndexModel IndexSpec.
From Verif Require Import Text SqlModel SqlSpec MetaModel MetaQuery MetaSpec SyncModel SyncSpec ApiUpdate.
Open Scope nat_scope.

(** ** Batches *)
(** Several requests put together: all their documents, and all their metadata, in order *)
Definition together {Emb Meta} (is : list (list Emb * list Meta)) : list Emb * list Meta :=
  (flat_map fst is, flat_map snd is).
Definition size {Emb Meta} (is : list (list Emb * list Meta)) : nat := length (flat_map fst is).
(** A request has one metadata item per document. *)
Definition paired {Emb Meta} (i : list Emb * list Meta) : Prop := length (fst i) = length (snd i).
(** The documents of a batch with their metadata *)
Definition pairs_of {Emb Meta} (i : list Emb * list Meta) : list (Emb * Meta) := combine (fst i) (snd i).

(** ** Contents *)
(** The last [n] elements *)
Definition last_n {A} (n : nat) (l : list A) : list A := skipn (length l - n) l.
Definition within {A} (limit : option nat) (l : list A) : list A :=
  match limit with Some n => last_n n l | None => l end.

(** The contents of an index directory: documents with their metadata, followed by documents the
    index has and the database does not. *)
Definition contents : Type := list (doc * json) * list doc.

Section SPEC.
  Variable V : env.
  Variable U : unicode.
  Variable E : engine.
  Variable reg : option (text -> bool).

  Definition described_by (m : store) (L : list (doc * json)) : Prop :=
    described E m (map (fun p => (fst p, Some (snd p))) L).
  (** One condition of a delete request: it is refused, or the documents it selects are removed. *)
  Inductive removes : list (doc * json) -> text * list json -> list (doc * json) -> Prop :=
  | rm_refused L c m : described_by m L -> where_condition U E reg m (fst c) (snd c) = Err -> removes L c L
  | rm_selected L c m ids : described_by m L -> NoDup ids -> (forall i, In i ids <-> selects U E m (fst c) (snd c) i) ->
      removes L c (delete_positions ids L).
  Inductive removes_all : list (doc * json) -> list (text * list json) -> list (doc * json) -> Prop :=
  | rm_nil L : removes_all L [] L
  | rm_cons L c L1 cs L2 : removes L c L1 -> removes_all L1 cs L2 -> removes_all L (c :: cs) L2.

  (** What a call answers and leaves.  [Ok n]: [n] documents were evicted (deleted). *)
  Inductive api_call : contents -> api_op -> res nat -> contents -> Prop :=
  | update_done L X docs md g limit :
      api_call (L, X) (AUpdate docs md g limit)
               (Ok (length (L ++ combine docs md) - length (within limit (L ++ combine docs md))))
               (within limit (L ++ combine docs md), [])
  | update_refused L X docs md g limit : api_call (L, X) (AUpdate docs md g limit) Err (L, [])
  | add_done L docs md g limit :
      api_call (L, []) (AAdd docs md g limit)
               (Ok (length (L ++ combine docs md) - length (within limit (L ++ combine docs md))))
               (within limit (L ++ combine docs md), [])
  | add_refused L docs md g limit : api_call (L, []) (AAdd docs md g limit) Err (L, docs)
  | add_out_of_sync L X docs md g limit : X <> [] -> api_call (L, X) (AAdd docs md g limit) Err (L, X)
  | deleted L X cs L' : removes_all L cs L' -> api_call (L, X) (ADelete cs) (Ok (length L - length L')) (L', []).
  Inductive api_history : contents -> list api_op -> list (res nat) -> contents -> Prop :=
  | ah_nil c : api_history c [] [] c
  | ah_cons c o r c1 os rs c2 : api_call c o r c1 -> api_history c1 os rs c2 -> api_history c (o :: os) (r :: rs) c2.

  (** Requests the handlers let through: documents of one dimension, one metadata object each;
      conditions in ASCII without REGEXP. *)
  Definition api_ok (D : nat) (o : api_op) : Prop :=
    match o with
    | AUpdate docs md _ _ | AAdd docs md _ _ =>
      docs <> [] /\ dim_ok D docs /\ length md = length docs /\ Forall item_ok md
    | ADelete cs => Forall (fun c => ascii_text (fst c) /\ without_regexp U (fst c)) cs
    end.
  Definition api_reached (D : nat) (os : list api_op) (outs : list (res nat)) (s : server) : Prop :=
    1 <= D /\ good_kmeans D (v_kmeans V) /\ good_engine E /\ good_unicode U /\ Forall (api_ok D) os
    /\ api_run V U E reg no_index os = Ok (outs, s).
  (** The directory has these contents: the opened index shows the documents, the database
      describes them. *)
  Definition has_contents (s : server) (c : contents) : Prop :=
    described E (sv_store s) (map (fun p => (fst p, Some (snd p))) (fst c) ++ bare (snd c))
    /\ match sv_index s with
       | Some i => (forall x, load (fst i) = Ok x -> env_shows V x (map fst (fst c) ++ snd c))
                   /\ ((exists x, load (fst i) = Ok x) <-> concat (map fst (fst c) ++ snd c) <> [])
       | None => c = ([], [])
       end.
End SPEC.
