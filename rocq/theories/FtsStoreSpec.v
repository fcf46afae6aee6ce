(** Specification: the full-text rows belong to the documents of the collection. *)
From Verif Require Import Base F32 IndexModel IndexSpec.
From Verif Require Import Text MetaModel MetaSpec SyncModel SyncSpec FtsText FtsStore.
Open Scope nat_scope.

(** The text stored for row [i], and the places of term [t] in row [i] according to the index:
    row [i] is found by [t] if there is one. *)
Definition text_of (f : fts) (i : Z) : option text :=
  match ft_tables f with Some tb => content_at (tb_content tb) i | None => None end.
Definition places_of (f : fts) (i : Z) (t : text) : list nat :=
  match ft_tables f with Some tb => tb_places tb i t | None => [] end.
(** The metadata item of document [i] of a collection. *)
Definition item_of (L : collection) (i : Z) : option json := at_pos (map snd L) i.

(** The text [x] is built from item [v] of document [i]: from its values, or from the values
    stored in its row of the database [m]. *)
Definition built_from (X : fts_engine) (m : store) (i : Z) (v : json) (x : text) : Prop :=
  x = metadata_to_text X v
  \/ exists id row, cells m i = Some (id :: row)
       /\ x = join [32%Z] (flat_map (value_text X) (map (fun c => snd (snd c)) row)).
(** What FTS5 indexes for a row with text [x] under tokenizer [k]. *)
Definition indexed_terms (X : fts_engine) (k : fts_tokenizer) (x : text) : list text :=
  x_terms X (is_trigram k) (prepare_document_text x k).
Definition rows_follow (X : fts_engine) (m : store) (L : collection) (f : fts) : Prop :=
  forall i x, text_of f i = Some x -> exists v, item_of L i = Some v /\ built_from X m i v x.
Definition index_follows (X : fts_engine) (f : fts) : Prop :=
  forall i t, places_of f i t =
    match text_of f i, ft_config f with
    | Some x, Some k => places t (indexed_terms X k x)
    | _, _ => []
    end.
Definition rows_complete (L : collection) (f : fts) : Prop :=
  forall i, item_of L i <> None -> text_of f i <> None.

(** State after creating a collection and a well-formed, disciplined sequence of calls. *)
Definition freached (V : env) (E : engine) (X : fts_engine) (D : nat) (docs0 : list doc) (g0 : config)
    (md0 : option (list json)) (k0 : fts_tokenizer) (ops : list (sop * fts_tokenizer))
    (outs : list (res (list Z))) (s : synced) (f : fts) : Prop :=
  1 <= D /\ good_kmeans D (v_kmeans V) /\ good_engine E /\ dim_ok D docs0 /\ items_ok md0
  /\ Forall (fun o => sop_ok (fst o)) ops
  /\ Forall (op_ok D) (flat_map index_ops (map fst ops)) /\ disciplined true false (flat_map index_ops (map fst ops))
  /\ frun X V E docs0 g0 md0 k0 ops = Ok (outs, (s, f)).
(** Histories of interest: no identifier-aware tokenizer; no deletion; metadata only added
    through the calls that index it, always with tokenizer [k]. *)
Definition no_identifiers (k0 : fts_tokenizer) (ops : list (sop * fts_tokenizer)) : Prop :=
  k0 <> IdentifierAware /\ Forall (fun o => snd o <> IdentifierAware) ops.
Definition no_deletion (ops : list (sop * fts_tokenizer)) : Prop :=
  Forall (fun o => match fst o with SDelete _ => False | _ => True end) ops.
Definition all_indexed (k : fts_tokenizer) (ops : list (sop * fts_tokenizer)) : Prop :=
  Forall (fun o => snd o = k /\ match fst o with SAdd _ _ (Some _) => False | _ => True end) ops.

(** Row [i] is found by the term [t]. *)
Definition matches (f : fts) (i : Z) (t : text) : Prop := places_of f i t <> [].

(** [v] is [w] or occurs in it, in an object or an array. *)
Inductive occurs_in (v : json) : json -> Prop :=
| oi_self : occurs_in v v
| oi_obj o k w : In (k, w) o -> occurs_in v w -> occurs_in v (JObj o)
| oi_arr l w : In w l -> occurs_in v w -> occurs_in v (JArr l).
(** [s] stands in [x] between spaces or at an end. *)
Definition word_of (s x : text) : Prop :=
  exists a b, x = a ++ s ++ b /\ (a = [] \/ exists a', a = a' ++ [32%Z]) /\ (b = [] \/ exists b', b = 32%Z :: b').
