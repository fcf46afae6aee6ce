(** Read handlers of the HTTP API: metadata check/get and search (handlers/metadata.rs 38-290,
    handlers/search.rs 81-413).  Each handler is modelled on the state of the index and of the
    database it reads; what a concurrent writer may do in between is discussed in PropsRead.v. *)
From Verif Require Import Base F32 Text SqlModel MetaModel MetaQuery FtsRank ApiEmbed.
Open Scope nat_scope.

(** [serde_json::Value::get(key)] on an object, [as_i64] *)
Definition json_get (v : json) (k : text) : option json :=
  match v with JObj o => option_map snd (find (fun p => text_eqb (fst p) k) o) | _ => None end.
Definition as_i64 (v : json) : option Z :=
  match v with JInt z => if (- 2 ^ 63 <=? z)%Z && (z <? 2 ^ 63)%Z then Some z else None | _ => None end.
(** [m.get("_subset_").and_then(|v| v.as_i64())] (search.rs 98, metadata.rs 82) *)
Definition subset_of (m : json) : option Z :=
  match json_get m subset_column with Some v => as_i64 v | None => None end.
Definition store_exists (s : store) : bool := match s with NoDb => false | _ => true end.

Section READ.
  Variable U : unicode.
  Variable E : engine.
  Variable reg : option (text -> bool).

  (** search.rs 81-107 [fetch_metadata_for_docs].  The hash map is the list of its insertions,
      latest first. *)
  Definition meta_map (l : list json) : list (Z * json) :=
    fold_left (fun m v => match subset_of v with Some id => (id, v) :: m | None => m end) l [].
  Definition fetch_metadata_for_docs (s : store) (ids : list Z) : res (list (option json)) :=
    if negb (store_exists s) then Ok (repeat None (length ids))
    else bind (get U E reg s None [] (Some ids)) (fun l =>
         Ok (map (fun id => option_map snd (find (fun p => (fst p =? id)%Z) (meta_map l))) ids)).

  (** metadata.rs 38-125 [check_metadata], on an index that exists: existing and missing ids
      (their counts are the lengths of the two lists) *)
  Definition check_metadata (s : store) (ids : list Z) : res (list Z * list Z) :=
    match ids with
    | [] => Ok ([], [])
    | _ =>
      if negb (store_exists s) then Err
      else bind (get U E reg s None [] (Some ids)) (fun found =>
           let existing := flat_map (fun m => match subset_of m with Some z => [z] | None => [] end) found in
           Ok (filter (fun id => zmem id existing) ids, filter (fun id => negb (zmem id existing)) ids))
    end.

  (** metadata.rs 215-290 [get_metadata], on an index that exists *)
  Definition get_metadata (s : store) (condition : option text) (params : list json) (ids : option (list Z))
      (limit : option nat) : res (list json) :=
    match ids, condition with
    | Some _, Some _ => Err
    | _, _ =>
      if negb (store_exists s) then Err
      else bind (get U E reg s condition params ids) (fun l =>
           Ok (match limit with Some n => firstn n l | None => l end))
    end.

  (** ** Search *)
  Variable A : arith.
  Notation F := (num A).
  Variable iter : list (Z * F) -> list (Z * F).
  (** The index as search sees it: its dimension, [MmapIndex::search] and
      [text_search::search]/[search_filtered]: at most [k] ids with their scores, restricted to
      a list of ids if one is given.  These are modelled in SearchModel.v and FtsRank.v.
      [search_batch] runs [search] on every query and numbers the results (C21). *)
  Record searcher := {
    i_dim : Z;
    i_search : matrix -> nat -> option (list Z) -> res (list Z * list F);
    i_keyword : text -> nat -> option (list Z) -> res (list Z * list F) }.
  Variable X : searcher.
  Variable default_top_k : nat.

  (** models.rs [SearchRequest]; the other search parameters only reach the index. *)
  Record request := {
    r_queries : option (list sent); r_text : option (list text); r_alpha : option F; r_fusion : option text;
    r_top_k : option nat; r_subset : option (list Z); r_filter : option text; r_params : option (list json) }.
  (** models.rs [QueryResultResponse] *)
  Record answer := { a_query : nat; a_ids : list Z; a_scores : list F; a_meta : list (option json) }.

  Variable alpha_default : F.                       (* 0.75 *)
  (** [(0.0..=1.0).contains(&alpha)] *)
  Definition f_le (x y : F) : bool := match f_cmp A x y with Some Lt | Some Eq => true | _ => false end.
  Definition nonempty {B} (o : option (list B)) : bool := match o with Some (_ :: _) => true | _ => false end.
  Definition listed {B} (o : option (list B)) : list B := match o with Some l => l | None => [] end.

  (** search.rs 180-190: a filter replaces the subset of the request *)
  Definition effective_subset (s : store) (r : request) : res (option (list Z)) :=
    match r_filter r with
    | None => Ok (r_subset r)
    | Some c =>
      if negb (store_exists s) then Err
      else bind (where_condition U E reg s c (listed (r_params r))) (fun ids => Ok (Some ids))
    end.
  Definition ncols (m : matrix) : Z := snd (fst m).
  (** search.rs 193-199, 202-209: conversion and dimension check of the queries *)
  Definition to_query (q : sent) : res matrix :=
    bind (to_ndarray q) (fun m => if (ncols m =? i_dim X)%Z then Ok m else Err).
  Definition numbered {B} (l : list B) : list (nat * B) := combine (seq 0 (length l)) l.
  Definition describe (s : store) (r : nat * (list Z * list F)) : res answer :=
    let '(q, (ids, scores)) := r in
    bind (fetch_metadata_for_docs s ids) (fun m => Ok {| a_query := q; a_ids := ids; a_scores := scores; a_meta := m |}).
  (** search.rs 193-262: only embeddings.  All queries are converted before any dimension is
      checked; both failures are errors. *)
  Definition semantic_only (s : store) (qs : list sent) (top_k : nat) (sub : option (list Z)) : res (list answer) :=
    bind (mapM to_ndarray qs) (fun ms =>
    if forallb (fun m => (ncols m =? i_dim X)%Z) ms
    then bind (mapM (fun m => i_search X m top_k sub) ms) (fun rs => mapM (describe s) (numbered rs))
    else Err).
  (** search.rs 340-372: combining the two lists; a failed keyword search counts as absent *)
  Definition truncated (top_k : nat) (r : list Z * list F) : list Z * list F :=
    let l := firstn top_k (combine (fst r) (snd r)) in (map fst l, map snd l).
  Definition fuse (rrf : bool) (alpha : F) (top_k : nat) (sem kw : option (list Z * list F)) : list Z * list F :=
    match sem, kw with
    | Some (si, ss), Some (ki, ks) =>
      if rrf then fuse_rrf A iter si ki alpha top_k else fuse_relative_score A iter si ss ki ks alpha top_k
    | Some r, None => truncated top_k r
    | None, Some r => truncated top_k r
    | None, None => ([], [])
    end.
  (** search.rs 301-382: one text query, with the embedding query of the same position if any;
      only [Err] of the keyword search is swallowed *)
  Definition one_text (s : store) (rrf : bool) (alpha : F) (top_k fetch_k : nat) (sub : option (list Z))
      (iq : nat * (text * option sent)) : res answer :=
    let '(i, (t, q)) := iq in
    bind (match q with
          | Some q => bind (to_query q) (fun m => bind (i_search X m fetch_k sub) (fun r => Ok (Some r)))
          | None => Ok None
          end) (fun sem =>
    bind (match i_keyword X t fetch_k sub with Ok r => Ok (Some r) | Err => Ok None | Panic => Panic end) (fun kw =>
    describe s (i, fuse rrf alpha top_k sem kw))).
  (** search.rs 124-413 [search] *)
  Definition search (s : store) (r : request) : res (nat * list answer) :=
    let has_queries := nonempty (r_queries r) in
    let has_text := nonempty (r_text r) in
    if negb has_queries && negb has_text then Err
    else
    let alpha := match r_alpha r with Some a => a | None => alpha_default end in
    if negb (f_le (f_0 A) alpha && f_le alpha (f_1 A)) then Err
    else
    let fusion := match r_fusion r with Some f => f | None => txt "relative_score" end in
    if negb (text_eqb fusion (txt "rrf")) && negb (text_eqb fusion (txt "relative_score")) then Err
    else if has_queries && has_text && negb (length (listed (r_queries r)) =? 1) then Err
    else
    let top_k := match r_top_k r with Some k => k | None => default_top_k end in
    bind (effective_subset s r) (fun sub =>
    if has_queries && negb has_text then
      bind (semantic_only s (listed (r_queries r)) top_k sub) (fun l => Ok (length (listed (r_queries r)), l))
    else if has_queries && negb (length (listed (r_queries r)) =? length (listed (r_text r))) then Err
    else
      let fetch_k := if has_queries then top_k * 3 else top_k in
      let qs := if has_queries then map Some (listed (r_queries r)) else map (fun _ => None) (listed (r_text r)) in
      bind (mapM (one_text s (text_eqb fusion (txt "rrf")) alpha top_k fetch_k sub)
                 (numbered (combine (listed (r_text r)) qs))) (fun l =>
      Ok (length (listed (r_text r)), l))).
End READ.
