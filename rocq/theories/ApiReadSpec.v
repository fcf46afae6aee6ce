(** Specification of the read handlers. *)
From Verif Require Import Base F32 Text SqlModel SqlSpec MetaModel MetaQuery MetaSpec FtsRank ApiEmbed ApiRead.
Open Scope nat_scope.

Definition i64 (z : Z) : Prop := (- 2 ^ 63 <= z < 2 ^ 63)%Z.
(** The metadata object of document [i], if it has one. *)
Definition shown (E : engine) (s : store) (i : Z) : option json :=
  match row_at E s i with Some f => Some (JObj ((subset_column, JInt i) :: f)) | None => None end.

(** What the search handler needs of the index: a search for a query of its dimension returns at most [k] ids (64-bit
    numbers), as many scores, and only allowed ids. *)
Definition good_result {A : arith} (k : nat) (sub : option (list Z)) (r : list Z * list (num A)) : Prop :=
  length (fst r) = length (snd r) /\ length (fst r) <= k /\ Forall i64 (fst r)
  /\ match sub with Some l => incl (fst r) l | None => True end.
Record good_searcher {A : arith} (X : searcher A) : Prop := {
  gs_search : forall m k sub r, snd (fst m) = i_dim A X -> i_search A X m k sub = Ok r -> good_result k sub r;
  gs_keyword : forall t k sub r, i_keyword A X t k sub = Ok r -> good_result k sub r }.
(** The number of results asked for. *)
Definition wanted {A : arith} (default : nat) (r : request A) : nat := match r_top_k A r with Some k => k | None => default end.
(** The ids a request allows: those its filter selects, or its list of ids, or all. *)
Definition allowed {A : arith} (U : unicode) (E : engine) (s : store) (r : request A) (i : Z) : Prop :=
  match r_filter A r with
  | Some c => selects U E s c (listed (r_params A r)) i
  | None => match r_subset A r with Some l => In i l | None => True end
  end.
(** The list of ids a search is restricted to stands for what the request allows. *)
Definition stands_for {A : arith} (U : unicode) (E : engine) (s : store) (r : request A) (sub : option (list Z)) : Prop :=
  match sub with
  | Some l => forall i, In i l <-> allowed U E s r i
  | None => r_filter A r = None /\ r_subset A r = None
  end.
(** The first [k] results of a list. *)
Definition top {A : arith} (k : nat) (r : list Z * list (num A)) : list Z * list (num A) := (firstn k (fst r), firstn k (snd r)).
(** A handler answers [n] queries in order. *)
Definition in_order {A : arith} (n : nat) (l : list (answer A)) : Prop := length l = n /\ map (a_query A) l = seq 0 n.
(** One answer: as many scores and metadata entries as ids, no more than asked for, only allowed
    ids, each with the metadata stored for it. *)
Definition answer_ok {A : arith} (U : unicode) (E : engine) (s : store) (default : nat) (r : request A) (a : answer A) : Prop :=
  length (a_scores A a) = length (a_ids A a) /\ length (a_ids A a) <= wanted default r
  /\ Forall (allowed U E s r) (a_ids A a) /\ a_meta A a = map (shown E s) (a_ids A a).
(** The content of the answers.  [queries] and [texts] are the lists of the request (an absent
    list is empty). *)
Definition result_of {A : arith} (a : answer A) : list Z * list (num A) := (a_ids A a, a_scores A a).
Definition by_embedding {A : arith} (X : searcher A) (k : nat) (sub : option (list Z)) (q : sent) (a : answer A) : Prop :=
  exists m, to_ndarray q = Ok m /\ snd (fst m) = i_dim A X /\ i_search A X m k sub = Ok (result_of a).
Definition by_keyword {A : arith} (X : searcher A) (k : nat) (sub : option (list Z)) (t : text) (a : answer A) : Prop :=
  i_keyword A X t k sub = Ok (result_of a) \/ i_keyword A X t k sub = Err /\ result_of a = ([], []).
Definition by_both {A : arith} (iter : list (Z * num A) -> list (Z * num A)) (X : searcher A) (rrf : bool) (alpha : num A) (k : nat)
    (sub : option (list Z)) (q : sent) (t : text) (a : answer A) : Prop :=
  exists m si ss, to_ndarray q = Ok m /\ snd (fst m) = i_dim A X /\ i_search A X m (k * 3) sub = Ok (si, ss)
  /\ ((exists ki ks, i_keyword A X t (k * 3) sub = Ok (ki, ks)
       /\ result_of a = if rrf then fuse_rrf A iter si ki alpha k else fuse_relative_score A iter si ss ki ks alpha k)
      \/ i_keyword A X t (k * 3) sub = Err /\ result_of a = top k (si, ss)).
