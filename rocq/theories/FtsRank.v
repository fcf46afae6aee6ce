(** Ranking in the full-text search: fusion of two result lists and filtered search
    (text_search.rs 996-1075 and 1246-1342).

    Floating-point arithmetic is a parameter ([arith]): the operations are arbitrary, and
    [f_cmp] is [partial_cmp].  The iteration order of a hash map is a parameter [iter]. *)
From Verif Require Import Base.
Open Scope nat_scope.

Record arith := {
  num : Type;
  f_add : num -> num -> num;
  f_sub : num -> num -> num;
  f_mul : num -> num -> num;
  f_div : num -> num -> num;
  f_min : num -> num -> num;
  f_max : num -> num -> num;
  f_of : nat -> num;                              (* [rank as f32] *)
  f_0 : num;
  f_1 : num;
  f_inf : num;
  f_ninf : num;
  f_cmp : num -> num -> option comparison }.      (* [partial_cmp] *)

Section FUSION.
  Variable A : arith.
  Notation F := (num A).
  Variable iter : list (Z * F) -> list (Z * F).

  (** [b.1.partial_cmp(&a.1).unwrap_or(Equal)]: [x] may stay before [y] *)
  Definition desc (x y : Z * F) : bool :=
    match f_cmp A (snd y) (snd x) with Some Gt => false | _ => true end.
  (** [*scores.entry(id).or_default() += x] *)
  Fixpoint bump (m : list (Z * F)) (c : Z * F) : list (Z * F) :=
    match m with
    | [] => [(fst c, f_add A (f_0 A) (snd c))]
    | p :: r => if (fst p =? fst c)%Z then (fst p, f_add A (snd p) (snd c)) :: r else p :: bump r c
    end.
  (** sort, truncate, and split into ids and scores *)
  Definition ranked (m : list (Z * F)) (top_k : nat) : list Z * list F :=
    let combined := firstn top_k (isort desc (iter m)) in (map fst combined, map snd combined).
  (** [alpha / (RRF_K + rank as f32 + 1.0)] *)
  Definition reciprocal (w : F) (rank : nat) : F :=
    f_div A w (f_add A (f_add A (f_of A 60) (f_of A rank)) (f_1 A)).
  Definition rrf_terms (w : F) (ids : list Z) : list (Z * F) :=
    map (fun p => (fst p, reciprocal w (snd p))) (combine ids (seq 0 (length ids))).
  (** text_search.rs 1006-1024 [fuse_rrf] *)
  Definition fuse_rrf (sem_ids kw_ids : list Z) (alpha : F) (top_k : nat) : list Z * list F :=
    ranked (fold_left bump (rrf_terms alpha sem_ids ++ rrf_terms (f_sub A (f_1 A) alpha) kw_ids) []) top_k.

  (** text_search.rs 1041-1056 [min_max_normalize] *)
  Definition min_max_normalize (ids : list Z) (scores : list F) : list (Z * F) :=
    match scores with
    | [] => []
    | _ =>
      let min := fold_left (f_min A) scores (f_inf A) in
      let max := fold_left (f_max A) scores (f_ninf A) in
      let range := f_sub A max min in
      match f_cmp A range (f_0 A) with
      | Some Eq => map (fun id => (id, f_1 A)) ids
      | _ => map (fun p => (fst p, f_div A (f_sub A (snd p) min) range)) (combine ids scores)
      end
    end.
  Definition weighted (w : F) (l : list (Z * F)) : list (Z * F) := map (fun p => (fst p, f_mul A w (snd p))) l.
  (** text_search.rs 1031-1075 [fuse_relative_score] *)
  Definition fuse_relative_score (sem_ids : list Z) (sem_scores : list F) (kw_ids : list Z) (kw_scores : list F)
      (alpha : F) (top_k : nat) : list Z * list F :=
    ranked (fold_left bump (weighted alpha (min_max_normalize sem_ids sem_scores)
              ++ weighted (f_sub A (f_1 A) alpha) (min_max_normalize kw_ids kw_scores)) []) top_k.
End FUSION.

Section FILTERED.
  Variable A : arith.
  Notation F := (num A).
  (** The rows matching the query with their bm25 score (an f64), as SQLite finds them;
      [order]: its ORDER BY score DESC; [conv]: reading the score as f32. *)
  Variable G : Type.
  Variable order : list (Z * G) -> list (Z * G).
  Variable conv : G -> F.
  (** text_search.rs 1217-1243 [collect_fts_results] *)
  Definition collect (l : list (Z * G)) : list (Z * F) := map (fun p => (fst p, conv (snd p))) l.
  Definition split_pairs (l : list (Z * F)) : list Z * list F := (map fst l, map snd l).
  (** text_search.rs 1246-1270 [search], for a query that is not empty *)
  Definition fts_search (hits : list (Z * G)) (top_k : nat) : list Z * list F :=
    split_pairs (collect (firstn top_k (order hits))).
  Definition zin (z : Z) (l : list Z) : bool := existsb (Z.eqb z) l.
  Definition fts_param_limit : nat := 900.
  (** text_search.rs 1277-1342 [search_filtered], for a query that is not empty *)
  Definition search_filtered (hits : list (Z * G)) (top_k : nat) (subset : list Z) : list Z * list F :=
    match subset with
    | [] => ([], [])
    | _ =>
      let merged := flat_map (fun chunk => collect (firstn top_k (order (filter (fun p => zin (fst p) chunk) hits))))
                             (chunks fts_param_limit subset) in
      split_pairs (firstn top_k (isort (desc A) merged))
    end.
End FILTERED.
