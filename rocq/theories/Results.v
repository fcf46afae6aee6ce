(** From the hits of the index to the results colgrep prints: ranking, one result per file,
    filters, several paths. *)
From Verif Require Import Base Text FtsRank FtsText.
Open Scope nat_scope.

(** colgrep/src/parser/types.rs 117-153 [CodeUnit], as far as ranking and display need it.
    [u_definition]: its type is function, method, class or constant; [u_text_format]:
    [is_text_format(language)]; [u_code] stands for the remaining fields.  A path is its text;
    paths that differ only in the way they are written are not identified. *)
Record cunit := {
  u_file : text; u_line : nat; u_end : nat; u_name : text; u_definition : bool; u_text_format : bool; u_code : text }.

Section Results.
  Variable A : arith.
  Notation F := (num A).
  (** colgrep/src/index/mod.rs [SearchResult] *)
  Record hit := { h_unit : cunit; h_score : F }.
  Definition with_score (h : hit) (s : F) : hit := {| h_unit := h_unit h; h_score := s |}.
  Definition with_lines (h : hit) (first last : nat) : hit :=
    {| h_unit := {| u_file := u_file (h_unit h); u_line := first; u_end := last; u_name := u_name (h_unit h);
                    u_definition := u_definition (h_unit h); u_text_format := u_text_format (h_unit h); u_code := u_code (h_unit h) |};
       h_score := h_score h |}.
  Definition same_file (a b : hit) : bool := text_eqb (u_file (h_unit a)) (u_file (h_unit b)).

  (** ** ranking.rs *)
  Record tuning := {
    t_penalty : text -> F;               (* file_path_penalty 135-163, of the path *)
    t_lower : text -> text;              (* str::to_lowercase *)
    t_stem : text -> text;               (* Path::file_stem *)
    t_bytes : text -> nat;               (* str::len *)
    t_stopword : text -> bool;           (* STEM_BOOST_STOPWORDS, if the filter is on *)
    t_plural : bool;                     (* COLGREP_STEM_PLURAL_SNAKE *)
    t_definition : F; t_exact : F; t_prefix : F; t_coherence : F;   (* the fractions *)
    t_finite : F -> bool;                (* f32::is_finite *)
    t_iter : list (text * (F * nat)) -> list (text * (F * nat)) }.  (* iteration order of a hash map *)
  Variable T : tuning.
  (** ranking.rs 168-171 [should_apply_path_penalty] *)
  Definition should_apply_path_penalty (q : text) : bool :=
    let l := t_lower T q in negb (contains (txt "test") l || contains (txt "spec") l || contains (txt "benchmark") l).
  Definition max_score (l : list hit) : F := fold_left (fun m h => f_max A m (h_score h)) l (f_ninf A).
  (** [!max.is_finite() || max <= 0.0] *)
  Definition useless (m : F) : bool := negb (t_finite T m) || match f_cmp A m (f_0 A) with Some Lt | Some Eq => true | _ => false end.
  Definition tmem (t : text) (l : list text) : bool := existsb (text_eqb t) l.
  (** ranking.rs 200-240 [apply_definition_boost] *)
  Definition apply_definition_boost (q : text) (l : list hit) : list hit :=
    let m := max_score l in
    let words := tokenize_identifiers q in
    if useless m then l else match words with [] => l | _ =>
      let boost := f_mul A m (t_definition T) in
      map (fun h => let n := t_lower T (u_name (h_unit h)) in
                    if u_definition (h_unit h) && negb (text_eqb n []) && existsb (fun t => tmem t words) (tokenize_identifiers n)
                    then with_score h (f_add A (h_score h) boost) else h) l end.
  (** ranking.rs 286-380 [apply_path_stem_boost].  The loop stops at the first exact hit; prefix
      hits before it do not matter then. *)
  Definition ends_in_s (s : text) : bool := match rev s with c :: _ => (c =? ch "s")%Z | [] => false end.
  Definition normalize (s : text) : list text :=
    if t_plural T then
      let stripped := filter (fun c => negb (c =? ch "_")%Z) s in
      s :: (if text_eqb stripped s then [] else [stripped]) ++ (if ends_in_s s && (1 <? t_bytes T s) then [removelast s] else [])
    else [s].
  Definition exact_pair (q s : text) : bool := existsb (fun sv => tmem sv (normalize q)) (normalize s).
  Definition prefix_pair (q s : text) : bool :=
    existsb (fun sv => existsb (fun qv =>
      let (short, long) := if t_bytes T sv <=? t_bytes T qv then (sv, qv) else (qv, sv) in
      (3 <=? t_bytes T short) && starts_with short long) (normalize q)) (normalize s).
  Definition apply_path_stem_boost (q : text) (l : list hit) : list hit :=
    let m := max_score l in
    let words := filter (fun t => negb (t_stopword T t)) (tokenize_identifiers q) in
    if useless m then l else match words with [] => l | _ =>
      map (fun h =>
        let stem := t_lower T (t_stem T (u_file (h_unit h))) in
        let parts := tokenize_identifiers stem in
        if text_eqb stem [] then h
        else if existsb (fun q => existsb (exact_pair q) parts) words then with_score h (f_add A (h_score h) (f_mul A m (t_exact T)))
        else if existsb (fun q => existsb (prefix_pair q) parts) words then with_score h (f_add A (h_score h) (f_mul A m (t_prefix T)))
        else h) l end.
  (** ranking.rs 393-442 [apply_file_coherence_boost] *)
  Definition f_above (x y : F) : bool := match f_cmp A x y with Some Gt => true | _ => false end.
  Fixpoint note (m : list (text * (F * nat))) (all : list hit) (i : nat) (h : hit) : list (text * (F * nat)) :=
    match m with
    | [] => [(u_file (h_unit h), (h_score h, i))]
    | (f, (sum, top)) :: m' =>
        if text_eqb f (u_file (h_unit h)) then
          (f, (f_add A sum (h_score h), match nth_error all top with Some b => if f_above (h_score h) (h_score b) then i else top | None => top end)) :: m'
        else (f, (sum, top)) :: note m' all i h
    end.
  Definition per_file (l : list hit) : list (text * (F * nat)) :=
    fold_left (fun m ih => note m l (fst ih) (snd ih)) (combine (seq 0 (length l)) l) [].
  Fixpoint set_at (l : list hit) (i : nat) (s : F) : list hit :=
    match l, i with
    | [], _ => []
    | h :: l', 0 => with_score h s :: l'
    | h :: l', S i' => h :: set_at l' i' s
    end.
  Definition apply_file_coherence_boost (l : list hit) : list hit :=
    let m := max_score l in
    if useless m then l else
      let files := t_iter T (per_file l) in
      let top := fold_left (fun x p => f_max A x (fst (snd p))) files (f_ninf A) in
      if useless top then l else
        let unit := f_mul A m (t_coherence T) in
        let updates := map (fun p => let '(sum, i) := snd p in
          (i, f_add A (match nth_error l i with Some h => h_score h | None => f_0 A end) (f_div A (f_mul A unit sum) top))) files in
        fold_left (fun l u => set_at l (fst u) (snd u)) updates l.

  (** ** collapse_by_file: index/mod.rs 4394-4417 *)
  Definition merge_lines (leader r : hit) : hit :=
    with_lines leader (Nat.min (u_line (h_unit leader)) (u_line (h_unit r))) (Nat.max (u_end (h_unit leader)) (u_end (h_unit r))).
  Fixpoint merge_into (out : list hit) (r : hit) : option (list hit) :=
    match out with
    | [] => None
    | h :: out' => if same_file h r then Some (merge_lines h r :: out')
                   else match merge_into out' r with Some o => Some (h :: o) | None => None end
    end.
  Fixpoint collapse_from (out : list hit) (l : list hit) (top_k : nat) : list hit :=
    match l with
    | [] => out
    | r :: l' => match merge_into out r with
                 | Some out' => collapse_from out' l' top_k
                 | None => if top_k <=? length out then collapse_from out l' top_k else collapse_from (out ++ [r]) l' top_k
                 end
    end.
  Definition collapse_by_file (l : list hit) (top_k : nat) : list hit := collapse_from [] l top_k.
  (** [b.score.partial_cmp(&a.score).unwrap_or(Equal)] *)
  Definition by_score (x y : hit) : bool := match f_cmp A (h_score y) (h_score x) with Some Gt => false | _ => true end.

  (** ** Searcher
      The loaded index: [num_documents]; encoding a query and [MmapIndex::search] with the given
      number of results; the text search for a sanitised query.  [b_row]: the metadata row of an
      id, [None] if there is none, [Some None] if it does not give a unit (see Units.v). *)
  Record backend := {
    b_count : nat;
    b_search : text -> nat -> option (list Z) -> res (list Z * list F);
    b_keyword : text -> nat -> option (list Z) -> res (list Z * list F);
    b_row : Z -> option (option cunit) }.
  Variable B : backend.
  (** iteration order of the hash map of [fuse_relative_score] *)
  Variable iter : list (Z * F) -> list (Z * F).
  (** [filtering::get] with ids: the rows there are, in the order asked for (C25). *)
  Definition rows_of (ids : list Z) : list (option cunit) := flat_map (fun i => match b_row B i with Some u => [u] | None => [] end) ids.
  (** mod.rs 4034-4071 [search], [search_with_embedding]: rows and scores are paired by position. *)
  Definition search_with_embedding (q : text) (top_k : nat) (sub : option (list Z)) : res (list hit) :=
    bind (b_search B q top_k sub) (fun r =>
      Ok (flat_map (fun p => match fst p with Some u => [{| h_unit := u; h_score := snd p |}] | None => [] end)
            (combine (rows_of (fst r)) (snd r)))).
  (** mod.rs 4013-4031 [fts5_search] *)
  Definition fts5_search (q : text) (top_k : nat) (sub : option (list Z)) : res (option (list Z * list F)) :=
    match sanitize_fts5_query_or q with
    | [] => Ok None
    | s => match b_keyword B s top_k sub with Ok r => Ok (Some r) | Err => Ok None | Panic => Panic end
    end.
  Definition fetch_k (top_k : nat) : nat := Nat.min (Nat.max (top_k * 20) 200) (Nat.max (b_count B) top_k).
  (** mod.rs 4137-4173: the text search given, restricted to the subset, or a new one *)
  Definition keyword_side (q : text) (k : nat) (sub : option (list Z)) (cached : option (list Z * list F)) : res (option (list Z * list F)) :=
    match cached with
    | Some (ids, scores) =>
        Ok (Some match sub with
                 | Some s => let kept := filter (fun p => existsb (Z.eqb (fst p)) s) (combine ids scores) in (map fst kept, map snd kept)
                 | None => (ids, scores)
                 end)
    | None => bind (fts5_search q k sub) (fun r => Ok match r with Some ((_ :: _) as ids, scores) => Some (ids, scores) | _ => None end)
    end.
  (** mod.rs 4115-4206: the pool of candidates *)
  Definition fused (q : text) (top_k : nat) (sub : option (list Z)) (alpha : F) (cached : option (list Z * list F)) : res (list Z * list F) :=
    bind (b_search B q (fetch_k top_k) sub) (fun sem =>
    bind (keyword_side q (fetch_k top_k) sub cached) (fun kw =>
      Ok match kw with
         | Some ((_ :: _) as ids, scores) => fuse_relative_score A iter (fst sem) (snd sem) ids scores alpha (fetch_k top_k)
         | _ => sem
         end)).
  (** mod.rs 4217-4248: rows and scores are paired by id; the row of an id is taken out of the map,
      so that a repeated id has none. *)
  Fixpoint take_rows (used : list Z) (l : list (Z * F)) : list (Z * hit) :=
    match l with
    | [] => []
    | (i, s) :: l' =>
        if existsb (Z.eqb i) used then take_rows used l'
        else match b_row B i with
             | Some (Some u) => (i, {| h_unit := u; h_score := s |}) :: take_rows (i :: used) l'
             | _ => take_rows (i :: used) l'
             end
    end.
  Definition penalised (q : text) (h : hit) : hit :=
    if should_apply_path_penalty q then with_score h (f_mul A (h_score h) (t_penalty T (u_file (h_unit h)))) else h.
  Definition boosted (q : text) (l : list hit) : list hit :=
    apply_file_coherence_boost (apply_definition_boost q (apply_path_stem_boost q l)).
  (** mod.rs 4217-4292, without the tracing *)
  Definition ranked_hits (q : text) (r : list Z * list F) : list hit :=
    isort by_score (boosted q (map (penalised q) (map snd (take_rows [] (combine (fst r) (snd r)))))).
  (** mod.rs 4093-4292 [search_hybrid_with_embedding] *)
  Definition search_hybrid_with_embedding (q : text) (top_k : nat) (sub : option (list Z)) (alpha : F)
      (cached : option (list Z * list F)) : res (list hit) :=
    bind (fused q top_k sub alpha cached) (fun r => Ok (collapse_by_file (ranked_hits q r) top_k)).

  (** ** search_single_path: commands/search.rs 1340-1644
      The lists of ids are what the filters modelled in Glob.v and Pattern.v return; an option that
      was not given is [None]. *)
  Record options := {
    o_subdirectory : option (list Z); o_pattern : option (list Z); o_include : option (list Z); o_file : option (list Z);
    o_exclude : option (list Z); o_exclude_dir : option (list Z) }.
  (** A filter whose ids come first, restricted to what is there. *)
  Definition narrow (combined : option (list Z)) (ids : list Z) : option (list Z) :=
    Some match combined with Some e => filter (fun i => existsb (Z.eqb i) e) ids | None => ids end.
  (** An exclusion: what is there, restricted; the ids alone come out of a hash set. *)
  Variable hash_order : list Z -> list Z.
  Definition exclude (combined : option (list Z)) (ids : list Z) : option (list Z) :=
    Some match combined with Some e => filter (fun i => existsb (Z.eqb i) ids) e | None => hash_order (nodup Z.eq_dec ids) end.
  Definition stop_if_empty (l : option (list Z)) : bool := match l with Some [] => true | _ => false end.
  (** search.rs 1340-1494.  [None]: nothing can match, no results are returned at once. *)
  Definition combined (o : options) : option (option (list Z)) :=
    if stop_if_empty (o_subdirectory o) || stop_if_empty (o_pattern o) || stop_if_empty (o_file o) then None
    else
      let step (f : option (list Z) -> list Z -> option (list Z)) c l := match l with Some ids => f c ids | None => c end in
      let c1 := step narrow (o_subdirectory o) (o_pattern o) in
      let c2 := step narrow c1 (o_include o) in
      let c3 := step narrow c2 (o_file o) in
      let c4 := step exclude c3 (o_exclude o) in
      let c5 := step exclude c4 (o_exclude_dir o) in
      if stop_if_empty c5 then None else Some c5.
  (** search.rs 1602-1622: one entry per file; [m] is the hash map *)
  Fixpoint merge_result (m : list hit) (r : hit) : list hit :=
    match m with
    | [] => [r]
    | h :: m' =>
        if same_file h r then
          with_lines (if f_above (h_score r) (h_score h) then r else h)
            (Nat.min (u_line (h_unit h)) (u_line (h_unit r))) (Nat.max (u_end (h_unit h)) (u_end (h_unit r))) :: m'
        else h :: merge_result m' r
    end.
  (** the iteration order of that map *)
  Variable merged_order : list hit -> list hit.
  Definition merged (l : list hit) : list hit := merged_order (fold_left merge_result l []).
  (** search.rs 472-482 [cmp_results_deterministic]; [path_cmp]: the order of paths *)
  Variable path_cmp : text -> text -> comparison.
  Definition then_with (a b : comparison) : comparison := match a with Eq => b | _ => a end.
  Definition cmp_results (a b : hit) : comparison :=
    then_with (match f_cmp A (h_score b) (h_score a) with Some c => c | None => Eq end)
      (then_with (path_cmp (u_file (h_unit a)) (u_file (h_unit b)))
        (then_with (Nat.compare (u_line (h_unit a)) (u_line (h_unit b))) (Nat.compare (u_end (h_unit a)) (u_end (h_unit b))))).
  Definition results_le (a b : hit) : bool := match cmp_results a b with Gt => false | _ => true end.
  (** The search for one path after the index is loaded.  [semantic_only]: --semantic-only or the
      setting; [enhanced]: the query with the words of the pattern (search.rs 1523-1524);
      [literal]: the ids of [filter_by_text_pattern_with_options(query, false, true, false, false)];
      [absolute]: the path joined to the project root. *)
  Definition one_search (semantic_only : bool) (alpha : F) (q : text) (k : nat) (sub : option (list Z)) (cached : option (list Z * list F)) : res (list hit) :=
    if semantic_only then search_with_embedding q k sub else search_hybrid_with_embedding q k sub alpha cached.
  Definition with_file (h : hit) (f : text) : hit :=
    {| h_unit := {| u_file := f; u_line := u_line (h_unit h); u_end := u_end (h_unit h); u_name := u_name (h_unit h);
                    u_definition := u_definition (h_unit h); u_text_format := u_text_format (h_unit h); u_code := u_code (h_unit h) |};
       h_score := h_score h |}.
  Definition both_searches (semantic_only : bool) (alpha : F) (q : text) (k : nat) (sub : option (list Z)) (literal : list Z) : res (list hit * list hit) :=
    bind (if semantic_only then Ok None else fts5_search q (k * 3) sub) (fun cached =>
    bind (one_search semantic_only alpha q k sub cached) (fun sem =>
    bind (match match sub with Some e => filter (fun i => existsb (Z.eqb i) e) literal | None => literal end with
          | [] => Ok []
          | s => one_search semantic_only alpha q k (Some s) None
          end) (fun lit => Ok (sem, lit)))).
  Definition search_single_path (o : options) (semantic_only code_only : bool) (alpha : F) (q enhanced : text) (literal : list Z)
      (absolute : text -> text) (top_k : nat) : res (list hit) :=
    match combined o with
    | None => Ok []
    | Some sub =>
        let k := if code_only then top_k * 4 else top_k * 3 in
        bind (match o_pattern o with
              | Some _ => one_search semantic_only alpha enhanced k sub None
              | None => bind (both_searches semantic_only alpha q k sub literal) (fun p => Ok (merged (fst p ++ snd p)))
              end) (fun l => Ok (map (fun h => with_file h (absolute (u_file (h_unit h)))) (isort results_le l)))
    end.
  (** ** cmd_search: commands/search.rs 553-625.  A path that does not exist is [None]. *)
  Fixpoint all_paths (l : list (option (res (list hit)))) : res (list hit) :=
    match l with
    | [] => Ok []
    | None :: l' => all_paths l'
    | Some r :: l' => bind r (fun x => bind (all_paths l') (fun y => Ok (x ++ y)))
    end.
  Definition is_missing (r : option (res (list hit))) : bool := match r with None => true | _ => false end.
  Definition cmd_results (code_only : bool) (top_k : nat) (l : list (option (res (list hit)))) : res (list hit) :=
    bind (all_paths l) (fun all =>
      match all with
      | [] => if existsb is_missing l then Err else Ok []
      | _ => let sorted := isort results_le all in
             Ok (firstn top_k (if code_only then filter (fun h => negb (u_text_format (h_unit h))) sorted else sorted))
      end).
End Results.
