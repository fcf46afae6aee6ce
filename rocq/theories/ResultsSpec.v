(** What colgrep's results should be. *)
From Verif Require Import Base Text FtsRank FtsRankSpec FtsText FtsTextSpec Results.
Open Scope nat_scope.

Section SPEC.
  Variable A : arith.
  Notation F := (num A).
  Notation hit := (hit A).
  Definition file_of (h : hit) : text := u_file (h_unit A h).
  Definition score_of (h : hit) : F := h_score A h.
  (** [h] shows the unit of [b], with other lines *)
  Definition shows (h b : hit) : Prop :=
    file_of h = file_of b /\ u_name (h_unit A h) = u_name (h_unit A b) /\ u_definition (h_unit A h) = u_definition (h_unit A b)
    /\ u_text_format (h_unit A h) = u_text_format (h_unit A b) /\ u_code (h_unit A h) = u_code (h_unit A b) /\ score_of h = score_of b.
  (** the lines shown for [h] reach from the first to the last line of the candidates of its file *)
  Definition spans (pool : list hit) (h : hit) : Prop :=
    (exists b, In b pool /\ file_of b = file_of h /\ u_line (h_unit A b) = u_line (h_unit A h))
    /\ (exists b, In b pool /\ file_of b = file_of h /\ u_end (h_unit A b) = u_end (h_unit A h))
    /\ forall b, In b pool -> file_of b = file_of h -> u_line (h_unit A h) <= u_line (h_unit A b) /\ u_end (h_unit A b) <= u_end (h_unit A h).
  (** [out] is the best of [pool]: at most [k] files, as many as there are, each once, with its
      best candidate, best file first *)
  Record best_files (k : nat) (pool out : list hit) : Prop := {
    bf_count : length out = Nat.min k (length (nodup text_dec (map file_of pool)));
    bf_distinct : NoDup (map file_of out);
    bf_sorted : StronglySorted (fun x y => not_above A (score_of y) (score_of x)) out;
    bf_shown : forall h, In h out -> spans pool h /\ exists b, In b pool /\ shows h b
      /\ forall c, In c pool -> file_of c = file_of b -> not_above A (score_of c) (score_of b);
    bf_best : forall h c, In h out -> In c pool -> ~ In (file_of c) (map file_of out) -> not_above A (score_of c) (score_of h) }.

  (** [out] lists every file of [pool] once, with its best candidate *)
  Record each_file (pool out : list hit) : Prop := {
    ef_files : forall f, In f (map file_of out) <-> In f (map file_of pool);
    ef_distinct : NoDup (map file_of out);
    ef_shown : forall h, In h out -> spans pool h /\ exists b, In b pool /\ shows h b
      /\ forall c, In c pool -> file_of c = file_of b -> not_above A (score_of c) (score_of b) }.

  (** What is used of the index: as many scores as ids, ids once, no more than asked for, only
      allowed ones (compare [good_result] and C61). *)
  Definition good_hits (k : nat) (sub : option (list Z)) (r : list Z * list F) : Prop :=
    length (fst r) = length (snd r) /\ NoDup (fst r) /\ length (fst r) <= k
    /\ match sub with Some l => incl (fst r) l | None => True end.
  Record good_backend (B : backend A) : Prop := {
    gb_search : forall q k sub r, b_search A B q k sub = Ok r -> good_hits k sub r;
    gb_keyword : forall q k sub r, b_keyword A B q k sub = Ok r -> good_hits k sub r }.
  (** the units of some hits, with their scores *)
  Definition units (B : backend A) (r : list Z * list F) : list hit :=
    flat_map (fun p => match b_row A B (fst p) with Some (Some u) => [{| h_unit := u; h_score := snd p |}] | _ => [] end)
      (combine (fst r) (snd r)).
  (** an id found by the search for [q] or by the text search given or made *)
  Definition found (B : backend A) (q : text) (n : nat) (sub : option (list Z)) (cached : option (list Z * list F)) (i : Z) : Prop :=
    (exists r, b_search A B q n sub = Ok r /\ In i (fst r))
    \/ match cached with
       | Some r => In i (fst r) /\ match sub with Some l => In i l | None => True end
       | None => exists r, b_keyword A B (sanitize_fts5_query_or q) n sub = Ok r /\ In i (fst r)
       end.
  Definition in_subset (sub : option (list Z)) (i : Z) : Prop := match sub with Some l => In i l | None => True end.

  (** Arithmetic of non-negative scores (true of f32 for fractions between 0 and 1) *)
  Definition nonneg (x : F) : Prop := is_number A x /\ not_above A (f_0 A) x.
  Record good_boosts (T : tuning A) : Prop := {
    bo_zero : is_number A (f_0 A);
    bo_add : forall x y, nonneg x -> nonneg y -> nonneg (f_add A x y) /\ not_above A x (f_add A x y);
    bo_fraction : forall m f, In f [t_definition A T; t_exact A T; t_prefix A T; t_coherence A T] ->
      t_finite A T m = true -> nonneg m -> nonneg (f_mul A m f) /\ t_finite A T (f_mul A m f) = true;
    bo_finite : forall x y, nonneg x -> not_above A x y -> t_finite A T y = true -> t_finite A T x = true;
    bo_share : forall u s t, nonneg u -> t_finite A T u = true -> nonneg s -> t_finite A T s = true ->
      f_cmp A t (f_0 A) = Some Gt -> t_finite A T t = true -> nonneg (f_div A (f_mul A u s) t);
    bo_penalty : forall x f, nonneg x -> nonneg (f_mul A x (t_penalty A T f)) }.
  (** the same units, each with a score that is not lower *)
  Definition raised (x y : hit) : Prop := h_unit A y = h_unit A x /\ not_above A (score_of x) (score_of y).
  (** a maximum worth boosting with *)
  Definition worth (T : tuning A) (m : F) : Prop := t_finite A T m = true /\ f_cmp A m (f_0 A) = Some Gt.
  (** query and name (or file stem) have an identifier token in common *)
  Definition shares (keep : text -> bool) (q t : text) : Prop :=
    exists i j x, identifier_in q i /\ identifier_token i x /\ keep x = true /\ identifier_in t j /\ identifier_token j x.
  (** the sum of the scores of a file, and the position of its first best unit *)
  Definition sum_from (l : list F) : F := match l with [] => f_0 A | x :: r => fold_left (f_add A) r x end.
  Definition file_sum (l : list hit) (f : text) : F := sum_from (map score_of (filter (fun h => text_eqb f (file_of h)) l)).
  Definition first_best (l : list hit) (i : nat) : Prop :=
    exists h, nth_error l i = Some h /\ forall j c, nth_error l j = Some c -> file_of c = file_of h ->
      not_above A (score_of c) (score_of h) /\ (j < i -> f_cmp A (score_of h) (score_of c) = Some Gt).
  (** the highest sum of a file *)
  Definition top_sum (l : list hit) (t : F) : Prop :=
    (exists h, In h l /\ t = file_sum l (file_of h)) /\ forall h, In h l -> not_above A (file_sum l (file_of h)) t.
  (** the best score *)
  Definition top_score (l : list hit) (m : F) : Prop := (exists h, In h l /\ score_of h = m) /\ forall h, In h l -> not_above A (score_of h) m.

  (** [h] shows the unit [u], with other lines and the path [path u] *)
  Definition shows_unit (path : text -> text) (h : hit) (u : cunit) : Prop :=
    file_of h = path (u_file u) /\ u_name (h_unit A h) = u_name u /\ u_definition (h_unit A h) = u_definition u
    /\ u_text_format (h_unit A h) = u_text_format u /\ u_code (h_unit A h) = u_code u.
  (** [h] shows the unit of an id selected by [P] *)
  Definition from_row (B : backend A) (path : text -> text) (P : Z -> Prop) (h : hit) : Prop :=
    exists i u, P i /\ b_row A B i = Some (Some u) /\ shows_unit path h u.
  (** The filters: an id passes if every option that was given selects it. *)
  Definition passes (o : options) (i : Z) : Prop :=
    let given l := match l with Some ids => In i ids | None => True end in
    given (o_subdirectory o) /\ given (o_pattern o) /\ given (o_include o) /\ given (o_file o) /\ given (o_exclude o) /\ given (o_exclude_dir o).
  Definition no_options (o : options) : Prop :=
    o_subdirectory o = None /\ o_pattern o = None /\ o_include o = None /\ o_file o = None /\ o_exclude o = None /\ o_exclude_dir o = None.

  (** the final order: by score, then by file, then by lines *)
  Definition before (path_cmp : text -> text -> comparison) (x y : hit) : Prop :=
    f_cmp A (score_of y) (score_of x) = Some Lt
    \/ f_cmp A (score_of y) (score_of x) = Some Eq
       /\ (path_cmp (file_of x) (file_of y) = Lt
           \/ path_cmp (file_of x) (file_of y) = Eq
              /\ (u_line (h_unit A x) < u_line (h_unit A y)
                  \/ u_line (h_unit A x) = u_line (h_unit A y) /\ u_end (h_unit A x) <= u_end (h_unit A y))).
  (** a total order of paths *)
  Record good_paths (path_cmp : text -> text -> comparison) : Prop := {
    gp_eq : forall x y, path_cmp x y = Eq <-> x = y;
    gp_opp : forall x y, path_cmp y x = CompOpp (path_cmp x y);
    gp_trans : forall x y z, path_cmp x y = Lt -> path_cmp y z = Lt -> path_cmp x z = Lt }.
End SPEC.
