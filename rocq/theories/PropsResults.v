(** C86-C88: the results of colgrep. *)
From Verif Require Import Base Text FtsRank FtsRankSpec FtsRankProofs FtsText FtsTextSpec Results ResultsSpec ResultsProofs ResultsBoost ResultsMore ResultsCmd ResultsTop ResultsExamples.
Open Scope nat_scope.

(** * C86: ranking *)
(** The results of a search are the best files of its candidates: ids that are allowed and were
    found, with their own units, the path penalty and the boosts. *)
Theorem C86_results : forall A T B iter q k sub alpha cached out,
  good_backend A B -> (forall l, Permutation (iter l) l) -> good_order A -> good_cached A cached ->
  search_hybrid_with_embedding A T B iter q k sub alpha cached = Ok out ->
  exists r, length (fst r) = length (snd r) /\ NoDup (fst r) /\ length (fst r) <= fetch_k A B k
    /\ (forall i, In i (fst r) -> in_subset sub i /\ found A B q (fetch_k A B k) sub cached i)
    /\ let pool := boosted A T q (map (penalised A T q) (units A B r)) in
       Forall (fun h => is_number A (score_of A h)) pool -> best_files A k pool out.
Proof. intros A T B iter q k sub alpha cached out GB IT GO GC. apply hybrid_ok; assumption. Qed.
Print Assumptions C86_results.
(** A search fails only if the search of the index fails; the text search may fail. *)
Theorem C86_total : forall A T B iter q k sub alpha cached, (forall t n s, b_keyword A B t n s <> Panic) ->
  (exists out, search_hybrid_with_embedding A T B iter q k sub alpha cached = Ok out) <-> exists r, b_search A B q (fetch_k A B k) sub = Ok r.
Proof. intros. apply hybrid_total. assumption. Qed.
Print Assumptions C86_total.
(** The boost of definitions: exactly the functions, methods, classes and constants that share an
    identifier with the query gain their fraction of the best score. *)
Theorem C86_definition : forall A T q l, good_order A -> good_minmax A ->
  Forall (fun h => is_number A (score_of A h)) l -> is_number A (f_0 A) -> l <> [] ->
  exists m, top_score A l m /\ Forall2 (fun x y =>
    h_unit A y = h_unit A x
    /\ (worth A T m /\ u_definition (h_unit A x) = true /\ shares (fun _ => true) q (t_lower A T (u_name (h_unit A x))) ->
        score_of A y = f_add A (score_of A x) (f_mul A m (t_definition A T)))
    /\ (~ (worth A T m /\ u_definition (h_unit A x) = true /\ shares (fun _ => true) q (t_lower A T (u_name (h_unit A x)))) ->
        score_of A y = score_of A x)) l (apply_definition_boost A T q l).
Proof. intros A T q l GO GM. apply definition_exact; assumption. Qed.
Print Assumptions C86_definition.
(** The boost of file names. *)
Theorem C86_stem : forall A T q l, good_order A -> good_minmax A ->
  Forall (fun h => is_number A (score_of A h)) l -> is_number A (f_0 A) -> l <> [] ->
  exists m, top_score A l m /\ Forall2 (fun x y =>
    h_unit A y = h_unit A x
    /\ (worth A T m -> shares (fun w => negb (t_stopword A T w)) q (t_lower A T (t_stem A T (file_of A x))) ->
        score_of A y = f_add A (score_of A x) (f_mul A m (t_exact A T)))
    /\ (score_of A y = score_of A x \/ worth A T m /\ (score_of A y = f_add A (score_of A x) (f_mul A m (t_exact A T))
        \/ score_of A y = f_add A (score_of A x) (f_mul A m (t_prefix A T))))) l (apply_path_stem_boost A T q l).
Proof. intros A T q l GO GM. apply stem_exact; assumption. Qed.
Print Assumptions C86_stem.
(** The boost of files: the first best unit of each file gains the share of its file. *)
Theorem C86_coherence : forall A T l, good_order A -> good_minmax A -> (forall m, Permutation (t_iter A T m) m) ->
  Forall (fun h => is_number A (score_of A h)) l -> is_number A (f_0 A) -> l <> [] ->
  (forall h, In h l -> is_number A (file_sum A l (file_of A h))) ->
  exists m t, top_score A l m /\ top_sum A l t
    /\ length (apply_file_coherence_boost A T l) = length l
    /\ forall i h, nth_error l i = Some h -> exists h', nth_error (apply_file_coherence_boost A T l) i = Some h' /\ h_unit A h' = h_unit A h
       /\ (worth A T m /\ worth A T t /\ first_best A l i ->
           score_of A h' = f_add A (score_of A h) (f_div A (f_mul A (f_mul A m (t_coherence A T)) (file_sum A l (file_of A h))) t))
       /\ (~ (worth A T m /\ worth A T t /\ first_best A l i) -> score_of A h' = score_of A h).
Proof. intros A T l GO GM TI. apply coherence_exact; assumption. Qed.
Print Assumptions C86_coherence.
(** No boost lowers a score that is not negative. *)
Theorem C86_raised : forall A T q l, good_order A -> good_minmax A -> good_boosts A T -> (forall m, Permutation (t_iter A T m) m) ->
  Forall (fun h => nonneg A (score_of A h)) l -> Forall2 (raised A) l (boosted A T q l).
Proof. intros A T q l GO GM GBo TI N. apply (boosted_up A T GO GM GBo TI q l N). Qed.
Print Assumptions C86_raised.
(** The order of the hash map of the files does not matter. *)
Theorem C86_hash_order : forall A T it l, good_order A -> good_minmax A ->
  (forall x y, f_cmp A x (f_0 A) = Some Gt -> f_cmp A x y = Some Eq -> x = y) ->
  (forall m, Permutation (t_iter A T m) m) -> (forall m, Permutation (it m) m) ->
  Forall (fun h => is_number A (score_of A h)) l -> is_number A (f_0 A) -> (forall h, In h l -> is_number A (file_sum A l (file_of A h))) ->
  apply_file_coherence_boost A (with_iter A T it) l = apply_file_coherence_boost A T l.
Proof. intros A T it l GO GM PA. apply coherence_order; assumption. Qed.
Print Assumptions C86_hash_order.

(** Five units in three files. *)
Definition a_unit (f n : text) (first last : nat) (definition text_format : bool) : cunit :=
  {| u_file := f; u_line := first; u_end := last; u_name := n; u_definition := definition; u_text_format := text_format; u_code := n |}.
Definition a_rows : list (Z * (xz * option cunit)) :=
  [(1%Z, (ZFin 90, Some (a_unit (txt "a") (txt "open") 10 20 true false))); (2%Z, (ZFin 80, Some (a_unit (txt "b") (txt "walk") 1 5 true false)));
   (3%Z, (ZFin 70, Some (a_unit (txt "a") (txt "close") 2 4 true false))); (4%Z, (ZFin 60, Some (a_unit (txt "c") (txt "notes") 1 9 false true)));
   (5%Z, (ZFin 50, None))].
Definition a_backend : backend zarith := table a_rows [].
Lemma a_good : good_backend zarith a_backend.
Proof. apply table_good; [|constructor]. repeat (constructor; [cbn; intuition discriminate|]). constructor. Qed.
Definition brief (r : res (list (hit zarith))) : res (list (text * nat * nat * text * xz)) :=
  match r with Ok l => Ok (map (fun h => (u_file (h_unit zarith h), u_line (h_unit zarith h), u_end (h_unit zarith h), u_name (h_unit zarith h), h_score zarith h)) l) | Err => Err | Panic => Panic end.
Definition a_search (q : text) (k : nat) (sub : option (list Z)) := search_hybrid_with_embedding zarith plain_tuning a_backend (fun l => l) q k sub (ZFin 1 : num zarith) None.
(** "walk" names the definition in b; a's two units are one result with both their lines. *)
Example C86_example :
  good_order zarith /\ good_minmax zarith /\ good_boosts zarith plain_tuning /\ good_backend zarith a_backend /\
  brief (a_search (txt "xyz") 2 None) = Ok [(txt "a", 2, 20, txt "open", ZFin 180); (txt "b", 1, 5, txt "walk", ZFin 125)] /\
  brief (a_search (txt "walk") 2 None) = Ok [(txt "b", 1, 5, txt "walk", ZFin 340); (txt "a", 2, 20, txt "open", ZFin 250)] /\
  brief (a_search (txt "xyz") 2 (Some [3%Z; 4%Z])) = Ok [(txt "a", 2, 4, txt "close", ZFin 140); (txt "c", 1, 9, txt "notes", ZFin 120)] /\
  (forall t n s, b_keyword zarith a_backend t n s <> Panic) /\
  (forall x y, f_cmp zarith x (f_0 zarith) = Some Gt -> f_cmp zarith x y = Some Eq -> x = y).
Proof.
  split; [exact z_good|]. split; [exact z_minmax|]. split; [exact plain_boosts|]. split; [exact a_good|].
  split; [vm_compute; reflexivity|]. split; [vm_compute; reflexivity|]. split; [vm_compute; reflexivity|].
  split; [intros t n s H; discriminate H|exact z_equal].
Qed.
(** The path penalty multiplies the score unless the query speaks of tests, specs or benchmarks. *)
Theorem C86_penalty : forall A T q h,
  let named := exists w a b, In w [txt "test"; txt "spec"; txt "benchmark"] /\ t_lower A T q = a ++ w ++ b in
  h_unit A (penalised A T q h) = h_unit A h
  /\ (named -> score_of A (penalised A T q h) = score_of A h)
  /\ (~ named -> score_of A (penalised A T q h) = f_mul A (score_of A h) (t_penalty A T (file_of A h))).
Proof.
  intros A T q h named.
  assert (K : should_apply_path_penalty A T q = false <-> named).
  { unfold should_apply_path_penalty. rewrite Bool.negb_false_iff, !Bool.orb_true_iff, !contains_spec. unfold named. split.
    - intros [[(a & b & E)|(a & b & E)]|(a & b & E)]; [exists (txt "test")|exists (txt "spec")|exists (txt "benchmark")]; exists a, b; (split; [cbn [In]; tauto|exact E]).
    - intros (w & a & b & [<-|[<-|[<-|[]]]] & E); [left; left|left; right|right]; exists a, b; exact E. }
  unfold penalised. destruct (should_apply_path_penalty A T q) eqn:E.
  - split; [reflexivity|]. split; [intro N; apply K in N; discriminate|reflexivity].
  - split; [reflexivity|]. split; [reflexivity|]. intro N. exfalso. apply N, K. reflexivity.
Qed.
Print Assumptions C86_penalty.
(** With --semantic-only a unit can be listed with the score of another: rows and scores are paired
    by position, and an id without a row shifts them. *)
Theorem C86_semantic_only_refuted : ~ (forall A B q k sub r out, good_backend A B -> b_search A B q k sub = Ok r ->
  search_with_embedding A B q k sub = Ok out ->
  forall h, In h out -> In h (units A B r)).
Proof.
  intro H.
  pose (B := Build_backend zarith 2 (fun _ k sub => Ok (pick [(7%Z, ZFin 9); (1%Z, ZFin 5)] k sub)) (fun _ k sub => Ok (pick [] k sub))
    (fun i => if (i =? 1)%Z then Some (Some (a_unit (txt "a") (txt "open") 1 2 true false)) else None)).
  assert (GB : good_backend zarith B).
  { split; intros q k sub r E; cbn in E; injection E as <-; apply pick_good; [|constructor]. repeat (constructor; [cbn; intuition discriminate|]). constructor. }
  specialize (H zarith B [] 2 None _ _ GB eq_refl eq_refl _ (or_introl eq_refl)). vm_compute in H. destruct H as [H|[]]. discriminate H.
Qed.
Print Assumptions C86_semantic_only_refuted.
(** The path penalty of a test file raises a negative score. *)
Theorem C86_penalty_lowers_refuted : ~ (forall A T q h, good_order A -> not_above A (f_0 A) (t_penalty A T (file_of A h)) ->
  not_above A (t_penalty A T (file_of A h)) (f_1 A) -> not_above A (score_of A (penalised A T q h)) (score_of A h)).
Proof.
  intro H.
  pose (T := Build_tuning zarith (fun _ => ZFin 0) (fun t => t) (fun t => t) (@length Z) (fun _ => false) false (ZFin 1) (ZFin 1) (ZFin 1) (ZFin 1) (fun _ => true) (fun l => l)).
  specialize (H zarith T [] (Build_hit zarith (a_unit (txt "tests/a") (txt "open") 1 2 true false) (ZFin (-4))) z_good).
  rewrite !z_not_above in H. apply H; vm_compute; try discriminate; reflexivity.
Qed.
Print Assumptions C86_penalty_lowers_refuted.

(** * C87: filters *)
(** The ids a search may return are exactly those that every option given selects; if nothing
    passes, there is no search. *)
Theorem C87_ids : forall hash_order o, (forall l, Permutation (hash_order l) l) ->
  match combined hash_order o with
  | Some (Some l) => l <> [] /\ forall i, In i l <-> passes o i
  | Some None => no_options o
  | None => forall i, ~ passes o i
  end.
Proof. intros hash_order o HO. apply combined_ok. exact HO. Qed.
Print Assumptions C87_ids.
(** Every result shows the unit of an id that passes, under its path in the project. *)
Theorem C87_results : forall A T B iter hash_order merged_order path_cmp o semantic_only code_only alpha q enhanced literal absolute k out,
  good_backend A B -> (forall l, Permutation (iter l) l) -> (forall l, Permutation (hash_order l) l) -> (forall l, Permutation (merged_order l) l) ->
  search_single_path A T B iter hash_order merged_order path_cmp o semantic_only code_only alpha q enhanced literal absolute k = Ok out ->
  Forall (from_row A B absolute (passes o)) out.
Proof. intros until out. intros GB IT HO MO. apply single_origin; assumption. Qed.
Print Assumptions C87_results.
(** With -e and room enough, the file of every match that the search of the index gives is listed. *)
Theorem C87_every_match : forall A T B iter hash_order merged_order path_cmp o p l alpha q enhanced literal absolute k sem out,
  good_backend A B -> (forall l, Permutation (iter l) l) ->
  o_pattern o = Some p -> combined hash_order o = Some (Some l) -> length (nodup Z.eq_dec l) <= k ->
  b_search A B enhanced (fetch_k A B (k * 3)) (Some l) = Ok sem ->
  cmd_results A path_cmp false k
    [Some (search_single_path A T B iter hash_order merged_order path_cmp o false false alpha q enhanced literal absolute k)] = Ok out ->
  forall i u, In i (fst sem) -> b_row A B i = Some (Some u) -> In (absolute (u_file u)) (map (file_of A) out).
Proof. intros until out. intros GB IT. apply every_match; assumption. Qed.
Print Assumptions C87_every_match.

Definition no_filter : options :=
  {| o_subdirectory := None; o_pattern := None; o_include := None; o_file := None; o_exclude := None; o_exclude_dir := None |}.
Definition some_filters : options :=
  {| o_subdirectory := Some [1%Z; 2%Z; 3%Z]; o_pattern := None; o_include := Some [4%Z; 3%Z; 2%Z]; o_file := None; o_exclude := Some [1%Z; 2%Z]; o_exclude_dir := None |}.
Definition a_pattern : options :=
  {| o_subdirectory := None; o_pattern := Some [3%Z; 2%Z]; o_include := None; o_file := None; o_exclude := None; o_exclude_dir := None |}.
Definition at_root (f : text) : text := txt "/p/" ++ f.
Definition one_path (o : options) (code_only : bool) (literal : list Z) (k : nat) :=
  search_single_path zarith plain_tuning a_backend (fun l => l) (fun l => l) (fun l => l) lex o false code_only (ZFin 1 : num zarith) (txt "xyz") (txt "xyz") literal at_root k.
Example C87_example :
  combined (fun l => l) some_filters = Some (Some [2%Z]) /\
  brief (one_path some_filters false [] 3) = Ok [(txt "/p/b", 1, 5, txt "walk", ZFin 160)] /\
  brief (one_path a_pattern false [] 3) = Ok [(txt "/p/b", 1, 5, txt "walk", ZFin 160); (txt "/p/a", 2, 4, txt "close", ZFin 140)] /\
  combined (fun l => l) a_pattern = Some (Some [3%Z; 2%Z]).
Proof. repeat split; vm_compute; reflexivity. Qed.

(** * C88: one list, in order, [-k] files *)
(** The list printed: the best [k] results of all paths (of the code, with --code-only), in the
    order of scores, then files, then lines. *)
Theorem C88_command : forall A path_cmp code_only k paths all out, good_order A -> good_paths path_cmp ->
  all_paths A paths = Ok all -> Forall (fun h => is_number A (score_of A h)) all ->
  cmd_results A path_cmp code_only k paths = Ok out ->
  let wanted := if code_only then filter (fun h => negb (u_text_format (h_unit A h))) all else all in
  length out = Nat.min k (length wanted)
  /\ exists rest, Permutation wanted (out ++ rest) /\ StronglySorted (before A path_cmp) (out ++ rest).
Proof. intros until out. intros GO GP. apply command_ok; assumption. Qed.
Print Assumptions C88_command.
(** The results of all paths, one after the other; a path that is missing has none. *)
Theorem C88_paths : forall A paths, (forall p, In p paths -> p = None \/ exists l, p = Some (Ok l)) ->
  exists all, all_paths A paths = Ok all /\ forall h, In h all <-> exists l, In (Some (Ok l)) paths /\ In h l.
Proof.
  intros A paths H. induction paths as [|p paths IH].
  - exists []. split; [reflexivity|]. intro h. split; [intros []|intros (l & [] & _)].
  - destruct IH as (all & E & K); [intros x Hx; apply H; right; exact Hx|]. destruct (H p (or_introl eq_refl)) as [-> |(l & ->)]; cbn [all_paths].
    + exists all. split; [exact E|]. intro h. rewrite K. split; intros (l & Hl & Hh); exists l; (split; [|exact Hh]); [right; exact Hl|destruct Hl as [Hl|Hl]; [discriminate|exact Hl]].
    + exists (l ++ all). cbn [bind]. rewrite E. split; [reflexivity|]. intro h. rewrite in_app_iff, K. split.
      * intros [Hh|(l' & Hl & Hh)]; [exists l; split; [left; reflexivity|exact Hh]|exists l'; split; [right; exact Hl|exact Hh]].
      * intros (l' & [Hl|Hl] & Hh); [injection Hl as <-; left; exact Hh|right; exists l'; auto].
Qed.
Print Assumptions C88_paths.
(** A path that fails makes the command fail; missing paths do so only if there is no result. *)
Theorem C88_fails : forall A path_cmp code_only k paths,
  ((exists p, In p paths /\ p = Some Err) -> (forall p, In p paths -> p <> Some Panic) -> cmd_results A path_cmp code_only k paths = Err)
  /\ (all_paths A paths = Ok [] -> cmd_results A path_cmp code_only k paths = if existsb (is_missing A) paths then Err else Ok [])
  /\ (forall h l, all_paths A paths = Ok (h :: l) -> exists out, cmd_results A path_cmp code_only k paths = Ok out).
Proof.
  intros A path_cmp code_only k paths. split; [apply command_fails|]. split.
  - intro E. unfold cmd_results. rewrite E. reflexivity.
  - intros h l E. unfold cmd_results. rewrite E. cbn [bind]. eexists. reflexivity.
Qed.
Print Assumptions C88_fails.
(** Without -e, one path gives each file of its two searches once, its best unit with the lines of
    all of them, in the final order. *)
Theorem C88_one_path : forall A T B iter hash_order path_cmp merged_order o sub semantic_only (code_only : bool) alpha q enhanced literal absolute k sem lit,
  good_order A -> good_paths path_cmp ->
  (forall l, Permutation (merged_order l) l) -> combined hash_order o = Some sub -> o_pattern o = None ->
  both_searches A T B iter semantic_only alpha q (if code_only then k * 4 else k * 3) sub literal = Ok (sem, lit) ->
  Forall (fun h => is_number A (score_of A h)) (sem ++ lit) ->
  exists l, each_file A (sem ++ lit) l /\ StronglySorted (before A path_cmp) l
    /\ search_single_path A T B iter hash_order merged_order path_cmp o semantic_only code_only alpha q enhanced literal absolute k
       = Ok (map (fun h => with_file A h (absolute (file_of A h))) l).
Proof. intros until lit. intros GO GP. apply single_each; assumption. Qed.
Print Assumptions C88_one_path.
(** The order of the hash map of the merge does not matter. *)
Theorem C88_hash_order : forall A T B iter hash_order path_cmp o1 o2 o sub semantic_only (code_only : bool) alpha q enhanced literal absolute k sem lit,
  good_order A -> good_paths path_cmp ->
  (forall l, Permutation (o1 l) l) -> (forall l, Permutation (o2 l) l) -> combined hash_order o = Some sub -> o_pattern o = None ->
  both_searches A T B iter semantic_only alpha q (if code_only then k * 4 else k * 3) sub literal = Ok (sem, lit) ->
  Forall (fun h => is_number A (score_of A h)) (sem ++ lit) ->
  search_single_path A T B iter hash_order o1 path_cmp o semantic_only code_only alpha q enhanced literal absolute k
  = search_single_path A T B iter hash_order o2 path_cmp o semantic_only code_only alpha q enhanced literal absolute k.
Proof. intros until lit. intros GO GP. apply (single_order A T B iter GO hash_order path_cmp GP). Qed.
Print Assumptions C88_hash_order.
(** [-k] on one path: each file once; [k] files, or all that the searches found if they are fewer. *)
Theorem C88_count : forall A T B iter hash_order path_cmp merged_order o sub semantic_only alpha q enhanced literal absolute k sem lit out,
  good_order A -> good_paths path_cmp ->
  (forall l, Permutation (merged_order l) l) -> combined hash_order o = Some sub -> o_pattern o = None ->
  (forall x y, absolute x = absolute y -> x = y) ->
  both_searches A T B iter semantic_only alpha q (k * 3) sub literal = Ok (sem, lit) -> Forall (fun h => is_number A (score_of A h)) (sem ++ lit) ->
  cmd_results A path_cmp false k
    [Some (search_single_path A T B iter hash_order merged_order path_cmp o semantic_only false alpha q enhanced literal absolute k)] = Ok out ->
  NoDup (map (file_of A) out)
  /\ length out = Nat.min k (length (nodup text_dec (map (file_of A) (sem ++ lit))))
  /\ forall pool, best_files A (k * 3) pool sem -> Nat.min k (length (nodup text_dec (map (file_of A) pool))) <= length out.
Proof.
  intros until out. intros GO GP MO C NP INJ E NB H.
  destruct (command_contract A T B iter GO hash_order path_cmp GP merged_order o sub semantic_only alpha q enhanced literal absolute k sem lit out MO C NP INJ E NB H) as (D & L).
  split; [exact D|]. split; [exact L|]. intros pool BF. rewrite L. apply enough_files. exact BF.
Qed.
Print Assumptions C88_count.

Example C88_example :
  good_paths lex /\ (forall x y, at_root x = at_root y -> x = y) /\
  (exists sem lit, both_searches zarith plain_tuning a_backend (fun l => l) false (ZFin 1 : num zarith) (txt "xyz") 6 None [4%Z] = Ok (sem, lit) /\ length sem = 3 /\ length lit = 1) /\
  brief (cmd_results zarith lex false 2 [Some (one_path no_filter false [4%Z] 2); None]) = Ok [(txt "/p/a", 2, 20, txt "open", ZFin 180); (txt "/p/b", 1, 5, txt "walk", ZFin 125)] /\
  brief (cmd_results zarith lex false 9 [Some (one_path no_filter false [4%Z] 9)])
    = Ok [(txt "/p/a", 2, 20, txt "open", ZFin 180); (txt "/p/b", 1, 5, txt "walk", ZFin 125); (txt "/p/c", 1, 9, txt "notes", ZFin 120)] /\
  brief (cmd_results zarith lex true 9 [Some (one_path no_filter true [4%Z] 9)])
    = Ok [(txt "/p/a", 2, 20, txt "open", ZFin 180); (txt "/p/b", 1, 5, txt "walk", ZFin 125)] /\
  cmd_results zarith lex false 2 [None] = Err.
Proof.
  split; [exact lex_good|]. split; [intros x y H; apply app_inv_head in H; exact H|].
  split; [eexists; eexists; split; [vm_compute; reflexivity|split; reflexivity]|]. repeat split; vm_compute; reflexivity.
Qed.

(** With --code-only the files that count are chosen too late: four files of text hide the code. *)
Definition texts_first : backend zarith := table
  (map (fun n => (Z.of_nat n, (ZFin (Z.of_nat (100 - n)), Some (a_unit (txt "t" ++ [Z.of_nat n]) [] 1 2 false (n <? 5))))) [1; 2; 3; 4; 5]) [].
Theorem C88_code_only_refuted : ~ (forall A T B iter path_cmp alpha q k out,
  good_backend A B -> (forall l, Permutation (iter l) l) -> good_order A -> good_paths path_cmp ->
  (forall k r, b_search A B q k None = Ok r -> length (fst r) = Nat.min k (b_count A B)) ->
  cmd_results A path_cmp true k
    [Some (search_single_path A T B iter (fun l => l) (fun l => l) path_cmp no_filter false true alpha q q [] (fun f => f) k)] = Ok out ->
  0 < k -> (exists i u, b_row A B i = Some (Some u) /\ u_text_format u = false) -> out <> []).
Proof.
  intro H. refine (H zarith plain_tuning texts_first (fun l => l) lex (ZFin 1 : num zarith) (txt "?") 1 [] _ _ z_good lex_good _ _ _ _ eq_refl).
  - apply table_good; [|constructor]. repeat (constructor; [cbn; intuition discriminate|]). constructor.
  - intro l. reflexivity.
  - intros k r E. cbn in E. injection E as <-. cbn. rewrite map_length. apply firstn_length.
  - vm_compute. reflexivity.
  - lia.
  - exists 5%Z. eexists. split; [vm_compute; reflexivity|reflexivity].
Qed.
Print Assumptions C88_code_only_refuted.
(** A file with two hundred matching units fills the candidates: [-k 2] lists one file of two. *)
Definition long_file : backend zarith := table
  (map (fun n => (Z.of_nat n, (ZFin (Z.of_nat (1000 - n)), Some (a_unit (if n <? 200 then txt "long" else txt "short") [] 1 2 false false)))) (seq 0 201)) [].
Theorem C88_hard_contract_refuted : ~ (forall A T B iter path_cmp alpha q k out,
  good_backend A B -> (forall l, Permutation (iter l) l) -> good_order A -> good_paths path_cmp ->
  (forall k r, b_search A B q k None = Ok r -> length (fst r) = Nat.min k (b_count A B)) ->
  cmd_results A path_cmp false k
    [Some (search_single_path A T B iter (fun l => l) (fun l => l) path_cmp no_filter false false alpha q q [] (fun f => f) k)] = Ok out ->
  forall files, NoDup files -> (forall f, In f files -> exists i u, b_row A B i = Some (Some u) /\ u_file u = f) -> length files <= k -> length files <= length out).
Proof.
  intro H.
  assert (GB : good_backend zarith long_file).
  { apply table_good; [|constructor]. rewrite map_map. cbn [fst]. apply FinFun.Injective_map_NoDup; [|apply seq_NoDup]. intros x y E. apply Nat2Z.inj. exact E. }
  assert (X : exists out, cmd_results zarith lex false 2
    [Some (search_single_path zarith plain_tuning long_file (fun l => l) (fun l => l) (fun l => l) lex no_filter false false (ZFin 1 : num zarith) (txt "?") (txt "?") [] (fun f => f) 2)] = Ok out
    /\ length out = 1) by (eexists; split; [vm_compute; reflexivity|reflexivity]).
  destruct X as (out & E & L).
  specialize (H zarith plain_tuning long_file (fun l => l) lex (ZFin 1 : num zarith) (txt "?") 2 out GB (fun l => Permutation_refl l) z_good lex_good).
  specialize (H ltac:(intros k r K; cbn [b_search long_file table] in K; injection K as <-; unfold pick; cbn [fst]; rewrite map_length, firstn_length; f_equal;
    unfold long_file, table; cbn [b_count]; rewrite !map_length; clear; vm_compute; reflexivity) E [txt "long"; txt "short"]).
  rewrite L in H. cbn [length] in H. assert (2 <= 1); [|lia]. apply H; [|intros f [<-|[<-|[]]]|lia].
  - repeat (constructor; [cbn; intuition discriminate|]). constructor.
  - exists 0%Z. eexists. split; [vm_compute; reflexivity|reflexivity].
  - exists 200%Z. eexists. split; [vm_compute; reflexivity|reflexivity].
Qed.
Print Assumptions C88_hard_contract_refuted.
(** Two paths that overlap list a file twice. *)
Theorem C88_overlap_refuted : ~ (forall A T B iter path_cmp alpha q k n out,
  good_backend A B -> (forall l, Permutation (iter l) l) -> good_order A -> good_paths path_cmp ->
  cmd_results A path_cmp false k
    (repeat (Some (search_single_path A T B iter (fun l => l) (fun l => l) path_cmp no_filter false false alpha q q [] (fun f => f) k)) n) = Ok out ->
  NoDup (map (file_of A) out)).
Proof.
  intro H. specialize (H zarith plain_tuning a_backend (fun l => l) lex (ZFin 1 : num zarith) (txt "?") 2 2).
  assert (X : exists out, cmd_results zarith lex false 2
    (repeat (Some (search_single_path zarith plain_tuning a_backend (fun l => l) (fun l => l) (fun l => l) lex no_filter false false (ZFin 1 : num zarith) (txt "?") (txt "?") [] (fun f => f) 2)) 2) = Ok out
    /\ map (file_of zarith) out = [txt "a"; txt "a"]) by (eexists; split; [vm_compute; reflexivity|reflexivity]).
  destruct X as (out & E & M). specialize (H out a_good (fun l => Permutation_refl l) z_good lex_good E). rewrite M in H. inversion H as [|? ? K _]; subst. apply K. left. reflexivity.
Qed.
Print Assumptions C88_overlap_refuted.
(** The results are not a function of index, query and flags: with equal scores they depend on the
    order of the hash map in which the scores are fused. *)
Definition tied : backend zarith := table
  (map (fun n => (Z.of_nat n, (ZFin 7, Some (a_unit (txt "f" ++ [Z.of_nat n]) [] 1 2 false false)))) [1; 2; 3; 4]) (map (fun n => (Z.of_nat n, ZFin 7)) [1; 2; 3; 4]).
Theorem C88_deterministic_refuted : ~ (forall A T B i1 i2 path_cmp alpha q k,
  good_backend A B -> (forall l, Permutation (i1 l) l) -> (forall l, Permutation (i2 l) l) -> good_order A -> good_paths path_cmp ->
  let run iter := cmd_results A path_cmp false k
    [Some (search_single_path A T B iter (fun l => l) (fun l => l) path_cmp no_filter false false alpha q q [] (fun f => f) k)] in
  run i1 = run i2).
Proof.
  intro H. specialize (H zarith plain_tuning tied (fun l => l) (@rev _) lex (ZFin 1 : num zarith) (txt "xyz") 1).
  assert (GB : good_backend zarith tied) by (apply table_good; repeat (constructor; [cbn; intuition discriminate|]); constructor).
  specialize (H GB (fun l => Permutation_refl l) (fun l => Permutation_sym (Permutation_rev l)) z_good lex_good).
  vm_compute in H. discriminate H.
Qed.
Print Assumptions C88_deterministic_refuted.
(** --semantic-only with -e lists a file once for each of its units. *)
Theorem C88_semantic_pattern_refuted : ~ (forall A T B iter path_cmp o alpha q k out,
  good_backend A B -> (forall l, Permutation (iter l) l) -> good_order A -> good_paths path_cmp ->
  cmd_results A path_cmp false k
    [Some (search_single_path A T B iter (fun l => l) (fun l => l) path_cmp o true false alpha q q [] (fun f => f) k)] = Ok out ->
  NoDup (map (file_of A) out)).
Proof.
  intro H. specialize (H zarith plain_tuning a_backend (fun l => l) lex
    {| o_subdirectory := None; o_pattern := Some [1%Z; 3%Z]; o_include := None; o_file := None; o_exclude := None; o_exclude_dir := None |} (ZFin 1 : num zarith) (txt "?") 2).
  assert (X : exists out, cmd_results zarith lex false 2
    [Some (search_single_path zarith plain_tuning a_backend (fun l => l) (fun l => l) (fun l => l) lex
      {| o_subdirectory := None; o_pattern := Some [1%Z; 3%Z]; o_include := None; o_file := None; o_exclude := None; o_exclude_dir := None |} true false (ZFin 1 : num zarith) (txt "?") (txt "?") [] (fun f => f) 2)] = Ok out
    /\ map (file_of zarith) out = [txt "a"; txt "a"]) by (eexists; split; [vm_compute; reflexivity|reflexivity]).
  destruct X as (out & E & M). specialize (H out a_good (fun l => Permutation_refl l) z_good lex_good E). rewrite M in H. inversion H as [|? ? K _]; subst. apply K. left. reflexivity.
Qed.
Print Assumptions C88_semantic_pattern_refuted.
