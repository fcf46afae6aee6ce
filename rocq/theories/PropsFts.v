(** Properties of the full-text search: query sanitising, identifier tokens, fusion of result
    lists, filtered search.  The specifications are in FtsTextSpec.v and FtsRankSpec.v. *)
From Coq Require Import QArith.
From Verif Require Import Base Text FtsText FtsTextSpec FtsTextProofs FtsWords FtsMatch.
From Verif Require Import FtsRank FtsRankSpec FtsRankProofs FtsRankOps FtsRankPure FtsFiltered FtsExamples.
From Coq Require Import String.
Open Scope list_scope.
Open Scope nat_scope.

(** ** C30: queries are sanitised to plain phrases
    Every query without a NUL character becomes a sequence of FTS5 strings, one for every word
    with an alphanumeric character that is not an operator word: no operator, no syntax error.
    In identifier-aware mode it becomes the OR of the query's tokens, whatever the query. *)
Theorem C30_sanitized_query_is_phrases :
  forall U q, ~ In 0%Z q ->
    exists words kept, splits (u_ws U) q words /\ searched U words kept
      /\ fts5_lex (sanitize_fts5_query U q) = Some (map FStr kept).
Proof. exact sanitize_ok. Qed.
Print Assumptions C30_sanitized_query_is_phrases.
Theorem C30_identifier_query_is_or_of_tokens :
  forall q, exists ts, fts5_lex (sanitize_fts5_query_or q) = Some (or_of ts) /\ NoDup ts
    /\ forall x, In x ts <-> exists id, identifier_in q id /\ identifier_token id x.
Proof. intro q. destruct (sanitize_or_ok q) as (ts & A & B & C0). exists ts. split; [exact A|]. split; [exact B|]. intro x. rewrite C0. apply tokens_iff. Qed.
Print Assumptions C30_identifier_query_is_or_of_tokens.
Example C30_example :
  ~ In 0%Z (txt "(foo OR ""bar*) AND -- say""hi")
  /\ fts5_lex (sanitize_fts5_query ascii_unicode (txt "(foo OR ""bar*) AND -- say""hi")) = Some [FStr (txt "foo"); FStr (txt "bar"); FStr (txt "say""hi")]
  /\ fts5_lex (txt "(foo OR ""bar*)") = None
  /\ fts5_lex (sanitize_fts5_query_or (txt "getHttp NOT")) = Some (or_of (map txt ["gethttp"; "get"; "http"; "get_http"; "not"]%string)).
Proof. split; [cbn; intuition discriminate|]. vm_compute. repeat split; reflexivity. Qed.
(** Finding: a NUL inside a word survives sanitising; FTS5 reads the query as a C string and
    reports an unterminated string. *)
Theorem C30_nul_is_syntax_error_refuted :
  exists q, fts5_lex (sanitize_fts5_query ascii_unicode q) = None.
Proof. exists [97; 0; 98]%Z. vm_compute. reflexivity. Qed.
Print Assumptions C30_nul_is_syntax_error_refuted.

(** ** C50: identifier-aware tokens
    The tokens of a text are exactly the tokens of its identifiers: the identifier, its
    sub-words and the adjacent pairs of sub-words; every token is a non-empty lower-case word;
    and a query spelling a sub-word or the whole of an indexed identifier, in any letter case,
    has a token whose words occur consecutively in the indexed text. *)
Theorem C50_tokens_exact :
  forall t x, In x (tokenize_identifiers t) <-> exists id, identifier_in t id /\ identifier_token id x.
Proof. exact tokens_iff. Qed.
Print Assumptions C50_tokens_exact.
Theorem C50_subwords_exist :
  forall id, all word_char id -> exists ws, subwords id ws /\ forall vs, subwords id vs -> vs = ws.
Proof. intros id A. destruct (parts_ok id A) as (ws & S0 & _). exists ws. split; auto. intros vs Hv. eapply subwords_determined; eauto. Qed.
Print Assumptions C50_subwords_exist.
Theorem C50_tokens_are_lower_case_words :
  forall t x, In x (tokenize_identifiers t) ->
    x <> [] /\ all (fun c => a_lower c || a_digit c || under c) x.
Proof. exact token_shape. Qed.
Print Assumptions C50_tokens_are_lower_case_words.
Theorem C50_subword_query_matches :
  forall t id ws w q, identifier_in t id -> subwords id ws -> In w ws -> same_letters q w ->
    (exists c r, w = c :: r /\ a_alpha c = true) -> all a_alnum w ->
    exists x, In x (tokenize_identifiers q) /\ phrase_matches x (prepare_document_text t IdentifierAware).
Proof. exact subword_match. Qed.
Print Assumptions C50_subword_query_matches.
Theorem C50_whole_query_matches :
  forall t id q, identifier_in t id -> same_letters q id -> (exists c, In c id /\ a_alnum c = true) ->
    exists x, In x (tokenize_identifiers q) /\ phrase_matches x (prepare_document_text t IdentifierAware).
Proof. exact whole_match. Qed.
Print Assumptions C50_whole_query_matches.

Definition ex_source : text := txt "fn parseHTTPHeader2(buf_len: u8) {}".
Lemma ex_identifier : identifier_in ex_source (txt "parseHTTPHeader2").
Proof.
  exists (txt "fn "), [], (txt "(buf_len: u8) {}"). repeat split; auto.
  - intros c [].
  - intros c H. cbn in H. intuition (subst; reflexivity).
  - eexists; eexists; split; reflexivity.
  - right. exists (txt "fn"), 32%Z. split; reflexivity.
  - right. eexists; eexists; split; reflexivity.
Qed.
Example C50_example :
  identifier_in ex_source (txt "parseHTTPHeader2")
  /\ (exists ws, subwords (txt "parseHTTPHeader2") ws /\ In (txt "Header") ws)
  /\ tokenize_identifiers ex_source = map txt
       ["fn"; "parsehttpheader2"; "parse"; "http"; "header"; "2"; "parse_http"; "http_header"; "header_2";
        "buf_len"; "buf"; "len"; "buf_len"; "u8"; "u"; "8"; "u_8"]%string
  /\ ~ phrase_matches (txt "header") ex_source.
Proof.
  split; [exact ex_identifier|]. split; [|split; [vm_compute; reflexivity|]].
  - assert (A : all a_alnum (txt "parseHTTPHeader2")) by (intros c H; cbn in H; intuition (subst; reflexivity)).
    destruct (camel_ok 16 (txt "parseHTTPHeader2") (le_n _) A) as (ws & W & E). exists ws. split; [right; split; auto; cbn; intuition discriminate|].
    assert (E' : camel_fuel 16 (txt "parseHTTPHeader2") = [txt "parse"; txt "http"; txt "header"; txt "2"]) by (vm_compute; reflexivity).
    rewrite E' in E. clear E'. pose proof (f_equal (@List.length _) E) as L. rewrite map_length in L. cbn [List.length] in L.
    destruct ws as [|a [|b [|c [|d [|? ?]]]]]; try discriminate L. clear L. destruct W as (W & _). cbn [map] in E.
    injection E as Ea Eb Ec Ed. apply (f_equal (@List.length Z)) in Ea as La, Eb as Lb, Ec as Lc. unfold lower in La, Lb, Lc. rewrite map_length in La, Lb, Lc. symmetry in La, Lb, Lc. cbn [List.length txt] in La, Lb, Lc.
    repeat (destruct a as [|? a]; [discriminate La|]; injection La as La). destruct a; [|discriminate La].
    repeat (destruct b as [|? b]; [discriminate Lb|]; injection Lb as Lb). destruct b; [|discriminate Lb].
    repeat (destruct c as [|? c]; [discriminate Lc|]; injection Lc as Lc). destruct c; [|discriminate Lc].
    vm_compute in W. injection W; intros; subst. right; right; left. reflexivity.
  - intros (_ & a & b & E).
    assert (I0 : In (txt "header") (fts_words ex_source)) by (rewrite E; apply in_or_app; right; apply in_or_app; left; vm_compute; auto).
    vm_compute in I0. intuition discriminate.
Qed.
(** Findings: an identifier mixing both styles is only split at underscores, so its camelCase
    part is not found; a sub-word that starts with a digit is no query token. *)
Theorem C50_mixed_identifier_not_found_refuted :
  exists t q, forall x, In x (tokenize_identifiers q) -> ~ phrase_matches x (prepare_document_text t IdentifierAware).
Proof.
  exists (txt "my_fooBar"), (txt "Bar"). intros x H. vm_compute in H. destruct H as [<-|[]]. intros (_ & a & b & E).
  assert (I0 : In (txt "bar") (fts_words (prepare_document_text (txt "my_fooBar") IdentifierAware))).
  { rewrite E. apply in_or_app. right. apply in_or_app. left. vm_compute. auto. }
  vm_compute in I0. intuition discriminate.
Qed.
Print Assumptions C50_mixed_identifier_not_found_refuted.
Theorem C50_digit_subword_no_token_refuted :
  exists id w, In w (split_identifier id) /\ tokenize_identifiers w = [].
Proof. exists (txt "utf8"), (txt "8"). vm_compute. auto. Qed.
Print Assumptions C50_digit_subword_no_token_refuted.

(** ** C31: reciprocal-rank fusion
    For every two result lists and whatever order the hash map is iterated in: at most [top_k]
    distinct ids of the inputs, exactly [min top_k (number of distinct ids)], each with its
    documented score; if the scores are numbers they are best-first and nothing left out beats
    anything returned. *)
Theorem C31_rrf_selects :
  forall A iter, (forall l, Permutation (iter l) l) -> forall sem kw alpha k,
    selects A k (sem ++ kw) (rrf_score A sem kw alpha) (fst (fuse_rrf A iter sem kw alpha k)) (snd (fuse_rrf A iter sem kw alpha k)).
Proof. exact fuse_rrf_selects. Qed.
Print Assumptions C31_rrf_selects.
Theorem C31_rrf_best_first :
  forall A iter, (forall l, Permutation (iter l) l) -> forall sem kw alpha k, good_order A ->
    (forall id, In id (sem ++ kw) -> is_number A (rrf_score A sem kw alpha id)) ->
    best_by A k (sem ++ kw) (rrf_score A sem kw alpha) (fst (fuse_rrf A iter sem kw alpha k)) (snd (fuse_rrf A iter sem kw alpha k)).
Proof. exact fuse_rrf_best. Qed.
Print Assumptions C31_rrf_best_first.
(** alpha = 1: the semantic list in its own order, then ids only found by keywords; alpha = 0
    symmetrically. *)
Theorem C31_rrf_alpha_one :
  forall A n, good_order A -> rrf_arith A n -> forall iter, (forall l, Permutation (iter l) l) ->
    forall sem kw k, NoDup sem -> List.length sem <= n -> List.length kw <= n ->
    exists R, fst (fuse_rrf A iter sem kw (f_1 A) k) = firstn k (sem ++ R) /\ forall z, In z R <-> In z kw /\ ~ In z sem.
Proof. exact pure_semantic. Qed.
Print Assumptions C31_rrf_alpha_one.
Theorem C31_rrf_alpha_zero :
  forall A n, good_order A -> rrf_arith A n -> forall iter, (forall l, Permutation (iter l) l) ->
    forall sem kw k, NoDup kw -> List.length sem <= n -> List.length kw <= n ->
    exists R, fst (fuse_rrf A iter sem kw (f_0 A) k) = firstn k (kw ++ R) /\ forall z, In z R <-> In z sem /\ ~ In z kw.
Proof. exact pure_keyword. Qed.
Print Assumptions C31_rrf_alpha_zero.
Example C31_example :
  good_order qarith /\ rrf_arith qarith 10
  /\ (forall id, is_number qarith (rrf_score qarith [7; 8; 9]%Z [9; 5]%Z (Fin (1 # 2)) id))
  /\ (forall l : list (Z * num qarith), Permutation (rev l) l)
  /\ fuse_rrf qarith (@rev _) [7; 8; 9]%Z [9; 5]%Z (Fin (1 # 2)) 3 = ([9; 7; 5]%Z, [Fin (62 # 3843); Fin (1 # 122); Fin (1 # 124)])
  /\ fst (fuse_rrf qarith (@rev _) [7; 8; 9]%Z [9; 5]%Z (Fin 1) 4) = [7; 8; 9; 5]%Z.
Proof.
  split; [exact q_good|]. split; [apply q_rrf|]. split; [intro; apply q_number|].
  split; [intro; symmetry; apply Permutation_rev|]. split; vm_compute; reflexivity.
Qed.

(** ** C32: relative-score fusion
    The documented score alpha * minmax(semantic) + (1 - alpha) * minmax(keyword), with the
    true minimum and maximum of each list; selection as for C31. *)
Theorem C32_relative_fusion :
  forall A iter, (forall l, Permutation (iter l) l) -> forall sem ss kw ks alpha k, good_order A -> good_minmax A ->
    List.length sem = List.length ss -> List.length kw = List.length ks -> Forall (is_number A) ss -> Forall (is_number A) ks ->
    exists slo shi klo khi, (ss <> [] -> span A ss slo shi) /\ (ks <> [] -> span A ks klo khi)
      /\ let score := relative_score A sem ss slo shi kw ks klo khi alpha in
         let r := fuse_relative_score A iter sem ss kw ks alpha k in
         selects A k (sem ++ kw) score (fst r) (snd r)
         /\ ((forall id, In id (sem ++ kw) -> is_number A (score id)) -> best_by A k (sem ++ kw) score (fst r) (snd r)).
Proof. exact fuse_relative_best. Qed.
Print Assumptions C32_relative_fusion.
Example C32_example :
  good_order qarith /\ good_minmax qarith
  /\ fuse_relative_score qarith (@rev _) [7; 8; 9]%Z [Fin 4; Fin 2; Fin 0] [9; 5]%Z [Fin 3; Fin 3] (Fin (1 # 2)) 3
     = ([5; 9; 7]%Z, [Fin (1 # 2); Fin (1 # 2); Fin (1 # 2)]).
Proof. split; [exact q_good|]. split; [exact q_minmax|]. vm_compute. reflexivity. Qed.

(** ** C33: filtered search over any number of ids
    With distinct ids, the result is a best-first choice of [top_k] of the matching rows whose
    id is in the subset; it has the same scores as the single query over those rows. *)
Theorem C33_filtered_is_global_top :
  forall A, good_order A -> forall G order conv, good_order_by conv order -> forall hits k subset,
    NoDup (map fst hits) -> NoDup subset -> Forall (fun p => is_number A (conv (snd p))) hits ->
    exists out, search_filtered A G order conv hits k subset = split_pairs A out
      /\ top_of A k (collect A G conv (filter (fun p => zin (fst p) subset) hits)) out.
Proof. exact search_filtered_top. Qed.
Print Assumptions C33_filtered_is_global_top.
Theorem C33_filtered_agrees_with_single_query :
  forall A, good_order A -> forall G order conv, good_order_by conv order -> forall hits k subset,
    NoDup (map fst hits) -> NoDup subset -> Forall (fun p => is_number A (conv (snd p))) hits ->
    Forall2 (fun x y => f_cmp A x y = Some Eq)
      (snd (search_filtered A G order conv hits k subset))
      (snd (fts_search A G order conv (filter (fun p => zin (fst p) subset) hits) k)).
Proof.
  intros A GO G order conv OB hits k subset N1 N2 F.
  destruct (search_filtered_top A GO order conv OB hits k subset N1 N2 F) as (out & E & T). rewrite E. cbn [snd split_pairs fts_search].
  unfold fts_search. cbn [snd split_pairs].
  assert (F' : Forall (fun p => is_number A (conv (snd p))) (filter (fun p => zin (fst p) subset) hits)).
  { rewrite Forall_forall in *. intros p Hp. apply filter_In in Hp. apply F, Hp. }
  eapply (top_agree A GO k); [|exact T|exact (query_top A order conv OB k _ F')].
  unfold collect. rewrite Forall_map. exact F'.
Qed.
Print Assumptions C33_filtered_agrees_with_single_query.

Lemma q_order_ok : @good_order_by qarith xq (fun x => x) q_order.
Proof.
  split; [intro; apply isort_perm|]. intros l F. apply (isort_desc_sorted qarith q_good l F).
Qed.
Definition ex_hits : list (Z * xq) := map (fun n => (Z.of_nat n, Fin (inject_Z (Z.of_nat (n mod 7))))) (seq 0 2000).
Definition ex_subset : list Z := map (fun n => Z.of_nat (2 * n)) (seq 0 950).
Lemma nodup_dec_ok l : (if list_eq_dec Z.eq_dec (nodup Z.eq_dec l) l then true else false) = true -> NoDup l.
Proof. destruct (list_eq_dec _ _ _) as [E|]; [|discriminate]. intros _. rewrite <- E. apply NoDup_nodup. Qed.
Example C33_example :
  good_order qarith /\ @good_order_by qarith xq (fun x => x) q_order
  /\ NoDup (map fst ex_hits) /\ NoDup ex_subset /\ fts_param_limit < List.length ex_subset
  /\ List.length (fst (search_filtered qarith xq q_order (fun x => x) ex_hits 5 ex_subset)) = 5
  /\ snd (search_filtered qarith xq q_order (fun x => x) ex_hits 300 ex_subset)
     = snd (fts_search qarith xq q_order (fun x => x) (filter (fun p => zin (fst p) ex_subset) ex_hits) 300).
Proof.
  split; [exact q_good|]. split; [exact q_order_ok|]. split; [apply nodup_dec_ok; vm_compute; reflexivity|].
  split; [apply nodup_dec_ok; vm_compute; reflexivity|]. split; [apply Nat.ltb_lt; vm_compute; reflexivity|]. split; vm_compute; reflexivity.
Qed.
(** Finding: an id given twice, more than 900 places apart, is returned twice. *)
Theorem C33_duplicate_id_returned_twice_refuted :
  exists hits subset, NoDup (map fst hits) /\ ~ NoDup (fst (search_filtered qarith xq q_order (fun x => x) hits 5 subset)).
Proof.
  exists [(7%Z, Fin 1)], (7%Z :: map (fun n => Z.of_nat (n + 100)) (seq 0 900) ++ [7%Z]).
  split; [repeat constructor; auto|]. vm_compute. intro N. inversion N as [|? ? H]. apply H. left. reflexivity.
Qed.
Print Assumptions C33_duplicate_id_returned_twice_refuted.
