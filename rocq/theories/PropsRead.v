(** C47, C48, C61: the read handlers of the HTTP API. *)
From Coq Require Import QArith String.
From Verif Require Import Base F32 CodecModel IndexModel IndexSpec IndexExamples SearchModel SearchSpec SearchExamples.
From Verif Require Import Text SqlModel SqlSpec MetaModel MetaQuery MetaSpec MetaProofs MetaCreate MetaExamples MetaFilter MetaWhere.
From Verif Require Import FtsRank FtsExamples ApiEmbed ApiRead ApiReadSpec ApiReadProofs ApiIndex ApiIndexProofs.
Open Scope list_scope. Open Scope nat_scope.

(** C47. Checking ids: those with metadata and those without, each in the order of the request,
    so that every position of the request is in exactly one of the two lists. *)
Theorem C47_check_exact :
  forall U E reg s ids,
    good_engine E -> store_reached U E s -> s <> Broken -> s <> NoDb -> Forall i64 ids ->
    check_metadata U E reg s ids
    = Ok (filter (fun i => match row_at E s i with Some _ => true | None => false end) ids,
          filter (fun i => match row_at E s i with Some _ => false | None => true end) ids).
Proof.
  intros U E reg s ids G R N1 N2 I. destruct (check_ok U E reg s ids G (store_reached_wf U E s G R) N1 N2 I) as (ex & mi & H & -> & ->). exact H.
Qed.
Print Assumptions C47_check_exact.
(** In particular nothing is lost and nothing is in both. *)
Theorem C47_check_partition :
  forall U E reg s ids ex mi,
    good_engine E -> store_reached U E s -> s <> Broken -> s <> NoDb -> Forall i64 ids ->
    check_metadata U E reg s ids = Ok (ex, mi) ->
    length ex + length mi = length ids /\ Permutation (ex ++ mi) ids
    /\ (forall i, In i ex -> exists f, row_at E s i = Some f) /\ (forall i, In i mi -> row_at E s i = None).
Proof.
  intros U E reg s ids ex mi G R N1 N2 I H. rewrite (C47_check_exact U E reg s ids G R N1 N2 I) in H. injection H as <- <-.
  assert (P : Permutation (filter (fun i => match row_at E s i with Some _ => true | None => false end) ids
          ++ filter (fun i => match row_at E s i with Some _ => false | None => true end) ids) ids).
  { clear I. induction ids as [|i ids IH]; [constructor|]. cbn [filter]. destruct (row_at E s i); cbn [app]; [constructor; exact IH|].
    symmetry. apply Permutation_cons_app. symmetry. exact IH. }
  split; [rewrite <- app_length; apply Permutation_length; exact P|]. split; [exact P|].
  split; intros i Hi; apply filter_In in Hi; destruct Hi as (_ & Hi); destruct (row_at E s i); try discriminate; eauto.
Qed.
Print Assumptions C47_check_partition.
Example C47_example :
  store_reached ascii_unicode ex_engine ex_store2 /\ Forall i64 [7; 3; 0; -1; 3]%Z
  /\ check_metadata ascii_unicode ex_engine None ex_store2 [7; 3; 0; -1; 3]%Z = Ok ([3; 0; 3], [7; -1])%Z.
Proof.
  split; [exact ex_store2_reached|]. split; [repeat constructor; unfold i64; lia|vm_compute; reflexivity].
Qed.

(** C25. The metadata endpoint: the first [limit] of the rows asked for, in the same order. *)
Definition first_of {A} (limit : option nat) (all l : list A) : Prop :=
  exists rest, all = l ++ rest /\
    match limit with Some n => length l = Nat.min n (length all) | None => rest = [] end.
Lemma firstn_first_of {A} limit (all : list A) : first_of limit all (match limit with Some n => firstn n all | None => all end).
Proof.
  destruct limit as [n|]; [exists (skipn n all)|exists []; split; [symmetry; apply app_nil_r|reflexivity]].
  split; [symmetry; apply firstn_skipn|apply firstn_length].
Qed.
Theorem C25_endpoint_by_ids :
  forall U E reg s params ids limit, good_engine E -> store_reached U E s -> s <> Broken -> s <> NoDb ->
    exists rs, get_metadata U E reg s None params (Some ids) limit = Ok rs
      /\ first_of limit (flat_map (object_at E s) (firsts ids)) rs.
Proof.
  intros U E reg s params ids limit G R NB NN. unfold get_metadata.
  replace (negb (store_exists s)) with false by (destruct s; try reflexivity; contradiction).
  cbn [get]. rewrite get_by_ids by (auto; eapply store_reached_wf; eauto). cbn [bind].
  eexists. split; [reflexivity|]. apply firstn_first_of.
Qed.
Print Assumptions C25_endpoint_by_ids.
Theorem C25_endpoint_by_condition :
  forall U E reg s condition params limit rs, good_unicode U -> good_engine E -> store_reached U E s -> ascii_text condition ->
    without_regexp U condition -> get_metadata U E reg s (Some condition) params None limit = Ok rs ->
    exists ids, StronglySorted Z.lt ids /\ (forall i, In i ids <-> MetaSpec.selects U E s condition params i)
      /\ first_of limit (flat_map (object_at E s) ids) rs.
Proof.
  intros U E reg s c ps limit rs HU G R A N H. unfold get_metadata in H.
  destruct (store_exists s) eqn:SE; [|discriminate]. cbn [negb] in H.
  apply bind_Ok in H. destruct H as (l & H & E'). injection E' as <-.
  destruct (get_where_ok U E reg s c ps l HU G (store_reached_wf U E s G R) A N H) as [(-> & ->)|(ids & H1 & H2 & ->)]; [discriminate|].
  exists ids. split; [exact H1|]. split; [exact H2|]. apply firstn_first_of.
Qed.
Print Assumptions C25_endpoint_by_condition.
Theorem C25_endpoint_rejects_both :
  forall U E reg s condition params ids limit, get_metadata U E reg s (Some condition) params (Some ids) limit = Err.
Proof. reflexivity. Qed.
Print Assumptions C25_endpoint_rejects_both.
Example C25_endpoint_example :
  match get_metadata ascii_unicode ex_engine None ex_store2 None [] (Some [3; 7; 0; 1]%Z) (Some 2) with
  | Ok rs => rs = flat_map (object_at ex_engine ex_store2) [3; 0]%Z /\ length rs = 2 | _ => False end.
Proof. vm_compute. split; reflexivity. Qed.

(** C48. The metadata of a list of documents: for each the object stored for it, or null. *)
Theorem C48_fetch_exact :
  forall U E reg s ids,
    good_engine E -> store_reached U E s -> s <> Broken -> Forall i64 ids ->
    fetch_metadata_for_docs U E reg s ids = Ok (map (shown E s) ids).
Proof. intros U E reg s ids G R N I. exact (fetch_ok U E reg s ids G (store_reached_wf U E s G R) N I). Qed.
Print Assumptions C48_fetch_exact.

(** C61. What a search returns. *)
Definition plain_filter {A} (U : unicode) (r : request A) : Prop :=
  match r_filter A r with Some c => ascii_text c /\ without_regexp U c | None => True end.
Theorem C61_search_answers :
  forall U E reg A iter X default alpha0 s r n l,
    good_unicode U -> good_engine E -> store_reached U E s -> (forall m, Permutation (iter m) m) -> good_searcher X ->
    plain_filter U r -> search U E reg A iter X default alpha0 s r = Ok (n, l) ->
    in_order n l /\ Forall (answer_ok U E s default r) l
    /\ exists sub, stands_for U E s r sub
       /\ ((listed (r_text A r) = [] /\ listed (r_queries A r) <> [] /\ Forall2 (by_embedding X (wanted default r) sub) (listed (r_queries A r)) l)
        \/ (listed (r_queries A r) = [] /\ listed (r_text A r) <> [] /\ Forall2 (by_keyword X (wanted default r) sub) (listed (r_text A r)) l)
        \/ (exists q t a, listed (r_queries A r) = [q] /\ listed (r_text A r) = [t] /\ l = [a]
            /\ by_both iter X (match r_fusion A r with Some f => text_eqb f (txt "rrf"%string) | None => false end)
                 (match r_alpha A r with Some x => x | None => alpha0 end) (wanted default r) sub q t a)).
Proof.
  intros U E reg A iter X default alpha0 s r n l HU G R IT GX PF H.
  exact (search_ok U E reg A iter X default alpha0 IT GX G HU s r n l (store_reached_wf U E s G R) PF H).
Qed.
Print Assumptions C61_search_answers.
(** C48, in a search response. *)
Theorem C48_search_metadata :
  forall U E reg A iter X default alpha0 s r n l,
    good_unicode U -> good_engine E -> store_reached U E s -> (forall m, Permutation (iter m) m) -> good_searcher X ->
    plain_filter U r -> search U E reg A iter X default alpha0 s r = Ok (n, l) ->
    Forall (fun a => a_meta A a = map (shown E s) (a_ids A a)) l.
Proof.
  intros U E reg A iter X default alpha0 s r n l HU G R IT GX PF H.
  destruct (C61_search_answers _ _ _ _ _ _ _ _ _ _ _ _ HU G R IT GX PF H) as (_ & F & _).
  clear - F. induction F as [|a l (_ & _ & _ & M) F IH]; constructor; assumption.
Qed.
Print Assumptions C48_search_metadata.
(** The modelled index and full-text search are such a searcher. *)
Theorem C61_index_searcher :
  forall A read V K D docs0 g0 ops outs d h x p G order conv hits,
    good_kernel K -> reached V D docs0 g0 ops outs d h -> load d = Ok x -> 1 <= p_n_ivf_probe p ->
    (Z.of_nat (List.length (documents docs0 ops)) <= 2 ^ 63)%Z ->
    (forall l, Permutation (order l) l) -> (forall t l, hits t = Ok l -> Forall (fun r => i64 (fst r)) l) ->
    good_searcher (index_searcher A read V K x p D G order conv hits).
Proof. exact index_is_good. Qed.
Print Assumptions C61_index_searcher.

(** ** Examples: an index of dimension 2 that finds 3, 1, 0 and by keywords 0, 3, but does not
    accept the keyword query "(" *)
Definition among (sub : option (list Z)) (l : list (Z * xq)) : list (Z * xq) :=
  match sub with Some s => filter (fun p => zmem (fst p) s) l | None => l end.
Definition ex_found : list (Z * xq) := [(3, Fin 9); (1, Fin 5); (0, Fin 1)]%Z.
Definition ex_found_kw : list (Z * xq) := [(0, Fin 4); (3, Fin 2)]%Z.
Definition ex_searcher : searcher qarith := Build_searcher qarith 2%Z
  (fun _ k sub => Ok (split (firstn k (among sub ex_found))))
  (fun t k sub => if text_eqb t (txt "("%string) then Err else Ok (split (firstn k (among sub ex_found_kw)))).
Lemma split_spec {B D} (l : list (B * D)) : split l = (map fst l, map snd l).
Proof. induction l as [|(a, b) l IH]; [reflexivity|]. cbn [split map fst snd]. rewrite IH. reflexivity. Qed.
Lemma found_good k sub l : Forall (fun p => i64 (fst p)) l -> good_result (A := qarith) k sub (split (firstn k (among sub l))).
Proof.
  intro F. rewrite split_spec. unfold good_result. cbn [fst snd]. rewrite !map_length. split; [reflexivity|]. split; [apply firstn_le_length|].
  assert (Q : forall p, In p (firstn k (among sub l)) -> In p (among sub l)) by (intros p Hp; rewrite <- (firstn_skipn k); apply in_or_app; left; exact Hp).
  assert (Q2 : forall p, In p (among sub l) -> In p l /\ match sub with Some s => In (fst p) s | None => True end).
  { intros p Hp. unfold among in Hp. destruct sub; [|auto]. apply filter_In in Hp. rewrite zmem_In in Hp. exact Hp. }
  split.
  - apply Forall_forall. intros i Hi. apply in_map_iff in Hi. destruct Hi as (p & <- & Hp). rewrite Forall_forall in F. apply F. exact (proj1 (Q2 p (Q p Hp))).
  - destruct sub; [|exact Logic.I]. intros i Hi. apply in_map_iff in Hi. destruct Hi as (p & <- & Hp). exact (proj2 (Q2 p (Q p Hp))).
Qed.
Lemma ex_searcher_good : good_searcher ex_searcher.
Proof.
  split; cbn [i_search i_keyword ex_searcher].
  - intros m k sub r _ [= <-]. apply found_good. repeat constructor; unfold i64; cbn; lia.
  - intros t k sub r H. destruct (text_eqb _ _); [discriminate|]. injection H as <-. apply found_good. repeat constructor; unfold i64; cbn; lia.
Qed.
Definition ex_query : sent := {| s_rows := Some [[f_one; 0%Z]]; s_b64 := None; s_shape := None |}.
Definition ask (qs : list sent) (ts : list string) (k : nat) (sub : option (list Z)) (c : option string) : request qarith :=
  Build_request qarith (Some qs) (Some (map txt ts)) (Some (Fin (1 # 2))) None (Some k) sub (option_map txt c) (Some [JInt 1980]).
Definition ex_search (r : request qarith) := search ascii_unicode ex_engine None qarith (fun l => l) ex_searcher 10 (Fin (3 # 4)) ex_store2 r.
Definition only (o : res (nat * list (answer qarith))) : list (list Z * list xq) :=
  match o with Ok (_, l) => map (fun a => (a_ids _ a, a_scores _ a)) l | _ => [] end.
Ltac plain_tac := split; [let c := fresh in let H := fresh in intros c H; cbn in H; repeat (destruct H as [<-|H]; [reflexivity|]); destruct H
  | let a := fresh in let M := fresh in intros a M; apply (MetaFilter.read_condition ascii_unicode ascii_good) in M; vm_compute in M; injection M as <-; cbn; tauto].
Example C61_example :
  good_searcher ex_searcher /\ store_reached ascii_unicode ex_engine ex_store2
  /\ plain_filter ascii_unicode (ask [ex_query] ["x"%string] 2 None (Some "year > ?"%string))
  (* two embedding queries *)
  /\ only (ex_search (ask [ex_query; ex_query] [] 2 None None)) = [([3; 1]%Z, [Fin 9; Fin 5]); ([3; 1]%Z, [Fin 9; Fin 5])]
  (* keywords, within a subset *)
  /\ only (ex_search (ask [] ["x"; "("]%string 2 (Some [3; 7]%Z) None)) = [([3]%Z, [Fin 2]); ([], [])]
  (* both, within a filter *)
  /\ only (ex_search (ask [ex_query] ["x"]%string 2 None (Some "year > ?"%string))) = [([3; 0]%Z, [Fin (1 # 2); Fin (1 # 2)])]
  (* a query of another dimension, and two queries with a text *)
  /\ ex_search (ask [{| s_rows := Some [[f_one]]; s_b64 := None; s_shape := None |}] [] 2 None None) = Err
  /\ ex_search (ask [ex_query; ex_query] ["x"]%string 2 None None) = Err.
Proof.
  split; [exact ex_searcher_good|]. split; [exact ex_store2_reached|]. split; [plain_tac|]. repeat split; vm_compute; reflexivity.
Qed.
Example C48_example :
  exists a, ex_search (ask [ex_query] [] 2 None None) = Ok (1, [a]) /\ a_ids _ a = [3; 1]%Z
    /\ a_meta _ a = map (shown ex_engine ex_store2) [3; 1]%Z /\ shown ex_engine ex_store2 3 <> None /\ shown ex_engine ex_store2 3 <> shown ex_engine ex_store2 1.
Proof.
  destruct (ex_search (ask [ex_query] [] 2 None None)) as [(n, [|a [|? ?]])| |] eqn:H; try (vm_compute in H; discriminate).
  vm_compute in H. injection H as <- <-. eexists. split; [reflexivity|]. split; [reflexivity|]. split; [vm_compute; reflexivity|]. split; vm_compute; discriminate.
Qed.

(** Findings.  A request with both a subset and a filter: the subset is ignored. *)
Theorem C61_subset_with_filter_refuted :
  exists r n l a i, good_searcher ex_searcher /\ plain_filter ascii_unicode r /\ r_subset _ r = Some [0]%Z
    /\ ex_search r = Ok (n, l) /\ In a l /\ In i (a_ids _ a) /\ ~ In i [0]%Z.
Proof.
  exists (ask [ex_query] [] 2 (Some [0]%Z) (Some "year > ?"%string)).
  destruct (ex_search (ask [ex_query] [] 2 (Some [0]%Z) (Some "year > ?"%string))) as [(n, [|a [|? ?]])| |] eqn:H; try (vm_compute in H; discriminate).
  exists n, [a], a, 3%Z. split; [exact ex_searcher_good|]. split; [plain_tac|]. split; [reflexivity|]. split; [reflexivity|]. split; [left; reflexivity|].
  split; [vm_compute in H; injection H as <- <-; left; reflexivity|]. intros [Q|[]]. discriminate.
Qed.
Print Assumptions C61_subset_with_filter_refuted.
(** A keyword query that fails is reported as a success without results. *)
Theorem C61_keyword_failure_reported_as_empty_refuted :
  exists r t n l, r_text _ r = Some [t] /\ i_keyword _ ex_searcher t 2 None = Err /\ ex_search r = Ok (n, l) /\ map (a_ids _) l = [[]].
Proof.
  exists (ask [] ["("%string] 2 None None), (txt "("%string), 1. eexists. split; [reflexivity|]. split; [reflexivity|]. split; vm_compute; reflexivity.
Qed.
Print Assumptions C61_keyword_failure_reported_as_empty_refuted.
(** The index is searched before the database is read, without a lock: with a deletion in
    between, a document is returned with the metadata of another one. *)
Theorem C48_concurrent_delete_mispairs_refuted :
  exists s' a f, s' = fst (delete ex_store2 [0]%Z)
    /\ describe ascii_unicode ex_engine None qarith s' (0, ([1]%Z, [Fin 5])) = Ok a
    /\ a_meta _ a = [Some (JObj ((subset_column, JInt 1) :: f))]
    /\ row_at ex_engine ex_store2 2 = Some f /\ row_at ex_engine ex_store2 1 <> Some f.
Proof.
  eexists. eexists. eexists. split; [reflexivity|]. split; [vm_compute; reflexivity|]. split; [reflexivity|]. split; [vm_compute; reflexivity|vm_compute; discriminate].
Qed.
Print Assumptions C48_concurrent_delete_mispairs_refuted.
