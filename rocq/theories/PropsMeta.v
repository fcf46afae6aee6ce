(** Properties C23-C25, C28, C29, C53, C57, C58: the metadata store. *)
From Coq Require Import String.
From Verif Require Import Base F32 IndexModel IndexSpec IndexLemmas IndexExamples.
From Verif Require Import Text SqlModel SqlSpec SqlProofs Base64 Base64Spec Base64Proofs.
From Verif Require Import MetaModel MetaQuery MetaSpec MetaProofs MetaCreate MetaContent MetaWhere MetaRead.
From Verif Require Import SyncModel SyncSpec SyncProofs MetaExamples.
Open Scope list_scope.
Open Scope nat_scope.

(** C23. The rows of any reachable store form a list with one optional row per position ... *)
Theorem C23_store_is_a_list :
  forall U E s, good_engine E -> store_reached U E s -> exists L, row_list E s L.
Proof. intros U E s G R. exact (row_list_exists E s G (store_reached_wf U E s G R)). Qed.
Print Assumptions C23_store_is_a_list.

(** ... deleting ids deletes these positions of the list: the other rows keep order and
    content and are renumbered; the reported number is that of the rows removed. *)
Theorem C23_delete_resequences :
  forall U E s ids s' r L, good_engine E -> store_reached U E s -> s <> Broken ->
    MetaModel.delete s ids = (s', r) -> row_list E s L ->
    row_list E s' (delete_positions ids L)
    /\ r = Ok (length (filter (fun i => match row_at E s i with Some _ => true | None => false end) (firsts ids)))
    /\ count s' = Ok (length (filter has_item (delete_positions ids L))).
Proof.
  intros U E s ids s' r L G R NB D RL. pose proof (store_reached_wf U E s G R) as W.
  destruct (delete_row_list E s ids s' r L G W D RL NB) as (H1 & H2). split; auto. split; auto.
  apply (count_rows E); auto.
  - pose proof (store_reached_wf U E _ G (sr_step U E s (MDelete ids) R I)) as W'. cbn [meta_step] in W'. rewrite D in W'. exact W'.
  - unfold MetaModel.delete in D. destruct ids; [congruence|]. destruct s; try congruence. destruct (delete_v2 d (z :: ids)); congruence.
Qed.
Print Assumptions C23_delete_resequences.

Example C23_example :
  let d := MetaModel.delete ex_store2 [2; 0; 9; 2; -1]%Z in
  good_engine ex_engine /\ store_reached ascii_unicode ex_engine ex_store2 /\ ex_store2 <> Broken
  /\ count ex_store2 = Ok 4 /\ snd d = Ok 2 /\ count (fst d) = Ok 2
  /\ row_at ex_engine (fst d) 0 = row_at ex_engine ex_store2 1 /\ row_at ex_engine (fst d) 1 = row_at ex_engine ex_store2 3
  /\ row_at ex_engine (fst d) 1 <> None /\ row_at ex_engine (fst d) 2 = None.
Proof.
  split; [exact ex_good|]. split; [exact ex_store2_reached|]. repeat split; try (vm_compute; reflexivity); vm_compute; discriminate.
Qed.

(** C24. Index and metadata: after any history of adds (with or without metadata), deletes,
    appends and reloads, whether the metadata were accepted or refused, the opened index shows
    the documents of a collection and the metadata store its items, position by position. *)
Theorem C24_index_and_metadata_aligned :
  forall V E D docs0 g0 md0 ops outs s,
    sreached V E D docs0 g0 md0 ops outs s ->
    exists out0 outs' L0 L, outs = out0 :: outs' /\ adds [] docs0 md0 out0 L0 /\ length L0 = length docs0
      /\ call_history L0 ops outs' L
      /\ (forall x, load (fst (fst s)) = Ok x -> env_shows V x (map fst L))
      /\ (concat (map fst L) <> [] -> exists x, load (fst (fst s)) = Ok x)
      /\ described E (snd s) L
      /\ (snd s <> Broken ->
          count (snd s) = Ok (length (filter (fun p => match snd p with Some _ => true | None => false end) L))).
Proof.
  intros V E D docs0 g0 md0 ops outs s R. pose proof (sync_wf _ _ _ _ _ _ _ _ _ R) as W. destruct R as (HD & Hk & G & R).
  destruct (sync_history V E D docs0 g0 md0 ops outs s (conj HD (conj Hk (conj G R)))) as (o & os & L0 & L & H1 & H2 & H3 & H4 & H5 & H6 & H7).
  exists o, os, L0, L. repeat (split; auto). intro NB. apply (described_count E); auto.
Qed.
Print Assumptions C24_index_and_metadata_aligned.

Example C24_example :
  let s := snd ex_srun in
  sreached ex_env ex_engine 8 ex_docs3 (cfg 2 3 2 0) (Some ex_items) ex_sops (fst ex_srun) s
  /\ fst ex_srun = [Ok [0; 1; 2]; Ok [3; 4]; Err; Err; Ok [2]; Ok [4]; Ok [5]]%Z
  /\ is_ok (load (fst (fst s))) = true /\ num_documents (x_meta (opened (fst (fst s)))) = 6 /\ count (snd s) = Ok 4
  /\ row_at ex_engine (snd s) 3 = None
  /\ match row_at ex_engine (snd s) 2 with Some f => field_of f (txt "file") | None => None end = Some (str "e.rs")
  /\ match row_at ex_engine (snd s) 4 with Some f => field_of f (txt "file") | None => None end = Some (str "z.rs").
Proof.
  cbv zeta. split.
  - split; [lia|]. split; [exact ex_kmeans|]. split; [exact ex_good|]. split; [repeat constructor|].
    split; [repeat constructor; cbn; intuition discriminate|].
    split; [repeat constructor; cbn; intuition discriminate|].
    split; [cbn; repeat (constructor; [first [split; [discriminate|repeat constructor]|repeat (constructor; try lia)|exact I]|]); constructor|].
    split; [cbn; repeat split; auto|].
    unfold ex_srun. rewrite <- surjective_pairing. apply is_ok_got. vm_compute. reflexivity.
  - repeat split; vm_compute; reflexivity.
Qed.

(** Finding: when the metadata of an update are refused the caller gets an error, but the
    documents have been added to the index all the same. *)
Theorem C24_error_leaves_documents_refuted :
  exists docs0 g0 md0 o outs s outs' s',
    sreached ex_env ex_engine 8 docs0 g0 md0 [] outs s /\ sreached ex_env ex_engine 8 docs0 g0 md0 [o] (outs ++ outs') s'
    /\ outs' = [Err] /\ num_documents (x_meta (opened (fst (fst s)))) = 3 /\ num_documents (x_meta (opened (fst (fst s')))) = 4.
Proof.
  pose (o := SAdd [[tok 20]] (cfg 2 0 10 5) (Some [obj [("bad key"%string, JInt 1)]])).
  pose (r := got ([], ((empty_disk, ex_meta0), NoDb)) (srun ex_env ex_engine ex_docs3 (cfg 2 3 2 0) (Some ex_items) [])).
  pose (r' := got ([], ((empty_disk, ex_meta0), NoDb)) (srun ex_env ex_engine ex_docs3 (cfg 2 3 2 0) (Some ex_items) [o])).
  exists ex_docs3, (cfg 2 3 2 0), (Some ex_items), o, (fst r), (snd r), [Err], (snd r').
  assert (A : sreached ex_env ex_engine 8 ex_docs3 (cfg 2 3 2 0) (Some ex_items) [] (fst r) (snd r)).
  { split; [lia|]. split; [exact ex_kmeans|]. split; [exact ex_good|]. split; [repeat constructor|].
    split; [repeat constructor; cbn; intuition discriminate|]. split; [constructor|]. split; [constructor|]. split; [exact I|].
    unfold r. rewrite <- surjective_pairing. apply is_ok_got. vm_compute. reflexivity. }
  assert (B : sreached ex_env ex_engine 8 ex_docs3 (cfg 2 3 2 0) (Some ex_items) [o] (fst r') (snd r')).
  { split; [lia|]. split; [exact ex_kmeans|]. split; [exact ex_good|]. split; [repeat constructor|].
    split; [repeat constructor; cbn; intuition discriminate|]. split; [repeat constructor; cbn; intuition discriminate|].
    split; [cbn; constructor; [split; [discriminate|repeat constructor]|constructor]|]. split; [cbn; auto|].
    unfold r'. rewrite <- surjective_pairing. apply is_ok_got. vm_compute. reflexivity. }
  assert (Q : fst r ++ [Err] = fst r') by (vm_compute; reflexivity).
  split; [exact A|]. split; [rewrite Q; exact B|].
  repeat split; vm_compute; reflexivity.
Qed.
Print Assumptions C24_error_leaves_documents_refuted.

(** C25. Reading by ids: request order, each existing id once, whatever the number of ids. *)
Theorem C25_get_by_ids_in_request_order :
  forall U E reg s params ids, good_engine E -> store_reached U E s -> s <> Broken ->
    get U E reg s None params (Some ids) = Ok (flat_map (object_at E s) (firsts ids)).
Proof.
  intros U E reg s params ids G R NB. cbn [get]. rewrite get_by_ids by (auto; eapply store_reached_wf; eauto). reflexivity.
Qed.
Print Assumptions C25_get_by_ids_in_request_order.
(** Reading all rows: in id order. *)
Theorem C25_get_all_in_id_order :
  forall U E reg s params rs, good_engine E -> store_reached U E s -> get U E reg s None params None = Ok rs ->
    exists ids, StronglySorted Z.lt ids /\ (forall i, In i ids <-> row_at E s i <> None) /\ rs = flat_map (object_at E s) ids.
Proof. intros U E reg s params rs G R H. exact (get_all_ok E s rs G (store_reached_wf U E s G R) H). Qed.
Print Assumptions C25_get_all_in_id_order.
(** Reading by condition: the rows it selects, in id order. *)
Theorem C25_get_by_condition_in_id_order :
  forall U E reg s condition params rs, good_unicode U -> good_engine E -> store_reached U E s -> ascii_text condition ->
    without_regexp U condition -> get U E reg s (Some condition) params None = Ok rs ->
    s = NoDb /\ rs = [] \/
    exists ids, StronglySorted Z.lt ids /\ (forall i, In i ids <-> selects U E s condition params i)
      /\ rs = flat_map (object_at E s) ids.
Proof. intros U E reg s c ps rs HU G R A N H. exact (get_where_ok U E reg s c ps rs HU G (store_reached_wf U E s G R) A N H). Qed.
Print Assumptions C25_get_by_condition_in_id_order.
Theorem C25_condition_and_ids_rejected :
  forall U E reg s condition params ids, get U E reg s (Some condition) params (Some ids) = Err.
Proof. exact get_both. Qed.
Print Assumptions C25_condition_and_ids_rejected.

Definition ids_of (r : res (list json)) : list json :=
  match r with Ok l => map (fun o => match o with JObj ((_, v) :: _) => v | _ => JNull end) l | _ => [] end.
Lemma no_regexp_ex s : tokenize ascii_unicode s = tokenize ascii_unicode s -> forall a, means ascii_unicode s a -> bind (tokenize ascii_unicode s) ast_of = Ok a.
Proof. intros _ a M. exact (MetaFilter.read_condition ascii_unicode ascii_good s a M). Qed.
Ltac without_tac := let a := fresh in let M := fresh in intros a M; apply (no_regexp_ex _ eq_refl) in M; vm_compute in M; injection M as <-; cbn; tauto.
Ltac ascii_tac := let c := fresh in let H := fresh in intros c H; cbn in H; repeat (destruct H as [<-|H]; [reflexivity|]); destruct H.
Example C25_example :
  let q := txt "year < ? or title is null or file = ?" in
  good_engine ex_engine /\ store_reached ascii_unicode ex_engine ex_store2 /\ ex_store2 <> Broken
  /\ ascii_text q /\ without_regexp ascii_unicode q
  /\ ids_of (get ascii_unicode ex_engine None ex_store2 None [] (Some [3; 9; 0; 3; 1]%Z)) = [JInt 3; JInt 0; JInt 1]
  /\ ids_of (get ascii_unicode ex_engine None ex_store2 (Some q) [JInt 2000; str "f.rs"] None) = [JInt 0; JInt 3]
  /\ ids_of (get ascii_unicode ex_engine None ex_store2 None [] None) = [JInt 0; JInt 1; JInt 2; JInt 3].
Proof.
  split; [exact ex_good|]. split; [exact ex_store2_reached|]. split; [vm_compute; discriminate|].
  split; [ascii_tac|]. split; [without_tac|]. repeat split; vm_compute; reflexivity.
Qed.

(** C28. update_where: exactly the selected rows change, in exactly the listed columns. *)
Theorem C28_update_where_changes_selected_rows :
  forall U E s condition params us s' n,
    good_unicode U -> good_engine E -> store_reached U E s -> ascii_text condition -> distinct_names s -> us <> [] ->
    update_where U E s condition params (JObj us) = (s', Ok n) ->
    exists ids, n = length ids /\ NoDup ids /\ (forall i, In i ids <-> selects U E s condition params i)
      /\ (forall i, ~ In i ids -> row_at E s' i = row_at E s i)
      /\ (forall i, In i ids -> exists f f', row_at E s i = Some f /\ row_at E s' i = Some f' /\ map fst f' = map fst f
            /\ (forall k t v y, declared s k t -> assigns us k v -> (v = JNull \/ kind v = t) -> comes_back E v y ->
                  field_of f' k = Some y)
            /\ (forall k, (forall v, ~ assigns us k v) -> field_of f' k = field_of f k)).
Proof.
  intros U E s c ps us s' n HU G R A D N H. exact (update_where_ok U E s c ps us s' n HU G (store_reached_wf U E s G R) A D N H).
Qed.
Print Assumptions C28_update_where_changes_selected_rows.
Theorem C28_failed_update_where_changes_nothing :
  forall U E s condition params u s' r, update_where U E s condition params u = (s', r) -> (forall n, r <> Ok n) -> s' = s.
Proof. exact update_where_err. Qed.
Print Assumptions C28_failed_update_where_changes_nothing.

Example C28_example :
  let q := txt "year > ?" in
  let r := update_where ascii_unicode ex_engine ex_store2 q [JInt 1980] (obj [("Year", JInt 7); ("file", JNull)]%string) in
  good_unicode ascii_unicode /\ good_engine ex_engine /\ store_reached ascii_unicode ex_engine ex_store2 /\ ascii_text q
  /\ distinct_names ex_store2 /\ snd r = Ok 2
  /\ match row_at ex_engine (fst r) 0 with Some f => map (field_of f) (map txt ["file"; "title"; "year"]%string) | None => [] end
     = [Some JNull; Some (str "one"); Some (JInt 7)]
  /\ row_at ex_engine (fst r) 1 = row_at ex_engine ex_store2 1.
Proof.
  split; [exact ascii_good|]. split; [exact ex_good|]. split; [exact ex_store2_reached|]. split; [ascii_tac|].
  split; [vm_compute; repeat constructor; cbn; intuition discriminate|]. repeat split; vm_compute; reflexivity.
Qed.

(** C29 (partial). REGEXP queries: when every REGEXP of the condition is bound to the first
    parameter's pattern, the result is the rows the condition selects.  Missing: conditions
    whose REGEXPs have other patterns, see below. *)
Theorem C29_regexp_partial :
  forall U E reg s condition params reg' ids,
    good_unicode U -> good_engine E -> store_reached U E s -> ascii_text condition ->
    (forall a p, means U condition a -> In p (patterns a (map (json_to_sql E) params)) ->
       exists t, p = SText t /\ hd_error params = Some (JStr t)) ->
    where_condition_regexp U E reg s condition params = (reg', Ok ids) ->
    NoDup ids /\ forall i, In i ids <-> selects U E s condition params i.
Proof.
  intros U E reg s c ps reg' ids HU G R A P H. exact (where_regexp_ok U E reg s c ps reg' ids HU G (store_reached_wf U E s G R) A P H).
Qed.
Print Assumptions C29_regexp_partial.

Example C29_example :
  let q := txt "title regexp ? and not year > ?" in
  let ps := [str "t"; JInt 3000] in
  good_unicode ascii_unicode /\ good_engine ex_engine /\ store_reached ascii_unicode ex_engine ex_store /\ ascii_text q
  /\ (forall a p, means ascii_unicode q a -> In p (patterns a (map (json_to_sql ex_engine) ps)) ->
       exists t, p = SText t /\ hd_error ps = Some (JStr t))
  /\ snd (where_condition_regexp ascii_unicode ex_engine None ex_store q ps) = Ok [1]%Z.
Proof.
  split; [exact ascii_good|]. split; [exact ex_good|]. split; [exact ex_store_reached|]. split; [ascii_tac|].
  split; [|vm_compute; reflexivity].
  intros a p M. apply (no_regexp_ex _ eq_refl) in M. vm_compute in M. injection M as <-. cbn. intros [<-|[]]. eauto.
Qed.

(** Finding: with two REGEXPs only the first parameter is used as a pattern: row 1, whose
    title matches the second pattern, is missed. *)
Theorem C29_second_pattern_ignored_refuted :
  exists s condition params reg' ids i,
    store_reached ascii_unicode ex_engine s /\ ascii_text condition
    /\ where_condition_regexp ascii_unicode ex_engine None s condition params = (reg', Ok ids)
    /\ selects ascii_unicode ex_engine s condition params i /\ ~ In i ids.
Proof.
  exists ex_store, (txt "file regexp ? or title regexp ?"), [str "a"; str "t"],
    (fst (where_condition_regexp ascii_unicode ex_engine None ex_store (txt "file regexp ? or title regexp ?") [str "a"; str "t"])), [0]%Z, 1%Z.
  split; [exact ex_store_reached|]. split; [ascii_tac|]. split.
  - vm_compute. reflexivity.
  - split; [|intros [H|[]]; discriminate].
    apply (sel_cond _ _ _ _ _ _ (COr (CRegexp false (txt "file")) (CRegexp false (txt "title")))).
    + exists ([TIdent (txt "file"); TRegexp; TPlaceholder] ++ TOr :: [TIdent (txt "title"); TRegexp; TPlaceholder]). split.
      * apply (tokenize_iff _ ascii_good). vm_compute. reflexivity.
      * apply ex_or; [apply ex_one, an_one, un_pos, (pr_regexp _ false)|apply an_one, un_pos, (pr_regexp _ false)]; exact I.
    + split; vm_compute; [discriminate|reflexivity].
Qed.
Print Assumptions C29_second_pattern_ignored_refuted.

(** Finding: a row where the REGEXP column is NULL makes the whole query fail. *)
Theorem C29_null_value_fails_query_refuted :
  exists s condition params,
    store_reached ascii_unicode ex_engine s /\ ascii_text condition
    /\ selects ascii_unicode ex_engine s condition params 0
    /\ snd (where_condition_regexp ascii_unicode ex_engine None s condition params) = Err.
Proof.
  exists ex_store2, (txt "file regexp ?"), [str "a"]. split; [exact ex_store2_reached|]. split; [ascii_tac|]. split; [|vm_compute; reflexivity].
  apply (sel_cond _ _ _ _ _ _ (CRegexp false (txt "file"))).
  - exists [TIdent (txt "file"); TRegexp; TPlaceholder]. split; [apply (tokenize_iff _ ascii_good); vm_compute; reflexivity|].
    apply ex_one, an_one, un_pos, (pr_regexp _ false). exact I.
  - split; vm_compute; [discriminate|reflexivity].
Qed.
Print Assumptions C29_null_value_fails_query_refuted.

(** C53. Base64. *)
Theorem C53_base64_round_trip : forall data, Forall is_byte data -> base64_decode (base64_encode data) = Some data.
Proof. exact base64_inverse. Qed.
Print Assumptions C53_base64_round_trip.
Theorem C53_base64_length : forall data, length (base64_encode data) = 4 * ((length data + 2) / 3).
Proof. exact base64_length. Qed.
Print Assumptions C53_base64_length.
Example C53_example :
  base64_encode [77; 97; 110; 0; 255]%Z = txt "TWFuAP8=" /\ base64_decode (txt "TWFuAP8=") = Some [77; 97; 110; 0; 255]%Z
  /\ base64_encode (map Z.of_nat (seq 0 7)) = txt "AAECAwQFBg==" /\ base64_decode (txt "TWFuAP9=") = None.
Proof. repeat split; vm_compute; reflexivity. Qed.

(** C57. Creating: the rows are exactly the given ids, each with its item; a key whose values
    have one kind is declared with it, so that its values come back. *)
Theorem C57_create_reads_back :
  forall U E s md ids s' n,
    good_engine E -> store_reached U E s -> NoDup ids -> Forall (fun i => 0 <= i)%Z ids -> Forall item_ok md ->
    MetaModel.create E s md ids = (s', Ok n) ->
    n = length md /\ length ids = length md
    /\ (forall j, ~ In j ids -> row_at E s' j = None)
    /\ (forall i v id, nth_error md i = Some v -> nth_error ids i = Some id ->
          exists f, row_at E s' id = Some f /\ reflects E s' v f)
    /\ (forall v k x, In v md -> gives v k x -> x <> JNull -> uniform md k (kind x) -> declared s' k (kind x)).
Proof. intros U E s md ids s' n G R. exact (create_reads E s md ids s' n G (store_reached_wf U E s G R)). Qed.
Print Assumptions C57_create_reads_back.
(** Updating: rows of other ids keep their fields (columns new to them are null), the new rows
    hold their items, columns keep their kinds and new ones get the kind of their values. *)
Theorem C57_update_reads_back :
  forall U E s md ids s' n,
    good_engine E -> store_reached U E s -> NoDup ids -> Forall (fun i => 0 <= i /\ row_at E s i = None)%Z ids ->
    Forall item_ok md -> md <> [] -> MetaModel.update E s md ids = (s', Ok n) ->
    n = length md /\ length ids = length md
    /\ (forall j, ~ In j ids -> row_at E s j = None -> row_at E s' j = None)
    /\ (forall j f, ~ In j ids -> row_at E s j = Some f -> exists f', row_at E s' j = Some f'
          /\ forall k, field_of f' k = field_of f k \/ field_of f k = None /\ field_of f' k = Some JNull)
    /\ (forall i v id, nth_error md i = Some v -> nth_error ids i = Some id ->
          exists f, row_at E s' id = Some f /\ reflects E s' v f)
    /\ (forall k t, declared s k t -> declared s' k t)
    /\ (forall v k x, In v md -> gives v k x -> x <> JNull -> (forall t, ~ declared s k t) -> uniform md k (kind x) ->
          declared s' k (kind x)).
Proof. intros U E s md ids s' n G R. exact (update_reads E s md ids s' n G (store_reached_wf U E s G R)). Qed.
Print Assumptions C57_update_reads_back.
(** A refused update changes nothing. *)
Theorem C57_failed_update_changes_nothing :
  forall E s md ids s' r, MetaModel.update E s md ids = (s', r) -> (forall n, r <> Ok n) -> s' = s.
Proof. exact update_err. Qed.
Print Assumptions C57_failed_update_changes_nothing.

Example C57_example :
  let r := MetaModel.update ex_engine ex_store2 [obj [("year", JInt 3); ("score", JFloat 17); ("ok", JBool true)]%string] [9]%Z in
  good_engine ex_engine /\ store_reached ascii_unicode ex_engine ex_store2 /\ row_at ex_engine ex_store2 9 = None
  /\ snd r = Ok 1 /\ declared (fst r) (txt "year") CInt /\ declared (fst r) (txt "score") CReal
  /\ match row_at ex_engine (fst r) 9 with Some f => map (field_of f) (map txt ["year"; "score"; "ok"; "title"; "none"]%string) | None => [] end
     = [Some (JInt 3); Some (JFloat 17); Some (JInt 1); Some JNull; None].
Proof.
  split; [exact ex_good|]. split; [exact ex_store2_reached|]. split; [vm_compute; reflexivity|]. split; [vm_compute; reflexivity|].
  split; [eexists; split; [vm_compute; reflexivity|vm_compute; tauto]|].
  split; [eexists; split; [vm_compute; reflexivity|vm_compute; tauto]|]. vm_compute. reflexivity.
Qed.

(** Finding: a creation that is refused (invalid key) has already removed the old database. *)
Theorem C57_refused_create_loses_metadata_refuted :
  exists s md ids s', store_reached ascii_unicode ex_engine s /\ row_at ex_engine s 0 <> None
    /\ MetaModel.create ex_engine s md ids = (s', Err) /\ row_at ex_engine s' 0 = None.
Proof.
  exists ex_store, [obj [("bad key"%string, JInt 1)]], [0]%Z, NoDb. split; [exact ex_store_reached|].
  split; [vm_compute; discriminate|]. split; vm_compute; reflexivity.
Qed.
Print Assumptions C57_refused_create_loses_metadata_refuted.
(** Finding: keys that differ only by case are refused, and leave a database nothing can use. *)
Theorem C57_case_variant_keys_break_store_refuted :
  exists md ids, Forall item_ok md /\ MetaModel.create ex_engine NoDb md ids = (Broken, Err)
    /\ MetaModel.update ex_engine Broken [obj [("a"%string, JInt 1)]] [0]%Z = (Broken, Err).
Proof.
  exists [obj [("title", JInt 1); ("Title", JInt 2)]%string], [0]%Z.
  split; [repeat constructor; cbn; intuition discriminate|]. split; vm_compute; reflexivity.
Qed.
Print Assumptions C57_case_variant_keys_break_store_refuted.
(** Finding: a null in the first row declares the column as text, and the integers of the
    other rows come back as strings. *)
Theorem C57_first_null_makes_text_refuted :
  exists md s' f, MetaModel.create ex_engine NoDb md [0; 1]%Z = (s', Ok 2)
    /\ nth_error md 1 = Some (obj [("n"%string, JInt 5)]) /\ row_at ex_engine s' 1 = Some f
    /\ field_of f (txt "n") = Some (str "5").
Proof.
  exists [obj [("n"%string, JNull)]; obj [("n"%string, JInt 5)]],
    (fst (MetaModel.create ex_engine NoDb [obj [("n"%string, JNull)]; obj [("n"%string, JInt 5)]] [0; 1]%Z)), [(txt "n", str "5")].
  repeat split; vm_compute; reflexivity.
Qed.
Print Assumptions C57_first_null_makes_text_refuted.

(** C58. A query without REGEXP returns exactly the rows its condition selects, once each ... *)
Theorem C58_where_condition_exact :
  forall U E reg s condition params ids,
    good_unicode U -> good_engine E -> store_reached U E s -> ascii_text condition -> without_regexp U condition ->
    where_condition U E reg s condition params = Ok ids ->
    NoDup ids /\ forall i, In i ids <-> selects U E s condition params i.
Proof. intros U E reg s c ps ids HU G R A N H. exact (where_condition_ok U E reg s c ps ids HU G (store_reached_wf U E s G R) A N H). Qed.
Print Assumptions C58_where_condition_exact.
(** ... and it does return for every accepted condition given as many parameters as it has
    placeholders, when no two columns differ only by case. *)
Theorem C58_where_condition_answers :
  forall U E reg s condition params a,
    good_unicode U -> good_engine E -> store_reached U E s -> ascii_text condition ->
    validate_condition U (columns s) condition = Ok tt -> means U condition a -> ~ uses_regexp a ->
    distinct_names s -> length params = arity a ->
    exists ids, where_condition U E reg s condition params = Ok ids.
Proof.
  intros U E reg s c ps a HU G R A V M N D L. exact (where_condition_total U E reg s c ps a HU G (store_reached_wf U E s G R) A V M N D L).
Qed.
Print Assumptions C58_where_condition_answers.

Example C58_example :
  let q := txt "not (year >= ? and FILE not like ?) or year in (?, ?)" in
  let ps := [JInt 1995; str "e"; JInt 1; JInt 2010] in
  good_unicode ascii_unicode /\ good_engine ex_engine /\ store_reached ascii_unicode ex_engine ex_store2 /\ ascii_text q
  /\ without_regexp ascii_unicode q /\ distinct_names ex_store2
  /\ validate_condition ascii_unicode (columns ex_store2) q = Ok tt
  /\ where_condition ascii_unicode ex_engine None ex_store2 q ps = Ok [3; 0]%Z
  /\ where_condition ascii_unicode ex_engine None ex_store2 (txt "1 = 1") [] = Ok [3; 2; 1; 0]%Z.
Proof.
  split; [exact ascii_good|]. split; [exact ex_good|]. split; [exact ex_store2_reached|]. split; [ascii_tac|]. split; [without_tac|].
  split; [vm_compute; repeat constructor; cbn; intuition discriminate|]. repeat split; vm_compute; reflexivity.
Qed.

(** Finding: a REGEXP query leaves its pattern registered on the shared read connection; a
    later plain query using REGEXP is answered with the old pattern. *)
Theorem C58_stale_pattern_refuted :
  exists s c1 p1 c2 p2 ids2 i,
    store_reached ascii_unicode ex_engine s
    /\ (let (reg, r1) := where_condition_regexp ascii_unicode ex_engine None s c1 p1 in
        r1 = Ok [0]%Z /\ where_condition ascii_unicode ex_engine reg s c2 p2 = Ok ids2)
    /\ selects ascii_unicode ex_engine s c2 p2 i /\ ~ In i ids2.
Proof.
  exists ex_store, (txt "file regexp ?"), [str "a"], (txt "file regexp ?"), [str "b"], [0]%Z, 1%Z.
  split; [exact ex_store_reached|]. split; [vm_compute; split; reflexivity|]. split; [|intros [H|[]]; discriminate].
  apply (sel_cond _ _ _ _ _ _ (CRegexp false (txt "file"))).
  - exists [TIdent (txt "file"); TRegexp; TPlaceholder]. split; [apply (tokenize_iff _ ascii_good); vm_compute; reflexivity|].
    apply ex_one, an_one, un_pos, (pr_regexp _ false). exact I.
  - split; vm_compute; [discriminate|reflexivity].
Qed.
Print Assumptions C58_stale_pattern_refuted.
(** Finding: [file] and [FILE] are stored in different tables, so both are accepted at
    creation; afterwards no query can name either. *)
Theorem C58_ambiguous_column_refuted :
  exists s a, store_reached ascii_unicode ex_engine s /\ ascii_text (txt "file = ?")
    /\ validate_condition ascii_unicode (columns s) (txt "file = ?") = Ok tt /\ means ascii_unicode (txt "file = ?") a
    /\ length [str "x"] = arity a
    /\ where_condition ascii_unicode ex_engine None s (txt "file = ?") [str "x"] = Err.
Proof.
  exists (fst (MetaModel.create ex_engine NoDb [obj [("file", str "x"); ("FILE", str "y")]%string] [0]%Z)), (CCmp (txt "file") OEq).
  split; [apply (sr_step _ _ NoDb (MCreate [obj [("file", str "x"); ("FILE", str "y")]%string] [0]%Z)); [constructor|]; cbn [ids_ok]; split; [repeat constructor; cbn; tauto|repeat constructor; lia]|].
  split; [ascii_tac|]. split; [vm_compute; reflexivity|]. split; [|split; vm_compute; reflexivity].
  exists [TIdent (txt "file"); TCmp OEq; TPlaceholder]. split; [apply (tokenize_iff _ ascii_good); vm_compute; reflexivity|].
  apply ex_one, an_one, un_pos, pr_cmp. exact I.
Qed.
Print Assumptions C58_ambiguous_column_refuted.

(** ** C59: the distinct texts of a column
    [get_distinct_strings] returns each text found in the column exactly once and nothing else;
    it succeeds exactly when the column holds only texts and nulls; an unknown column has none. *)
Theorem C59_distinct_strings_exact :
  forall U E s k l, good_engine E -> store_reached U E s -> distinct_names s -> In k (columns s) ->
    get_distinct_strings E s k = Ok l ->
    NoDup l /\ (forall t, In t l <-> exists i, has_row s i /\ snd (value s i k) = SText t).
Proof. intros U E s k l G R D K H. destruct (distinct_ok E s k l G (store_reached_wf U E s G R) D K H) as (A & B & _). auto. Qed.
Print Assumptions C59_distinct_strings_exact.
Theorem C59_distinct_strings_answers :
  forall U E s k, good_engine E -> store_reached U E s -> distinct_names s -> In k (columns s) ->
    ((exists l, get_distinct_strings E s k = Ok l) <->
     (forall i, has_row s i -> snd (value s i k) = SNull \/ exists t, snd (value s i k) = SText t)).
Proof.
  intros U E s k G R D K. pose proof (store_reached_wf U E s G R) as W. split; [intros (l & H)|].
  - exact (proj2 (proj2 (distinct_ok E s k l G W D K H))).
  - apply distinct_total; auto.
Qed.
Print Assumptions C59_distinct_strings_answers.
Example C59_example :
  store_reached ascii_unicode ex_engine ex_store2 /\ distinct_names ex_store2 /\ In (txt "title") (columns ex_store2)
  /\ get_distinct_strings ex_engine ex_store2 (txt "title") = Ok (map txt ["changed"; "four"; "three"; "one"]%string)
  /\ get_distinct_strings ex_engine ex_store2 (txt "year") = Err.
Proof.
  split; [exact ex_store2_reached|]. split; [vm_compute; repeat constructor; cbn; intuition discriminate|].
  split; [vm_compute; tauto|]. split; vm_compute; reflexivity.
Qed.
