(** Properties C38, C40, C41: batches of queued requests, eviction, repair and rollback. *)
From Coq Require Import String.
From Verif Require Import Base F32 CodecModel CodecSpec IndexModel IndexSpec IndexAccess IndexExamples.
From Verif Require Import Text SqlModel SqlSpec MetaModel MetaQuery MetaSpec MetaProofs MetaRead MetaFilter MetaWhere MetaExamples.
From Verif Require Import SyncModel SyncSpec ApiUpdate ApiUpdateSpec ApiUpdateProofs.
Open Scope list_scope.
Open Scope nat_scope.

(** C38. Whatever the interleaving of requests, closing and deadlines: the batches processed, the
    one being collected and the queue are the requests in order, cut into groups of whole
    requests; a group without its last request is below the limit (or there is only one). *)
Theorem C38_batches_are_whole_requests_in_order :
  forall Emb Meta max es (w : worker Emb Meta), wrun max start es = Some w ->
    exists groups current,
      queued es = concat groups ++ current ++ w_queue w
      /\ w_done w = map together (filter (fun g => match flat_map fst g with [] => false | _ => true end) groups)
      /\ Forall (fun g => g <> [] /\ (removelast g = [] \/ size (removelast g) < max)) groups
      /\ match w_phase w with
         | Waiting => current = []
         | Collecting embs metas _ => (embs, metas) = together current
         | Stopped => current = [] /\ w_queue w = []
         end.
Proof. exact worker_batches. Qed.
Print Assumptions C38_batches_are_whole_requests_in_order.

(** Documents keep their metadata: nothing is lost, duplicated, reordered or paired wrongly. *)
Theorem C38_pairs_kept :
  forall Emb Meta max es (w : worker Emb Meta), wrun max start es = Some w -> Forall paired (queued es) ->
    let current := match w_phase w with Collecting embs metas _ => [(embs, metas)] | _ => [] end in
    flat_map pairs_of (w_done w) ++ flat_map pairs_of current ++ flat_map pairs_of (w_queue w) = flat_map pairs_of (queued es).
Proof. exact worker_keeps. Qed.
Print Assumptions C38_pairs_kept.
Theorem C38_batches_paired :
  forall Emb Meta max es (w : worker Emb Meta), wrun max start es = Some w -> Forall paired (queued es) -> Forall paired (w_done w).
Proof. exact worker_paired. Qed.
Print Assumptions C38_batches_paired.
(** Once the senders are gone the worker, left alone, processes everything and stops. *)
Theorem C38_queue_drained :
  forall Emb Meta max es (w : worker Emb Meta), wrun max start es = Some w -> w_closed w = true -> Forall paired (queued es) ->
    exists k w', k <= 2 * length (w_queue w) + 2 /\ wrun max start (es ++ repeat Work k) = Some w' /\ w_phase w' = Stopped
      /\ flat_map pairs_of (w_done w') = flat_map pairs_of (queued es).
Proof. exact worker_drained. Qed.
Print Assumptions C38_queue_drained.

(** The worker of queued deletions (documents.rs 761-822): the same loop, an item is one condition.
    Its two waiting phases only differ in when the deadline may come. *)
Theorem C38_delete_conditions_in_order :
  forall Cond max es (w : worker Cond unit) cs, wrun max start es = Some w -> w_phase w = Stopped ->
    queued es = map (fun c => ([c], [tt])) cs ->
    concat (map fst (w_done w)) = cs /\ Forall (fun b => fst b <> [] /\ (length (fst b) <= 1 \/ length (fst b) <= max)) (w_done w).
Proof. exact delete_worker. Qed.
Print Assumptions C38_delete_conditions_in_order.

Definition ex_events : list (event nat nat) :=
  [Queue ([1; 2], [11; 12]); Queue ([3], [13]); Work; Queue ([4; 5], [14; 15]); Work; Work; Work; Deadline; Queue ([6], [16]); Close].
Example C38_example : exists w, wrun 3 start ex_events = Some w /\ w_done w = [([1; 2; 3], [11; 12; 13]); ([4; 5], [14; 15])]
  /\ w_queue w = [([6], [16])] /\ Forall paired (queued ex_events) /\ w_closed w = true.
Proof. eexists. split; [vm_compute; reflexivity|]. repeat split; repeat constructor. Qed.
Example C38_delete_example : exists w,
  wrun 2 start [Queue ([7], [tt]); Queue ([8], [tt]); Queue ([9], [tt]); Work; Work; Work; Work; Close; Work] = Some w
  /\ w_phase w = Stopped /\ w_done w = [([7; 8], [tt; tt]); ([9], [tt])].
Proof. eexists. split; [vm_compute; reflexivity|]. split; reflexivity. Qed.

(** C40, C41. After any history of queued updates, direct additions and queued deletions whose
    index part succeeded: the answers and the contents are those of the plain list of documents
    with their metadata, on which an update first drops the documents without metadata, adds its
    documents and keeps the last [max_documents]; one whose metadata are refused changes nothing. *)
Theorem C40_contents_after_any_history :
  forall V U E reg D os outs s, api_reached V U E reg D os outs s ->
    exists c, api_history U E reg ([], []) os outs c /\ has_contents V E s c.
Proof. exact api_contents. Qed.
Print Assumptions C40_contents_after_any_history.

(** Eviction alone: the most recent documents, at most [max_documents], in order. *)
Theorem C40_most_recent_kept :
  forall U E reg L X docs md g k n c, length md = length docs ->
    api_call U E reg (L, X) (AUpdate docs md g (Some k)) (Ok n) c
    \/ api_call U E reg (L, X) (AAdd docs md g (Some k)) (Ok n) c ->
    exists old, L ++ combine docs md = old ++ fst c /\ snd c = [] /\ length old = n
      /\ length (fst c) = Nat.min k (length L + length docs).
Proof. exact most_recent. Qed.
Print Assumptions C40_most_recent_kept.

(** C41. Repair: with any index and any database with rows numbered from 0, of any two lengths,
    both keep their first documents, as many as the smaller has. *)
Theorem C41_repair_keeps_common_prefix :
  forall V U E D docs0 g0 ops outs d h m R b s',
    reached V D docs0 g0 ops outs d h -> good_engine E -> store_reached U E m -> db_exists m = true ->
    row_list E m (map Some R) -> repair V {| sv_index := Some (d, h); sv_store := m |} = Ok (b, s') ->
    let n := Nat.min (length (documents docs0 ops)) (length R) in
    b = negb (length (documents docs0 ops) =? length R)
    /\ row_list E (sv_store s') (map Some (firstn n R))
    /\ exists i, sv_index s' = Some i
       /\ (forall x, load (fst i) = Ok x -> env_shows V x (firstn n (documents docs0 ops)))
       /\ ((exists x, load (fst i) = Ok x) <-> concat (firstn n (documents docs0 ops)) <> []).
Proof. exact repair_prefix. Qed.
Print Assumptions C41_repair_keeps_common_prefix.

(** A batch whose metadata are refused is taken out again. *)
Theorem C41_refused_batch_rolled_back :
  forall V U E reg D os outs s docs md g limit s',
    api_reached V U E reg D os outs s -> api_ok U D (AUpdate docs md g limit) ->
    process_batch V E s docs md g limit = Ok (Err, s') ->
    exists L X, has_contents V E s (L, X) /\ has_contents V E s' (L, []).
Proof. exact rolled_back. Qed.
Print Assumptions C41_refused_batch_rolled_back.

(** But when the refused batch was the first one, what is left is an index that cannot be opened:
    no later request on it succeeds. *)
Theorem C41_refused_first_batch_refuted :
  exists docs md g s, process_batch ex_env ex_engine no_index docs md g None = Ok (Err, s)
    /\ forall o r s', api_step ex_env ascii_unicode ex_engine None s o = Ok (r, s') -> r = Err /\ s' = s.
Proof.
  pose (docs := [[tok 10]; [tok 20]]). pose (md := [obj [("bad key", JInt 1)]; obj []]%string).
  pose (q := got (Ok 0, no_index) (process_batch ex_env ex_engine no_index docs md (cfg 2 0 0 0) None)).
  assert (Eq : process_batch ex_env ex_engine no_index docs md (cfg 2 0 0 0) None = Ok (Err, snd q)) by (vm_compute; reflexivity).
  exists docs, md, (cfg 2 0 0 0), (snd q). split; [exact Eq|]. intros o r s' H.
  assert (HD : 1 <= 8) by lia. assert (Ok0 : api_ok ascii_unicode 8 (AUpdate docs md (cfg 2 0 0 0) None)).
  { split; [discriminate|]. split; [repeat constructor|]. split; [reflexivity|]. repeat constructor; cbn; intuition. }
  pose proof (no_index_holds ex_env ascii_unicode ex_engine 8 HD ex_kmeans ex_good ascii_good) as H0.
  destruct (process_batch_ok ex_env ascii_unicode ex_engine None 8 HD ex_kmeans ex_good ascii_good _ _ _ _ _ _ _ _ H0 Ok0 Eq) as (c & Cc & Hc).
  inversion Cc; subst.
  destruct (sv_index (snd q)) as [i|] eqn:Hi; [|exfalso; vm_compute in Hi; discriminate].
  destruct (stuck ex_env ascii_unicode ex_engine None 8 HD ex_kmeans ex_good ascii_good _ _ _ _ _ _ Hc Hi eq_refl H) as (? & ? & ? & ? & -> & -> & ->). auto.
Qed.
Print Assumptions C41_refused_first_batch_refuted.

(** And the rows have to be numbered from 0: an index that had documents before it had a database
    loses documents.  Here four documents are added in all and none is deleted, every call
    succeeds; two documents are left, and the database still has the metadata of a third. *)
Theorem C41_late_database_loses_documents_refuted :
  exists docs0 g docs1 md1 docs2 md2 d h s1 s2 x,
    reached ex_env 8 docs0 g [] [] d h
    /\ process_batch ex_env ex_engine {| sv_index := Some (d, h); sv_store := NoDb |} docs1 md1 g None = Ok (Ok 0, s1)
    /\ process_batch ex_env ex_engine s1 docs2 md2 g None = Ok (Ok 0, s2)
    /\ length docs0 + length docs1 + length docs2 = 4
    /\ option_map (fun i => load (fst i)) (sv_index s2) = Some (Ok x) /\ num_documents (x_meta x) = 2
    /\ row_at ex_engine (sv_store s2) 0 = None
    /\ row_at ex_engine (sv_store s2) 2 = Some [(txt "title"%string, str "first")].
Proof.
  pose (docs0 := [[tok 10]; [tok 20]]). pose (q := st docs0 (cfg 2 0 0 0) []).
  pose (md1 := [obj [("title", str "first")]]%string). pose (md2 := [obj [("title", str "second")]]%string).
  pose (q1 := got (Ok 0, no_index) (process_batch ex_env ex_engine {| sv_index := Some (snd q); sv_store := NoDb |} [[tok 10; tok 20]] md1 (cfg 2 0 0 0) None)).
  pose (q2 := got (Ok 0, no_index) (process_batch ex_env ex_engine (snd q1) [[tok 20]] md2 (cfg 2 0 0 0) None)).
  exists docs0, (cfg 2 0 0 0), [[tok 10; tok 20]], md1, [[tok 20]], md2, (fst (snd q)), (snd (snd q)), (snd q1), (snd q2),
    (match sv_index (snd q2) with Some i => opened (fst i) | None => ex_index0 end).
  split. { split; [lia|]. split; [exact ex_kmeans|]. split; [repeat constructor|]. split; [constructor|]. split; [exact I|]. vm_compute. reflexivity. }
  repeat split; vm_compute; reflexivity.
Qed.
Print Assumptions C41_late_database_loses_documents_refuted.

(** A history with all the outcomes: eviction, refused and out-of-sync additions, repair,
    rollback, deletion. *)
Definition ex_api : list api_op :=
  [AUpdate ex_docs3 ex_items (cfg 2 3 2 0) None;
   AUpdate [[tok 10]; [tok 30; tok 20]] ex_more (cfg 2 0 10 5) (Some 4);
   AAdd [[tok 20]] [obj [("bad key", JInt 1)]] (cfg 2 0 10 5) None;
   AAdd [[tok 20]] [obj []] (cfg 2 0 10 5) None;
   AUpdate [[tok 20; tok 20]] [obj [("file", str "z.rs")]] (cfg 2 0 1 7) (Some 9);
   AUpdate [[tok 20]] [obj [("bad key", JInt 1)]] (cfg 2 0 10 5) None;
   AAdd [[tok 10]] [obj [("year", JInt 1980)]] (cfg 2 0 10 5) (Some 5);
   ADelete [(txt "year < ?", [JInt 1985]); (txt "nonsense", [])]]%string.
Definition ex_api_run := got ([], no_index) (api_run ex_env ascii_unicode ex_engine None no_index ex_api).
Ltac item_tac := unfold ex_items, ex_more; repeat (apply Forall_cons; [cbn; repeat (constructor; [cbn; intuition discriminate|]); constructor|]); apply Forall_nil.
Example C40_example : api_reached ex_env ascii_unicode ex_engine None 8 ex_api (fst ex_api_run) (snd ex_api_run)
  /\ fst ex_api_run = [Ok 0; Ok 1; Err; Err; Ok 0; Err; Ok 1; Ok 1]
  /\ count (sv_store (snd ex_api_run)) = Ok 4.
Proof.
  split; [|split; vm_compute; reflexivity]. split; [lia|]. split; [exact ex_kmeans|]. split; [exact ex_good|]. split; [exact ascii_good|].
  split; [|rewrite <- surjective_pairing; apply is_ok_got; vm_compute; reflexivity].
  unfold ex_api. do 7 (apply Forall_cons; [split; [discriminate|split; [repeat constructor|split; [reflexivity|item_tac]]]|]). apply Forall_cons; [|apply Forall_nil].
  assert (P : forall c a, In c [txt "year < ?"; txt "nonsense"]%string -> means ascii_unicode c a -> ~ uses_regexp a).
  { intros c a [<-|[<-|[]]] M; apply (MetaFilter.read_condition ascii_unicode ascii_good) in M; vm_compute in M; [injection M as <-; cbn; tauto|discriminate]. }
  constructor; [split; [intros z Hz; cbn in Hz; repeat (destruct Hz as [<-|Hz]; [reflexivity|]); destruct Hz|intros a M; eapply P; [left; reflexivity|exact M]]|].
  constructor; [split; [intros z Hz; cbn in Hz; repeat (destruct Hz as [<-|Hz]; [reflexivity|]); destruct Hz|intros a M; eapply P; [right; left; reflexivity|exact M]]|constructor].
Qed.
Definition ex_rows : list (list (text * json)) := map (fun i => match row_at ex_engine ex_store2 i with Some f => f | None => [] end) [0; 1; 2; 3]%Z.
Lemma ex_rows_list : row_list ex_engine ex_store2 (map Some ex_rows).
Proof.
  destruct ex_store2 as [| |d] eqn:Ed; [vm_compute in Ed; discriminate..|].
  assert (W : wf_db d) by (pose proof (store_reached_wf _ _ _ ex_good ex_store2_reached) as W; rewrite Ed in W; exact W).
  intro i. unfold at_pos. destruct (Z.ltb_spec i 0) as [N|P]; [|destruct (Z.ltb_spec i 4) as [Lt|Ge]].
  - rewrite (row_at_lookup ex_engine d i ex_good W). rewrite (proj2 (lookup_none (rows d) i)); auto. intro X. vm_compute in Ed. injection Ed as <-. vm_compute in X. intuition lia.
  - rewrite <- Ed. assert (H : i = 0%Z \/ i = 1%Z \/ i = 2%Z \/ i = 3%Z) by lia. destruct H as [->|[->|[->| ->]]]; vm_compute; reflexivity.
  - assert (H : nth_error (map Some ex_rows) (Z.to_nat i) = None) by (apply nth_error_None; change (List.length (map Some ex_rows)) with 4; lia). rewrite H.
    rewrite (row_at_lookup ex_engine d i ex_good W). rewrite (proj2 (lookup_none (rows d) i)); auto. intro X. vm_compute in Ed. injection Ed as <-. vm_compute in X. intuition lia.
Qed.
(** The index has eight documents, the database four rows; and the other way round. *)
Definition ex_repair (d : disk) (h : IndexModel.metadata) := got (false, no_index) (repair ex_env {| sv_index := Some (d, h); sv_store := ex_store2 |}).
Definition ex_short := st [[tok 10]; [tok 20; tok 10]] (cfg 2 0 0 0) [].
Example C41_example :
  reached ex_env 8 ex_docs (cfg 2 3 2 0) ex_ops ex_outs ex_d ex_h /\ store_reached ascii_unicode ex_engine ex_store2
  /\ row_list ex_engine ex_store2 (map Some ex_rows)
  /\ is_ok (repair ex_env {| sv_index := Some (ex_d, ex_h); sv_store := ex_store2 |}) = true
  /\ option_map (fun i => x_doc_lengths (opened (fst i))) (sv_index (snd (ex_repair ex_d ex_h))) = Some [2; 0; 3; 1]
  /\ count (sv_store (snd (ex_repair ex_d ex_h))) = Ok 4
  /\ is_ok (repair ex_env {| sv_index := Some (snd ex_short); sv_store := ex_store2 |}) = true
  /\ count (sv_store (snd (ex_repair (fst (snd ex_short)) (snd (snd ex_short))))) = Ok 2.
Proof. split; [exact ex_reached|]. split; [exact ex_store2_reached|]. split; [exact ex_rows_list|]. repeat split; vm_compute; reflexivity. Qed.
(** C16, exactly: the index can be opened if and only if a token is left. *)
Theorem C16_openable_iff_tokens_left :
  forall V D docs0 g0 ops outs d h, reached V D docs0 g0 ops outs d h ->
    ((exists x, load d = Ok x) <-> concat (documents docs0 ops) <> []).
Proof. exact openable_iff. Qed.
Print Assumptions C16_openable_iff_tokens_left.
