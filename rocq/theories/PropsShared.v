(** Property C102: an index that is open while its directory is written. *)
From Verif Require Import Base F32 CodecModel CodecSpec IndexModel IndexSpec IndexExamples SearchModel SearchSpec.
From Verif Require Import Shared SharedSpec SharedProofs Torn TornProofs.
Open Scope nat_scope.

(** C102. Several processes load, create, update and delete in one directory, in any interleaving of
    their system calls, and any of them may die at any point.  What a loaded index shows of the files
    it maps stays the same for ever after. *)
Theorem C102_open_index_does_not_change :
  forall l l' w w' m, ordinary l -> ordinary l' -> Shared.run nothing l = Some w -> In m (loaded w) -> Shared.run w l' = Some w' ->
    In m (loaded w') /\ seen w' m = seen w m.
Proof. exact maps_stay. Qed.
Print Assumptions C102_open_index_does_not_change.
(** And each of the three is complete: all of what one writer, or one merge, meant to put there. *)
Theorem C102_open_index_maps_whole_files :
  forall l w m, ordinary l -> Shared.run nothing l = Some w -> In m (loaded w) ->
    match seen w m with
    | (c, codes, residuals) => a_centroids_file l c /\ a_merged_file l Codes codes /\ a_merged_file l Residuals residuals
    end.
Proof. intros l w m O E M. pose proof (o_loaded _ _ (orig_run l w O E)) as L. rewrite Forall_forall in L. exact (L m M). Qed.
Print Assumptions C102_open_index_maps_whole_files.

(** The operations of the library are such writers, whatever the directory is and whatever becomes of
    the operation: they never rewrite centroids.npy in place. *)
Theorem C102_operations_are_ordinary :
  forall V enc d, let changes A (m : eff A) := map (as_change enc) (fst (m d)) in
    (forall docs g, Forall by_library (changes _ (create_with_kmeans (v_fsub V) (v_dot V) (v_mem V) (v_kmeans V) (v_quantile V) (v_threshold V) docs g)))
    /\ (forall h docs g, Forall by_library (changes _ (update (v_fsub V) (v_dot V) (v_mem V) (v_kmeans V) (v_quantile V) (v_threshold V) (v_next V) (v_outlier V) h docs g)))
    /\ (forall docs g, Forall by_library (changes _ (update_append (v_fsub V) (v_dot V) (v_mem V) (v_next V) docs g)))
    /\ (forall ids clean, Forall by_library (changes _ (delete_from_index_impl ids clean))).
Proof.
  intros V enc d changes. unfold changes. repeat match goal with |- _ /\ _ => split end; intros; apply gentle_by_library;
    [apply gentle_create|apply gentle_update|apply gentle_append|apply gentle_delete].
Qed.
Print Assumptions C102_operations_are_ordinary.

(** Process 1 creates and loads; process 2 updates, clears the merged files and dies in the middle of
    its merge; process 3 merges again and loads. *)
Definition go_on (p n : nat) : list (nat * choice) := repeat (p, Go) n.
Definition load_by (p : nat) (codes residuals : list bytes) : list (nat * choice) :=
  [(p, BeginLoad)] ++ go_on p 3 ++ [(p, Rebuild Codes codes)] ++ go_on p (List.length codes + 3)
  ++ go_on p 2 ++ [(p, Rebuild Residuals residuals)] ++ go_on p (List.length residuals + 3) ++ go_on p 2.
Definition ex_first : list (nat * choice) :=
  [(1, BeginWrite [Replace Centroids [1]; Rewrite (Other 13) [[2; 3]]; Replace (Other 0) [4]]%Z false)] ++ go_on 1 6 ++ load_by 1 [[10]; [11]]%Z [[12]]%Z.
Definition ex_later : list (nat * choice) :=
  [(2, BeginWrite [Replace Centroids [5]; Rewrite (Other 13) [[6; 7]]; Replace (Other 0) [8]]%Z true)] ++ go_on 2 6 ++ go_on 2 11
  ++ [(2, BeginLoad)] ++ go_on 2 3 ++ [(2, Rebuild Codes [[20]; [21]]%Z)] ++ go_on 2 1 ++ [(2, Killed)] ++ load_by 3 [[20]; [21]]%Z [[22]]%Z.
Example C102_example :
  ordinary ex_first /\ ordinary ex_later /\ exists w w' m m', Shared.run nothing ex_first = Some w /\ loaded w = [m]
    /\ seen w m = ([1], [10; 11], [12])%Z /\ Shared.run w ex_later = Some w' /\ loaded w' = [m; m'] /\ seen w' m' = ([5], [20; 21], [22])%Z.
Proof.
  split; [repeat constructor|]. split; [repeat constructor|].
  do 4 eexists. split; [vm_compute; reflexivity|]. split; [vm_compute; reflexivity|]. split; [vm_compute; reflexivity|].
  split; [vm_compute; reflexivity|]. split; vm_compute; reflexivity.
Qed.

(** False with an index made by fast-plaid: two processes decide to convert it, the first converts and
    loads, then the second cuts the file the first has mapped. *)
Theorem C102_conversion_refuted :
  exists l w m w', with_conversion l /\ Shared.run nothing l = Some w /\ In m (loaded w) /\ Shared.run w [(2, Go)] = Some w' /\ seen w' m <> seen w m.
Proof.
  exists ([(0, BeginWrite [Replace Centroids [1]]%Z false)] ++ go_on 0 2 ++ [(1, BeginLoad); (2, BeginLoad); (1, ConvertIt [9]%Z); (2, ConvertIt [9]%Z)] ++ go_on 1 4
          ++ load_by 1 [[10]]%Z [[12]]%Z).
  do 3 eexists. split; [repeat constructor|]. split; [vm_compute; reflexivity|]. split; [left; reflexivity|]. split; [vm_compute; reflexivity|]. vm_compute. discriminate.
Qed.
Print Assumptions C102_conversion_refuted.

(** False when the directory is removed, and with it the file the merges lock, while an index is
    loaded: two merges run at the same time, the first gives the name to the file the second is still
    writing, and loads it. *)
Theorem C102_removed_directory_refuted :
  exists l w m w', with_removal l /\ Shared.run nothing l = Some w /\ In m (loaded w) /\ Shared.run w [(2, Go)] = Some w' /\ seen w' m <> seen w m.
Proof.
  exists ([(0, BeginWrite [Replace Centroids [1]]%Z false)] ++ go_on 0 2
          ++ [(1, BeginLoad)] ++ go_on 1 3 ++ [(1, Rebuild Codes [[10]]%Z)] ++ go_on 1 1
          ++ [(0, BeginWrite [Remove Centroids; Remove (Lock Codes); Remove (Temp Codes); Replace Centroids [2]]%Z false)] ++ go_on 0 5
          ++ [(2, BeginLoad)] ++ go_on 2 3 ++ [(2, Rebuild Codes [[20]; [21]]%Z)] ++ go_on 2 1
          ++ go_on 1 3 ++ go_on 1 2 ++ [(1, Rebuild Residuals [[12]]%Z)] ++ go_on 1 4 ++ go_on 1 2).
  do 3 eexists. split; [repeat (constructor; try solve [left; exact I | right; eexists; reflexivity])|].
  split; [vm_compute; reflexivity|]. split; [left; reflexivity|]. split; [vm_compute; reflexivity|]. vm_compute. discriminate.
Qed.
Print Assumptions C102_removed_directory_refuted.

(** C102. Loading: if nothing is written between its first and its last read, [load] shows one state
    of the directory. *)
Theorem C102_load_alone : forall see d, (forall r, see r = d) -> load_seen see = load d.
Proof. exact load_seen_same. Qed.
Print Assumptions C102_load_alone.

(** False while another process writes, also if each file is replaced at once: a load may succeed and
    show a document as neither the index before nor the index after the operation does. *)
Definition ex_swap : env := {|
  v_fadd := v_fadd ex_env; v_fsub := v_fsub ex_env; v_norm := v_norm ex_env; v_dot := v_dot ex_env; v_mem := v_mem ex_env;
  v_kmeans := fun seed _ => Ok (8, if (seed =? 0)%Z then [tok 10; tok 20] else [tok 20; tok 10]);
  v_quantile := v_quantile ex_env; v_threshold := v_threshold ex_env; v_next := v_next ex_env; v_outlier := v_outlier ex_env |}.
Definition ex_before : disk * metadata := snd (got ([], (empty_disk, ex_meta0)) (IndexSpec.run ex_swap ex_docs3 (cfg 2 10 10 0) [])).
Definition ex_update : list write := fst (update (v_fsub ex_swap) (v_dot ex_swap) (v_mem ex_swap) (v_kmeans ex_swap) (v_quantile ex_swap) (v_threshold ex_swap)
  (v_next ex_swap) (v_outlier ex_swap) (snd ex_before) [[tok 10]] (cfg 2 10 10 1) (fst ex_before)).
Theorem C102_load_while_written_refuted :
  exists V docs0 g0 d h docs g ids x' d' (moment : read -> nat) x e e',
    good_kmeans 8 (v_kmeans V) /\ IndexSpec.run V docs0 g0 [] = Ok ([], (d, h))
    /\ complete (update (v_fsub V) (v_dot V) (v_mem V) (v_kmeans V) (v_quantile V) (v_threshold V) (v_next V) (v_outlier V) h docs g) d = Ok ((ids, x'), d')
    /\ (forall r r', before r r' = true -> moment r <= moment r')
    /\ load_seen (fun r => final d (firstn (moment r) (fst (update (v_fsub V) (v_dot V) (v_mem V) (v_kmeans V) (v_quantile V) (v_threshold V) (v_next V) (v_outlier V) h docs g d)))) = Ok x
    /\ embeddings V x 0 = Ok e
    /\ bind (load d) (fun y => embeddings V y 0) = Ok e' /\ bind (load d') (fun y => embeddings V y 0) = Ok e' /\ e <> e'.
Proof.
  exists ex_swap, ex_docs3, (cfg 2 10 10 0), (fst ex_before), (snd ex_before), [[tok 10]], (cfg 2 10 10 1), [3]%Z.
  exists (IndexExamples.opened (final (fst ex_before) ex_update)), (final (fst ex_before) ex_update), (fun r => if phase r <? 2 then 0 else 1).
  exists (got ex_index0 (load_seen (fun r => final (fst ex_before) (firstn (if phase r <? 2 then 0 else 1) ex_update)))).
  exists [tok 25; tok 15], [tok 15; tok 25].
  split. { intros seed docs dim cents _ H. injection H as <- <-. split; auto. destruct (seed =? 0)%Z; (split; [discriminate|repeat constructor]). }
  split; [vm_compute; reflexivity|]. split; [vm_compute; reflexivity|].
  split.
  { intros r r' B. unfold before in B. apply orb_true_iff in B. rewrite andb_true_iff, !Nat.ltb_lt, Nat.eqb_eq in B.
    destruct (phase r <? 2) eqn:P; [lia|]. apply Nat.ltb_ge in P. destruct (phase r' <? 2) eqn:P'; [apply Nat.ltb_lt in P'; lia|lia]. }
  split; [vm_compute; reflexivity|]. split; [vm_compute; reflexivity|]. split; [vm_compute; reflexivity|]. split; [vm_compute; reflexivity|]. vm_compute. discriminate.
Qed.
Print Assumptions C102_load_while_written_refuted.

(** C102. The handle itself: [delete] gives the maps up and does not load them again (nor does a failed
    update or reload), and every search with it panics until [reload]. *)
Theorem C102_search_after_delete_refuted :
  forall V K x q p s, 1 <= q_dim q -> search V K (release x) q p s = Panic.
Proof. intros V K x q p s Q. apply released_panics. exact Q. Qed.
Print Assumptions C102_search_after_delete_refuted.
(** So does reading a document with tokens back. *)
Theorem C102_read_after_delete_refuted :
  forall V x i a b, doc_range x i = Ok (a, b) -> a < b -> i < length (x_doc_lengths x) ->
    embeddings V (release x) i = Panic /\ reconstruct_embeddings (v_fadd V) (v_norm V) (release x) [Z.of_nat i] = Panic.
Proof.
  intros V x i a b R L I. assert (R' : doc_range (release x) i = Ok (a, b)) by exact R.
  assert (S : forall A, slice ([] : list A) a b = Panic).
  { intros A. unfold slice. cbn. replace (b <=? 0) with false by (symmetry; apply Nat.leb_gt; lia). rewrite andb_false_r. reflexivity. }
  split.
  - unfold embeddings, get_document_embeddings. cbn [x_doc_lengths release]. replace (length (x_doc_lengths x) <=? i) with false by (symmetry; apply Nat.leb_gt; lia).
    rewrite R'. cbn [bind fst snd x_codes release]. rewrite S. reflexivity.
  - unfold reconstruct_embeddings. cbn [forallb x_doc_lengths release].
    replace ((0 <=? Z.of_nat i)%Z && (Z.of_nat i <? Z.of_nat (length (x_doc_lengths x)))%Z) with true by (symmetry; apply andb_true_iff; split; [apply Z.leb_le|apply Z.ltb_lt]; lia).
    cbn [andb mapM]. rewrite Nat2Z.id. unfold reconstruct1. rewrite R'. cbn [bind fst snd x_codes release].
    replace (b - a =? 0) with false by (symmetry; apply Nat.eqb_neq; lia). rewrite S. reflexivity.
Qed.
Print Assumptions C102_read_after_delete_refuted.
Example C102_delete_example : doc_range ex_x 2 = Ok (2, 5) /\ 2 < length (x_doc_lengths ex_x).
Proof. vm_compute. split; [reflexivity|lia]. Qed.
