(** The threads of colgrep's indexing pipeline. *)
From Coq Require Import String Permutation.
From Verif Require Import Base Threads ThreadsSpec ThreadsProofs ThreadsEnd Pipeline PipelineSpec PipelineProofs PipelineMain PipelineDone.
Open Scope nat_scope.
Open Scope list_scope.

(** C95. However the threads are scheduled: as long as one runs, one can go on. *)
Theorem C95_never_stuck : forall U K R V (W : world U K R V) cs s i, may_be W cs s -> i < threads -> t_status (s i) = Running ->
  exists j s', j < threads /\ step1 parent cap (prog_of W cs) j s = Some s'.
Proof. intros U K R V W cs s i H I R'. exact (never_stuck _ _ _ _ (pipeline_disciplined W cs) s i H I R'). Qed.
Print Assumptions C95_never_stuck.

(** And no schedule goes on for ever. *)
Theorem C95_ends : forall U K R V (W : world U K R V) cs (who : nat -> nat) s, s 0 = start (prog_of W cs) -> (forall k, who k < threads) ->
  ~ forall k, step1 parent cap (prog_of W cs) (who k) (s k) = Some (s (S k)).
Proof. intros U K R V W cs. exact (no_endless_schedule _ _ _ _ (pipeline_disciplined W cs)). Qed.
Print Assumptions C95_ends.

(** When the pipeline has returned without an error, every unit of a beginning of the list has its
    own embedding as a document and its own row at the same number; without Ctrl-C all have. *)
Theorem C95_returned : forall U K R V (W : world U K R V) raw cs s, good_model W raw -> may_be W cs s -> t_status (s 0) = Done ->
  exists n, let units := firstn n (concat cs) in
    documents s = map (embedding W raw) units /\ rows s = numbered (first_id W) units /\ (uninterrupted W -> units = concat cs).
Proof.
  intros U K R V W raw cs s GM RE D. destruct (returned W raw cs GM s RE D) as (d & P & H1 & H2 & H3). exists (length d). cbn zeta. rewrite <- (pre_firstn _ _ P). auto.
Qed.
Print Assumptions C95_returned.

(** At every moment of every schedule, whatever failed: documents and rows are those of
    beginnings of the list; when an index is updated no row is ahead of its document. *)
Theorem C95_any_moment : forall U K R V (W : world U K R V) raw cs s, good_model W raw -> may_be W cs s ->
  exists n m, documents s = map (embedding W raw) (firstn n (concat cs)) /\ rows s = numbered (first_id W) (firstn m (concat cs)) /\ (w_fresh W = false -> m <= n).
Proof.
  intros U K R V W raw cs s GM RE. destruct (moment W raw cs GM s RE) as (d & r & P1 & P2 & H1 & H2 & H3). exists (length d), (length r). rewrite <- (pre_firstn _ _ P1), <- (pre_firstn _ _ P2).
  split; [exact H1|]. split; [exact H2|]. intro F. exact (pre_length _ _ (H3 F)).
Qed.
Print Assumptions C95_any_moment.

Lemma split_perm {A} (f : A -> bool) l : Permutation (filter f l ++ filter (fun x => negb (f x)) l) l.
Proof.
  induction l as [|x l IH]; [constructor|]. cbn [filter]. destruct (f x); cbn [negb app]; [constructor; exact IH|]. apply Permutation_sym, Permutation_cons_app, Permutation_sym. exact IH.
Qed.
Lemma map_snd_tagged {A} (l : list A) : map snd (combine (seq 0 (length l)) l) = l.
Proof. generalize 0 as k. induction l as [|x l IH]; intro k; cbn; [reflexivity|]. f_equal. apply IH. Qed.
(** Putting the sample in front loses and repeats no unit. *)
Theorem C95_sample_first : forall A sample (items : list A), Permutation (arrange sample items) items.
Proof.
  intros A sample items. unfold arrange. destruct (_ && _); [|apply Permutation_refl].
  rewrite <- map_app. eapply Permutation_trans; [apply Permutation_map, split_perm|]. rewrite map_snd_tagged. apply Permutation_refl.
Qed.
Print Assumptions C95_sample_first.

(** *** Concrete runs *)
Lemma run_may_be {U K R V} (W : world U K R V) cs sch : Forall (fun i => i < threads) sch -> forall s, may_be W cs s -> may_be W cs (run W cs sch s).
Proof.
  induction 1 as [|i sch I F IH]; intros s H; [exact H|]. cbn [run]. apply IH. destruct (step1 _ _ _ i s) as [s'|] eqn:E; [|exact H]. exact (reached_step _ _ _ _ i s s' H I E).
Qed.
Definition round := [0; 1; 2; 3; 4; 5; 6].
Definition rounds n := concat (repeat round n).
Lemma rounds_ok n : Forall (fun i => i < threads) (rounds n).
Proof. unfold rounds. induction n as [|n IH]; cbn [repeat concat]; [constructor|]. apply Forall_app. split; [repeat (constructor; [cbv; lia|]); constructor|exact IH]. Qed.
(** Texts are their own embeddings; [enc]: at which chunk encoding fails; [ins]: whether rows can
    be inserted. *)
Definition ex_world (fresh : bool) (base : nat) (enc : nat) (ins : bool) : world nat (list string) string string :=
  {| w_tok := fun ts => Ok ts; w_enc := fun k ts => if k =? enc then EncodeError else Encoded ts; w_pool := fun r => r; w_main := fun _ => false; w_stop := fun _ => false;
     w_fresh := fresh; w_base := base; w_limit := 2; w_append := fun _ _ => true; w_kmeans := fun _ => true; w_code := fun _ => true; w_create := fun _ => true; w_rows := fun _ => ins |}.
Lemma ex_good f b e i : good_model (ex_world f b e i) (fun t => t).
Proof. intros k ts b' rs H. injection H as <-. cbn. destruct (k =? e); [discriminate|]. intro Q. injection Q as <-. symmetry. apply map_id. Qed.
Definition un (n : nat) (t : string) : sorted_unit nat := {| su_unit := n; su_text := t |}.
Definition ex_chunks := [[un 1 "a"; un 2 "b"; un 3 "a"]; [un 4 "c"]; [un 5 "a"; un 6 "b"]]%string.
Definition ex_end fresh base enc ins := run (ex_world fresh base enc ins) ex_chunks (rounds 40) (start (prog_of (ex_world fresh base enc ins) ex_chunks)).
Lemma ex_may_be f b e i n : may_be (ex_world f b e i) ex_chunks (run (ex_world f b e i) ex_chunks (rounds n) (start (prog_of (ex_world f b e i) ex_chunks))).
Proof. apply run_may_be; [apply rounds_ok|constructor]. Qed.
Lemma ended_dec {M E} (s : @state M E) : forallb (fun i => match t_status (s i) with Running => false | _ => true end) (seq 0 threads) = true -> all_ended s.
Proof. intros H i I R. rewrite forallb_forall in H. specialize (H i ltac:(apply in_seq; lia)). cbn in H. rewrite R in H. discriminate. Qed.

(** The pipeline may return an error while its threads go on writing. *)
Theorem C95_returns_while_writing_refuted : ~ forall U K R V (W : world U K R V) raw cs s sch, good_model W raw -> may_be W cs s -> t_status (s 0) <> Running -> Forall (fun i => i < threads) sch ->
  documents (run W cs sch s) = documents s.
Proof.
  intro H. set (W := ex_world false 0 2 true). set (ch := ex_chunks).
  assert (F : Forall (fun i => i < threads) [0; 0; 1; 1; 1; 1; 2; 2; 2; 2; 0; 1; 1; 1; 0; 0; 0; 0; 0]) by (repeat (constructor; [cbv; lia|]); constructor).
  specialize (H nat (list string) string string W (fun t => t) ch (run W ch [0; 0; 1; 1; 1; 1; 2; 2; 2; 2; 0; 1; 1; 1; 0; 0; 0; 0; 0] (start (prog_of W ch))) (rounds 10) (ex_good _ _ _ _)
    (run_may_be W ch _ F _ (reached_start _ _ _ _)) ltac:(vm_compute; discriminate) (rounds_ok 10)). vm_compute in H. discriminate H.
Qed.
Print Assumptions C95_returns_while_writing_refuted.

(** A failed run leaves its documents; running again with all units, as is done when the GPU fails,
    indexes units twice. *)
Theorem C95_second_attempt_refuted : ~ forall U K R V (W1 W2 : world U K R V) raw cs s1 s2, good_model W1 raw -> good_model W2 raw ->
  may_be W1 cs s1 -> all_ended s1 -> t_status (s1 0) = Failed -> w_fresh W2 = false -> w_base W2 = w_base W1 + length (documents s1) -> may_be W2 cs s2 -> t_status (s2 0) = Done ->
  NoDup (map su_unit (concat cs)) -> NoDup (map snd (rows s1 ++ rows s2)).
Proof.
  intro H. specialize (H nat (list string) string string (ex_world false 0 2 true) (ex_world false 3 9 true) (fun t => t) ex_chunks (ex_end false 0 2 true) (ex_end false 3 9 true) (ex_good _ _ _ _) (ex_good _ _ _ _)
    (ex_may_be _ _ _ _ _) (ended_dec (ex_end false 0 2 true) ltac:(vm_compute; reflexivity)) ltac:(vm_compute; reflexivity) eq_refl ltac:(vm_compute; reflexivity) (ex_may_be _ _ _ _ _) ltac:(vm_compute; reflexivity)).
  assert (N : NoDup (map su_unit (concat ex_chunks))) by (cbn; repeat (constructor; [cbn; intuition lia|]); constructor). specialize (H N).
  assert (E : map snd (rows (ex_end false 0 2 true) ++ rows (ex_end false 3 9 true)) = [1; 2; 3; 1; 2; 3; 4; 5; 6]) by (vm_compute; reflexivity). rewrite E in H. inversion H as [|? ? Z _]; subst. apply Z. cbn. auto.
Qed.
Print Assumptions C95_second_attempt_refuted.

(** While the first index is built rows are ahead of the documents, and the documents whose rows
    could not be inserted are written all the same. *)
Theorem C95_first_build_rows_ahead_refuted : ~ forall U K R V (W : world U K R V) raw cs s, good_model W raw -> may_be W cs s -> length (rows s) <= length (documents s).
Proof.
  intro H. specialize (H nat (list string) string string (ex_world true 0 9 true) (fun t => t) ex_chunks _ (ex_good _ _ _ _) (ex_may_be _ _ _ _ 10)). vm_compute in H. lia.
Qed.
Print Assumptions C95_first_build_rows_ahead_refuted.
Theorem C95_first_build_rollback_refuted : ~ forall U K R V (W : world U K R V) raw cs s, good_model W raw -> may_be W cs s -> all_ended s -> length (documents s) <= length (rows s).
Proof.
  intro H. specialize (H nat (list string) string string (ex_world true 0 9 false) (fun t => t) ex_chunks (ex_end true 0 9 false) (ex_good _ _ _ _) (ex_may_be _ _ _ _ _) (ended_dec (ex_end true 0 9 false) ltac:(vm_compute; reflexivity))). vm_compute in H. lia.
Qed.
Print Assumptions C95_first_build_rollback_refuted.

Example C95_example :
  t_status (ex_end true 0 9 true 0) = Done /\ documents (ex_end true 0 9 true) = ["a"; "b"; "a"; "c"; "a"; "b"]%string /\ rows (ex_end true 0 9 true) = [(0, 1); (1, 2); (2, 3); (3, 4); (4, 5); (5, 6)] /\
  t_status (ex_end false 7 9 true 0) = Done /\ documents (ex_end false 7 9 true) = ["a"; "b"; "a"; "c"; "a"; "b"]%string /\ rows (ex_end false 7 9 true) = [(7, 1); (8, 2); (9, 3); (10, 4); (11, 5); (12, 6)] /\
  t_done (ex_end false 7 9 true 4) <> [] /\ uninterrupted (ex_world false 7 9 true) /\ arrange 2 [10; 11; 12; 13; 14] = [10; 12; 11; 13; 14].
Proof.
  repeat (split; [vm_compute; first [reflexivity|discriminate]|]). split; [|reflexivity]. split; [reflexivity|]. split; [reflexivity|]. intros k b. cbn. destruct (k =? 9); discriminate.
Qed.
