(** Concrete instance used for the examples and for the counterexamples: dimension 8, one
    bit per component; the "dot product" counts equal components; clustering always returns
    two centroids; every token is an outlier. *)
From Verif Require Import Base F32 CodecModel CodecSpec CodecProofs IndexModel IndexSpec.
Open Scope nat_scope.

Definition tok (z : Z) : list f32 := repeat z 8.
Definition ex_env : env := {|
  v_fadd := Z.add; v_fsub := Z.sub; v_norm := fun r => r;
  v_dot := fun a b => Z.of_nat (length (filter (fun p => Z.eqb (fst p) (snd p)) (combine a b)));
  v_mem := 4096;
  v_kmeans := fun seed _ => Ok (8, [tok 10; tok (20 + seed)]);
  v_quantile := fun _ _ n i => Z.of_nat (n + i);
  v_threshold := fun _ _ => 1%Z;
  v_next := fun _ _ n => Z.of_nat n;
  v_outlier := fun _ _ _ => true
|}.
Definition cfg (bs sfs buf : nat) (seed : Z) : config :=
  {| g_nbits := 1; g_batch_size := bs; g_start_from_scratch := sfs; g_buffer_size := buf; g_seed := seed |}.

Lemma ex_kmeans : good_kmeans 8 (v_kmeans ex_env).
Proof. intros seed docs dim cents _ H. injection H as <- <-. split; auto. split; [discriminate|repeat constructor]. Qed.

Definition ex_docs : list (list (list f32)) := [[tok 10; tok 20]; [tok 20]; []; [tok 10]; [tok 20; tok 20; tok 10]].
Definition ex_ops : list op := [
  OUpdate [[tok 10]; [tok 30; tok 20]] (cfg 2 0 10 5);
  ODelete [1; 3; 3; 77]%Z;
  OReload;
  OUpdate [[tok 20]] (cfg 2 0 1 7);
  OAppend [[tok 27]; [tok 10]] (cfg 1 0 3 7)].

(** The state after the history, and the opened index. *)
Definition got {A} (dflt : A) (r : res A) : A := match r with Ok a => a | _ => dflt end.
Definition is_ok {A} (r : res A) : bool := match r with Ok _ => true | _ => false end.
Lemma is_ok_got {A} (dflt : A) r : is_ok r = true -> r = Ok (got dflt r).
Proof. destruct r; cbn; congruence. Qed.
Definition ex_meta0 : metadata :=
  {| num_chunks := 0; nbits := 0; num_partitions := 0; num_embeddings := 0; num_documents := 0; embedding_dim := 0 |}.
Definition ex_index0 : index :=
  {| x_meta := ex_meta0;
     x_codec := {| c_nbits := 0; c_dim := 0; c_centroids := []; c_cutoffs := None; c_weights := None; c_revmap := []; c_lookup := None |};
     x_ivf := []; x_ivf_lengths := []; x_ivf_offsets := []; x_doc_lengths := []; x_doc_offsets := []; x_codes := []; x_residuals := [] |}.
Definition ex_state := got ([], (empty_disk, ex_meta0)) (run ex_env ex_docs (cfg 2 3 2 0) ex_ops).
Definition ex_outs := fst ex_state.
Definition ex_d := fst (snd ex_state).
Definition ex_h := snd (snd ex_state).
Definition ex_x := got ex_index0 (load ex_d).

Lemma ex_reached : reached ex_env 8 ex_docs (cfg 2 3 2 0) ex_ops ex_outs ex_d ex_h.
Proof.
  split; [lia|]. split; [exact ex_kmeans|]. split; [repeat constructor|].
  split; [repeat (constructor; [first [split; [discriminate|repeat constructor]|repeat (constructor; try lia)|exact I]|]); constructor|].
  split; [cbn; repeat split; auto|].
  unfold ex_outs, ex_d, ex_h. rewrite <- !surjective_pairing. apply is_ok_got. vm_compute. reflexivity.
Qed.
Lemma ex_loaded : load ex_d = Ok ex_x.
Proof. apply is_ok_got. vm_compute. reflexivity. Qed.
Lemma ex_facts : ex_outs = [[5; 6]; [2]; []; [5]; [6; 7]]%Z /\ x_doc_lengths ex_x = [2; 0; 3; 1; 2; 1; 1; 1].
Proof. vm_compute. split; reflexivity. Qed.

(** The same for an arbitrary history. *)
Definition st (docs : list (list (list f32))) (g : config) (ops : list op) :=
  got ([], (empty_disk, ex_meta0)) (run ex_env docs g ops).
Definition stepped (s : disk * metadata) (o : op) := got ([], s) (step ex_env s o).
Definition opened (d : disk) := got ex_index0 (load d).
Definition ex_docs3 : list (list (list f32)) := [[tok 10; tok 20]; [tok 20]; [tok 10]].

Lemma run_st docs g ops : is_ok (run ex_env docs g ops) = true ->
  run ex_env docs g ops = Ok (fst (st docs g ops), (fst (snd (st docs g ops)), snd (snd (st docs g ops)))).
Proof. unfold st. destruct (run ex_env docs g ops) as [(o & (d & h))| |]; cbn; congruence. Qed.
Lemma step_stepped d h o : is_ok (step ex_env (d, h) o) = true ->
  step ex_env (d, h) o
  = Ok (fst (stepped (d, h) o), (fst (snd (stepped (d, h) o)), snd (snd (stepped (d, h) o)))).
Proof. unfold stepped. destruct (step ex_env (d, h) o) as [(a & (b & c))| |]; cbn; congruence. Qed.
Lemma load_opened d : is_ok (load d) = true -> load d = Ok (opened d).
Proof. unfold opened. destruct (load d); cbn; congruence. Qed.
