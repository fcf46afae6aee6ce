(** A concrete kernel and query for the search examples: products measure closeness,
    selection sorts, heaps iterate in insertion order. *)
From Verif Require Import Base F32 CodecModel CodecSpec CodecProofs IndexModel IndexSpec IndexExamples
  SearchModel SearchSpec SimdProofs ProbeProofs SearchProofs.
Open Scope nat_scope.

Definition ex_sim (a b : list f32) : f32 :=
  (fold_left (fun t p => t + Z.max 0 (100 - Z.abs (fst p - snd p))) (combine a b) 0 mod 4294967296)%Z.
Definition ex_le (a b : nat * f32) : bool :=
  match cmp_score_descending (snd a) (snd b) with Gt => false | _ => true end.
Definition ex_kernel : kernel :=
  {| k_mat := ex_sim; k_vec := ex_sim; k_dot := ex_sim; k_arch := Avx2;
     k_select := fun _ l => isort ex_le l; k_heap := fun h => h |}.
Lemma ex_le_iff a b : ex_le a b = true <-> ~ better (snd b) (snd a).
Proof.
  unfold ex_le, cmp_score_descending. rewrite <- cmp_better. destruct (cmp_f32_for_max (snd b) (snd a)); split; congruence.
Qed.
Lemma ex_good : good_kernel ex_kernel.
Proof.
  assert (W : forall a b, f32_wf (ex_sim a b)).
  { intros a b. unfold f32_wf, ex_sim. apply Z.mod_pos_bound. lia. }
  split; [|split; [reflexivity|split; exact W]].
  intros n l Hn. cbn [k_select ex_kernel]. split; [apply isort_perm|].
  intros a b Ha Hb. apply ex_le_iff. revert a b Ha Hb. apply sorted_firstn. apply isort_sorted.
  - intros x y. rewrite !ex_le_iff. destruct (better_dec (snd y) (snd x)) as [H|H]; auto. right. apply better_asym; auto.
  - intros x y z. rewrite !ex_le_iff. intros H1 H2. eapply better_trans_neg; eauto.
Qed.

Definition pr (full top probe batch : nat) (thr : option f32) : params :=
  {| p_n_full_scores := full; p_top_k := top; p_n_ivf_probe := probe; p_centroid_batch_size := batch; p_threshold := thr |}.
Definition ex_q : query := {| q_dim := 8; q_rows := [tok 20; tok 10] |}.

(** Two query tokens, two centroids; the similarity is the entry at the centroid's index. *)
Definition td_sim (q c : list f32) : f32 := (nth (Z.to_nat (hd 0%Z c)) q 0 mod 4294967296)%Z.
Definition td_kernel : kernel :=
  {| k_mat := td_sim; k_vec := td_sim; k_dot := td_sim; k_arch := Avx2;
     k_select := fun _ l => isort ex_le l; k_heap := fun h => h |}.
Lemma td_good : good_kernel td_kernel.
Proof.
  assert (W : forall a b, f32_wf (td_sim a b)).
  { intros a b. unfold f32_wf, td_sim. apply Z.mod_pos_bound. lia. }
  destruct ex_good as (A & B & _). split; [exact A|]. split; [exact B|]. split; exact W.
Qed.
Definition td_index : index :=
  {| x_meta := ex_meta0;
     x_codec := {| c_nbits := 1; c_dim := 2; c_centroids := [[0; 0]; [1; 0]]%Z; c_cutoffs := None; c_weights := None; c_revmap := []; c_lookup := None |};
     x_ivf := []; x_ivf_lengths := []; x_ivf_offsets := []; x_doc_lengths := []; x_doc_offsets := []; x_codes := []; x_residuals := [] |}.
(** Token 0 scores the centroids 1 and 3, token 1 scores them 9 and 5; threshold 4. *)
Definition td_q : query := {| q_dim := 2; q_rows := [[1; 3]; [9; 5]]%Z |}.
Lemma threshold_disagreement :
  exists K x q p batch cells c,
    good_kernel K /\ 1 <= batch
    /\ (let scores := map (fun qr => map (k_mat K qr) (c_centroids (x_codec x))) (q_rows q) in
        Forall no_ties scores /\ cells_to_probe (k_select K) x scores p None = Ok cells)
    /\ In c cells
    /\ ~ In c (ivf_probe_batched (k_mat K) (k_heap K) (q_rows q) (c_centroids (x_codec x)) (p_n_ivf_probe p) batch (p_threshold p)).
Proof.
  exists td_kernel, td_index, td_q, (pr 10 10 1 0 (Some 4%Z)), 2, [1; 0], 1.
  split; [exact td_good|]. split; [lia|]. split; [|split; [left; auto|]].
  - cbv zeta. split; [|vm_compute; reflexivity]. 
    assert (E : map (fun qr => map (k_mat td_kernel qr) (c_centroids (x_codec td_index))) (q_rows td_q) = [[1; 3]; [9; 5]]%Z)
      by (vm_compute; reflexivity).
    rewrite E. constructor; [|constructor; [|constructor]].
    + intros [|[|]] [|[|]] ? ? ?; cbn [length] in *; try lia; cbn [nth]; unfold better; cbn; lia.
    + intros [|[|]] [|[|]] ? ? ?; cbn [length] in *; try lia; cbn [nth]; unfold better; cbn; lia.
  - vm_compute. intuition discriminate.
Qed.
