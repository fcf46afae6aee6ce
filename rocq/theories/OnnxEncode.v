(** Reading the embeddings of a prepared batch. *)
From Verif Require Import Base Onnx OnnxSpec OnnxPrepare.
Open Scope nat_scope.

Lemma row_concat {A} len : forall (ls : list (list A)) i, Forall (fun l => length l = len) ls -> i < length ls -> row (concat ls) len i = nth i ls [].
Proof.
  unfold row. induction ls as [|l ls IH]; intros i F I; cbn in I; [lia|]. inversion F; subst. cbn [concat]. destruct i as [|i].
  - cbn [Nat.mul skipn nth]. rewrite firstn_app, Nat.sub_diag, firstn_all. cbn. apply app_nil_r.
  - cbn [nth]. rewrite <- (IH i) by (auto; lia). f_equal. cbn [Nat.mul]. rewrite skipn_app.
    rewrite skipn_all2 by lia. cbn [app]. f_equal. lia.
Qed.
Lemma row_map {A B} (h : A -> B) l len i : row (map h l) len i = map h (row l len i).
Proof. unfold row. now rewrite skipn_map, firstn_map. Qed.
Lemma concat_length_all {A} len (ls : list (list A)) : Forall (fun l => length l = len) ls -> length (concat ls) = length ls * len.
Proof. induction 1 as [|l ls H _ IH]; cbn; auto. rewrite app_length, IH. lia. Qed.
Lemma nth_map_lt {A B} (h : A -> B) l i d d' : i < length l -> nth i (map h l) d = h (nth i l d').
Proof. intros L. rewrite (nth_indep _ d (h d')) by (now rewrite map_length). apply map_nth. Qed.
Lemma map_nth_seq {A} (l : list A) d : map (fun j => nth j l d) (seq 0 (length l)) = l.
Proof.
  induction l as [|x l IH]; [reflexivity|]. cbn [length seq map nth]. f_equal. rewrite <- seq_shift, map_map. exact IH.
Qed.
Lemma combine_seq {A B} (l : list A) (r : list B) a b : length l = length r ->
  combine l r = map (fun j => (nth j l a, nth j r b)) (seq 0 (length l)).
Proof.
  revert r. induction l as [|x l IH]; intros [|y r] E; cbn in E; try lia; [reflexivity|]. cbn [length seq map combine nth]. f_equal.
  rewrite <- seq_shift, map_map. apply IH. lia.
Qed.
Lemma filter_map_comm {A B} (h : A -> B) (p : B -> bool) l : filter p (map h l) = map h (filter (fun x => p (h x)) l).
Proof. induction l as [|x l IH]; cbn; auto. destruct (p (h x)); cbn; now rewrite IH. Qed.
Lemma kept_rows {A} (p : nat -> bool) (toks : list nat) (rows : list A) d : length toks = length rows ->
  map (fun j => nth j rows d) (filter (fun j => p (nth j toks 0)) (seq 0 (length toks))) = map snd (filter (fun x => p (fst x)) (combine toks rows)).
Proof. intros E. rewrite (combine_seq toks rows 0 d E), filter_map_comm, map_map. reflexivity. Qed.

Lemma map_repeat {A B} (h : A -> B) a n : map h (repeat a n) = repeat (h a) n.
Proof. induction n as [|n IH]; cbn; [reflexivity|now rewrite IH]. Qed.

Lemma slice_fits i j len size dim : i < size -> j < len -> (i * len + j) * dim + dim <= size * len * dim.
Proof.
  intros I J. replace ((i * len + j) * dim + dim) with ((i * len + j + 1) * dim) by lia. apply Nat.mul_le_mono_r.
  assert (S i * len <= size * len) by (apply Nat.mul_le_mono_r; lia). lia.
Qed.

Section Encode.
  Context {T : tokenizer} (N : network) (c : config T) (dim : nat) (f : list nat -> option (list nat) -> list (list (value N))).
  Context (HN : ignores_padding N dim f).
  Context (is_query filter_skiplist : bool) (prefix len : nat).
  Notation m := (max_length c is_query).
  Notation expand := (is_query && do_query_expansion c).
  Definition full (v : list (nat * nat)) : list (nat * nat) :=
    let s := sequence m prefix v in if expand then s ++ repeat (mask_token_id c, 0) (len - length s) else s.
  Definition embedding (v : list (nat * nat)) : list (list (value N)) :=
    if expand then outputs c f (full v)
    else map snd (filter (fun p => negb (skipped (build_skiplist c) filter_skiplist (fst p))) (combine (map fst (full v)) (outputs c f (full v)))).
  Definition fits (v : list (nat * nat)) : Prop := v <> [] /\ effective_len m (length v) <= len.

  Lemma full_length v : 3 <= m -> fits v -> length (full v) = if expand then len else length (sequence m prefix v).
  Proof.
    intros M (NV & L). unfold full. destruct expand; auto. rewrite app_length, repeat_length, sequence_length; auto. lia.
  Qed.
  Lemma full_le v : 3 <= m -> fits v -> length (full v) <= len.
  Proof. intros M F. rewrite full_length by auto. destruct F. destruct expand; [lia|]. rewrite sequence_length; auto. Qed.
  Lemma padded_full v : 3 <= m -> fits v -> padded (padding c is_query) len (sequence m prefix v) =
    map attended (full v) ++ repeat (padding c is_query) (len - length (full v)).
  Proof.
    intros M F. rewrite full_length by auto. unfold padded, full, padding. destruct expand; [|reflexivity].
    rewrite Nat.sub_diag. cbn [repeat]. rewrite app_nil_r, map_app. f_equal. rewrite map_repeat. reflexivity.
  Qed.
  Lemma padded_length v : 3 <= m -> fits v -> length (padded (padding c is_query) len (sequence m prefix v)) = len.
  Proof. intros M F. rewrite padded_full by auto. rewrite app_length, map_length, repeat_length. pose proof (full_le v M F). lia. Qed.

  Context (vs : list (list (nat * nat))) (M3 : 3 <= m) (HF : Forall fits vs).
  Let p := batch c is_query filter_skiplist prefix len vs.
  Let flat := concat (map (padded (padding c is_query) len) (map (sequence m prefix) vs)).
  Lemma flat_rows : Forall (fun l => length l = len) (map (padded (padding c is_query) len) (map (sequence m prefix) vs)).
  Proof. rewrite map_map. apply Forall_map. eapply Forall_impl; [|exact HF]. intros v F. now apply padded_length. Qed.
  Lemma flat_length : length flat = length vs * len.
  Proof. unfold flat. rewrite (concat_length_all len) by apply flat_rows. now rewrite !map_length. Qed.
  Lemma flat_row i : i < length vs -> row flat len i = map attended (full (nth i vs [])) ++ repeat (padding c is_query) (len - length (full (nth i vs []))).
  Proof.
    intros I. unfold flat. rewrite row_concat; [|apply flat_rows|now rewrite !map_length].
    rewrite map_map, (nth_map_lt _ vs i [] []) by auto. apply padded_full; auto. rewrite Forall_forall in HF. apply HF. now apply nth_In.
  Qed.

  Lemma read_slice shape data origin : run N (b_size (p origin)) (b_len (p origin)) (b_ids (p origin)) (b_mask (p origin)) (b_types (p origin)) = Ok (shape, data) ->
    nth_error shape 2 = Some dim /\
    forall i j, i < length vs -> j < length (full (nth i vs [])) ->
      slice data (i * len * dim + j * dim) dim = Ok (nth j (outputs c f (full (nth i vs []))) []).
  Proof.
    destruct HN as (HL & H). intros R.
    assert (L1 : length (b_ids (p origin)) = b_size (p origin) * b_len (p origin)) by (cbn; fold flat; now rewrite map_length, flat_length).
    assert (L2 : length (b_mask (p origin)) = b_size (p origin) * b_len (p origin)) by (cbn; fold flat; now rewrite map_length, flat_length).
    assert (L3 : forall t, b_types (p origin) = Some t -> length t = b_size (p origin) * b_len (p origin)).
    { cbn. fold flat. intros t ET. destruct (uses_token_type_ids c); [injection ET as <-; now rewrite map_length, flat_length|discriminate]. }
    destruct (H _ _ _ _ _ _ _ L1 L2 L3 R) as (S1 & S2 & S3).
    split; auto. intros i j I J. cbn [p batch b_size b_len b_ids b_mask b_types] in S2, S3. fold flat in S3.
    assert (FI : fits (nth i vs [])) by (rewrite Forall_forall in HF; apply HF; now apply nth_In).
    pose proof (full_le _ M3 FI) as LE.
    assert (EM : row (map (fun x : triple => snd (fst x)) flat) len i =
      repeat 1 (length (full (nth i vs []))) ++ repeat 0 (len - length (full (nth i vs [])))).
    { rewrite row_map, flat_row, map_app by auto. f_equal.
      - rewrite map_map. cbn. generalize (full (nth i vs [])). intros l. induction l as [|x l IH]; cbn; [reflexivity|now rewrite IH].
      - rewrite map_repeat. destruct (full_length _ M3 FI). unfold padding. cbn [fst snd]. rewrite (full_length _ M3 FI). destruct expand; [now rewrite Nat.sub_diag|reflexivity]. }
    specialize (S3 i (length (full (nth i vs []))) I LE EM j J). 
    unfold slice. replace (i * len * dim + j * dim) with ((i * len + j) * dim) by lia.
    replace ((i * len + j) * dim + dim <=? length data) with true by (symmetry; apply Nat.leb_le; rewrite S2; apply slice_fits; lia).
    rewrite S3. unfold outputs. rewrite !row_map, flat_row by auto. f_equal. f_equal. f_equal.
    - rewrite map_app, !map_map. rewrite firstn_app, map_length, Nat.sub_diag. cbn [firstn]. rewrite app_nil_r.
      rewrite firstn_all2 by (rewrite map_length; lia). reflexivity.
    - destruct (uses_token_type_ids c); cbn [option_map]; [|reflexivity]. f_equal.
      rewrite row_map, flat_row by auto. rewrite map_app, !map_map. rewrite firstn_app, map_length, Nat.sub_diag. cbn [firstn]. rewrite app_nil_r.
      rewrite firstn_all2 by (rewrite map_length; lia). reflexivity.
  Qed.

  (** Every document of the batch gets its own embedding. *)
  Lemma encode_batch_spec shape data origin : vs <> [] ->
    run N (b_size (p origin)) (b_len (p origin)) (b_ids (p origin)) (b_mask (p origin)) (b_types (p origin)) = Ok (shape, data) ->
    encode_prepared N c (p origin) = Ok (map embedding vs).
  Proof.
    intros NV R. destruct (read_slice shape data origin R) as (SD & SL). unfold encode_prepared. rewrite R. cbn [bind].
    replace (b_size (p origin) =? 0) with false by (symmetry; apply Nat.eqb_neq; destruct vs; [congruence|cbn; lia]).
    rewrite (proj2 (idx_Ok shape 2 dim) SD). cbn [bind].
    rewrite (mapM_Ok_map _ (fun i => embedding (nth i vs []))).
    { cbn [p batch b_size]. f_equal. rewrite <- (map_nth_seq vs []) at 2. now rewrite map_map. }
    intros i HI. apply in_seq in HI. cbn [p batch b_size] in HI. assert (I : i < length vs) by lia. clear HI.
    assert (FI : fits (nth i vs [])) by (rewrite Forall_forall in HF; apply HF; now apply nth_In).
    assert (OL : length (outputs c f (full (nth i vs []))) = length (full (nth i vs []))) by (unfold outputs; now rewrite (proj1 HN), map_length).
    unfold read_document, embedding. cbn [p batch b_query b_len b_lengths b_tokens b_filter]. pose proof (full_length _ M3 FI) as FL.
    destruct (is_query && do_query_expansion c) eqn:EX.
    - unfold read_rows. rewrite (mapM_Ok_map _ (fun j => nth j (outputs c f (full (nth i vs []))) [])).
      + f_equal. rewrite <- FL, <- OL. apply map_nth_seq.
      + intros j J. apply in_seq in J. apply SL; lia.
    - unfold idx. rewrite !nth_error_map, (nth_error_nth' vs [] I). cbn [option_map bind]. rewrite map_length, Nat.ltb_irrefl.
      assert (EF : full (nth i vs []) = sequence m prefix (nth i vs [])) by (unfold full; now rewrite EX). rewrite EF in *.
      unfold read_rows. rewrite (mapM_Ok_map _ (fun j => nth j (outputs c f (sequence m prefix (nth i vs []))) [])).
      + f_equal. pose proof (kept_rows (fun t => negb (skipped (build_skiplist c) filter_skiplist t)) (map fst (sequence m prefix (nth i vs []))) (outputs c f (sequence m prefix (nth i vs []))) []) as K.
        rewrite map_length in K. apply K. lia.
      + intros j J. apply filter_In in J. destruct J as (J & _). apply in_seq in J. pose proof (SL i j I) as SJ. rewrite EF in SJ. apply SJ. lia.
  Qed.
End Encode.
