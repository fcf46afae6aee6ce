(** The two ways of building meet; what is built in stages is an index. *)
From Verif Require Import Base F32 CodecModel CodecSpec CodecProofs IndexModel IndexSpec IndexLemmas IndexDelete IndexCore IndexCreate IndexUpdate IndexDelCore IndexOps.
From Verif Require Import Staged StagedSpec StagedProofs.
Open Scope nat_scope.
Set Default Proof Using "Type".

Section BUILD.
  Variable fsub : f32 -> f32 -> f32.
  Variable dot : row -> row -> f32.
  Variable mem : nat.
  Variable quantile_at : list row -> list doc -> nat -> nat -> f32.
  Variable threshold_of : list row -> list doc -> f32.
  Notation encode := (encode_index_chunk fsub dot mem).
  Notation create := (create_index_files fsub dot mem quantile_at threshold_of).
  Notation staged := (build_in_stages fsub dot mem quantile_at threshold_of).

  Definition start_disk (cen : nat * list row) (cut wei : list f32) (thr : f32) (d : disk) : disk :=
    apply_write (apply_write (apply_write (apply_write d (WCentroids (Some cen))) (WCutoffs (Some cut))) (WWeights (Some wei))) (WThreshold (Some thr)).
  Definition end_disk (lists : list (list Z)) (md : metadata) (d : disk) : disk :=
    apply_write (apply_write (apply_write d (WIvf (Some (concat lists)))) (WIvfLengths (Some (map (@length Z) lists)))) (WMeta (Some md)).
  Definition md_of (nb : nat) (cen : nat * list row) (es : list encoded_chunk) : metadata :=
    {| num_chunks := length es; nbits := nb; num_partitions := length (snd cen);
       num_embeddings := sum (map (fun e => length (ec_codes e)) es);
       num_documents := sum (map (fun e => length (ec_doclens e)) es); embedding_dim := fst cen |}.
  Lemma new_codec_parts nb dim cents cut wei c : new_codec nb dim cents cut wei = Ok c -> c_dim c = dim /\ c_centroids c = cents.
  Proof.
    intro H. assert (G : nb = 1 \/ nb = 2 \/ nb = 4 \/ nb = 8) by (apply (new_codec_ok nb dim cents cut wei); eauto).
    destruct G as [->|[->|[->| ->]]]; cbn in H; apply Ok_inj in H; subst c; split; reflexivity.
  Qed.
  Lemma staged_steps sample cen bts g d md d' :
    steps (staged sample cen bts g) d md d' <->
    exists cut wei thr c es m, sample <> [] /\ train quantile_at threshold_of (g_nbits g) (snd cen) sample = (cut, wei, thr) /\
      new_codec (g_nbits g) (fst cen) (snd cen) (Some cut) (Some wei) = Ok c /\ mapM (encode c) bts = Ok es /\
      build_pmap (fun _ => []) 0%Z (lens_of es) (codes_of es) = Ok m /\
      md = md_of (g_nbits g) cen es /\
      d' = end_disk (ivf_lists m (length (snd cen))) md (put_chunks true 0 0 es (start_disk cen cut wei thr d)).
  Proof.
    unfold build_in_stages, prepare_codec_artifacts. destruct (train quantile_at threshold_of (g_nbits g) (snd cen) sample) as ((cut & wei) & thr) eqn:T.
    destruct sample as [|d0 sample].
    { cbn [length Nat.eqb]. split; [intros H; inv_steps H; discriminate|]. intros (? & ? & ? & ? & ? & ? & K & _). congruence. }
    cbn [length Nat.eqb]. split.
    - intros H. apply steps_bind in H. destruct H as (a & d1 & H1 & H). apply steps_lift in H1. destruct H1 as (H1 & ->).
      apply bind_Ok in H1. destruct H1 as (c & Ec & H1). apply Ok_inj in H1. subst a. cbn [a_codec] in H.
      apply steps_bind in H. destruct H as (es & d1 & H1 & H). apply steps_lift in H1. destruct H1 as (Ees & ->).
      unfold write_index_from_encoded_chunks in H. cbn [a_codec a_cutoffs a_weights a_threshold] in H. destruct (new_codec_parts _ _ _ _ _ _ Ec) as (-> & ->) in H. rewrite <- surjective_pairing in H. inv_steps H.
      destruct a as ((off & ac) & dl). inv_steps S0. apply write_loop in S. destruct S as (Es & ->). injection Es as -> -> ->. 
      exists cut, wei, thr, c, es, a. repeat (split; [solve [reflexivity|discriminate|assumption]|]). reflexivity.
    - intros (cut' & wei' & thr' & c & es & m & _ & T' & Ec & Ees & Em & -> & ->). injection T' as <- <- <-.
      apply steps_bind. exists {| a_codec := c; a_cutoffs := cut; a_weights := wei; a_threshold := thr |}, d. split; [apply steps_lift; rewrite Ec; split; reflexivity|].
      apply steps_bind. exists es, d. split; [apply steps_lift; split; [exact Ees|reflexivity]|]. unfold write_index_from_encoded_chunks. cbn [a_codec a_cutoffs a_weights a_threshold].
      destruct (new_codec_parts _ _ _ _ _ _ Ec) as (-> & ->). rewrite <- surjective_pairing.
      do 4 (apply steps_bind; exists tt; eexists; split; [apply steps_emit; reflexivity|]).
      apply steps_bind. exists (0 + sum (map (fun e => length (ec_codes e)) es), [] ++ codes_of es, [] ++ lens_of es). eexists. split; [apply write_loop; split; reflexivity|]. cbn [app].
      apply steps_bind. exists m. eexists. split; [apply steps_lift; split; [exact Em|reflexivity]|]. cbv zeta.
      do 3 (apply steps_bind; exists tt; eexists; split; [apply steps_emit; reflexivity|]). apply steps_ret. split; reflexivity.
  Qed.
  Lemma encode_counts c : forall bts es, mapM (encode c) bts = Ok es ->
    lens_of es = map (@length row) (concat bts) /\ length es = length bts /\ sum (map (fun e => length (ec_doclens e)) es) = length (concat bts).
  Proof.
    intros bts es H. apply mapM_Ok_inv in H. induction H as [|b e bts es E H (I1 & I2 & I3)]; [repeat split|]. apply encode_lens in E.
    unfold lens_of in *. cbn [map concat length sum]. rewrite map_app, I1, I2, I3, E, app_length, map_length. repeat split.
  Qed.
  Lemma mapM2_length (f : row -> res row) l l' : mapM f l = Ok l' -> length l' = length l.
  Proof. apply mapM_length. Qed.
  Lemma encode_tokens c b e : c_centroids c <> [] -> encode c b = Ok e -> length (ec_codes e) = sum (map (@length row) b).
  Proof.
    intros N H. unfold encode_index_chunk in H. apply bind_Ok in H. destruct H as (batch & H1 & H). apply bind_Ok in H. destruct H as (((codes & r) & p) & H2 & H). apply Ok_inj in H. subst e. cbn [ec_codes].
    apply concat_docs_Ok in H1. destruct H1 as (-> & _). unfold encode_rows in H2. apply bind_Ok in H2. destruct H2 as (codes' & H2 & H3). apply bind_Ok in H3. destruct H3 as (rs & _ & H3). apply bind_Ok in H3. destruct H3 as (ps & _ & H3). apply Ok_inj in H3. injection H3 as -> _ _.
    destruct (compress_ok dot mem (c_centroids c) (concat b) N) as (cs & E & F). rewrite E in H2. apply Ok_inj in H2. subst cs. rewrite <- (Forall2_length _ _ _ F). clear. induction b as [|x b IH]; [reflexivity|]. cbn. rewrite app_length, IH. reflexivity.
  Qed.
  Lemma encode_all_tokens c : forall bts es, c_centroids c <> [] -> mapM (encode c) bts = Ok es -> sum (map (fun e => length (ec_codes e)) es) = sum (map (@length row) (concat bts)).
  Proof.
    intros bts es N H. apply mapM_Ok_inv in H. induction H as [|b e bts es E H IH]; [reflexivity|]. cbn [map sum concat]. rewrite map_app, IH, (encode_tokens _ _ _ N E).
    clear. induction (map (@length row) b) as [|x l IH]; cbn; [reflexivity|]. rewrite <- IH. lia.
  Qed.
  Lemma create_steps cen bts g d md d' : snd cen <> [] -> 1 <= g_batch_size g -> batches_of (g_batch_size g) bts ->
    steps (create (concat bts) cen g) d md d' <->
    exists cut wei thr c es m, train quantile_at threshold_of (g_nbits g) (snd cen) (concat bts) = (cut, wei, thr) /\
      new_codec (g_nbits g) (fst cen) (snd cen) (Some cut) (Some wei) = Ok c /\ mapM (encode c) bts = Ok es /\
      build_pmap (fun _ => []) 0%Z (lens_of es) (codes_of es) = Ok m /\
      md = md_of (g_nbits g) cen es /\
      d' = end_disk (ivf_lists m (length (snd cen))) md (fix_metas 0 0 es (put_chunks false 0 0 es (start_disk cen cut wei thr d))).
  Proof.
    intros CN B1 BS. unfold create_index_files. destruct (batches_ne _ _ BS) as (_ & NE). destruct (Nat.eqb_spec (length (concat bts)) 0) as [E0|_]; [lia|].
    destruct (train quantile_at threshold_of (g_nbits g) (snd cen) (concat bts)) as ((cut & wei) & thr) eqn:T. rewrite (batches_count _ _ BS B1).
    assert (SL : forall j b, nth_error bts j = Some b -> let start := (0 + j) * g_batch_size g in let stop := Nat.min (start + g_batch_size g) (length (concat bts)) in
        slice (concat bts) start stop = Ok b /\ stop - start = length b).
    { intros j b K. exact (batch_at _ _ BS [] 0 j b eq_refl K). }
    assert (MD : forall c es, new_codec (g_nbits g) (fst cen) (snd cen) (Some cut) (Some wei) = Ok c -> mapM (encode c) bts = Ok es ->
      {| num_chunks := length bts; nbits := g_nbits g; num_partitions := length (snd cen); num_embeddings := sum (map (@length row) (concat bts)); num_documents := length (concat bts); embedding_dim := fst cen |} = md_of (g_nbits g) cen es).
    { intros c es Ec Ees. destruct (encode_counts _ _ _ Ees) as (_ & L & ND). unfold md_of. rewrite L, ND, (encode_all_tokens c bts es); [reflexivity| |exact Ees].
      destruct (new_codec_parts _ _ _ _ _ _ Ec) as (_ & ->). exact CN. }
    assert (FX : forall es dd, forall j e, nth_error es j = Some e -> exists o, meta_at (put_chunks false 0 0 es dd) (0 + j) e o).
    { intros es dd j e K. destruct (put_chunks_spec false es 0 0 dd) as (_ & F & _). destruct (F j e K) as (_ & M). eauto. }
    split.
    - intros H. apply steps_bind in H. destruct H as (c & d1 & H1 & H). apply steps_lift in H1. destruct H1 as (Ec & ->). inv_steps H.
      destruct a as (ac & dl). apply (create_loop _ _ _ _ _ _ _ _ _ _ _ _ _ SL) in S. destruct S as (es & Ees & Es & ->). injection Es as -> ->. cbn [app] in S0. inv_steps S0.
      destruct (encode_counts _ _ _ Ees) as (_ & L & _). rewrite <- L in S. apply (fix_loop _ _ _ _ _ _ (FX es _)) in S. destruct S as (-> & ->).
      exists cut, wei, thr, c, es, a0. split; [reflexivity|]. split; [exact Ec|]. split; [exact Ees|]. split; [exact S0|]. rewrite (MD c es Ec Ees). split; reflexivity.
    - intros (cut' & wei' & thr' & c & es & m & T' & Ec & Ees & Em & -> & ->). injection T' as <- <- <-. apply steps_bind. exists c, d. split; [apply steps_lift; split; [exact Ec|reflexivity]|].
      do 4 (apply steps_bind; exists tt; eexists; split; [apply steps_emit; reflexivity|]).
      apply steps_bind. exists ([] ++ codes_of es, [] ++ lens_of es). eexists. split; [apply (create_loop _ _ _ _ _ _ _ _ _ _ _ _ _ SL); exists es; split; [exact Ees|split; reflexivity]|]. cbn [app].
      destruct (encode_counts _ _ _ Ees) as (_ & L & _). apply steps_bind. eexists. eexists. split; [rewrite <- L; apply (fix_loop _ _ _ _ _ _ (FX es _)); split; reflexivity|].
      apply steps_bind. exists m. eexists. split; [apply steps_lift; split; [exact Em|reflexivity]|]. cbv zeta. rewrite (MD c es Ec Ees).
      do 3 (apply steps_bind; exists tt; eexists; split; [apply steps_emit; reflexivity|]). apply steps_ret. split; reflexivity.
  Qed.
  Lemma same_index cen bts g d : snd cen <> [] -> 1 <= g_batch_size g -> batches_of (g_batch_size g) bts ->
    (forall md d1, steps (create (concat bts) cen g) d md d1 -> exists d2, steps (staged (concat bts) cen bts g) d md d2 /\ same_files d1 d2) /\
    (forall md d2, steps (staged (concat bts) cen bts g) d md d2 -> exists d1, steps (create (concat bts) cen g) d md d1 /\ same_files d1 d2).
  Proof.
    intros CN B1 BS. assert (NE : concat bts <> []) by (destruct (batches_ne _ _ BS) as (_ & K); destruct (concat bts); [cbn in K; lia|discriminate]).
    assert (SAME : forall lists md es dd, same_files (end_disk lists md (fix_metas 0 0 es (put_chunks false 0 0 es dd))) (end_disk lists md (put_chunks true 0 0 es dd))).
    { intros lists md es dd. destruct (written_same es dd _ _ (put_then_fix es dd) (put_grow es dd)) as (R & F). unfold rest in R.
      set (x := fix_metas 0 0 es (put_chunks false 0 0 es dd)) in *. set (y := put_chunks true 0 0 es dd) in *. clearbody x y. destruct x, y. cbn in R, F. injection R as -> -> -> -> -> -> -> -> -> -> -> ->.
      unfold same_files, end_disk. cbn. repeat (split; [reflexivity|]). split; [exact F|]. repeat split. }
    split.
    - intros md d1 H. apply create_steps in H; auto. destruct H as (cut & wei & thr & c & es & m & T & Ec & Ees & Em & -> & ->). eexists. split; [|apply SAME].
      apply staged_steps. exists cut, wei, thr, c, es, m. auto 8.
    - intros md d2 H. apply staged_steps in H. destruct H as (cut & wei & thr & c & es & m & _ & T & Ec & Ees & Em & -> & ->). eexists. split; [|apply SAME].
      apply create_steps; auto. exists cut, wei, thr, c, es, m. auto 8.
  Qed.
End BUILD.
