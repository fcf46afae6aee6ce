(** What is built in stages is an index; building succeeds. *)
From Verif Require Import Base F32 CodecModel CodecSpec CodecProofs IndexModel IndexSpec IndexLemmas IndexDelete IndexCore IndexCreate IndexUpdate IndexDelCore IndexOps IndexAccess.
From Verif Require Import Staged StagedSpec StagedProofs StagedMain.
Open Scope nat_scope.
Set Default Proof Using "Type".

Section BUILD.
  Variable fsub : f32 -> f32 -> f32.
  Variable dot : row -> row -> f32.
  Variable mem : nat.
  Variable quantile_at : list row -> list doc -> nat -> nat -> f32.
  Variable threshold_of : list row -> list doc -> f32.
  Variable D : nat.
  Notation encode := (encode_index_chunk fsub dot mem).
  Notation create := (create_index_files fsub dot mem quantile_at threshold_of).
  Notation staged := (build_in_stages fsub dot mem quantile_at threshold_of).
  Notation core := (core fsub dot D).

  Definition holds (e : encoded_chunk) (cs : list (list (nat * list N))) : Prop :=
    ec_codes e = map fst (concat cs) /\ ec_residuals e = map snd (concat cs) /\ ec_doclens e = map (@length _) cs.
  Lemma encode_holds nb cents cut wei b e : cents <> [] -> encode (codec_of D nb cents cut wei) b = Ok e ->
    exists cs, holds e cs /\ Forall2 (Forall2 (encodes fsub dot D nb cents cut)) b cs.
  Proof.
    intros N H. pose proof (encode_lens _ _ _ _ _ _ H) as L. unfold encode_index_chunk in H. apply bind_Ok in H. destruct H as (batch & H1 & H). apply bind_Ok in H. destruct H as (((codes & r) & p) & H2 & H). apply Ok_inj in H. subst e.
    cbn [c_dim codec_of] in H1. destruct (encode_docs fsub dot mem D _ _ _ _ _ _ _ _ _ N H1 H2) as (cs & -> & -> & F). exists cs. split; [|exact F]. split; [reflexivity|]. split; [reflexivity|].
    rewrite L. apply (Forall2_lengths _ _ _ F).
  Qed.
  Lemma encode_all nb cents cut wei : cents <> [] -> forall bts es, mapM (encode (codec_of D nb cents cut wei)) bts = Ok es ->
    exists css, Forall2 holds es css /\ Forall2 (Forall2 (encodes fsub dot D nb cents cut)) (concat bts) (concat css).
  Proof.
    intros N bts es H. apply mapM_Ok_inv in H. induction H as [|b e bts es E H (css & I1 & I2)]; [exists []; split; constructor|].
    destruct (encode_holds _ _ _ _ _ _ N E) as (cs & Hc & Fc). exists (cs :: css). split; [constructor; assumption|]. cbn [concat]. apply Forall2_app; assumption.
  Qed.
  Lemma holds_all es css : Forall2 holds es css -> codes_of es = map fst (concat (concat css)) /\ lens_of es = map (@length _) (concat css)
    /\ sum (map (fun e => length (ec_codes e)) es) = length (concat (concat css)) /\ sum (map (fun e => length (ec_doclens e)) es) = length (concat css) /\ length es = length css.
  Proof.
    induction 1 as [|e cs es css (H1 & H2 & H3) F (I1 & I2 & I3 & I4 & I5)]; [repeat split|]. unfold codes_of, lens_of in *. cbn [map concat sum length]. rewrite concat_app, !map_app, !app_length, I1, I2, I3, I4, I5, H1, H3, !map_length. repeat split.
  Qed.
  Lemma staged_core sample cents bts g d md d' : 1 <= D -> cents <> [] -> Forall (fun r => length r = D) cents ->
    steps (staged sample (D, cents) bts g) d md d' ->
    exists cut wei css, core d' (g_nbits g) cents cut wei (concat bts) css /\ side d' = side d /\ f_threshold d' <> None
      /\ md = meta_of D (g_nbits g) cents (concat bts) css /\ Forall (fun r => length r = D) (concat (concat bts)).
  Proof.
    intros HD N DIM H. apply staged_steps in H. destruct H as (cut & wei & thr & c & es & m & _ & T & Ec & Ees & Em & -> & ->). cbn [fst snd] in *.
    destruct (train_lengths _ _ _ _ _ _ _ _ T) as (CL & WL). pose proof (new_codec_inv _ _ _ _ _ _ Ec) as NB. rewrite new_codec_good in Ec by exact NB. apply Ok_inj in Ec. subst c.
    destruct (encode_all _ _ _ _ N _ _ Ees) as (css & HO & EN). destruct (holds_all _ _ HO) as (C1 & C2 & C3 & C4 & C5).
    rewrite C1, C2, (build_pmap_ok (concat css) _ 0) in Em. apply Ok_inj in Em. subst m. rewrite fresh_lists.
    assert (LEN : length (concat bts) = length (concat css)) by (eapply Forall2_length; exact EN).
    assert (MD : md_of (g_nbits g) (D, cents) es = meta_of D (g_nbits g) cents (concat bts) css) by (unfold md_of, meta_of; cbn [fst snd]; rewrite C3, C4, C5, LEN; reflexivity).
    rewrite MD. set (d0 := start_disk (D, cents) cut wei thr d). destruct (put_grow es d0) as (R & F & S1). set (d1 := put_chunks true 0 0 es d0) in *.
    assert (R0 : rest d1 = (f_meta d, Some (D, cents), Some cut, Some wei, Some thr, f_ivf d, f_ivf_lengths d, (f_buffer d, f_buffer_lengths d, f_buffer_info d, f_emb d, f_emb_lengths d))).
    { rewrite R. unfold d0. destruct d; reflexivity. }
    unfold rest in R0. clearbody d1. destruct d1. cbn in R0. injection R0 as -> -> -> -> -> -> -> -> -> -> -> ->.
    exists cut, wei, css. split.
    - constructor; auto; cbn; try congruence.
      + intros i cs K. destruct (nth_error es i) as [e|] eqn:Q.
        2:{ apply nth_error_None in Q. assert (i < length css) by (apply nth_error_Some; congruence). lia. }
        destruct (Forall2_nth_error _ _ _ HO _ _ Q) as (cs' & K' & (H1 & H2 & H3)). assert (cs' = cs) by congruence. subst cs'.
        destruct (F i e Q) as ((A1 & A2 & A3) & A4). unfold meta_at in A4. cbn in A1, A2, A3, A4. unfold chunk_at. cbn. rewrite A1, A2, A3, A4, H1, H2, H3, !map_length. split; [reflexivity|]. split; [reflexivity|]. split; [reflexivity|]. eexists. reflexivity.
      + apply enc_docs_full; auto.
      + rewrite map_map. reflexivity.
    - split; [unfold side; reflexivity|]. split; [cbn; discriminate|]. split; [reflexivity|].
      apply mapM_Ok_inv in Ees. clear - Ees. induction Ees as [|b e bts es E H IH]; [constructor|]. cbn [concat]. rewrite concat_app. apply Forall_app. split; [|exact IH].
      unfold encode_index_chunk in E. apply bind_Ok in E. destruct E as (batch & E & _). apply concat_docs_Ok in E. apply E.
  Qed.
  (** Building does not fail on good input. *)
  Lemma encode_total nb cents cut wei b : cents <> [] -> Forall (fun r => length r = D) cents -> good_nbits nb -> (D * nb) mod 8 = 0 ->
    Forall (fun r => length r = D) (concat b) -> exists e, encode (codec_of D nb cents cut wei) b = Ok e.
  Proof.
    intros N DIM NB DV DB. unfold encode_index_chunk. cbn [c_dim codec_of]. rewrite (proj2 (concat_docs_Ok D b _) (conj eq_refl DB)). cbn [bind].
    unfold encode_rows. cbn [c_centroids codec_of]. destruct (compress_ok dot mem cents (concat b) N) as (codes & -> & F). cbn [bind].
    assert (R : exists rs, mapM (residual_row fsub (codec_of D nb cents cut wei)) (combine (concat b) codes) = Ok rs /\ Forall (fun r => length r = D) rs).
    { revert DB. induction F as [|r k rows codes A F IH]; intros DB; [exists []; split; [reflexivity|constructor]|]. inversion DB; subst. destruct (IH ltac:(assumption)) as (rs & E & FR).
      cbn [combine mapM]. unfold residual_row at 1. cbn [c_centroids codec_of fst snd]. assert (A' : k < length cents) by (destruct A as (s & A & _); rewrite <- (map_length (dot r)); apply nth_error_Some; congruence).
      destruct (nth_error cents k) as [cen|] eqn:Q; [|apply nth_error_None in Q; lia]. unfold idx. rewrite Q. cbn [bind]. rewrite E. cbn [bind]. eexists. split; [reflexivity|].
      constructor; [|exact FR]. rewrite map_length, combine_length. rewrite Forall_forall in DIM. specialize (DIM cen (nth_error_In _ _ Q)). rewrite DIM. apply Nat.min_id. }
    destruct R as (rs & -> & FR). cbn [bind]. unfold quantize_residuals. cbn [c_cutoffs codec_of c_nbits c_dim]. change (c_dim (codec_of D nb cents cut wei)) with D.
    assert (P : exists ps, mapM (quantize_row nb (D * nb / 8) cut) rs = Ok ps).
    { clear - FR NB DV. induction FR as [|r rs L FR (ps & E)]; [exists []; reflexivity|]. cbn [mapM].
      destruct (quantize_row_ok nb cut r (D * nb / 8) NB) as (p & -> & _); [rewrite L; pose proof (Nat.div_mod (D * nb) 8 ltac:(lia)); lia|]. rewrite E. cbn [bind]. eexists. reflexivity. }
    destruct P as (ps & ->). cbn [bind]. eexists. reflexivity.
  Qed.
  Lemma staged_total sample cents bts g d : sample <> [] -> cents <> [] -> Forall (fun r => length r = D) cents -> good_nbits (g_nbits g) -> (D * g_nbits g) mod 8 = 0 ->
    Forall (fun r => length r = D) (concat (concat bts)) -> exists md d', steps (staged sample (D, cents) bts g) d md d'.
  Proof.
    intros SN N DIM NB DV DB. destruct (train quantile_at threshold_of (g_nbits g) cents sample) as ((cut & wei) & thr) eqn:T.
    assert (E : exists es, mapM (encode (codec_of D (g_nbits g) cents cut wei)) bts = Ok es).
    { revert DB. induction bts as [|b bts IH]; intros DB; [exists []; reflexivity|]. cbn [concat] in DB. rewrite concat_app in DB. apply Forall_app in DB. destruct DB as (DB1 & DB2).
      destruct (IH DB2) as (es & E). destruct (encode_total (g_nbits g) cents cut wei b N DIM NB DV DB1) as (e & E1). cbn [mapM]. rewrite E1. cbn [bind]. rewrite E. cbn [bind]. eexists. reflexivity. }
    destruct E as (es & Ees). destruct (encode_all _ _ _ _ N _ _ Ees) as (css & HO & EN). destruct (holds_all _ _ HO) as (C1 & C2 & _).
    eexists. eexists. apply staged_steps. exists cut, wei, thr, (codec_of D (g_nbits g) cents cut wei), es. eexists. split; [exact SN|]. split; [exact T|]. split; [apply new_codec_good; exact NB|]. split; [exact Ees|].
    split; [rewrite C1, C2; apply (build_pmap_ok (concat css) _ 0)|]. split; reflexivity.
  Qed.
End BUILD.

(** A history that begins with an index built in stages. *)
Lemma staged_history V D sample cents bts g md d ops outs d' h :
  1 <= D -> good_kmeans D (v_kmeans V) -> cents <> [] -> Forall (fun r => length r = D) cents ->
  steps (build_in_stages (v_fsub V) (v_dot V) (v_mem V) (v_quantile V) (v_threshold V) sample (D, cents) bts g) empty_disk md d ->
  Forall (op_ok D) ops -> disciplined true false ops ->
  exec_all (v_fsub V) (v_dot V) (v_mem V) (v_kmeans V) (v_quantile V) (v_threshold V) (v_next V) (v_outlier V) (d, md) ops = Ok (outs, (d', h)) ->
  outs = fst (spec_ops (concat bts) ops) /\ (forall x, load d' = Ok x -> env_shows V x (documents (concat bts) ops)) /\
  (concat (documents (concat bts) ops) <> [] -> exists x, load d' = Ok x).
Proof.
  intros HD KM N DIM ST OK DI EX. destruct (staged_core _ _ _ _ _ _ _ _ _ _ _ _ _ HD N DIM ST) as (cut & wei & css & HC & SD & _ & -> & DL).
  assert (G : good (v_fsub V) (v_dot V) D true false (d, meta_of D (g_nbits g) cents (concat bts) css) (concat bts)).
  { exists (g_nbits g), cents, cut, wei, css, [], []. split; [|split; [reflexivity|reflexivity]]. cbn [fst]. constructor; auto.
    - exists (concat bts). rewrite app_nil_r. reflexivity.
    - apply (side_emb empty_disk); [exact SD|]. split; reflexivity.
    - apply (side_buf empty_disk); [exact SD|]. repeat split. }
  destruct (exec_all_good _ _ _ _ _ _ _ _ D [] ops _ _ _ _ _ _ KM G OK ltac:(rewrite app_nil_r; exact DI) EX) as (-> & fr & pe & (nb & cents' & cut' & wei' & css' & EE & B & HI & _) & _).
  split; [reflexivity|]. cbn [fst] in HI. pose proof (in_core _ _ _ _ _ _ _ _ _ _ _ _ HI) as HC'. split.
  - intros x Hx. exact (core_shows _ _ _ _ _ _ _ _ _ _ _ _ _ HC' (load_inv_loaded _ _ _ _ _ _ _ _ _ _ _ HC' Hx)).
  - intro Hne. destruct (load_total _ _ _ _ _ _ _ _ _ _ HC' Hne) as (x & Hx & _). eauto.
Qed.

Lemma divide {A} size : 1 <= size -> forall n (l : list A), length l <= n -> l <> [] -> exists bs, batches_of size bs /\ concat bs = l.
Proof.
  intros S. induction n as [|n IH]; intros l L N; [destruct l; [congruence|cbn in L; lia]|].
  destruct (le_lt_dec (length l) size) as [K|K].
  - exists [l]. split; [|apply app_nil_r]. constructor. destruct l; [congruence|cbn in *; lia].
  - destruct (IH (skipn size l)) as (bs & B & E); [rewrite skipn_length; lia| |].
    + intro Q. apply (f_equal (@length _)) in Q. rewrite skipn_length in Q. cbn in Q. lia.
    + exists (firstn size l :: bs). split; [apply batches_more; [apply firstn_length_le; lia|exact B]|]. cbn [concat]. rewrite E. apply firstn_skipn.
Qed.
