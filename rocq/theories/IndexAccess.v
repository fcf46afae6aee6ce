(** Reading an opened index, and the history theorems in the form used by the properties. *)
From Verif Require Import Base F32 CodecModel CodecSpec CodecProofs IndexModel IndexSpec IndexLemmas IndexDelete IndexCore IndexCreate IndexUpdate IndexDelCore IndexOps.
Open Scope nat_scope.
Set Default Proof Using "Type".

Lemma encodes_det fsub dot D nb cents cut r a b :
  encodes fsub dot D nb cents cut r a -> encodes fsub dot D nb cents cut r b -> a = b.
Proof.
  intros (_ & A1 & A2) (_ & B1 & B2). pose proof (is_last_argmax_unique _ _ _ A1 B1) as E.
  destruct a, b; cbn in *; subst. f_equal. congruence.
Qed.
Lemma Forall2_det {A B} (R : A -> B -> Prop) : (forall a b c, R a b -> R a c -> b = c) ->
  forall l m m', Forall2 R l m -> Forall2 R l m' -> m = m'.
Proof.
  intros HR l m m' H. revert m'. induction H; intros m' H'; inversion H'; subst; auto. f_equal; eauto.
Qed.

Section ACCESS.
  Variable fadd fsub : f32 -> f32 -> f32.
  Variable normalize : row -> row.
  Variable dot : row -> row -> f32.
  Variable D : nat.
  Notation core := (core fsub dot D).
  Notation loaded := (loaded D).

  Lemma loaded_codes x nb cents cut wei L css i sd :
    loaded x nb cents cut wei L css -> nth_error (concat css) i = Some sd ->
    get_document_codes1 x i = Ok (map fst sd).
  Proof.
    intros Hx Hi. pose proof Hx as (_ & _ & _ & _ & _ & Hl & _).
    assert (Hlt : i < length (concat css)) by (apply nth_error_Some; congruence).
    unfold get_document_codes1. rewrite Hl, map_length.
    destruct (Nat.leb_spec (length (concat css)) i); [lia|].
    destruct (loaded_range D _ _ _ _ _ _ _ _ _ Hx Hi) as (s & -> & Hc & _). exact Hc.
  Qed.
  Lemma loaded_emb x nb cents cut wei L css i sd :
    loaded x nb cents cut wei L css -> nth_error (concat css) i = Some sd ->
    get_document_embeddings fadd normalize x i
    = decompress fadd normalize (codec_of D nb cents cut wei) (map snd sd) (map fst sd).
  Proof.
    intros Hx Hi. pose proof Hx as (_ & Hcod & _ & _ & _ & Hl & _).
    assert (Hlt : i < length (concat css)) by (apply nth_error_Some; congruence).
    unfold get_document_embeddings. rewrite Hl, map_length.
    destruct (Nat.leb_spec (length (concat css)) i); [lia|].
    destruct (loaded_range D _ _ _ _ _ _ _ _ _ Hx Hi) as (s & -> & Hc & Hr). cbn [bind fst snd].
    rewrite Hc, Hr. cbn [bind]. rewrite Hcod. reflexivity.
  Qed.
  Lemma loaded_codes_oob x nb cents cut wei L css i :
    loaded x nb cents cut wei L css -> length (concat css) <= i -> get_document_codes1 x i = Ok [].
  Proof.
    intros (_ & _ & _ & _ & _ & Hl & _) Hi. unfold get_document_codes1. rewrite Hl, map_length.
    destruct (Nat.leb_spec (length (concat css)) i); [reflexivity|lia].
  Qed.

  Lemma decompress_more nb cents new cut wei (sd : stored_doc) :
    Forall (fun t => fst t < length cents) sd ->
    decompress fadd normalize (codec_of D nb (cents ++ new) cut wei) (map snd sd) (map fst sd)
    = decompress fadd normalize (codec_of D nb cents cut wei) (map snd sd) (map fst sd).
  Proof.
    intro H. unfold decompress; cbn [c_weights c_lookup codec_of].
    induction H as [|t sd Ht H IH]; cbn [map decompress_rows]; auto.
    rewrite IH. f_equal. unfold decompress_row. cbn [c_centroids codec_of].
    assert (idx (cents ++ new) (fst t) = idx cents (fst t)) as -> by (unfold idx; rewrite nth_error_app1; auto).
    reflexivity.
  Qed.
  Lemma core_codes_lt d nb cents cut wei L css sd :
    core d nb cents cut wei L css -> In sd (concat css) -> Forall (fun t => fst t < length cents) sd.
  Proof.
    intros H Hin. pose proof (co_enc _ _ _ _ _ _ _ _ _ _ H) as F.
    apply In_nth_error in Hin. destruct Hin as (i & Hi).
    assert (Hlt : i < length L).
    { apply Forall2_length in F. rewrite F. apply nth_error_Some; congruence. }
    destruct (nth_error L i) as [r|] eqn:Er; [|apply nth_error_None in Er; lia].
    destruct (Forall2_nth_error _ _ _ F _ _ Er) as (sd' & Hsd & k & Hk & E).
    assert (sd' = sd) by congruence. subst sd'. clear -E Hk.
    induction E as [|r t rs sd (_ & Ha & _) E IH]; constructor; auto.
    apply argmax_lt in Ha. rewrite map_length, firstn_length in Ha. lia.
  Qed.

  Lemma loaded_slice x nb cents cut wei L css c :
    loaded x nb cents cut wei L css ->
    candidate_slice x c = Ok (if c <? length cents then postings (concat css) c else []).
  Proof.
    intros (_ & _ & Hivf & Hivl & Hoff & _). unfold candidate_slice.
    rewrite Hoff, Hivl, map_length, seq_length, Hivf.
    destruct (Nat.ltb_spec c (length cents)) as [Hc|Hc]; auto.
    set (ps := map (postings (concat css)) (seq 0 (length cents))).
    assert (Hps : map (fun c => length (postings (concat css) c)) (seq 0 (length cents)) = map (@length Z) ps)
      by (unfold ps; rewrite map_map; auto).
    rewrite Hps.
    assert (Hn : nth_error ps c = Some (postings (concat css) c)).
    { unfold ps. rewrite nth_error_map'. rewrite (nth_error_nth' _ 0) by (rewrite seq_length; auto).
      rewrite seq_nth by auto. reflexivity. }
    rewrite (proj2 (idx_Ok _ _ _) (nth_prefix_sums 0 (map (@length Z) ps) c ltac:(rewrite map_length; unfold ps; rewrite map_length, seq_length; lia))).
    assert (Hn2 : idx (map (@length Z) ps) c = Ok (length (postings (concat css) c))).
    { apply idx_Ok. rewrite nth_error_map', Hn. reflexivity. }
    rewrite Hn2. cbn [bind Nat.add]. apply slice_Ok.
    set (p := postings (concat css) c) in *. clearbody p ps. clear -Hn.
    pose proof (slice_concat ps c p Hn) as H.
    split; [split; [lia|]|].
    - rewrite <- sum_map_length.
      assert (Hm : nth_error (map (@length Z) ps) c = Some (length p)) by (rewrite nth_error_map', Hn; auto).
      rewrite <- (sum_firstn_S _ _ _ Hm). apply sum_firstn_le.
    - rewrite Nat.add_comm, Nat.add_sub. auto.
  Qed.
  Lemma loaded_candidates x nb cents cut wei L css cs :
    loaded x nb cents cut wei L css ->
    exists l, get_candidates x cs = Ok l /\ StronglySorted Z.lt l
      /\ forall z, In z l <-> exists c, In c cs /\ c < length cents /\ In z (postings (concat css) c).
  Proof.
    intro Hx. unfold get_candidates.
    rewrite (mapM_Ok_map _ (fun c => if c <? length cents then postings (concat css) c else [])).
    2:{ intros c _. apply (loaded_slice _ _ _ _ _ _ _ _ Hx). }
    cbn [bind]. eexists. split; [reflexivity|]. split; [apply sort_dedup_sinc|].
    intro z. rewrite sort_dedup_In, in_concat. split.
    - intros (l & Hl & Hz). apply in_map_iff in Hl. destruct Hl as (c & <- & Hc).
      destruct (Nat.ltb_spec c (length cents)); [eauto|destruct Hz].
    - intros (c & Hc & Hlt & Hz). exists (postings (concat css) c). split; auto.
      apply in_map_iff. exists c. split; auto. destruct (Nat.ltb_spec c (length cents)); [auto|lia].
  Qed.
End ACCESS.

(** ** History theorems *)

Section HISTORY.
  Variable V : env.
  Variable D : nat.
  Variable docs0 : list doc.
  Variable g0 : config.
  Notation good' := (good (v_fsub V) (v_dot V) D).

  Lemma reached_good ops outs d h :
    reached V D docs0 g0 ops outs d h ->
    outs = fst (spec_ops docs0 ops) /\ exists fr pe, good' fr pe (d, h) (documents docs0 ops).
  Proof.
    intros (HD & Hk & Hdim & Hok & Hdisc & H).
    rewrite <- (app_nil_r ops) in Hdisc.
    destruct (history_good (v_fsub V) (v_dot V) (v_mem V) (v_kmeans V) (v_quantile V) (v_threshold V) (v_next V) (v_outlier V) D
       [] docs0 g0 ops outs (d, h) HD Hk Hdim Hok Hdisc H) as (E & fr & pe & G & _).
    eauto.
  Qed.
  Lemma reached_step ops outs d h o out d' h' :
    reached V D docs0 g0 ops outs d h -> op_ok D o -> disciplined true false (ops ++ [o]) ->
    step V (d, h) o = Ok (out, (d', h')) ->
    exists fr pe, good' fr pe (d, h) (documents docs0 ops) /\ disciplined fr pe [o] /\ good_kmeans D (v_kmeans V).
  Proof.
    intros (HD & Hk & Hdim & Hok & _ & H) Ho Hdisc _.
    destruct (history_good (v_fsub V) (v_dot V) (v_mem V) (v_kmeans V) (v_quantile V) (v_threshold V) (v_next V) (v_outlier V) D
       [o] docs0 g0 ops outs (d, h) HD Hk Hdim Hok Hdisc H) as (_ & fr & pe & G & Hd).
    eauto.
  Qed.

  Lemma history_list ops outs d h :
    reached V D docs0 g0 ops outs d h ->
    outs = fst (spec_ops docs0 ops)
    /\ (forall x, load d = Ok x -> env_shows V x (documents docs0 ops))
    /\ (concat (documents docs0 ops) <> [] -> exists x, load d = Ok x).
  Proof.
    intro R. destruct (reached_good _ _ _ _ R) as (E & fr & pe & nb & cents & cut & wei & css & EE & B & HI & _).
    cbn [fst] in HI. split; auto. pose proof (in_core _ _ _ _ _ _ _ _ _ _ _ _ HI) as HC. split.
    - intros x Hx. exact (core_shows _ _ _ _ _ _ _ _ _ _ _ _ _ HC (load_inv_loaded _ _ _ _ _ _ _ _ _ _ _ HC Hx)).
    - intro Hne. destruct (load_total _ _ _ _ _ _ _ _ _ _ HC Hne) as (x & Hx & _). eauto.
  Qed.

  Lemma create_chunking bs1 bs2 nb sfs buf seed x1 d1 x2 d2 :
    1 <= D -> good_kmeans D (v_kmeans V) -> dim_ok D docs0 ->
    let create bs := complete (create_with_kmeans (v_fsub V) (v_dot V) (v_mem V) (v_kmeans V) (v_quantile V) (v_threshold V)
        docs0 {| g_nbits := nb; g_batch_size := bs; g_start_from_scratch := sfs; g_buffer_size := buf; g_seed := seed |})
        empty_disk in
    create bs1 = Ok (x1, d1) -> create bs2 = Ok (x2, d2) ->
    env_shows V x1 docs0
    /\ x_codes x1 = x_codes x2 /\ x_residuals x1 = x_residuals x2 /\ x_doc_lengths x1 = x_doc_lengths x2
    /\ x_doc_offsets x1 = x_doc_offsets x2
    /\ x_ivf x1 = x_ivf x2 /\ x_ivf_lengths x1 = x_ivf_lengths x2 /\ x_ivf_offsets x1 = x_ivf_offsets x2
    /\ x_codec x1 = x_codec x2
    /\ num_documents (x_meta x1) = num_documents (x_meta x2)
    /\ num_embeddings (x_meta x1) = num_embeddings (x_meta x2)
    /\ num_partitions (x_meta x1) = num_partitions (x_meta x2).
  Proof.
    intros HD Hk Hdim create H1 H2. unfold create in *. clear create.
    apply complete_steps in H1, H2. unfold create_with_kmeans in H1, H2.
    bnd H1 as m1 e1 S1. bnd H2 as m2 e2 S2.
    apply (create_kmeans_core) with (D := D) (E := []) (B := []) in S1; auto; try (repeat split; fail).
    apply (create_kmeans_core) with (D := D) (E := []) (B := []) in S2; auto; try (repeat split; fail).
    destruct S1 as (c1 & cut1 & wei1 & css1 & HC1 & _ & _ & _ & K1 & T1 & F1).
    destruct S2 as (c2 & cut2 & wei2 & css2 & HC2 & _ & _ & _ & K2 & T2 & F2).
    cbn [g_nbits g_seed] in *.
    assert (c2 = c1) by congruence. subst c2.
    assert (cut2 = cut1 /\ wei2 = wei1) as (-> & ->) by (split; congruence).
    assert (Hcs : concat css1 = concat css2).
    { eapply Forall2_det; [|exact F1|exact F2]. intros a b c Ha Hb. eapply Forall2_det; [|exact Ha|exact Hb].
      intros; eapply encodes_det; eauto. }
    apply steps_ask in H1, H2. destruct H1 as (L1 & ->), H2 as (L2 & ->).
    pose proof (load_inv_loaded _ _ _ _ _ _ _ _ _ _ _ HC1 L1) as X1.
    pose proof (load_inv_loaded _ _ _ _ _ _ _ _ _ _ _ HC2 L2) as X2.
    split; [exact (core_shows _ _ _ _ _ _ _ _ _ _ _ _ _ HC1 X1)|].
    assert (Hfold : x_codes x1 = x_codes x2 /\ x_residuals x1 = x_residuals x2).
    { unfold load in L1, L2.
      rewrite (load_metadata_core _ _ _ _ _ _ _ _ _ _ HC1), (load_codec_core _ _ _ _ _ _ _ _ _ _ HC1),
        (co_ivf _ _ _ _ _ _ _ _ _ _ HC1), (co_ivl _ _ _ _ _ _ _ _ _ _ HC1) in L1.
      rewrite (load_metadata_core _ _ _ _ _ _ _ _ _ _ HC2), (load_codec_core _ _ _ _ _ _ _ _ _ _ HC2),
        (co_ivf _ _ _ _ _ _ _ _ _ _ HC2), (co_ivl _ _ _ _ _ _ _ _ _ _ HC2) in L2.
      cbn [need bind] in L1, L2.
      apply bind_Ok in L1. destruct L1 as (l1 & E1 & L1). apply bind_Ok in L2. destruct L2 as (l2 & E2 & L2).
      cbv zeta in L1, L2.
      apply bind_Ok in L1. destruct L1 as (k1 & A1 & L1). apply bind_Ok in L2. destruct L2 as (k2 & A2 & L2).
      apply bind_Ok in L1. destruct L1 as (r1 & B1 & L1). apply bind_Ok in L2. destruct L2 as (r2 & B2 & L2).
      injection L1 as <-. injection L2 as <-. cbn [x_codes x_residuals].
      destruct X1 as (_ & _ & _ & _ & _ & M1 & _). destruct X2 as (_ & _ & _ & _ & _ & M2 & _).
      cbn [x_doc_lengths] in M1, M2. rewrite M1 in A1, B1. rewrite M2 in A2, B2.
      change (c_dim (codec_of D nb c1 cut1 wei1)) with D in B1, B2.
      cbn [nbits num_chunks meta_of] in A1, B1, A2, B2.
      destruct (D * nb / 8 =? 0); [discriminate|].
      unfold merge_chunks in A1, B1, A2, B2.
      rewrite (map_seq_nth _ (fun cs : list stored_doc => map fst (concat cs))) in A1.
      2:{ intros i cs Hi. destruct (co_chunks _ _ _ _ _ _ _ _ _ _ HC1 i cs Hi) as (_ & -> & _). reflexivity. }
      rewrite (map_seq_nth _ (fun cs : list stored_doc => map fst (concat cs))) in A2.
      2:{ intros i cs Hi. destruct (co_chunks _ _ _ _ _ _ _ _ _ _ HC2 i cs Hi) as (_ & -> & _). reflexivity. }
      rewrite (map_seq_nth _ (fun cs : list stored_doc => map snd (concat cs))) in B1.
      2:{ intros i cs Hi. destruct (co_chunks _ _ _ _ _ _ _ _ _ _ HC1 i cs Hi) as (_ & _ & -> & _). reflexivity. }
      rewrite (map_seq_nth _ (fun cs : list stored_doc => map snd (concat cs))) in B2.
      2:{ intros i cs Hi. destruct (co_chunks _ _ _ _ _ _ _ _ _ _ HC2 i cs Hi) as (_ & _ & -> & _). reflexivity. }
      rewrite concat_map_concat, Hcs in A1. rewrite concat_map_concat, Hcs in B1.
      rewrite concat_map_concat in A2. rewrite concat_map_concat in B2.
      split; congruence. }
    destruct X1 as (A1 & A2 & A3 & A4 & A5 & A6 & A7 & _). destruct X2 as (B1 & B2 & B3 & B4 & B5 & B6 & B7 & _).
    destruct Hfold as (-> & ->). rewrite A7, B7, A5, B5, A1, B1, A2, B2, A3, B3, A4, B4, A6, B6, Hcs.
    cbn [num_documents num_embeddings num_partitions meta_of]. rewrite Hcs. repeat split.
  Qed.

  (** What an update leaves unchanged. *)
  Lemma update_keeps ops outs d h docs g ids d' h' x x' :
    reached V D docs0 g0 ops outs d h -> docs <> [] -> dim_ok D docs ->
    disciplined true false (ops ++ [OUpdate docs g]) ->
    step V (d, h) (OUpdate docs g) = Ok (ids, (d', h')) ->
    load d = Ok x -> load d' = Ok x' ->
    let N := num_documents (x_meta x) in
    let buffered := load_buffer_info d in
    g_start_from_scratch g < N \/ length (load_embeddings_npy d) <> N ->
    (exists new, c_centroids (x_codec x') = c_centroids (x_codec x) ++ new
       /\ (length docs + buffered < g_buffer_size g -> new = []))
    /\ num_partitions (x_meta x') = length (c_centroids (x_codec x'))
    /\ c_cutoffs (x_codec x') = c_cutoffs (x_codec x) /\ c_weights (x_codec x') = c_weights (x_codec x)
    /\ forall i, i < N - buffered \/ (i < N /\ length docs + buffered < g_buffer_size g) ->
         get_document_codes x' [i] = get_document_codes x [i]
         /\ embeddings V x' i = embeddings V x i.
  Proof.
    intros R Hne Hdim Hdisc Hst Hx Hx' N buffered Hnr.
    destruct (reached_step _ _ _ _ (OUpdate docs g) _ _ _ R (conj Hne Hdim) Hdisc Hst) as (fr & pe & HG & Hd & Hk).
    destruct HG as (nb & cents & cut & wei & css & E & B & HI & Hfr & _). cbn [fst snd] in *.
    destruct Hd as (-> & _). specialize (Hfr eq_refl).
    cbn [step exec] in Hst. apply bind_Ok in Hst. destruct Hst as (((ids1 & y) & d1) & S & E1).
    injection E1 as <- <- <-. apply complete_steps in S.
    destruct (update_inv _ _ _ _ _ _ _ _ _ _ _ _ _ _ _ _ _ _ _ _ _ _ _ _ Hk Hne Hdim HI Hfr S)
      as (nb' & cents' & cut' & wei' & css' & E' & B' & rb & HI' & Hy & Hly & _ & Hrel & HB1 & HB2 & HB3 & Hrb).
    assert (x' = y) by congruence. subst y. clear Hx'.
    pose proof (in_core _ _ _ _ _ _ _ _ _ _ _ _ HI) as HC. pose proof (in_core _ _ _ _ _ _ _ _ _ _ _ _ HI') as HC'.
    pose proof (load_inv_loaded _ _ _ _ _ _ _ _ _ _ _ HC Hx) as HX.
    pose proof (core_len _ _ _ _ _ _ _ _ _ _ HC) as Hlen. pose proof (core_len _ _ _ _ _ _ _ _ _ _ HC') as Hlen'.
    assert (HN : N = length (documents docs0 ops)).
    { unfold N. destruct HX as (-> & _). reflexivity. }
    assert (HBuf : buffered = length B) by (apply buf_rep_info; eapply in_buf; eauto).
    assert (HEmb : load_embeddings_npy d = E).
    { unfold load_embeddings_npy. apply files_rep_load. eapply in_emb; eauto. }
    assert (Hrbf : rb = false).
    { destruct rb; auto. destruct Hrb as (Hrb & _). specialize (Hrb eq_refl). rewrite HEmb in Hnr. lia. }
    subst rb. cbn [upd_rel] in Hrel. destruct Hrel as (-> & -> & -> & (new & ->) & Hfirst).
    pose proof HX as (HXm & HXc & _). pose proof Hy as (HYm & HYc & _).
    split; [|split; [|split; [|split]]].
    - exists new. rewrite HXc, HYc. split; auto. intro Hb. rewrite HBuf in Hb.
      destruct (HB2 eq_refl Hb) as (_ & Hc & _). apply (f_equal (@length _)) in Hc. rewrite app_length in Hc.
      destruct new; auto. cbn in Hc; lia.
    - rewrite HYm, HYc. reflexivity.
    - rewrite HXc, HYc. reflexivity.
    - rewrite HXc, HYc. reflexivity.
    - intros i Hi.
      assert (Hsd : exists sd, nth_error (concat css) i = Some sd /\ nth_error (concat css') i = Some sd).
      { assert (Hi' : i < length (concat css)) by (rewrite <- Hlen, <- HN; lia).
        destruct (nth_error (concat css) i) as [sd|] eqn:Es; [|apply nth_error_None in Es; lia].
        exists sd. split; auto.
        assert (Hpre : exists n, i < n /\ n <= length (documents docs0 ops) /\ firstn n (concat css') = firstn n (concat css)).
        { destruct Hi as [Hi|(Hi & Hb)].
          - exists (length (documents docs0 ops) - length B). split; [lia|]. split; [lia|auto].
          - rewrite HBuf in Hb. destruct (HB2 eq_refl Hb) as (_ & _ & Hf).
            exists (length (documents docs0 ops)). split; [lia|]. split; [lia|]. rewrite Hf, Hlen, firstn_all. auto. }
        destruct Hpre as (n & Hin & Hnl & Hpre).
        assert (Hf : nth_error (firstn n (concat css')) i = nth_error (firstn n (concat css)) i) by congruence.
        assert (Hnf : forall (l : list stored_doc) , nth_error (firstn n l) i = nth_error l i).
        { intro l. clear -Hin. revert i l Hin. induction n as [|n IH]; intros i l Hi; [lia|].
          destruct l, i; cbn; auto. apply IH. lia. }
        rewrite !Hnf in Hf. congruence. }
      destruct Hsd as (sd & Hs & Hs'). split.
      + unfold get_document_codes. cbn [mapM].
        rewrite (loaded_codes D _ _ _ _ _ _ _ _ _ HX Hs), (loaded_codes D _ _ _ _ _ _ _ _ _ Hy Hs'). reflexivity.
      + unfold embeddings.
        rewrite (loaded_emb _ _ D _ _ _ _ _ _ _ _ _ HX Hs), (loaded_emb _ _ D _ _ _ _ _ _ _ _ _ Hy Hs').
        apply decompress_more. eapply core_codes_lt; eauto. eapply nth_error_In; eauto.
  Qed.

  Lemma delete_keeps ops outs d h ids out d' h' x x' :
    reached V D docs0 g0 ops outs d h -> Forall (fun z => 0 <= z)%Z ids ->
    step V (d, h) (ODelete ids) = Ok (out, (d', h')) ->
    load d = Ok x -> load d' = Ok x' ->
    let N := num_documents (x_meta x) in
    let N' := num_documents (x_meta x') in
    out = [Z.of_nat (N - N')]
    /\ N - N' = length (filter (fun i => existsb (Z.eqb (Z.of_nat i)) ids) (seq 0 N))
    /\ x_doc_lengths x' = delete_positions ids (x_doc_lengths x)
    /\ map (fun i => get_document_codes x' [i]) (seq 0 N')
       = delete_positions ids (map (fun i => get_document_codes x [i]) (seq 0 N))
    /\ map (embeddings V x') (seq 0 N') = delete_positions ids (map (embeddings V x) (seq 0 N)).
  Proof.
    intros R Hids Hst Hx Hx' N N'.
    destruct (reached_good _ _ _ _ R) as (_ & fr & pe & nb & cents & cut & wei & css & E & B & HI & _).
    cbn [fst] in HI.
    cbn [step exec] in Hst. apply bind_Ok in Hst. destruct Hst as ((n & d1) & St & E1).
    injection E1 as <- <- <-. apply complete_steps in St.
    destruct (delete_inv _ _ _ _ _ _ _ _ _ _ _ _ _ _ _ Hids HI St) as (css' & E' & B' & HI' & Hn & Hcat & _).
    pose proof (in_core _ _ _ _ _ _ _ _ _ _ _ _ HI) as HC. pose proof (in_core _ _ _ _ _ _ _ _ _ _ _ _ HI') as HC'.
    pose proof (load_inv_loaded _ _ _ _ _ _ _ _ _ _ _ HC Hx) as HX.
    pose proof (load_inv_loaded _ _ _ _ _ _ _ _ _ _ _ HC' Hx') as HX'.
    pose proof (core_len _ _ _ _ _ _ _ _ _ _ HC) as Hlen. pose proof (core_len _ _ _ _ _ _ _ _ _ _ HC') as Hlen'.
    assert (HN : N = length (documents docs0 ops)).
    { unfold N. destruct HX as (-> & _). reflexivity. }
    assert (HN' : N' = length (delete_positions ids (documents docs0 ops))).
    { unfold N'. destruct HX' as (-> & _). reflexivity. }
    split; [rewrite HN, HN', <- Hn; reflexivity|]. split.
    { rewrite HN, HN', delete_positions_keep. generalize (documents docs0 ops) as l. intro l.
      change 0%Z with (Z.of_nat 0). generalize 0 as a. induction l as [|y l IH]; intro a; cbn [length seq filter keep_from]; auto.
      fold (in_ids ids (Z.of_nat a)).
      replace (Z.of_nat a + 1)%Z with (Z.of_nat (S a)) by lia. specialize (IH (S a)).
      pose proof (keep_from_length_le ids (Z.of_nat (S a)) l). unfold in_ids in *.
      destruct (existsb (Z.eqb (Z.of_nat a)) ids); cbn [length]; lia. }
    split.
    { destruct HX as (_ & _ & _ & _ & _ & -> & _). destruct HX' as (_ & _ & _ & _ & _ & -> & _).
      rewrite Hcat, !delete_positions_keep, keep_from_map. reflexivity. }
    assert (Hgen : forall {T} (f f' : nat -> T) (k : stored_doc -> T),
       (forall i sd, nth_error (concat css) i = Some sd -> f i = k sd) ->
       (forall i sd, nth_error (concat css') i = Some sd -> f' i = k sd) ->
       map f' (seq 0 N') = delete_positions ids (map f (seq 0 N))).
    { intros T f f' k Hf Hf'.
      assert (Hm : forall (q : nat -> T) (l : list stored_doc), (forall i sd, nth_error l i = Some sd -> q i = k sd) ->
                map q (seq 0 (length l)) = map k l).
      { intros q l Hq. apply list_eq_nth_error. intro i. rewrite !nth_error_map'.
        destruct (nth_error l i) as [sd|] eqn:El.
        - assert (i < length l) by (apply nth_error_Some; congruence).
          rewrite (nth_error_nth' _ 0) by (rewrite seq_length; auto). rewrite seq_nth by auto. cbn.
          rewrite (Hq _ _ El). reflexivity.
        - apply nth_error_None in El.
          assert (nth_error (seq 0 (length l)) i = None) as -> by (apply nth_error_None; rewrite seq_length; auto).
          reflexivity. }
      rewrite HN', HN, Hlen, Hlen', (Hm f _ Hf), (Hm f' _ Hf'), Hcat.
      rewrite !delete_positions_keep, keep_from_map. reflexivity. }
    split.
    - apply (Hgen _ _ _ (fun sd => Ok [map fst sd])).
      + intros i sd Hi. unfold get_document_codes. cbn [mapM]. rewrite (loaded_codes D _ _ _ _ _ _ _ _ _ HX Hi). reflexivity.
      + intros i sd Hi. unfold get_document_codes. cbn [mapM]. rewrite (loaded_codes D _ _ _ _ _ _ _ _ _ HX' Hi). reflexivity.
    - apply (Hgen _ _ _ (fun sd => decompress (v_fadd V) (v_norm V) (codec_of D nb cents cut wei) (map snd sd) (map fst sd))).
      + intros i sd Hi. apply (loaded_emb _ _ D _ _ _ _ _ _ _ _ _ HX Hi).
      + intros i sd Hi. apply (loaded_emb _ _ D _ _ _ _ _ _ _ _ _ HX' Hi).
  Qed.

  Lemma candidates_exact ops outs d h x cs :
    reached V D docs0 g0 ops outs d h -> load d = Ok x ->
    exists l, get_candidates x cs = Ok l /\ StronglySorted Z.lt l
      /\ forall z, In z l <-> exists c i codes, In c cs /\ z = Z.of_nat i /\ i < num_documents (x_meta x)
            /\ get_document_codes x [i] = Ok [codes] /\ In c codes.
  Proof.
    intros R Hx. destruct (reached_good _ _ _ _ R) as (_ & fr & pe & nb & cents & cut & wei & css & E & B & HI & _).
    cbn [fst] in HI. pose proof (in_core _ _ _ _ _ _ _ _ _ _ _ _ HI) as HC.
    pose proof (load_inv_loaded _ _ _ _ _ _ _ _ _ _ _ HC Hx) as HX.
    pose proof (core_len _ _ _ _ _ _ _ _ _ _ HC) as Hlen.
    destruct (loaded_candidates D _ _ _ _ _ _ _ cs HX) as (l & Hl & Hs & Hin).
    exists l. split; auto. split; auto. intro z. rewrite Hin.
    assert (HN : num_documents (x_meta x) = length (concat css)) by (destruct HX as (-> & _); exact Hlen).
    split.
    - intros (c & Hc & Hlt & Hz). apply postings_In in Hz. destruct Hz as (i & sd & -> & Hi & Hh).
      exists c, i, (map fst sd). split; auto. split; auto.
      split; [rewrite HN; apply nth_error_Some; congruence|].
      split; [|apply has_code_In; auto].
      unfold get_document_codes. cbn [mapM]. rewrite (loaded_codes D _ _ _ _ _ _ _ _ _ HX Hi). reflexivity.
    - intros (c & i & codes & Hc & -> & Hi & Hg & Hcc).
      destruct (nth_error (concat css) i) as [sd|] eqn:Es; [|apply nth_error_None in Es; lia].
      unfold get_document_codes in Hg. cbn [mapM] in Hg. rewrite (loaded_codes D _ _ _ _ _ _ _ _ _ HX Es) in Hg.
      cbn [bind] in Hg. injection Hg as <-.
      exists c. split; auto. split.
      + pose proof (core_codes_lt _ _ _ _ _ _ _ _ _ _ _ HC (nth_error_In _ _ Es)) as F.
        apply in_map_iff in Hcc. destruct Hcc as (t & <- & Ht). rewrite Forall_forall in F. auto.
      + apply postings_In. exists i, sd. split; auto. split; auto. apply has_code_In; auto.
  Qed.

  Lemma slices_cover ops outs d h x :
    reached V D docs0 g0 ops outs d h -> load d = Ok x ->
    exists tokens pad,
      map (@length _) tokens = map (@length row) (documents docs0 ops)
      /\ x_codes x = map fst (concat tokens) ++ repeat 0 pad
      /\ x_residuals x = map snd (concat tokens) ++ repeat (repeat 0%N (D * nbits (x_meta x) / 8)) pad
      /\ (forall i, get_document_codes x [i] = Ok [map fst (nth i tokens [])])
      /\ (forall i t, nth_error tokens i = Some t ->
            embeddings V x i = decompress (v_fadd V) (v_norm V) (x_codec x) (map snd t) (map fst t)).
  Proof.
    intros R Hx. destruct (reached_good _ _ _ _ R) as (_ & fr & pe & nb & cents & cut & wei & css & E & B & HI & _).
    cbn [fst] in HI. pose proof (in_core _ _ _ _ _ _ _ _ _ _ _ _ HI) as HC.
    pose proof (load_inv_loaded _ _ _ _ _ _ _ _ _ _ _ HC Hx) as HX.
    pose proof HX as (Hm & Hcod & _ & _ & _ & Hl & _ & pad & Hc & Hr).
    exists (concat css), pad. split.
    { pose proof (co_enc _ _ _ _ _ _ _ _ _ _ HC) as He. clear -He.
      induction He as [|r sd L l (k & _ & Hr) He IH]; cbn; auto.
      f_equal; auto. symmetry; eapply Forall2_length; eauto. }
    split; auto. split; [rewrite Hm; auto|]. split.
    - intro i. unfold get_document_codes. cbn [mapM]. destruct (nth_error (concat css) i) as [sd|] eqn:Es.
      + rewrite (loaded_codes D _ _ _ _ _ _ _ _ _ HX Es). rewrite (nth_error_nth _ _ _ Es). reflexivity.
      + apply nth_error_None in Es. rewrite (loaded_codes_oob D _ _ _ _ _ _ _ _ HX Es), nth_overflow by auto. reflexivity.
    - intros i t Ht. rewrite Hcod. apply (loaded_emb _ _ D _ _ _ _ _ _ _ _ _ HX Ht).
  Qed.

  Lemma bookkeeping ops outs d h :
    reached V D docs0 g0 ops outs d h ->
    let L := documents docs0 ops in
    exists md chunks ivf ivl cents,
      f_meta d = Some md /\ f_ivf d = Some ivf /\ f_ivf_lengths d = Some ivl /\ f_centroids d = Some (D, cents)
      /\ length chunks = num_chunks md
      /\ (forall i c, nth_error chunks i = Some c ->
            exists lens codes res, f_cmeta d i = Some c /\ f_doclens d i = Some lens
              /\ f_codes d i = Some codes /\ f_residuals d i = Some res
              /\ m_ndocs c = length lens /\ m_nembs c = sum lens
              /\ length codes = sum lens /\ length res = sum lens)
      /\ num_documents md = length L /\ num_documents md = sum (map m_ndocs chunks)
      /\ num_embeddings md = length (concat L) /\ num_embeddings md = sum (map m_nembs chunks)
      /\ num_partitions md = length cents /\ length ivl = length cents /\ sum ivl = length ivf
      /\ load_embeddings_npy d = firstn (length (load_embeddings_npy d)) L
      /\ load_buffer d = skipn (length L - length (load_buffer d)) L
      /\ load_buffer_info d = length (load_buffer d).
  Proof.
    intros R L. destruct (reached_good _ _ _ _ R) as (_ & fr & pe & nb & cents & cut & wei & css & E & B & HI & _).
    cbn [fst] in HI. fold L in HI. destruct HI as [HC (M & HL) HE HB HDL].
    pose proof (core_len _ _ _ _ _ _ _ _ _ _ HC) as Hlen.
    assert (Htok : length (concat L) = length (concat (concat css))).
    { rewrite <- !sum_map_length. f_equal.
      pose proof (co_enc _ _ _ _ _ _ _ _ _ _ HC) as He. clear -He.
      induction He as [|r sd L l (k & _ & Hr) He IH]; cbn; auto. f_equal; auto. eapply Forall2_length; eauto. }
    exists (meta_of D nb cents L css),
      (map (fun i => match f_cmeta d i with Some c => c | None => {| m_ndocs := 0; m_nembs := 0; m_off := 0 |} end) (seq 0 (length css))).
    do 3 eexists. split; [eapply co_meta; eauto|]. split; [eapply co_ivf; eauto|]. split; [eapply co_ivl; eauto|].
    split; [eapply co_cents; eauto|]. split; [rewrite map_length, seq_length; reflexivity|].
    split.
    { intros i c Hi. rewrite nth_error_map' in Hi.
      assert (Hi2 : i < length css).
      { destruct (nth_error (seq 0 (length css)) i) eqn:Es; [|discriminate].
        assert (i < length (seq 0 (length css))) by (apply nth_error_Some; congruence). rewrite seq_length in *; auto. }
      rewrite (nth_error_nth' _ 0) in Hi by (rewrite seq_length; auto). rewrite seq_nth in Hi by auto. cbn in Hi.
      destruct (nth_error css i) as [cs|] eqn:Ec; [|apply nth_error_None in Ec; lia].
      destruct (co_chunks _ _ _ _ _ _ _ _ _ _ HC i cs Ec) as (H1 & H2 & H3 & off & H4).
      rewrite H4 in Hi. injection Hi as <-.
      eexists _, _, _. split; [exact H4|]. split; [exact H1|]. split; [exact H2|]. split; [exact H3|].
      cbn [m_ndocs m_nembs]. rewrite !map_length, sum_map_length. auto. }
    assert (Hsum : forall (f : chunk_meta -> nat) (k : list stored_doc -> nat),
       (forall cs off, f {| m_ndocs := length cs; m_nembs := length (concat cs); m_off := off |} = k cs) ->
       map f (map (fun i => match f_cmeta d i with Some c => c | None => {| m_ndocs := 0; m_nembs := 0; m_off := 0 |} end)
                  (seq 0 (length css))) = map k css).
    { intros f k Hf. rewrite map_map. apply map_seq_nth. intros i cs Hi.
      destruct (co_chunks _ _ _ _ _ _ _ _ _ _ HC i cs Hi) as (_ & _ & _ & off & ->). apply Hf. }
    split; [reflexivity|]. split.
    { rewrite (Hsum m_ndocs (@length _)) by reflexivity. rewrite sum_map_length. exact Hlen. }
    split; [cbn; symmetry; exact Htok|]. split.
    { rewrite (Hsum m_nembs (fun cs => length (concat cs))) by reflexivity.
      cbn [num_embeddings meta_of]. rewrite <- (map_map (@concat _) (@length _)), sum_map_length.
      f_equal. clear. induction css as [|c css IH]; cbn; auto. rewrite concat_app, IH; auto. }
    split; [reflexivity|]. split; [rewrite map_length, seq_length; auto|]. split.
    { rewrite <- (map_map (postings (concat css)) (@length Z)). apply sum_map_length. }
    assert (HEl : load_embeddings_npy d = E) by (apply files_rep_load; auto).
    destruct HB as (HBf & HBi).
    assert (HBl : load_buffer d = B) by (apply files_rep_load; auto).
    split; [rewrite HEl, HL, firstn_app_exact; auto|]. split.
    - rewrite HBl. rewrite HL at 2. rewrite app_assoc.
      assert (Hk : length L - length B = length (E ++ M)) by (rewrite HL, app_assoc, (app_length (E ++ M)); lia).
      rewrite Hk, skipn_app_exact. auto.
    - rewrite HBl. apply buf_rep_info. split; auto.
  Qed.

  (** The buffer after an update. *)
  Lemma update_buffer ops outs d h docs g ids d' h' :
    reached V D docs0 g0 ops outs d h -> docs <> [] -> dim_ok D docs ->
    disciplined true false (ops ++ [OUpdate docs g]) ->
    step V (d, h) (OUpdate docs g) = Ok (ids, (d', h')) ->
    let N := length (documents docs0 ops) in
    (exists x', load d' = Ok x' /\ env_shows V x' (documents docs0 ops ++ docs))
    /\ ids = map Z.of_nat (seq N (length docs))
    /\ (g_start_from_scratch g < N \/ length (load_embeddings_npy d) <> N ->
        load_buffer d' = if length docs + length (load_buffer d) <? g_buffer_size g
                         then load_buffer d ++ docs else []).
  Proof.
    intros R Hne Hdim Hdisc Hst N.
    destruct (reached_step _ _ _ _ (OUpdate docs g) _ _ _ R (conj Hne Hdim) Hdisc Hst) as (fr & pe & HG & Hd & Hk).
    destruct HG as (nb & cents & cut & wei & css & E & B & HI & Hfr & _). cbn [fst snd] in *.
    destruct Hd as (-> & _). specialize (Hfr eq_refl).
    cbn [step exec] in Hst. apply bind_Ok in Hst. destruct Hst as (((ids1 & y) & d1) & S & E1).
    injection E1 as <- <- <-. apply complete_steps in S.
    destruct (update_inv _ _ _ _ _ _ _ _ _ _ _ _ _ _ _ _ _ _ _ _ _ _ _ _ Hk Hne Hdim HI Hfr S)
      as (nb' & cents' & cut' & wei' & css' & E' & B' & rb & HI' & Hy & Hly & Hids & Hrel & HB1 & HB2 & HB3 & Hrb).
    split.
    { exists y. split; auto. exact (core_shows _ _ _ _ _ _ _ _ _ _ _ _ _ (in_core _ _ _ _ _ _ _ _ _ _ _ _ HI') Hy). }
    split; auto. intro Hnr.
    assert (HBuf : load_buffer d = B).
    { destruct (in_buf _ _ _ _ _ _ _ _ _ _ _ _ HI) as (Hf & _). apply files_rep_load; auto. }
    assert (HBuf' : load_buffer d1 = B').
    { destruct (in_buf _ _ _ _ _ _ _ _ _ _ _ _ HI') as (Hf & _). apply files_rep_load; auto. }
    assert (HEmb : load_embeddings_npy d = E).
    { unfold load_embeddings_npy. apply files_rep_load. eapply in_emb; eauto. }
    assert (Hrbf : rb = false).
    { destruct rb; auto. destruct Hrb as (Hrb & _). specialize (Hrb eq_refl). rewrite HEmb in Hnr. unfold N in Hnr. lia. }
    rewrite HBuf, HBuf'. destruct (Nat.ltb_spec (length docs + length B) (g_buffer_size g)) as [Hlt|Hge].
    - apply HB2; auto.
    - apply HB1; auto.
  Qed.

  (** Centroid expansion on its own. *)
  Lemma expansion ops outs d h docs thr g k d' x :
    reached V D docs0 g0 ops outs d h ->
    complete (update_centroids (v_kmeans V) (v_outlier V) docs thr g) d = Ok (k, d') ->
    load d = Ok x ->
    exists new x', load d' = Ok x' /\ length new = k
      /\ c_centroids (x_codec x') = c_centroids (x_codec x) ++ new
      /\ num_partitions (x_meta x') = length (c_centroids (x_codec x'))
      /\ (forall c, c < length (c_centroids (x_codec x)) -> candidate_slice x' c = candidate_slice x c)
      /\ (forall c, length (c_centroids (x_codec x)) <= c -> candidate_slice x' c = Ok [])
      /\ (forall i, get_document_codes x' [i] = get_document_codes x [i])
      /\ (forall i, embeddings V x' i = embeddings V x i).
  Proof.
    intros R Hst Hx. pose proof R as (_ & Hk & _).
    destruct (reached_good _ _ _ _ R) as (_ & fr & pe & nb & cents & cut & wei & css & E & B & HI & _).
    cbn [fst] in HI. pose proof (in_core _ _ _ _ _ _ _ _ _ _ _ _ HI) as HC.
    pose proof (load_inv_loaded _ _ _ _ _ _ _ _ _ _ _ HC Hx) as HX.
    apply complete_steps in Hst.
    destruct (update_centroids_core _ _ _ _ _ _ _ _ _ _ _ _ _ _ _ _ _ Hk HC Hst) as (new & HC' & -> & _).
    assert (Hx' : exists x', load d' = Ok x').
    { destruct (list_eq_dec (fun a b => list_eq_dec Z.eq_dec a b) (concat (documents docs0 ops)) []) as [En|Hne].
      - exfalso. pose proof (co_enc _ _ _ _ _ _ _ _ _ _ HC) as He.
        assert (Hz : concat (concat css) = []).
        { clear -He En. induction He as [|r sd L l (k & _ & Hr) He IH]; cbn in *; auto.
          apply app_eq_nil in En. destruct En as (-> & En). inversion Hr; subst. cbn; auto. }
        unfold load in Hx.
        rewrite (load_metadata_core _ _ _ _ _ _ _ _ _ _ HC), (load_codec_core _ _ _ _ _ _ _ _ _ _ HC),
          (co_ivf _ _ _ _ _ _ _ _ _ _ HC), (co_ivl _ _ _ _ _ _ _ _ _ _ HC) in Hx. cbn [need bind] in Hx.
        apply bind_Ok in Hx. destruct Hx as (dls & _ & Hx). cbv zeta in Hx.
        apply bind_Ok in Hx. destruct Hx as (codes & Hx & _). unfold merge_chunks in Hx.
        cbn [num_chunks meta_of] in Hx.
        rewrite (map_seq_nth _ (fun cs : list stored_doc => map fst (concat cs))) in Hx.
        2:{ intros i cs Hi. destruct (co_chunks _ _ _ _ _ _ _ _ _ _ HC i cs Hi) as (_ & -> & _). reflexivity. }
        rewrite concat_map_concat, Hz in Hx. discriminate.
      - destruct (load_total _ _ _ _ _ _ _ _ _ _ HC' Hne) as (x' & E' & _). eauto. }
    destruct Hx' as (x' & Hx'). pose proof (load_inv_loaded _ _ _ _ _ _ _ _ _ _ _ HC' Hx') as HX'.
    exists new, x'. split; auto. split; auto.
    pose proof HX as (HXm & HXc & _). pose proof HX' as (HYm & HYc & _).
    split; [rewrite HXc, HYc; reflexivity|]. split; [rewrite HYm, HYc; reflexivity|].
    rewrite HXc. cbn [c_centroids codec_of].
    split; [|split; [|split]].
    - intros c Hc. rewrite (loaded_slice D _ _ _ _ _ _ _ c HX), (loaded_slice D _ _ _ _ _ _ _ c HX').
      rewrite app_length. destruct (Nat.ltb_spec c (length cents)); [|lia].
      destruct (Nat.ltb_spec c (length cents + length new)); [auto|lia].
    - intros c Hc. rewrite (loaded_slice D _ _ _ _ _ _ _ c HX').
      destruct (c <? length (cents ++ new)); auto. f_equal.
      destruct (postings (concat css) c) as [|z l] eqn:Ep; auto. exfalso.
      assert (Hz : In z (postings (concat css) c)) by (rewrite Ep; left; auto).
      apply postings_In in Hz. destruct Hz as (i & sd & _ & Hi & Hh). apply has_code_In in Hh.
      apply in_map_iff in Hh. destruct Hh as (t & <- & Ht).
      pose proof (core_codes_lt _ _ _ _ _ _ _ _ _ _ _ HC (nth_error_In _ _ Hi)) as F.
      rewrite Forall_forall in F. specialize (F _ Ht). lia.
    - intro i. unfold get_document_codes. cbn [mapM]. destruct (nth_error (concat css) i) as [sd|] eqn:Es.
      + rewrite (loaded_codes D _ _ _ _ _ _ _ _ _ HX Es), (loaded_codes D _ _ _ _ _ _ _ _ _ HX' Es). reflexivity.
      + apply nth_error_None in Es.
        rewrite (loaded_codes_oob D _ _ _ _ _ _ _ _ HX Es), (loaded_codes_oob D _ _ _ _ _ _ _ _ HX' Es). reflexivity.
    - intro i. unfold embeddings. destruct (nth_error (concat css) i) as [sd|] eqn:Es.
      + rewrite (loaded_emb _ _ D _ _ _ _ _ _ _ _ _ HX Es), (loaded_emb _ _ D _ _ _ _ _ _ _ _ _ HX' Es).
        apply decompress_more. eapply core_codes_lt; eauto. eapply nth_error_In; eauto.
      + apply nth_error_None in Es. unfold get_document_embeddings.
        destruct HX as (_ & _ & _ & _ & _ & -> & _). destruct HX' as (_ & _ & _ & _ & _ & -> & _).
        rewrite map_length. destruct (Nat.leb_spec (length (concat css)) i); [auto|lia].
  Qed.

  Lemma reconstruct_spec ops outs d h x ids :
    reached V D docs0 g0 ops outs d h -> load d = Ok x ->
    let N := length (documents docs0 ops) in
    (Forall (fun z => 0 <= z < Z.of_nat N)%Z ids ->
       exists es, reconstruct_embeddings (v_fadd V) (v_norm V) x ids = Ok es
         /\ Forall2 (fun z e => embeddings V x (Z.to_nat z) = Ok e) ids es)
    /\ (~ Forall (fun z => 0 <= z < Z.of_nat N)%Z ids ->
        reconstruct_embeddings (v_fadd V) (v_norm V) x ids = Err).
  Proof.
    intros R Hx N. destruct (reached_good _ _ _ _ R) as (_ & fr & pe & nb & cents & cut & wei & css & E & B & HI & _).
    cbn [fst] in HI. pose proof (in_core _ _ _ _ _ _ _ _ _ _ _ _ HI) as HC.
    pose proof (load_inv_loaded _ _ _ _ _ _ _ _ _ _ _ HC Hx) as HX.
    pose proof (core_len _ _ _ _ _ _ _ _ _ _ HC) as Hlen.
    pose proof (core_shows (v_fadd V) (v_fsub V) (v_norm V) (v_dot V) D _ _ _ _ _ _ _ _ HC HX) as (_ & _ & w & c & _ & _ & Hsh).
    assert (HN : length (x_doc_lengths x) = N) by (destruct HX as (_ & _ & _ & _ & _ & -> & _); rewrite map_length; symmetry; exact Hlen).
    unfold reconstruct_embeddings. rewrite HN. split.
    - intro F.
      assert (Hf : forallb (fun id => (0 <=? id)%Z && (id <? Z.of_nat N)%Z) ids = true).
      { apply forallb_forall. intros z Hz. rewrite Forall_forall in F. specialize (F z Hz).
        apply andb_true_iff. split; [apply Z.leb_le|apply Z.ltb_lt]; lia. }
      rewrite Hf. clear Hf. induction F as [|z ids Hz F IH]; cbn [mapM].
      + exists []. auto.
      + destruct IH as (es & -> & HF).
        assert (Hi : Z.to_nat z < length (documents docs0 ops)) by (fold N; lia).
        destruct (nth_error (documents docs0 ops) (Z.to_nat z)) as [r|] eqn:Er; [|apply nth_error_None in Er; lia].
        destruct (Hsh _ _ Er) as (_ & e & _ & He & _).
        destruct (nth_error (concat css) (Z.to_nat z)) as [sd|] eqn:Es; [|apply nth_error_None in Es; lia].
        assert (Hr1 : reconstruct1 (v_fadd V) (v_norm V) x (Z.to_nat z) = Ok e).
        { pose proof (loaded_emb (v_fadd V) (v_norm V) D _ _ _ _ _ _ _ _ _ HX Es) as Hd. rewrite He in Hd.
          unfold reconstruct1. destruct (loaded_range D _ _ _ _ _ _ _ _ _ HX Es) as (s & -> & Hc & Hrr).
          cbn [bind fst snd]. rewrite (Nat.add_comm s), Nat.add_sub. rewrite (Nat.add_comm (length sd)).
          destruct sd as [|t sd].
          - cbn [length Nat.eqb map]. cbn [map] in Hd. unfold decompress in Hd. cbn in Hd. congruence.
          - cbn [length Nat.eqb]. cbn [length] in Hc, Hrr. rewrite Hc, Hrr. cbn [bind].
            destruct HX as (_ & -> & _). congruence. }
        rewrite Hr1. cbn [bind]. exists (e :: es). split; auto.
    - intro HF. destruct (forallb _ ids) eqn:Ef; auto. exfalso. apply HF. apply Forall_forall. intros z Hz.
      rewrite forallb_forall in Ef. specialize (Ef z Hz). apply andb_true_iff in Ef.
      destruct Ef as (E1 & E2). apply Z.leb_le in E1. apply Z.ltb_lt in E2. lia.
  Qed.
End HISTORY.

(** ** Candidate lookup on an arbitrary inverted file *)
Lemma candidates_any_ivf x (ps : list (list Z)) cs :
  x_ivf x = concat ps -> x_ivf_lengths x = map (@length Z) ps ->
  x_ivf_offsets x = prefix_sums 0 (x_ivf_lengths x) ->
  exists l, get_candidates x cs = Ok l /\ StronglySorted Z.lt l
    /\ forall z, In z l <-> exists c p, In c cs /\ nth_error ps c = Some p /\ In z p.
Proof.
  intros H1 H2 H3.
  assert (Hs : forall c, candidate_slice x c = Ok (nth c ps [])).
  { intro c. unfold candidate_slice. rewrite H3, H2, map_length, H1.
    destruct (Nat.ltb_spec c (length ps)) as [Hc|Hc].
    2:{ rewrite nth_overflow; auto. }
    assert (Hn : nth_error ps c = Some (nth c ps [])) by (apply nth_error_nth'; auto).
    rewrite (proj2 (idx_Ok _ _ _) (nth_prefix_sums 0 (map (@length Z) ps) c ltac:(rewrite map_length; lia))).
    assert (Hn2 : nth_error (map (@length Z) ps) c = Some (length (nth c ps []))) by (rewrite nth_error_map', Hn; auto).
    rewrite (proj2 (idx_Ok _ _ _) Hn2). cbn [bind Nat.add]. apply slice_Ok.
    pose proof (slice_concat ps c _ Hn) as H. split; [split; [lia|]|].
    - rewrite <- sum_map_length, <- (sum_firstn_S _ _ _ Hn2). apply sum_firstn_le.
    - rewrite Nat.add_comm, Nat.add_sub. auto. }
  unfold get_candidates. rewrite (mapM_Ok_map _ (fun c => nth c ps [])) by auto.
  cbn [bind]. eexists; split; [reflexivity|]. split; [apply sort_dedup_sinc|].
  intro z. rewrite sort_dedup_In, in_concat. split.
  - intros (l & Hl & Hz). apply in_map_iff in Hl. destruct Hl as (c & <- & Hc).
    exists c, (nth c ps []). split; auto. split; auto. apply nth_error_nth'.
    destruct (Nat.lt_ge_cases c (length ps)) as [|Hge]; auto. rewrite nth_overflow in Hz by auto. destruct Hz.
  - intros (c & p & Hc & Hp & Hz). exists p. split; auto. apply in_map_iff. exists c. split; auto.
    apply nth_error_nth; auto.
Qed.

(** ** Buffer and raw-embeddings files *)
Lemma buffer_roundtrip D docs d u d' : dim_ok D docs -> docs <> [] ->
  complete (save_buffer docs) d = Ok (u, d') ->
  load_buffer d' = docs /\ load_buffer_info d' = length docs /\ load_embeddings_npy d' = load_embeddings_npy d.
Proof.
  intros H1 H2 H. apply complete_steps in H. destruct (save_buffer_rep D _ _ _ _ H1 H2 H) as (HB & _ & E1 & E2).
  split; [apply files_rep_load; apply HB|]. split; [apply buf_rep_info; auto|].
  unfold load_embeddings_npy. rewrite E1, E2. reflexivity.
Qed.
Lemma emb_roundtrip D docs d u d' : dim_ok D docs -> docs <> [] ->
  complete (save_embeddings_npy docs) d = Ok (u, d') ->
  load_embeddings_npy d' = docs /\ load_buffer d' = load_buffer d.
Proof.
  intros H1 H2 H. apply complete_steps in H. destruct (save_emb_rep D _ _ _ _ H1 H2 H) as (HB & _ & E1 & E2 & _).
  split; [apply files_rep_load; apply HB|].
  unfold load_buffer. rewrite E1, E2. reflexivity.
Qed.
Lemma save_total D docs d : dim_ok D docs ->
  (exists d', complete (save_buffer docs) d = Ok (tt, d'))
  /\ (exists d', complete (save_embeddings_npy docs) d = Ok (tt, d')).
Proof.
  intro H. unfold dim_ok in H. unfold complete, save_buffer, save_embeddings_npy.
  destruct docs as [|x docs]; [split; eexists; reflexivity|].
  rewrite (flatten_docs_ok D) by auto. split; eexists; reflexivity.
Qed.
