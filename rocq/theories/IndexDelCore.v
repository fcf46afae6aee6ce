(** Deletion preserves the invariant; buffer and raw-embedding files. *)
From Verif Require Import Base F32 CodecModel CodecSpec CodecProofs IndexModel IndexSpec IndexLemmas IndexDelete IndexCore IndexCreate IndexUpdate.
Open Scope nat_scope.
Set Default Proof Using "Type".

Fixpoint keep_chunks (ids : list Z) (off : Z) (css : list (list stored_doc)) : list (list stored_doc) :=
  match css with
  | [] => []
  | cs :: r => keep_from ids off cs :: keep_chunks ids (off + Z.of_nat (length cs)) r
  end.
Lemma concat_keep_chunks ids off css : concat (keep_chunks ids off css) = keep_from ids off (concat css).
Proof.
  revert off; induction css as [|cs css IH]; intro off; cbn [keep_chunks concat]; auto.
  rewrite keep_from_app, IH. reflexivity.
Qed.
Lemma keep_chunks_length ids off css : length (keep_chunks ids off css) = length css.
Proof. revert off; induction css; intro off; cbn; auto. Qed.
Lemma keep_chunks_nth ids css : forall off i cs, nth_error css i = Some cs ->
  nth_error (keep_chunks ids off css) i
  = Some (keep_from ids (off + Z.of_nat (length (concat (firstn i css)))) cs).
Proof.
  induction css as [|c css IH]; intros off [|i] cs H; cbn in H; try discriminate.
  - injection H as <-. cbn. rewrite Z.add_0_r. reflexivity.
  - cbn [keep_chunks nth_error firstn concat]. rewrite (IH _ _ _ H), app_length. do 2 f_equal. lia.
Qed.
Lemma firstn_S_nth {A} (l : list A) i x : nth_error l i = Some x -> firstn (S i) l = firstn i l ++ [x].
Proof.
  revert i; induction l as [|a l IH]; intros [|i] H; cbn in H; try discriminate.
  - injection H as <-. reflexivity.
  - cbn [firstn app]. f_equal. apply IH; auto.
Qed.

Section DEL.
  Variable fsub : f32 -> f32 -> f32.
  Variable dot : row -> row -> f32.
  Variable D : nat.

  Notation enc_doc := (enc_doc fsub dot D).
  Notation core := (core fsub dot D).

  Lemma core_same d d' nb cents cut wei L css :
    f_meta d' = f_meta d -> f_centroids d' = f_centroids d -> f_cutoffs d' = f_cutoffs d ->
    f_weights d' = f_weights d -> f_ivf d' = f_ivf d -> f_ivf_lengths d' = f_ivf_lengths d ->
    (forall i, same_chunk d d' i) ->
    core d nb cents cut wei L css -> core d' nb cents cut wei L css.
  Proof.
    intros E1 E2 E3 E4 E5 E6 E7 H. destruct H. split; auto; try congruence.
    intros i cs Hi. eapply chunk_at_same; eauto.
  Qed.

  Definition del_inv (d0 : disk) ids css (i : nat) (s : del_state) (dd : disk) : Prop :=
    rest dd = rest d0
    /\ e_docs s = length (concat (firstn i (keep_chunks ids 0 css)))
    /\ e_embs s = length (concat (concat (firstn i (keep_chunks ids 0 css))))
    /\ e_offset s = Z.of_nat (length (concat (firstn i css)))
    /\ e_deleted s + e_docs s = length (concat (firstn i css))
    /\ (forall j cs, i <= j -> nth_error css j = Some cs -> chunk_at dd j cs)
    /\ (forall j cs, j < i -> nth_error (keep_chunks ids 0 css) j = Some cs -> chunk_at dd j cs).

  Lemma delete_chunk_step d0 ids css i s d s1 d1 :
    i < length css ->
    del_inv d0 ids css i s d ->
    steps (delete_chunk ids s i) d s1 d1 ->
    del_inv d0 ids css (S i) s1 d1.
  Proof.
    intros Hi (HR & Hd & He & Ho & Hx & Hhi & Hlo) S.
    destruct (nth_error css i) as [cs|] eqn:Ecs; [|apply nth_error_None in Ecs; lia].
    pose proof (keep_chunks_nth ids css 0 i cs Ecs) as Ek. rewrite Z.add_0_l, <- Ho in Ek.
    set (kc := keep_chunks ids 0 css) in *.
    destruct (Hhi i cs ltac:(lia) Ecs) as (Cd & Cc & Cr & off & Cm).
    unfold delete_chunk in S.
    bnd S as doclens d2 S1. apply steps_ask in S1; destruct S1 as (S1 & ->).
    rewrite Cd in S1; apply Ok_inj in S1; subst doclens.
    pose proof (delete_mask_fst ids (e_offset s) cs) as M1.
    pose proof (delete_mask_codes ids (e_offset s) cs) as M2.
    pose proof (delete_mask_rows ids (e_offset s) cs) as M3.
    destruct (delete_mask ids (e_offset s) (map (@length _) cs)) as (nd & mask). cbn [fst snd] in *. subst nd.
    rewrite !map_length in S.
    bnd S as u d2 S1.
    assert (Hd2 : rest d2 = rest d /\ (forall j, j <> i -> same_chunk d d2 j)
                  /\ chunk_at d2 i (keep_from ids (e_offset s) cs)).
    { destruct (Nat.ltb_spec (length (keep_from ids (e_offset s) cs)) (length cs)) as [Hlt|Hge].
      - bnd S1 as u1 d3 S2. apply steps_emit in S2; subst d3.
        bnd S1 as u2 d3 S2. apply steps_emit in S2; subst d3.
        bnd S1 as codes d3 S2. apply steps_ask in S2; destruct S2 as (S2 & ->).
        revert S2; dsk; rewrite Cc; intro S2; apply Ok_inj in S2; subst codes. rewrite M2 in S1.
        bnd S1 as u3 d3 S2. apply steps_emit in S2; subst d3.
        bnd S1 as u4 d3 S2. apply steps_emit in S2; subst d3.
        bnd S1 as res d3 S2. apply steps_ask in S2; destruct S2 as (S2 & ->).
        revert S2; dsk; rewrite Cr; intro S2; apply Ok_inj in S2; subst res.
        bnd S1 as res d3 S2. apply steps_lift in S2; destruct S2 as (S2 & ->).
        rewrite M3 in S2; apply Ok_inj in S2; subst res.
        bnd S1 as u5 d3 S2. apply steps_emit in S2; subst d3.
        bnd S1 as u6 d3 S2. apply steps_emit in S2; subst d3.
        bnd S1 as cm d3 S2. apply steps_ask in S2; destruct S2 as (S2 & ->).
        revert S2; dsk; rewrite Cm; intro S2; apply Ok_inj in S2; subst cm.
        bnd S1 as u7 d3 S2. apply steps_emit in S2; subst d3.
        apply steps_emit in S1; subst d2.
        split; [autorewrite with rest; reflexivity|]. split.
        + intros j Hj. unfold same_chunk; dsk. rewrite !put_other by auto. repeat split.
        + unfold chunk_at; dsk. rewrite !put_same. rewrite map_length.
          repeat (split; [reflexivity|]). eauto.
      - apply steps_ret in S1. destruct S1 as (_ & ->). split; auto.
        split; [intros; apply same_chunk_refl|].
        rewrite keep_from_same; [|pose proof (keep_from_length_le ids (e_offset s) cs); lia].
        split; eauto. }
    clear S1. destruct Hd2 as (HR2 & Hsame & Hnew).
    apply steps_ret in S. destruct S as (-> & ->). cbn [e_docs e_embs e_offset e_deleted].
    unfold del_inv. cbn [e_docs e_embs e_offset e_deleted]. fold kc.
    rewrite (firstn_S_nth _ _ _ Ek), (firstn_S_nth _ _ _ Ecs).
    rewrite !concat_app; cbn [concat]; rewrite !app_nil_r, !app_length.
    split; [congruence|]. split; [lia|]. split; [rewrite sum_map_length; lia|]. split; [lia|].
    split; [pose proof (keep_from_length_le ids (e_offset s) cs); lia|]. split.
    - intros j c Hj Hn. eapply chunk_at_same; [apply Hsame; lia|]. apply Hhi; auto; lia.
    - intros j c Hj Hn. destruct (Nat.eq_dec j i) as [->|Hne].
      + assert (c = keep_from ids (e_offset s) cs) by congruence. subst; auto.
      + eapply chunk_at_same; [apply Hsame; lia|]. apply Hlo; auto; lia.
  Qed.

  Lemma keep_lists ids (sds : list stored_doc) K : Forall (fun z => 0 <= z)%Z ids ->
    map (fun l => map (renumber (isort Z.leb (nodup Z.eq_dec ids))) (filter (fun id => negb (in_ids ids id)) l))
      (map (postings sds) (seq 0 K))
    = map (postings (keep_from ids 0 sds)) (seq 0 K).
  Proof. intro H. rewrite map_map. apply map_ext. intro c. rewrite postings_keep by auto. reflexivity. Qed.

  (** The deletion proper (before the buffer clean-up): state [d1]. *)
  Lemma delete_core ids cb d n d' nb cents cut wei L css :
    Forall (fun z => 0 <= z)%Z ids ->
    core d nb cents cut wei L css ->
    steps (delete_from_index_impl ids cb) d n d' ->
    exists css' d1, core d1 nb cents cut wei (keep_from ids 0 L) css'
      /\ concat css' = keep_from ids 0 (concat css) /\ side d1 = side d
      /\ f_threshold d1 = f_threshold d
      /\ n = length L - length (keep_from ids 0 L)
      /\ steps (whenE cb (clean_embeddings_files ids (length L))) d1 tt d'.
  Proof.
    intros Hids H S. unfold delete_from_index_impl in S.
    bnd S as md d1 S1. apply steps_ask in S1. destruct S1 as (S1 & ->).
    rewrite (load_metadata_core _ _ _ _ _ _ _ _ _ _ H) in S1. apply Ok_inj in S1; subst md.
    cbn [num_chunks nbits num_partitions embedding_dim num_documents meta_of] in S.
    bnd S as s d1 S1.
    assert (HI : del_inv d ids css (0 + length css) s d1).
    { refine (steps_for_seq _ _ (length css) 0 _ _ _ _ S1 _ _).
      - split; auto. cbn. repeat (split; [reflexivity|]). split; [|intros; lia].
        intros j cs _ Hj. apply (co_chunks _ _ _ _ _ _ _ _ _ _ H); auto.
      - intros i s0 d2 s1 d3 Hi HI HS. eapply delete_chunk_step; eauto; lia. }
    clear S1. destruct HI as (HR & Hd & He & _ & Hx & _ & Hlo). cbn [Nat.add] in *.
    rewrite firstn_all2 in Hd, He by (rewrite keep_chunks_length; lia).
    rewrite firstn_all in Hx.
    rewrite concat_keep_chunks in Hd, He.
    assert (Hlen : length L = length (concat css)) by (eapply core_len; eauto).
    bnd S as ivf d2 S1. apply steps_ask in S1; destruct S1 as (S1 & ->).
    bnd S as lens d2 S2. apply steps_ask in S2; destruct S2 as (S2 & ->).
    unfold rest in HR.
    assert (Ei : f_ivf d1 = f_ivf d) by congruence. assert (El : f_ivf_lengths d1 = f_ivf_lengths d) by congruence.
    rewrite Ei, (co_ivf _ _ _ _ _ _ _ _ _ _ H) in S1. apply Ok_inj in S1; subst ivf.
    rewrite El, (co_ivl _ _ _ _ _ _ _ _ _ _ H) in S2. apply Ok_inj in S2; subst lens.
    bnd S as lists d2 S1. apply steps_lift in S1; destruct S1 as (S1 & ->).
    rewrite <- (map_map (postings (concat css)) (@length Z)), patch_ivf_lists, keep_lists in S1 by auto.
    apply Ok_inj in S1; subst lists.
    bnd S as u1 d3 S2. apply steps_emit in S2; subst d3.
    bnd S as u2 d3 S2. apply steps_emit in S2; subst d3.
    bnd S as u3 d3 S2. apply steps_emit in S2; subst d3.
    bnd S as u4 d3 S2. apply steps_emit in S2; subst d3.
    bnd S as u5 d3 S2. apply steps_emit in S2; subst d3.
    bnd S as u6 d3 S2. apply steps_emit in S2; subst d3.
    bnd S as u7 d3 S2. apply steps_ret in S. destruct S as (-> & ->). destruct u7.
    exists (keep_chunks ids 0 css). eexists. split; [|split; [|split; [|split; [|split; [|exact S2]]]]].
    - destruct H. split; auto; dsk; try congruence.
      + unfold meta_of. rewrite keep_chunks_length, concat_keep_chunks, Hd, He.
        rewrite (keep_from_length ids 0 L (concat css)) by auto. reflexivity.
      + intros i cs Hi. eapply chunk_at_same; [|apply (Hlo i); auto].
        * unfold same_chunk; dsk; repeat split.
        * assert (i < length (keep_chunks ids 0 css)) by (apply nth_error_Some; congruence).
          rewrite keep_chunks_length in *; lia.
      + rewrite concat_keep_chunks. apply Forall2_keep; auto.
      + rewrite concat_keep_chunks. reflexivity.
      + rewrite map_map, concat_keep_chunks. reflexivity.
    - apply concat_keep_chunks.
    - unfold side; dsk; congruence.
    - dsk; congruence.
    - rewrite (keep_from_length ids 0 L (concat css)) by auto. lia.
  Qed.
End DEL.

(** ** Buffer and raw-embedding files *)

Definition files_rep (file : option (list row)) (lens : option (list nat)) (B : list doc) : Prop :=
  match B with
  | [] => file = None /\ lens = None
  | _ => file = Some (concat B) /\ lens = Some (map (@length row) B)
  end.
Definition emb_rep (d : disk) (E : list doc) : Prop := files_rep (f_emb d) (f_emb_lengths d) E.
Definition buf_rep (d : disk) (B : list doc) : Prop :=
  files_rep (f_buffer d) (f_buffer_lengths d) B
  /\ f_buffer_info d = match B with [] => None | _ => Some (length B) end.

Lemma files_rep_load f l B : files_rep f l B -> load_docs f l = B.
Proof.
  unfold files_rep, load_docs. destruct B as [|b B]; intros (-> & H); auto.
  subst l. apply split_docs_concat.
Qed.
Lemma buf_rep_info d B : buf_rep d B -> load_buffer_info d = length B.
Proof. intros (_ & H). unfold load_buffer_info. rewrite H. destruct B; auto. Qed.
Lemma side_emb d d' E : side d' = side d -> emb_rep d E -> emb_rep d' E.
Proof.
  unfold side, emb_rep. intros H. assert (f_emb d' = f_emb d) as -> by congruence.
  assert (f_emb_lengths d' = f_emb_lengths d) as -> by congruence. auto.
Qed.
Lemma side_buf d d' B : side d' = side d -> buf_rep d B -> buf_rep d' B.
Proof.
  unfold side, buf_rep. intros H. assert (f_buffer d' = f_buffer d) as -> by congruence.
  assert (f_buffer_lengths d' = f_buffer_lengths d) as -> by congruence.
  assert (f_buffer_info d' = f_buffer_info d) as -> by congruence. auto.
Qed.

Lemma concat_docs_all D docs : Forall (fun r => length r = D) (concat docs) -> concat_docs D docs = Ok (concat docs).
Proof. intro H. apply concat_docs_Ok. auto. Qed.
Lemma flatten_docs_ok D docs : Forall (fun r => length r = D) (concat docs) -> flatten_docs docs = Ok (concat docs).
Proof.
  intro H. unfold flatten_docs. destruct (concat docs) as [|r l] eqn:E; auto.
  inversion H; subst. rewrite <- E. apply concat_docs_all. rewrite E; auto.
Qed.

(** Everything but the buffer / everything but the raw embeddings. *)
Definition no_side (d : disk) :=
  (f_meta d, f_centroids d, f_cutoffs d, f_weights d, f_threshold d, f_ivf d, f_ivf_lengths d,
   (f_doclens d, f_codes d, f_residuals d, f_cmeta d)).

Lemma save_buffer_rep D docs d u d' :
  Forall (fun r => length r = D) (concat docs) -> docs <> [] ->
  steps (save_buffer docs) d u d' ->
  buf_rep d' docs /\ no_side d' = no_side d /\ f_emb d' = f_emb d /\ f_emb_lengths d' = f_emb_lengths d.
Proof.
  intros HD Hne S. unfold save_buffer in S. destruct docs as [|x docs]; [congruence|].
  rewrite (flatten_docs_ok D) in S by auto. inv_steps S. apply Ok_inj in S. subst.
  unfold buf_rep, files_rep, no_side; dsk. repeat split.
Qed.
Lemma clear_buffer_rep d u d' :
  steps clear_buffer d u d' ->
  buf_rep d' [] /\ no_side d' = no_side d /\ f_emb d' = f_emb d /\ f_emb_lengths d' = f_emb_lengths d.
Proof. intro S. unfold clear_buffer in S. inv_steps S. unfold buf_rep, files_rep, no_side; dsk. repeat split. Qed.
Lemma save_emb_rep D docs d u d' :
  Forall (fun r => length r = D) (concat docs) -> docs <> [] ->
  steps (save_embeddings_npy docs) d u d' ->
  emb_rep d' docs /\ no_side d' = no_side d
  /\ f_buffer d' = f_buffer d /\ f_buffer_lengths d' = f_buffer_lengths d /\ f_buffer_info d' = f_buffer_info d.
Proof.
  intros HD Hne S. unfold save_embeddings_npy in S. destruct docs as [|x docs]; [congruence|].
  rewrite (flatten_docs_ok D) in S by auto. inv_steps S. apply Ok_inj in S. subst.
  unfold emb_rep, files_rep, no_side; dsk. repeat split.
Qed.
Lemma clear_emb_rep d u d' :
  steps clear_embeddings_npy d u d' ->
  emb_rep d' [] /\ no_side d' = no_side d
  /\ f_buffer d' = f_buffer d /\ f_buffer_lengths d' = f_buffer_lengths d /\ f_buffer_info d' = f_buffer_info d.
Proof. intro S. unfold clear_embeddings_npy in S. inv_steps S. unfold emb_rep, files_rep, no_side; dsk. repeat split. Qed.

Lemma clean_rep ids n d u d' E B :
  emb_rep d E -> buf_rep d B ->
  steps (clean_embeddings_files ids n) d u d' ->
  emb_rep d' (keep_from ids 0 E) /\ buf_rep d' (keep_from ids (Z.of_nat n - Z.of_nat (length B)) B)
  /\ no_side d' = no_side d.
Proof.
  intros HE HB S. unfold clean_embeddings_files in S.
  bnd S as e d1 S1. apply steps_ask in S1; destruct S1 as (S1 & ->). apply Ok_inj in S1; subst e.
  bnd S as u1 d1 S1.
  assert (H1 : emb_rep d1 (keep_from ids 0 E) /\ no_side d1 = no_side d
    /\ f_buffer d1 = f_buffer d /\ f_buffer_lengths d1 = f_buffer_lengths d /\ f_buffer_info d1 = f_buffer_info d).
  { unfold emb_rep, files_rep in HE. destruct E as [|e E].
    - destruct HE as (E1 & E2). rewrite ?E1, ?E2 in S1; cbv beta iota in S1. apply steps_ret in S1. destruct S1 as (_ & ->).
      cbn. unfold emb_rep, files_rep. rewrite E1, E2. auto 10.
    - destruct HE as (E1 & E2). rewrite ?E1, ?E2 in S1; cbv beta iota in S1. rewrite clean_docs_spec in S1.
      rewrite map_length in S1. remember (e :: E) as F eqn:EF. clear EF.
      destruct (keep_from ids 0 F) as [|x xs] eqn:Ek; cbn [length Nat.eqb negb] in S1.
      + inv_steps S1. unfold emb_rep, files_rep, no_side; dsk. repeat split.
      + inv_steps S1. unfold emb_rep, files_rep, no_side; dsk. repeat split. }
  clear S1. destruct H1 as (HE1 & HN1 & B1 & B2 & B3).
  assert (HB1 : buf_rep d1 B) by (unfold buf_rep in *; rewrite B1, B2, B3; auto).
  clear HB B1 B2 B3.
  bnd S as b d2 S1. apply steps_ask in S1; destruct S1 as (S1 & ->). apply Ok_inj in S1; subst b.
  unfold buf_rep, files_rep in HB1. destruct B as [|b B].
  - destruct HB1 as ((E1 & E2) & E3). rewrite ?E1, ?E2 in S; cbv beta iota in S. apply steps_ret in S. destruct S as (_ & ->).
    cbn. unfold buf_rep, files_rep. rewrite E1, E2, E3. auto.
  - destruct HB1 as ((E1 & E2) & E3). rewrite ?E1, ?E2 in S; cbv beta iota in S.
    rewrite map_length in S. remember (b :: B) as F eqn:EF. clear EF.
    rewrite clean_docs_spec, map_length in S. unfold emb_rep, files_rep in HE1.
    set (K := keep_from ids (Z.of_nat n - Z.of_nat (length F)) F) in *.
    destruct K as [|x xs]; cbn [length Nat.eqb negb] in S.
    + inv_steps S. unfold emb_rep, buf_rep, files_rep, no_side in *; dsk. repeat split; auto.
    + inv_steps S. unfold emb_rep, buf_rep, files_rep, no_side in *; dsk. repeat split; auto.
Qed.
