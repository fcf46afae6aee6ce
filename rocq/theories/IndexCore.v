(** The index invariant, and what a loaded index shows under it. *)
From Verif Require Import Base F32 CodecModel CodecSpec CodecProofs IndexModel IndexSpec IndexLemmas IndexDelete.
Open Scope nat_scope.
Set Default Proof Using "Type".

Section CORE.
  Variable fadd fsub : f32 -> f32 -> f32.
  Variable normalize : row -> row.
  Variable dot : row -> row -> f32.
  Variable mem : nat.
  Variable D : nat.

  Definition sub_row (r cen : row) : row := map (fun p => fsub (fst p) (snd p)) (combine r cen).

  (** One token encoded with the given codebook. *)
  Definition encodes (nb : nat) (cents : list row) (cut : list f32) (r : row) (t : nat * list N) : Prop :=
    length r = D
    /\ is_last_argmax (map (dot r) cents) (fst t)
    /\ quantize_row nb (D * nb / 8) cut (sub_row r (nth (fst t) cents [])) = Ok (snd t).

  Lemma concat_docs_Ok dim docs flat :
    concat_docs dim docs = Ok flat <-> flat = concat docs /\ Forall (fun r => length r = dim) (concat docs).
  Proof.
    unfold concat_docs. destruct (forallb (fun r => length r =? dim) (concat docs)) eqn:E; split.
    - intro H. split; [congruence|]. rewrite forallb_forall in E. apply Forall_forall.
      intros r Hr. apply Nat.eqb_eq; auto.
    - intros (-> & _); reflexivity.
    - discriminate.
    - intros (_ & F). exfalso. rewrite (proj2 (forallb_forall _ _)) in E; [discriminate|].
      rewrite Forall_forall in F. intros r Hr; apply Nat.eqb_eq; auto.
  Qed.

  Lemma encode_rows_spec c cut rows codes resid packed :
    c_dim c = D -> c_cutoffs c = Some cut -> c_centroids c <> [] ->
    Forall (fun r => length r = D) rows ->
    encode_rows fsub dot mem c rows = Ok (codes, resid, packed) ->
    exists sd, codes = map fst sd /\ packed = map snd sd
      /\ Forall2 (encodes (c_nbits c) (c_centroids c) cut) rows sd.
  Proof.
    intros HD Hcut Hne Hrows H. unfold encode_rows in H.
    apply bind_Ok in H; destruct H as (codes' & Hc & H).
    apply bind_Ok in H; destruct H as (res' & Hr & H).
    apply bind_Ok in H; destruct H as (packed' & Hp & H).
    assert (codes' = codes /\ res' = resid /\ packed' = packed) as (-> & -> & ->)
      by (repeat split; congruence). clear H.
    destruct (compress_ok dot mem (c_centroids c) rows Hne) as (cs & E & F).
    assert (cs = codes) by congruence; subst cs. clear Hc E.
    apply mapM_Ok_inv in Hr. unfold quantize_residuals in Hp. rewrite Hcut, HD in Hp.
    apply mapM_Ok_inv in Hp.
    revert resid packed Hr Hp Hrows. induction F as [|r k rows codes Hk F IH]; intros resid packed Hr Hp Hrows.
    - cbn in Hr; inversion Hr; subst. inversion Hp; subst. exists []; auto.
    - cbn [combine] in Hr. inversion Hr as [|? y ? resid' Hy Hr']; subst.
      inversion Hp as [|? p ? packed' Hq Hp']; subst. inversion Hrows; subst.
      destruct (IH _ _ Hr' Hp' ltac:(assumption)) as (sd & -> & -> & Hsd).
      exists ((k, p) :: sd). split; [reflexivity|]. split; [reflexivity|]. constructor; auto.
      unfold residual_row in Hy. apply bind_Ok in Hy. destruct Hy as (cen & Hc & Hy).
      apply idx_Ok in Hc. cbn [fst snd] in *.
      unfold encodes; cbn [fst snd]. split; [assumption|]. split; [assumption|].
      assert (Hn : nth k (c_centroids c) [] = cen) by (apply nth_error_nth; exact Hc).
      rewrite Hn. unfold sub_row. injection Hy as <-. exact Hq.
  Qed.

  (** Chunk [i] on disk holds the stored documents [cs]. *)
  Definition chunk_at (d : disk) (i : nat) (cs : list stored_doc) : Prop :=
    f_doclens d i = Some (map (@length _) cs)
    /\ f_codes d i = Some (map fst (concat cs))
    /\ f_residuals d i = Some (map snd (concat cs))
    /\ exists off, f_cmeta d i = Some {| m_ndocs := length cs; m_nembs := length (concat cs); m_off := off |}.

  Definition enc_doc (nb : nat) (cents : list row) (cut : list f32) (r : doc) (sd : stored_doc) : Prop :=
    exists k, 1 <= k <= length cents /\ Forall2 (encodes nb (firstn k cents) cut) r sd.

  Definition meta_of (nb : nat) (cents : list row) (L : list doc) (css : list (list stored_doc)) : metadata :=
    {| num_chunks := length css; nbits := nb; num_partitions := length cents;
       num_embeddings := length (concat (concat css)); num_documents := length L; embedding_dim := D |}.

  Record core (d : disk) (nb : nat) (cents : list row) (cut wei : list f32)
      (L : list doc) (css : list (list stored_doc)) : Prop := {
    co_nb : good_nbits nb;
    co_D : 1 <= D;
    co_cents : f_centroids d = Some (D, cents);
    co_ne : cents <> [];
    co_dims : Forall (fun r => length r = D) cents;
    co_cut : f_cutoffs d = Some cut;
    co_wei : f_weights d = Some wei;
    co_cutl : length cut < 2 ^ nb;
    co_weil : length wei = 2 ^ nb;
    co_meta : f_meta d = Some (meta_of nb cents L css);
    co_chunks : forall i cs, nth_error css i = Some cs -> chunk_at d i cs;
    co_enc : Forall2 (enc_doc nb cents cut) L (concat css);
    co_ivf : f_ivf d = Some (concat (map (postings (concat css)) (seq 0 (length cents))));
    co_ivl : f_ivf_lengths d = Some (map (fun c => length (postings (concat css) c)) (seq 0 (length cents)))
  }.

  Definition codec_of (nb : nat) (cents : list row) (cut wei : list f32) : codec :=
    {| c_nbits := nb; c_dim := D; c_centroids := cents; c_cutoffs := Some cut; c_weights := Some wei;
       c_revmap := byte_reversed_bits_map nb; c_lookup := Some (bucket_weight_indices_lookup nb) |}.
  Lemma new_codec_good nb cents cut wei : good_nbits nb ->
    new_codec nb D cents (Some cut) (Some wei) = Ok (codec_of nb cents cut wei).
  Proof. intro H. destruct H as [->|[->|[->| ->]]]; reflexivity. Qed.
  Lemma new_codec_inv nb dim cents cut wei c :
    new_codec nb dim cents (Some cut) (Some wei) = Ok c -> good_nbits nb.
  Proof. intro H. apply (proj1 (new_codec_ok nb dim cents (Some cut) (Some wei))). eauto. Qed.

  Lemma load_codec_core d nb cents cut wei L css :
    core d nb cents cut wei L css -> load_codec d = Ok (codec_of nb cents cut wei).
  Proof.
    intro H. unfold load_codec. rewrite (co_cents _ _ _ _ _ _ _ H), (co_meta _ _ _ _ _ _ _ H).
    cbn [need bind fst snd]. rewrite (co_cut _ _ _ _ _ _ _ H), (co_wei _ _ _ _ _ _ _ H).
    apply new_codec_good. apply (co_nb _ _ _ _ _ _ _ H).
  Qed.

  Lemma core_len d nb cents cut wei L css :
    core d nb cents cut wei L css -> length L = length (concat css).
  Proof. intro H. eapply Forall2_length, co_enc; eauto. Qed.

  Lemma nth_error_seq_map {A B} (f : nat -> B) (l : list A) (P : nat -> A -> B -> Prop) :
    (forall i a, nth_error l i = Some a -> P i a (f i)) ->
    forall (g : A -> B), (forall i a, nth_error l i = Some a -> f i = g a) ->
    map f (seq 0 (length l)) = map g l.
  Proof.
    intros _ g H. apply list_eq_nth_error. intro i. rewrite !nth_error_map'.
    destruct (nth_error l i) as [a|] eqn:E; cbn.
    - assert (nth_error (seq 0 (length l)) i = Some i) as ->.
      { assert (i < length l) by (apply nth_error_Some; congruence).
        rewrite nth_error_nth' with (d := 0) by (rewrite seq_length; lia).
        rewrite seq_nth by lia; auto. }
      cbn. f_equal; auto.
    - assert (nth_error (seq 0 (length l)) i = None) as ->.
      { apply nth_error_None. rewrite seq_length. apply nth_error_None; auto. }
      reflexivity.
  Qed.
  Lemma map_seq_nth {A B} (f : nat -> B) (g : A -> B) (l : list A) :
    (forall i a, nth_error l i = Some a -> f i = g a) -> map f (seq 0 (length l)) = map g l.
  Proof. intro H. apply (nth_error_seq_map f l (fun _ _ _ => True)); auto. Qed.
  Lemma mapM_seq_nth {A B} (f : nat -> res B) (g : A -> B) (l : list A) :
    (forall i a, nth_error l i = Some a -> f i = Ok (g a)) -> mapM f (seq 0 (length l)) = Ok (map g l).
  Proof.
    intro H. revert f H. generalize 0 as a. induction l as [|x l IH]; intros a f H; cbn; auto.
  Abort.
  Lemma mapM_map {A B C} (f : B -> res C) (g : A -> B) l : mapM f (map g l) = mapM (fun a => f (g a)) l.
  Proof. induction l; cbn; auto. rewrite IHl; auto. Qed.
  Lemma mapM_seq_nth {A B} (f : nat -> res B) (g : A -> B) (l : list A) :
    (forall i a, nth_error l i = Some a -> f i = Ok (g a)) -> mapM f (seq 0 (length l)) = Ok (map g l).
  Proof.
    revert f; induction l as [|x l IH]; intros f H; cbn [length seq mapM map]; auto.
    rewrite (H 0 x eq_refl). cbn [bind]. rewrite <- seq_shift, mapM_map, (IH (fun i => f (S i))).
    - reflexivity.
    - intros i a Hi. apply (H (S i) a Hi).
  Qed.

  Lemma load_metadata_core d nb cents cut wei L css :
    core d nb cents cut wei L css -> load_metadata d = Ok (meta_of nb cents L css).
  Proof.
    intro H. unfold load_metadata. rewrite (co_meta _ _ _ _ _ _ _ H). cbn [need bind].
    unfold meta_of at 1. cbn [num_documents]. destruct (Nat.eqb_spec (length L) 0) as [E|E]; auto.
    f_equal. unfold meta_of. f_equal. cbn [num_chunks].
    rewrite (map_seq_nth _ (@length stored_doc)).
    - rewrite sum_map_length, <- (core_len _ _ _ _ _ _ _ H), E. reflexivity.
    - intros i cs Hi. destruct (co_chunks _ _ _ _ _ _ _ H i cs Hi) as (-> & _). apply map_length.
  Qed.

  Lemma merge_chunks_spec {A B} (files : nat -> option (list A)) (g : B -> list A) (l : list B) pad z :
    (forall i b, nth_error l i = Some b -> files i = Some (g b)) ->
    concat (map g l) <> [] ->
    merge_chunks files (length l) pad z = Ok (concat (map g l) ++ repeat z pad).
  Proof.
    intros H Hne. unfold merge_chunks.
    rewrite (map_seq_nth _ g) by (intros i b Hb; rewrite (H i b Hb); auto).
    destruct (Nat.eqb_spec (length (concat (map g l))) 0) as [E|E]; auto.
    apply length_zero_iff_nil in E; contradiction.
  Qed.

  Lemma concat_map_concat {A B} (f : A -> B) (lss : list (list (list A))) :
    concat (map (fun ls => map f (concat ls)) lss) = map f (concat (concat lss)).
  Proof.
    induction lss as [|ls lss IH]; cbn; auto. rewrite IH, concat_app, map_app. reflexivity.
  Qed.

  (** What loading gives under the invariant. *)
  Definition loaded (x : index) (nb : nat) (cents : list row) (cut wei : list f32)
      (L : list doc) (css : list (list stored_doc)) : Prop :=
    x_meta x = meta_of nb cents L css
    /\ x_codec x = codec_of nb cents cut wei
    /\ x_ivf x = concat (map (postings (concat css)) (seq 0 (length cents)))
    /\ x_ivf_lengths x = map (fun c => length (postings (concat css) c)) (seq 0 (length cents))
    /\ x_ivf_offsets x = prefix_sums 0 (x_ivf_lengths x)
    /\ x_doc_lengths x = map (@length _) (concat css)
    /\ x_doc_offsets x = prefix_sums 0 (x_doc_lengths x)
    /\ exists pad, x_codes x = map fst (concat (concat css)) ++ repeat 0 pad
         /\ x_residuals x = map snd (concat (concat css)) ++ repeat (repeat 0%N (D * nb / 8)) pad.

  Lemma concat_map_map_length (css : list (list stored_doc)) :
    concat (map (fun cs => map (@length (nat * list N)) cs) css) = map (@length _) (concat css).
  Proof. symmetry; apply concat_map. Qed.

  Lemma load_core d nb cents cut wei L css :
    core d nb cents cut wei L css -> concat (concat css) <> [] -> D * nb / 8 <> 0 ->
    exists x, load d = Ok x /\ loaded x nb cents cut wei L css.
  Proof.
    intros H Hne Hw. unfold load.
    rewrite (load_metadata_core _ _ _ _ _ _ _ H), (load_codec_core _ _ _ _ _ _ _ H).
    cbn [bind]. rewrite (co_ivf _ _ _ _ _ _ _ H), (co_ivl _ _ _ _ _ _ _ H). cbn [need bind].
    change (num_chunks (meta_of nb cents L css)) with (length css).
    rewrite (mapM_seq_nth (fun i => need (f_doclens d i)) (fun cs : list stored_doc => map (@length (nat * list N)) cs) css).
    2:{ intros i cs Hi. destruct (co_chunks _ _ _ _ _ _ _ H i cs Hi) as (-> & _). reflexivity. }
    cbn [bind].
    rewrite (merge_chunks_spec _ (fun cs => map fst (concat cs)) css).
    2:{ intros i cs Hi. apply (co_chunks _ _ _ _ _ _ _ H i cs Hi). }
    2:{ rewrite concat_map_concat. intro E; apply map_eq_nil in E; contradiction. }
    cbn [bind].
    change (c_dim (codec_of nb cents cut wei)) with D. change (nbits (meta_of nb cents L css)) with nb.
    destruct (Nat.eqb_spec (D * nb / 8) 0) as [E0|E0]; [contradiction|].
    rewrite (merge_chunks_spec _ (fun cs => map snd (concat cs)) css).
    2:{ intros i cs Hi. apply (co_chunks _ _ _ _ _ _ _ H i cs Hi). }
    2:{ rewrite concat_map_concat. intro E; apply map_eq_nil in E; contradiction. }
    cbn [bind]. eexists; split; [reflexivity|].
    unfold loaded; cbn [x_meta x_codec x_ivf x_ivf_lengths x_ivf_offsets x_doc_lengths x_doc_offsets x_codes x_residuals].
    rewrite !concat_map_concat, concat_map_map_length.
    repeat (split; [reflexivity|]). eexists; split; reflexivity.
  Qed.

  (** ** Reading document i *)

  Lemma loaded_range x nb cents cut wei L css i sd :
    loaded x nb cents cut wei L css -> nth_error (concat css) i = Some sd ->
    exists s, doc_range x i = Ok (s, s + length sd)
      /\ slice (x_codes x) s (s + length sd) = Ok (map fst sd)
      /\ slice (x_residuals x) s (s + length sd) = Ok (map snd sd).
  Proof.
    intros (_ & _ & _ & _ & _ & Hl & Ho & pad & Hc & Hr) Hi.
    assert (Hlt : i < length (concat css)) by (apply nth_error_Some; congruence).
    set (lens := map (@length (nat * list N)) (concat css)) in Hl.
    assert (Hln : nth_error lens i = Some (length sd)) by (unfold lens; rewrite nth_error_map', Hi; auto).
    exists (sum (firstn i lens)). unfold doc_range. rewrite Ho, Hl.
    assert (Hlen : length lens = length (concat css)) by apply map_length.
    rewrite (proj2 (idx_Ok _ _ _) (nth_prefix_sums 0 lens i ltac:(lia))).
    rewrite (proj2 (idx_Ok _ _ _) (nth_prefix_sums 0 lens (S i) ltac:(lia))).
    cbn [bind Nat.add]. rewrite (sum_firstn_S _ _ _ Hln). split; [reflexivity|].
    assert (Hb : sum (firstn i lens) + length sd <= length (concat (concat css))).
    { rewrite <- sum_map_length. rewrite <- (sum_firstn_S _ _ _ Hln). apply sum_firstn_le. }
    pose proof (slice_concat (concat css) i sd Hi) as Hs. fold lens in Hs.
    split; apply slice_Ok; rewrite ?Hc, ?Hr; rewrite app_length, map_length, repeat_length;
      (split; [lia|]); rewrite skipn_app, firstn_app;
      rewrite skipn_length, map_length;
      replace (sum (firstn i lens) + length sd - sum (firstn i lens)) with (length sd) by lia;
      replace (length sd - (length (concat (concat css)) - sum (firstn i lens))) with 0 by lia;
      cbn [firstn]; rewrite app_nil_r; rewrite <- Hs at 1;
      rewrite skipn_map, firstn_map; reflexivity.
  Qed.

  Lemma argmax_lt scores k : is_last_argmax scores k -> k < length scores.
  Proof. intros (s & H & _). apply nth_error_Some; congruence. Qed.

  Lemma nth_firstn {A} n (l : list A) k d : k < n -> nth k (firstn n l) d = nth k l d.
  Proof. revert l k; induction n; intros [|x l] [|k] H; cbn; try lia; auto. apply IHn; lia. Qed.

  Lemma sub_row_length r cen : length r = length cen -> length (sub_row r cen) = length r.
  Proof. intro H. unfold sub_row. rewrite map_length, combine_length. lia. Qed.

  (** Decompressing an encoded document. *)
  Lemma decompress_doc nb cents cut wei n r sd :
    good_nbits nb -> length cut < 2 ^ nb -> length wei = 2 ^ nb ->
    Forall (fun r => length r = D) cents -> n <= length cents ->
    Forall2 (encodes nb (firstn n cents) cut) r sd ->
    exists e, decompress fadd normalize (codec_of nb cents cut wei) (map snd sd) (map fst sd) = Ok e
      /\ Forall2 (quantised_token fadd fsub normalize dot (firstn n cents) wei cut) r e.
  Proof.
    intros Hn Hc Hw Hd Hle H. unfold decompress; cbn [c_weights c_lookup codec_of].
    induction H as [|t s r sd Ht H IH]; cbn [map decompress_rows].
    - exists []; auto.
    - destruct IH as (e & E & F). destruct Ht as (Hl & Ha & Hq).
      assert (Hk : fst s < length (firstn n cents)).
      { apply argmax_lt in Ha. rewrite map_length in Ha; auto. }
      rewrite firstn_length in Hk.
      rewrite nth_firstn in Hq by lia.
      assert (Hcen : nth_error cents (fst s) = Some (nth (fst s) cents [])) by (apply nth_error_nth'; lia).
      assert (Hcl : length (nth (fst s) cents []) = D).
      { rewrite Forall_forall in Hd. apply Hd. eapply nth_error_In; eauto. }
      set (cen := nth (fst s) cents []) in *.
      assert (Hsl : length (sub_row t cen) = D) by (rewrite sub_row_length; lia).
      assert (Hmod : (D * nb) mod 8 = 0).
      { destruct (Nat.eq_dec ((D * nb) mod 8) 0) as [|Hx]; auto. exfalso.
        rewrite <- Hsl in Hq, Hx. rewrite quantize_row_panic in Hq; auto; [discriminate|].
        destruct Hn as [->|[->|[->| ->]]]; lia. }
      destruct (quantize_row_ok nb cut (sub_row t cen) (D * nb / 8) Hn) as (p & Q & _ & X & B); [lia|].
      assert (p = snd s) by congruence. subst p.
      erewrite (decompress_row_roundtrip fadd normalize _ nb cut wei (sub_row t cen) (fst s) cen);
        eauto. cbn [bind]. rewrite E. cbn [bind]. eexists; split; [reflexivity|].
      constructor; auto. exists (fst s). split; auto. rewrite nth_firstn by lia. reflexivity.
  Qed.

  Lemma core_shows d nb cents cut wei L css x :
    core d nb cents cut wei L css -> loaded x nb cents cut wei L css ->
    shows fadd fsub normalize dot x L.
  Proof.
    intros H Hx. pose proof Hx as (Hm & Hcod & _ & _ & _ & Hl & _).
    unfold shows. rewrite Hm, Hcod, Hl. cbn [num_documents meta_of c_weights c_cutoffs codec_of c_centroids].
    split; [reflexivity|]. split.
    { pose proof (co_enc _ _ _ _ _ _ _ H) as He. clear -He.
      induction He as [|r sd L l (k & _ & Hr) He IH]; cbn; auto.
      f_equal; auto. symmetry; eapply Forall2_length; eauto. }
    exists wei, cut. split; [reflexivity|]. split; [reflexivity|].
    intros i r Hi. pose proof (co_enc _ _ _ _ _ _ _ H) as He.
    destruct (Forall2_nth_error _ _ _ He _ _ Hi) as (sd & Hsd & k & Hk & Hr).
    destruct (decompress_doc nb cents cut wei k r sd) as (e & E & F);
      try (eapply co_nb; eassumption); try (eapply co_cutl; eassumption);
      try (eapply co_weil; eassumption); try (eapply co_dims; eassumption); [lia|exact Hr|].
    exists k, e. split; [lia|]. split; auto.
    unfold get_document_embeddings. rewrite Hl, map_length.
    assert (i < length (concat css)) by (apply nth_error_Some; congruence).
    destruct (Nat.leb_spec (length (concat css)) i); [lia|].
    destruct (loaded_range _ _ _ _ _ _ _ _ _ Hx Hsd) as (s & -> & Hcs & Hrs). cbn [bind fst snd].
    rewrite Hcs, Hrs. cbn [bind]. rewrite Hcod. exact E.
  Qed.
End CORE.
