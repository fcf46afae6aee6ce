(** Centroid expansion, update and deletion preserve the invariant. *)
From Verif Require Import Base F32 CodecModel CodecSpec CodecProofs IndexModel IndexSpec IndexLemmas IndexDelete IndexCore IndexCreate.
Open Scope nat_scope.
Set Default Proof Using "Type".

(** What the model assumes of k-means on documents of dimension [D]: when it succeeds it
    returns at least one centroid, all of dimension [D]. *)
Lemma nth_error_last {A} (l : list A) x : nth_error (l ++ [x]) (length l) = Some x.
Proof. rewrite nth_error_app2 by lia. rewrite Nat.sub_diag. reflexivity. Qed.
Lemma nth_error_snoc {A} (l : list A) x j y :
  nth_error (l ++ [x]) j = Some y -> (j < length l /\ nth_error l j = Some y) \/ (j = length l /\ y = x).
Proof.
  intro H. destruct (Nat.lt_ge_cases j (length l)).
  - rewrite nth_error_app1 in H by lia. auto.
  - rewrite nth_error_app2 in H by lia. destruct (j - length l) as [|k] eqn:E.
    + right. cbn in H. injection H as ->. split; auto; lia.
    + destruct k; discriminate.
Qed.

Lemma postings_high (sds : list stored_doc) c :
  Forall (fun sd => Forall (fun t => fst t < c) sd) sds -> postings sds c = [].
Proof.
  intro H. destruct (postings sds c) as [|x l] eqn:E; auto.
  assert (Hx : In x (postings sds c)) by (rewrite E; left; auto).
  apply postings_In in Hx. destruct Hx as (i & sd & _ & Hn & Hc).
  apply has_code_In, in_map_iff in Hc. destruct Hc as (t & Ht & Hin).
  rewrite Forall_forall in H. specialize (H sd (nth_error_In _ _ Hn)).
  rewrite Forall_forall in H. specialize (H t Hin). lia.
Qed.
Lemma Forall_lt_mono (sds : list stored_doc) a b : a <= b ->
  Forall (fun sd => Forall (fun t => fst t < a) sd) sds -> Forall (fun sd => Forall (fun t => fst t < b) sd) sds.
Proof.
  intros Hab H. eapply Forall_impl; [|exact H]. intros sd Hs.
  eapply Forall_impl; [|exact Hs]. intros t Ht; cbn in *; lia.
Qed.

Section UPDATE.
  Variable fsub : f32 -> f32 -> f32.
  Variable dot : row -> row -> f32.
  Variable mem : nat.
  Variable kmeans : Z -> list doc -> res (nat * list row).
  Variable next_threshold : option f32 -> list row -> nat -> f32.
  Variable is_outlier : list row -> f32 -> row -> bool.
  Variable D : nat.

  Notation encodes := (encodes fsub dot D).
  Notation enc_doc := (enc_doc fsub dot D).
  Notation codec_of := (codec_of D).
  Notation core := (core fsub dot D).

  Lemma enc_doc_codes nb cents cut r sd : enc_doc nb cents cut r sd -> Forall (fun t => fst t < length cents) sd.
  Proof.
    intros (k & Hk & F). induction F as [|a t r sd (_ & Ha & _) F IH]; constructor; auto.
    apply argmax_lt in Ha. rewrite map_length, firstn_length in Ha. lia.
  Qed.
  Lemma core_codes d nb cents cut wei L css :
    core d nb cents cut wei L css ->
    Forall (fun sd => Forall (fun t => fst t < length cents) sd) (concat css).
  Proof.
    intro H. pose proof (co_enc _ _ _ _ _ _ _ _ _ _ H) as F.
    clear H. revert F. generalize (concat css) as sds. intros sds F.
    induction F; constructor; auto. eapply enc_doc_codes; eauto.
  Qed.

  Lemma postings_extend (sds : list stored_doc) K n :
    Forall (fun sd => Forall (fun t => fst t < K) sd) sds ->
    map (postings sds) (seq 0 (K + n)) = map (postings sds) (seq 0 K) ++ repeat [] n.
  Proof.
    intro H. rewrite seq_app, map_app. f_equal. cbn [Nat.add].
    assert (G : forall m a, K <= a -> map (postings sds) (seq a m) = repeat [] m).
    { induction m as [|m IH]; intros a Ha; cbn [seq map repeat]; auto.
      rewrite postings_high, IH by (try lia; eapply Forall_lt_mono; eauto). reflexivity. }
    apply G; lia.
  Qed.

  Lemma concat_repeat_nil {A} n : concat (repeat (@nil A) n) = [].
  Proof. induction n; cbn; auto. Qed.

  Lemma update_centroids_core docs thr g d k d' nb cents cut wei L css :
    good_kmeans D kmeans ->
    core d nb cents cut wei L css ->
    steps (update_centroids kmeans is_outlier docs thr g) d k d' ->
    exists new, core d' nb (cents ++ new) cut wei L css /\ k = length new /\ side d' = side d
      /\ (k = 0 -> d' = d).
  Proof.
    intros Hk H S. unfold update_centroids in S.
    apply steps_bind in S. destruct S as (a & d1 & S1 & S). inv_steps S1.
    rewrite (co_cents _ _ _ _ _ _ _ _ _ _ H) in S. cbv beta iota in S.
    assert (Hstay : d' = d -> k = 0 -> exists new, core d' nb (cents ++ new) cut wei L css /\ k = length new /\ side d' = side d
      /\ (k = 0 -> d' = d)).
    { intros -> ->. exists []. rewrite app_nil_r. auto. }
    destruct (Nat.eqb_spec (sum (map (@length row) docs)) 0); [inv_steps S; apply Hstay; auto|].
    apply steps_bind in S. destruct S as (flat & d1 & S1 & S). inv_steps S1.
    destruct (Nat.eqb_spec (length (filter (is_outlier cents thr) flat)) 0); [inv_steps S; apply Hstay; auto|].
    apply steps_bind in S. destruct S as ((dim & new) & d1 & S1 & S). inv_steps S1. rename S1 into Hkm.
    apply concat_docs_Ok in S0. destruct S0 as (-> & Hflat).
    apply Hk in Hkm.
    2:{ apply Forall_forall. intros r Hr. apply in_concat in Hr. destruct Hr as (x & Hx & Hr).
        apply in_map_iff in Hx. destruct Hx as (y & <- & Hy). destruct Hr as [<-|[]].
        apply filter_In in Hy. rewrite Forall_forall in Hflat. apply Hflat; tauto. }
    destruct Hkm as (-> & Hnew & Hdims). cbn [fst snd] in S. rewrite Nat.eqb_refl in S.
    bnd S as u0 d1 S1. apply steps_ret in S1; destruct S1 as (_ & ->).
    bnd S as u1 d1 S1. apply steps_emit in S1; subst d1.
    bnd S as ivl d2 S1. apply steps_ask in S1. destruct S1 as (S1 & ->). apply Ok_inj in S1. subst ivl.
    revert S. dsk. rewrite (co_ivl _ _ _ _ _ _ _ _ _ _ H). cbv beta iota. rewrite map_length, seq_length, app_length.
    destruct (Nat.leb_spec (length cents) (length cents + length new)) as [_|?]; [|lia].
    intro S. bnd S as u2 d3 S1. apply steps_emit in S1; subst d3.
    bnd S as md d2 S1. apply steps_ask in S1. destruct S1 as (S1 & ->). apply Ok_inj in S1. subst md.
    revert S. dsk. rewrite (co_meta _ _ _ _ _ _ _ _ _ _ H). cbv beta iota.
    intro S. bnd S as u3 d3 S1. apply steps_emit in S1; subst d3. apply steps_ret in S. destruct S as (-> & ->).
    exists new. split; [|split; [reflexivity|split]].
    - pose proof (core_codes _ _ _ _ _ _ _ H) as Hcodes. destruct H.
      split; auto; dsk; auto.
      + destruct cents; cbn; congruence.
      + apply Forall_app; auto.
      + unfold meta_of; cbn [num_chunks nbits num_embeddings num_documents embedding_dim].
        rewrite app_length; reflexivity.
      + intros i cs Hi. eapply chunk_at_same; [|eapply co_chunks; eauto].
        unfold same_chunk; dsk; repeat split.
      + eapply Forall2_impl'; [|exact co_enc]. intros; apply enc_doc_more; auto.
      + rewrite app_length, postings_extend by auto. rewrite concat_app, concat_repeat_nil, app_nil_r; auto.
      + rewrite app_length. replace (length cents + length new - length cents) with (length new) by lia.
        f_equal. rewrite <- !(map_map (postings (concat css)) (@length Z)), postings_extend by auto.
        rewrite map_app. f_equal. clear. induction (length new); cbn; congruence.
    - unfold side; dsk; reflexivity.
    - intro E. destruct new; [congruence|discriminate].
  Qed.

  (** *** update_index *)

  Lemma start_position_core d nb cents cut wei L css pos d1 :
    core d nb cents cut wei L css ->
    steps (start_position (meta_of D nb cents L css)) d pos d1 ->
    d1 = d /\ exists start append off, pos = (start, append, off)
      /\ ((append = false /\ start = length css)
          \/ (append = true /\ exists base cs0, css = base ++ [cs0] /\ start = length base)).
  Proof.
    intros H S. unfold start_position in S. cbn [num_chunks meta_of num_embeddings] in S.
    destruct (Nat.ltb_spec 0 (length css)) as [Hpos|Hz]; [|inv_steps S; split; eauto 10].
    bnd S as lm d2 S1. apply steps_ask in S1. destruct S1 as (S1 & ->). apply Ok_inj in S1. subst lm.
    destruct (exists_last (l := css)) as (base & cs0 & E).
    { destruct css; cbn in *; [lia|discriminate]. }
    assert (El : length css - 1 = length base) by (rewrite E, app_length; cbn; lia).
    destruct (f_cmeta d (length css - 1)) as [m|]; [|inv_steps S; split; eauto 10].
    destruct (m_ndocs m <? last_chunk_limit); inv_steps S; split; auto; do 3 eexists; split; eauto.
    right; split; auto. exists base, cs0; auto.
  Qed.

  Definition upd_inv (d0 : disk) nb cents cut docs bs css start (append : bool) (i : nat) (s : upd_state) (dd : disk) : Prop :=
    rest dd = rest d0 /\ exists css_i new,
      concat css_i = concat css ++ new
      /\ Forall2 (Forall2 (encodes nb cents cut)) (firstn (i * bs) docs) new
      /\ u_codes s = map (map fst) new /\ u_doclens s = map (@length _) new
      /\ (forall j cs, nth_error css_i j = Some cs -> chunk_at dd j cs)
      /\ (i = 0 -> css_i = css) /\ (0 < i -> length css_i = start + i).

  Lemma map_fst_split (cs : list stored_doc) :
    split_codes (map (@length _) cs) (map fst (concat cs)) = map (map fst) cs.
  Proof.
    rewrite <- (split_codes_concat (map (map fst) cs)), map_map, <- concat_map.
    f_equal. apply map_ext; intro; rewrite map_length; auto.
  Qed.

  Lemma update_chunk_step d0 docs nb cents cut wei md bs css start append i s d s1 d1 :
    cents <> [] ->
    ((append = false /\ start = length css)
          \/ (append = true /\ exists base cs0, css = base ++ [cs0] /\ start = length base)) ->
    upd_inv d0 nb cents cut docs bs css start append i s d ->
    steps (update_chunk fsub dot mem docs (codec_of nb cents cut wei) md bs start append s i) d s1 d1 ->
    upd_inv d0 nb cents cut docs bs css start append (S i) s1 d1.
  Proof.
    intros Hne Hpos (HR & css_i & new & Hcat & HF & Hc & Hl & Hch & H0 & Hlen) S.
    unfold update_chunk in S.
    bnd S as chunk d2 S1. apply steps_lift in S1; destruct S1 as (Es & ->).
    bnd S as batch d2 S1. apply steps_lift in S1; destruct S1 as (Eb & ->).
    bnd S as ((codes & resid) & packed) d2 S1. apply steps_lift in S1; destruct S1 as (Ee & ->).
    apply slice_batch in Es. destruct Es as (-> & _).
    destruct (encode_docs _ _ _ _ _ _ _ _ _ _ _ _ _ Hne Eb Ee) as (cs & -> & -> & F).
    bnd S as ((dl' & codes') & packed') d2 S1.
    assert (Hcomb : exists cs', d2 = d /\ dl' = map (@length _) cs' /\ codes' = map fst (concat cs')
        /\ packed' = map snd (concat cs')
        /\ exists pre, concat pre ++ cs' = concat css_i ++ cs /\ start + i = length pre
           /\ forall j c, nth_error pre j = Some c -> nth_error css_i j = Some c).
    { rewrite (Forall2_lengths _ _ _ F) in S1.
      assert (Hplain : start + i = length css_i ->
         exists pre, concat pre ++ cs = concat css_i ++ cs /\ start + i = length pre
           /\ forall j c, nth_error pre j = Some c -> nth_error css_i j = Some c) by (intro; eauto).
      destruct (Nat.eqb_spec i 0) as [->|Hi]; cbn [andb] in S1.
      - rewrite H0 in * by auto. destruct Hpos as [(-> & ->)|(-> & base & cs0 & -> & ->)].
        + apply steps_ret in S1. destruct S1 as (E & ->). injection E as -> -> ->.
          exists cs. repeat (split; [reflexivity|]). apply Hplain; lia.
        + rewrite Nat.add_0_r in S1.
          destruct (Hch (length base) cs0 (nth_error_last _ _)) as (Cd & Cc & Cr & _).
          bnd S1 as odl d3 S2. apply steps_ask in S2; destruct S2 as (S2 & ->). apply Ok_inj in S2; subst odl.
          rewrite Cd in S1. cbv beta iota in S1.
          bnd S1 as oc d3 S2. apply steps_ask in S2; destruct S2 as (S2 & ->).
          rewrite Cc in S2; apply Ok_inj in S2; subst oc.
          bnd S1 as orr d3 S2. apply steps_ask in S2; destruct S2 as (S2 & ->).
          rewrite Cr in S2; apply Ok_inj in S2; subst orr.
          apply steps_ret in S1. destruct S1 as (E & ->). injection E as -> -> ->.
          exists (cs0 ++ cs). rewrite !concat_app, !map_app.
          repeat (split; [reflexivity|]).
          exists base. cbn [concat]. rewrite app_nil_r, app_assoc. split; auto. split; [lia|].
          intros j c Hj. rewrite nth_error_app1; auto. apply nth_error_Some; congruence.
      - apply steps_ret in S1. destruct S1 as (E & ->). injection E as -> -> ->.
        exists cs. repeat (split; [reflexivity|]). apply Hplain.
        symmetry; apply Hlen; lia. }
    clear S1. destruct Hcomb as (cs' & -> & -> & -> & -> & pre & Epre & Hg & Hsub).
    bnd S as u0 d2 S1. apply steps_emit in S1; subst d2.
    bnd S as u1 d2 S1.
    destruct (_ =? _) in S1; [|inv_steps S1; discriminate].
    apply steps_ret in S1; destruct S1 as (_ & ->).
    bnd S as u2 d2 S1. apply steps_emit in S1; subst d2.
    bnd S as u3 d2 S1. apply steps_emit in S1; subst d2.
    bnd S as u4 d2 S1. apply steps_emit in S1; subst d2.
    apply steps_ret in S; destruct S as (-> & ->).
    split; [autorewrite with rest; exact HR|].
    exists (pre ++ [cs']), (new ++ cs). cbn [u_codes u_doclens].
    rewrite concat_app; cbn [concat]; rewrite app_nil_r.
    rewrite Epre, Hcat, <- app_assoc. split; [reflexivity|].
    split; [|split; [|split; [|split; [|split]]]].
    - cbn [Nat.mul]. rewrite Nat.add_comm, firstn_add. apply Forall2_app; auto.
    - rewrite Hc, (Forall2_lengths _ _ _ F), map_fst_split, map_app. reflexivity.
    - rewrite Hl, (Forall2_lengths _ _ _ F), map_app. reflexivity.
    - intros j c Hj. apply nth_error_snoc in Hj. destruct Hj as [(Hlt & Hj)|(-> & ->)].
      + apply Hsub in Hj. eapply chunk_at_same; [|apply Hch; exact Hj].
        unfold same_chunk; dsk. rewrite !put_other by lia. repeat split.
      + rewrite <- Hg. unfold chunk_at; dsk. rewrite !put_same.
        repeat (split; [reflexivity|]). eexists. rewrite !map_length. reflexivity.
    - lia.
    - intros _. rewrite app_length; cbn; lia.
  Qed.

  Lemma old_pids_lists lists c l :
    nth_error lists c = Some l -> old_pids (concat lists) (map (@length Z) lists) c = Ok l.
  Proof.
    intro H. unfold old_pids.
    assert (c < length lists) by (apply nth_error_Some; congruence).
    rewrite (proj2 (idx_Ok _ _ _) (nth_prefix_sums 0 (map (@length Z) lists) c ltac:(rewrite map_length; lia))).
    cbn [bind Nat.add].
    assert (E : nth_error (map (@length Z) lists) c = Some (length l)) by (rewrite nth_error_map', H; auto).
    rewrite E. pose proof (slice_concat lists c l H) as Hs.
    pose proof (sum_firstn_le (map (@length Z) lists) (S c)) as Hle.
    rewrite (sum_firstn_S _ _ _ E), sum_map_length in Hle.
    destruct (Nat.ltb_spec 0 (length l)); cbn [andb].
    - destruct (Nat.leb_spec (sum (firstn c (map (@length Z) lists)) + length l) (length (concat lists))); [|lia].
      rewrite Hs; auto.
    - destruct l; auto; cbn in *; lia.
  Qed.

  Lemma merge_ivf_ok (old new : list stored_doc) K :
    merge_ivf (concat (map (postings old) (seq 0 K))) (map (fun c => length (postings old c)) (seq 0 K))
      (fold_left push_codes
         (combine (map Z.of_nat (seq (length old) (length new))) (map (map fst) new)) (fun _ => [])) K
    = Ok (map (postings (old ++ new)) (seq 0 K)).
  Proof.
    unfold merge_ivf. rewrite <- (map_map (postings old) (@length Z)).
    apply mapM_Ok_map. intros c Hc. apply in_seq in Hc.
    rewrite (old_pids_lists _ c (postings old c)).
    - cbn [bind]. f_equal. apply sort_dedup_eq; [apply postings_sinc|].
      intro x. rewrite in_app_iff, fold_push_In, !postings_In. split.
      + intros [(i & sd & -> & Hn & Hh)|[[]|(i & sd & -> & Hn & Hh)]].
        * exists i, sd. rewrite nth_error_app1 by (apply nth_error_Some; congruence). auto.
        * exists (length old + i), sd. rewrite nth_error_app2 by lia.
          replace (length old + i - length old) with i by lia. auto.
      + intros (i & sd & -> & Hn & Hh). destruct (Nat.lt_ge_cases i (length old)).
        * rewrite nth_error_app1 in Hn by lia. left; eauto.
        * rewrite nth_error_app2 in Hn by lia. right; right. exists (i - length old), sd.
          split; auto. f_equal; lia.
    - rewrite nth_error_map'. rewrite nth_error_nth' with (d := 0) by (rewrite seq_length; lia).
      rewrite seq_nth by lia. reflexivity.
  Qed.

  Lemma update_index_core docs bs ut d n d' nb cents cut wei L css :
    docs <> [] ->
    core d nb cents cut wei L css ->
    steps (update_index fsub dot mem next_threshold docs (codec_of nb cents cut wei) bs ut) d n d' ->
    exists css' new, core d' nb cents cut wei (L ++ docs) css'
      /\ concat css' = concat css ++ new /\ side d' = side d
      /\ Forall (fun r => length r = D) (concat docs).
  Proof.
    intros Hdocs H S. unfold update_index in S.
    bnd S as md d1 S1. apply steps_ask in S1. destruct S1 as (S1 & ->).
    rewrite (load_metadata_core _ _ _ _ _ _ _ _ _ _ H) in S1. apply Ok_inj in S1; subst md.
    bnd S as pos d1 S1. destruct (start_position_core _ _ _ _ _ _ _ _ _ H S1) as (-> & start & append & off & -> & Hpos).
    clear S1.
    destruct (ceil_div (length docs) bs) as [k|] eqn:Ec; [|inv_steps S; discriminate].
    apply ceil_div_spec in Ec. destruct Ec as (Hbs & Hcov & Hk0 & _).
    bnd S as s d1 S1.
    assert (HI : upd_inv d nb cents cut docs bs css start append (0 + k) s d1).
    { refine (steps_for_seq _ _ k 0 _ _ _ _ S1 _ _).
      - split; auto. exists css, []. cbn. rewrite app_nil_r.
        repeat (split; [solve [auto]|]). split; [exact (co_chunks _ _ _ _ _ _ _ _ _ _ H)|]. split; auto. lia.
      - intros i s0 d2 s1 d3 _ HI HS. eapply update_chunk_step; eauto. apply (co_ne _ _ _ _ _ _ _ _ _ _ H). }
    clear S1. destruct HI as (HR & css' & new & Hcat & HF & Hc & Hl & Hch & _ & Hlen).
    cbn [Nat.add] in *. rewrite firstn_all2 in HF by lia.
    assert (Hkpos : 0 < k) by (destruct docs; cbn in *; [congruence|lia]). specialize (Hlen Hkpos).
    bnd S as u0 d2 S1.
    assert (HR2 : exists thr, d2 = d1 \/ d2 = apply_write d1 (WThreshold thr)).
    { destruct (ut && _) in S1.
      - bnd S1 as old d3 S2. apply steps_ask in S2; destruct S2 as (_ & ->). apply steps_emit in S1. eauto.
      - apply steps_ret in S1. destruct S1 as (_ & ->). exists None; auto. }
    clear S1. destruct HR2 as (thr & HR2).
    assert (Hd2 : f_ivf d2 = f_ivf d /\ f_ivf_lengths d2 = f_ivf_lengths d /\ f_centroids d2 = f_centroids d
       /\ f_cutoffs d2 = f_cutoffs d /\ f_weights d2 = f_weights d /\ side d2 = side d
       /\ (forall j cs, nth_error css' j = Some cs -> chunk_at d2 j cs)).
    { unfold rest in HR. unfold side. destruct HR2 as [->| ->]; dsk; repeat (split; [congruence|]); auto.
      intros j cs Hj. eapply chunk_at_same; [|apply Hch; exact Hj]. unfold same_chunk; dsk; repeat split. }
    clear HR2. destruct Hd2 as (E1 & E2 & E3 & E4 & E5 & E6 & E7).
    bnd S as oivf d3 S1. apply steps_ask in S1; destruct S1 as (S1 & ->). apply Ok_inj in S1; subst oivf.
    bnd S as olen d3 S1. apply steps_ask in S1; destruct S1 as (S1 & ->). apply Ok_inj in S1; subst olen.
    rewrite E1, E2, (co_ivf _ _ _ _ _ _ _ _ _ _ H), (co_ivl _ _ _ _ _ _ _ _ _ _ H) in S.
    cbn [c_centroids IndexCore.codec_of] in S.
    bnd S as lists d3 S1. apply steps_lift in S1; destruct S1 as (S1 & ->).
    rewrite Hc, map_length in S1. cbn [num_documents meta_of] in S1.
    rewrite (core_len _ _ _ _ _ _ _ _ _ _ H), merge_ivf_ok in S1. apply Ok_inj in S1; subst lists.
    inv_steps S. rewrite <- Hcat, <- Hlen.
    assert (Hnl : length docs = length new) by (eapply Forall2_length; eauto).
    assert (Htot : length (concat (concat css)) + sum (u_doclens s) = length (concat (concat css'))).
    { rewrite Hl, sum_map_length, Hcat, concat_app, app_length. reflexivity. }
    exists css', new. destruct H. split; [|split; [|split]].
    - split; auto; dsk; try congruence.
      + unfold meta_of; cbn [num_embeddings num_documents nbits c_dim IndexCore.codec_of].
        rewrite Htot, app_length. reflexivity.
      + intros j cs Hj. eapply chunk_at_same; [|apply E7; exact Hj]. unfold same_chunk; dsk; repeat split.
      + rewrite Hcat. apply Forall2_app; auto. apply enc_docs_full; auto.
      + rewrite map_map. reflexivity.
    - auto.
    - unfold side in *; dsk. exact E6.
    - clear -HF. rewrite Forall_forall. intros r Hr. apply in_concat in Hr. destruct Hr as (dd & Hd & Hr).
      apply In_nth_error in Hd. destruct Hd as (i & Hi).
      destruct (Forall2_nth_error _ _ _ HF _ _ Hi) as (sd & _ & F2).
      apply In_nth_error in Hr. destruct Hr as (j & Hj).
      destruct (Forall2_nth_error _ _ _ F2 _ _ Hj) as (t & _ & E & _). exact E.
  Qed.
End UPDATE.
