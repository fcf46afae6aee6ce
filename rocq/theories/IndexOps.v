(** Create, update, append, delete: the full invariant and its preservation. *)
From Verif Require Import Base F32 CodecModel CodecSpec CodecProofs IndexModel IndexSpec IndexLemmas IndexDelete IndexCore IndexCreate IndexUpdate IndexDelCore.
Open Scope nat_scope.
Set Default Proof Using "Type".

Lemma complete_steps {A} (m : eff A) d a d' : complete m d = Ok (a, d') <-> steps m d a d'.
Proof.
  unfold complete, steps. destruct (m d) as (ws & r). split.
  - intro H. apply bind_Ok in H. destruct H as (b & -> & H). exists ws. split; congruence.
  - intros (ws' & H & ->). injection H as -> ->. reflexivity.
Qed.

Lemma keep_from_none {A} ids (l : list A) : forall id,
  (forall k, k < length l -> in_ids ids (id + Z.of_nat k) = false) -> keep_from ids id l = l.
Proof.
  induction l as [|x l IH]; intros id H; cbn; auto.
  pose proof (H 0 ltac:(cbn; lia)) as H0. rewrite Z.add_0_r in H0. rewrite H0.
  f_equal. apply IH. intros k Hk. specialize (H (S k) ltac:(cbn; lia)).
  replace (id + 1 + Z.of_nat k)%Z with (id + Z.of_nat (S k))%Z by lia. auto.
Qed.
Lemma keep_from_all {A} ids (l : list A) : forall id,
  (forall k, k < length l -> in_ids ids (id + Z.of_nat k) = true) -> keep_from ids id l = [].
Proof.
  induction l as [|x l IH]; intros id H; cbn; auto.
  pose proof (H 0 ltac:(cbn; lia)) as H0. rewrite Z.add_0_r in H0. rewrite H0.
  apply IH. intros k Hk. specialize (H (S k) ltac:(cbn; lia)).
  replace (id + 1 + Z.of_nat k)%Z with (id + Z.of_nat (S k))%Z by lia. auto.
Qed.
Lemma in_new_ids a n z : in_ids (new_ids a n) z = true <-> (Z.of_nat a <= z < Z.of_nat (a + n))%Z.
Proof.
  rewrite in_ids_In. unfold new_ids. rewrite in_map_iff. split.
  - intros (k & <- & Hk). apply in_seq in Hk. lia.
  - intro H. exists (Z.to_nat z). split; [lia|]. apply in_seq. lia.
Qed.
Lemma new_ids_pos a n : Forall (fun z => 0 <= z)%Z (new_ids a n).
Proof.
  apply Forall_forall; intros z Hz; unfold new_ids in Hz; apply in_map_iff in Hz.
  destruct Hz as (q & <- & _); lia.
Qed.
Lemma keep_tail {A} (X Y : list A) n : n = length X -> keep_from (new_ids n (length Y)) 0 (X ++ Y) = X.
Proof.
  intros ->. rewrite keep_from_app, keep_from_none, keep_from_all, app_nil_r; auto.
  - intros k Hk. apply in_new_ids. lia.
  - intros k Hk. destruct (in_ids _ _) eqn:E; auto. apply in_new_ids in E. lia.
Qed.

Section OPS.
  Variable fsub : f32 -> f32 -> f32.
  Variable dot : row -> row -> f32.
  Variable mem : nat.
  Variable kmeans : Z -> list doc -> res (nat * list row).
  Variable quantile_at : list row -> list doc -> nat -> nat -> f32.
  Variable threshold_of : list row -> list doc -> f32.
  Variable next_threshold : option f32 -> list row -> nat -> f32.
  Variable is_outlier : list row -> f32 -> row -> bool.
  Variable D : nat.
  Notation core := (core fsub dot D).
  Notation loaded := (loaded D).

  Record inv (d : disk) nb cents cut wei (L : list doc) css (E B : list doc) : Prop := {
    in_core : core d nb cents cut wei L css;
    in_split : exists M, L = E ++ M ++ B;
    in_emb : emb_rep d E;
    in_buf : buf_rep d B;
    in_dim : dim_ok D L
  }.

  Lemma dim_ok_app X Y : dim_ok D (X ++ Y) <-> dim_ok D X /\ dim_ok D Y.
  Proof. unfold dim_ok. rewrite concat_app. apply Forall_app. Qed.
  Lemma dim_ok_keep ids id X : dim_ok D X -> dim_ok D (keep_from ids id X).
  Proof.
    unfold dim_ok. revert id; induction X as [|x X IH]; intros id H; cbn in *; auto.
    apply Forall_app in H. destruct H as (H1 & H2). specialize (IH (id + 1)%Z H2).
    destruct (in_ids ids id); cbn; auto. apply Forall_app; auto.
  Qed.

  Lemma core_no_side d d' nb cents cut wei L css :
    no_side d' = no_side d -> core d nb cents cut wei L css -> core d' nb cents cut wei L css.
  Proof.
    unfold no_side. intros H HC. apply core_same with (d := d); auto; try congruence.
    intro i. unfold same_chunk.
    assert (f_doclens d' = f_doclens d) as -> by congruence.
    assert (f_codes d' = f_codes d) as -> by congruence.
    assert (f_residuals d' = f_residuals d) as -> by congruence.
    assert (f_cmeta d' = f_cmeta d) as -> by congruence. auto.
  Qed.

  (** A successful load under the invariant gives the description. *)
  Lemma load_inv_loaded d nb cents cut wei L css x :
    core d nb cents cut wei L css -> load d = Ok x -> loaded x nb cents cut wei L css.
  Proof.
    intros H S. destruct (concat (concat css)) as [|t ts] eqn:Et.
    - exfalso. unfold load in S.
      rewrite (load_metadata_core _ _ _ _ _ _ _ _ _ _ H), (load_codec_core _ _ _ _ _ _ _ _ _ _ H) in S.
      cbn [bind] in S. rewrite (co_ivf _ _ _ _ _ _ _ _ _ _ H), (co_ivl _ _ _ _ _ _ _ _ _ _ H) in S. cbn [need bind] in S.
      apply bind_Ok in S. destruct S as (dls & _ & S). cbv zeta in S.
      apply bind_Ok in S. destruct S as (codes & S & _). unfold merge_chunks in S.
      change (num_chunks (meta_of D nb cents L css)) with (length css) in S.
      rewrite (map_seq_nth _ (fun cs : list stored_doc => map fst (concat cs))) in S.
      2:{ intros i cs Hi. destruct (co_chunks _ _ _ _ _ _ _ _ _ _ H i cs Hi) as (_ & -> & _). reflexivity. }
      rewrite concat_map_concat, Et in S. discriminate.
    - destruct (Nat.eq_dec (D * nb / 8) 0) as [E0|E0].
      + exfalso. unfold load in S.
        rewrite (load_metadata_core _ _ _ _ _ _ _ _ _ _ H), (load_codec_core _ _ _ _ _ _ _ _ _ _ H) in S.
        cbn [bind] in S. rewrite (co_ivf _ _ _ _ _ _ _ _ _ _ H), (co_ivl _ _ _ _ _ _ _ _ _ _ H) in S. cbn [need bind] in S.
        apply bind_Ok in S. destruct S as (dls & _ & S). cbv zeta in S.
        apply bind_Ok in S. destruct S as (codes & _ & S).
        change (c_dim (codec_of D nb cents cut wei)) with D in S. change (nbits (meta_of D nb cents L css)) with nb in S.
        rewrite E0 in S. cbn in S. discriminate.
      + destruct (load_core fsub dot D d nb cents cut wei L css H) as (y & Ey & Hy); [congruence|auto|].
        assert (x = y) by congruence. subst; auto.
  Qed.

  (** An index with at least one token opens. *)
  Lemma load_total d nb cents cut wei L css :
    core d nb cents cut wei L css -> concat L <> [] ->
    exists x, load d = Ok x /\ loaded x nb cents cut wei L css.
  Proof.
    intros H Hne.
    pose proof (co_enc _ _ _ _ _ _ _ _ _ _ H) as F.
    assert (HF : exists r sd k, 1 <= k <= length cents /\ encodes fsub dot D nb (firstn k cents) cut r sd /\ In sd (concat (concat css))).
    { revert F Hne. generalize (concat css) as sds. intros sds F. clear H. induction F as [|doc sd L l (k & Hk & Hd) F IH]; intro Hne.
      - cbn in Hne; congruence.
      - destruct Hd as [|r t doc sd Ht Hd].
        + cbn in Hne. destruct (IH Hne) as (r & sd & k' & Hk' & He & Hin). exists r, sd, k'. auto.
        + exists r, t, k. split; auto. split; auto. cbn. auto. }
    destruct HF as (r & sd & k & Hk & (Hl & Ha & Hq) & Hin).
    apply load_core with (fsub := fsub) (dot := dot); auto.
    - intro E. rewrite E in Hin. destruct Hin.
    - pose proof (co_nb _ _ _ _ _ _ _ _ _ _ H) as Hn. pose proof (co_D _ _ _ _ _ _ _ _ _ _ H) as HD.
      pose proof (co_dims _ _ _ _ _ _ _ _ _ _ H) as Hdims.
      assert (Hcl : length (nth (fst sd) (firstn k cents) []) = D).
      { apply argmax_lt in Ha. rewrite map_length, firstn_length in Ha.
        rewrite nth_firstn by lia. rewrite Forall_forall in Hdims. apply Hdims. apply nth_In. lia. }
      assert (Hsl : length (sub_row fsub r (nth (fst sd) (firstn k cents) [])) = D) by (rewrite sub_row_length; lia).
      assert (Hm : (D * nb) mod 8 = 0).
      { destruct (Nat.eq_dec ((D * nb) mod 8) 0) as [|Hx]; auto. exfalso.
        rewrite <- Hsl in Hq, Hx. rewrite quantize_row_panic in Hq; auto; [discriminate|].
        destruct Hn as [->|[->|[->| ->]]]; lia. }
      pose proof (Nat.div_mod (D * nb) 8 ltac:(lia)) as Hdm.
      assert (1 <= nb) by (destruct Hn as [->|[->|[->| ->]]]; lia). nia.
  Qed.

  (** *** Create *)
  Lemma create_kmeans_core docs g d md d' E B :
    1 <= D -> good_kmeans D kmeans -> dim_ok D docs ->
    emb_rep d E -> buf_rep d B ->
    steps (create_index_with_kmeans_files fsub dot mem kmeans quantile_at threshold_of docs g) d md d' ->
    exists cents cut wei css,
      core d' (g_nbits g) cents cut wei docs css /\ buf_rep d' B
      /\ emb_rep d' (if length docs <=? g_start_from_scratch g then docs else E) /\ docs <> []
      /\ kmeans (g_seed g) docs = Ok (D, cents)
      /\ (cut, wei) = fst (train quantile_at threshold_of (g_nbits g) cents docs)
      /\ Forall2 (Forall2 (encodes fsub dot D (g_nbits g) cents cut)) docs (concat css).
  Proof.
    intros HD Hk Hdim HE HB S. unfold create_index_with_kmeans_files in S.
    destruct (Nat.eqb_spec (length docs) 0) as [E0|Hdocs]; [inv_steps S; discriminate|].
    bnd S as cen d1 S1. apply steps_lift in S1; destruct S1 as (S1 & ->). destruct cen as (dim & cents).
    destruct (Hk _ _ _ _ Hdim S1) as (-> & Hne & Hdims).
    bnd S as m d1 S2.
    apply create_index_files_core in S2; auto.
    destruct S2 as (cut & wei & css & HC & Hside & _ & _ & Hdne & _ & HF & Htr).
    bnd S as u d2 S2. apply steps_ret in S. destruct S as (_ & ->).
    apply steps_when in S2. destruct (length docs <=? g_start_from_scratch g).
    - destruct S2 as [(_ & S2)|(F & _)]; [|discriminate].
      apply (save_emb_rep D) in S2; auto. destruct S2 as (HE' & HN & B1 & B2 & B3).
      exists cents, cut, wei, css. split; [eapply core_no_side; eauto|]. split; [|repeat (split; [assumption|]); assumption].
      apply (side_buf _ d1) in HB; auto. unfold buf_rep in *. rewrite B1, B2, B3. exact HB.
    - destruct S2 as [(F & _)|(_ & ->)]; [discriminate|].
      exists cents, cut, wei, css. split; auto. split; [eapply side_buf; eauto|].
      split; [eapply side_emb; eauto|]. repeat (split; [assumption|]); assumption.
  Qed.

  Lemma create_inv docs g x d' :
    1 <= D -> good_kmeans D kmeans -> dim_ok D docs ->
    steps (create_with_kmeans fsub dot mem kmeans quantile_at threshold_of docs g) empty_disk x d' ->
    exists cents cut wei css E,
      inv d' (g_nbits g) cents cut wei docs css E [] /\ loaded x (g_nbits g) cents cut wei docs css /\ load d' = Ok x.
  Proof.
    intros HD Hk Hdim S. unfold create_with_kmeans in S.
    bnd S as md d1 S1. apply (create_kmeans_core _ _ _ _ _ [] []) in S1; auto; try (repeat split; fail).
    destruct S1 as (cents & cut & wei & css & HC & HB & HE & Hne & _).
    apply steps_ask in S. destruct S as (S & ->).
    exists cents, cut, wei, css. eexists. split; [|split; [eapply load_inv_loaded; eauto|auto]].
    split; eauto. destruct (_ <=? _).
    - exists []. rewrite app_nil_r; auto.
    - exists docs. rewrite app_nil_r; auto.
  Qed.

  (** *** Update *)
  Definition upd_rel (nb : nat) (cents : list row) (cut wei : list f32) (L : list doc) (css : list (list stored_doc)) (B : list doc)
      (nb' : nat) (cents' : list row) (cut' wei' : list f32) (css' : list (list stored_doc)) (rebuilt : bool) : Prop :=
    if rebuilt then B = [] else
      nb' = nb /\ cut' = cut /\ wei' = wei /\ (exists new, cents' = cents ++ new)
      /\ firstn (length L - length B) (concat css') = firstn (length L - length B) (concat css).

  Notation update' := (update fsub dot mem kmeans quantile_at threshold_of next_threshold is_outlier).

  Lemma update_inv h docs g d ids x d' nb cents cut wei L css E B :
    good_kmeans D kmeans -> docs <> [] -> dim_ok D docs ->
    inv d nb cents cut wei L css E B -> h = meta_of D nb cents L css ->
    steps (update' h docs g) d (ids, x) d' ->
    exists nb' cents' cut' wei' css' E' B' rb,
      inv d' nb' cents' cut' wei' (L ++ docs) css' E' B'
      /\ loaded x nb' cents' cut' wei' (L ++ docs) css' /\ load d' = Ok x
      /\ ids = map Z.of_nat (seq (length L) (length docs))
      /\ upd_rel nb cents cut wei L css B nb' cents' cut' wei' css' rb
      /\ (rb = false -> g_buffer_size g <= length docs + length B -> B' = [])
      /\ (rb = false -> length docs + length B < g_buffer_size g -> B' = B ++ docs
            /\ cents' = cents /\ firstn (length L) (concat css') = concat css)
      /\ (rb = true -> B' = [])
      /\ (rb = true <-> (length L <= g_start_from_scratch g /\ length E = length L)).
  Proof.
    intros Hk Hdocs Hdim [HC (M & HL) HE HB HDL] -> S. unfold update in S.
    cbn [num_documents nbits meta_of] in S.
    pose proof (core_len _ _ _ _ _ _ _ _ _ _ HC) as Hlen.
    pose proof (co_D _ _ _ _ _ _ _ _ _ _ HC) as HD.
    bnd S as ex d1 S1. apply steps_ask in S1; destruct S1 as (S1 & ->). apply Ok_inj in S1; subst ex.
    unfold load_embeddings_npy in S. rewrite (files_rep_load _ _ _ HE) in S.
    destruct ((length L <=? g_start_from_scratch g) && (length E =? length L)) eqn:Epath.
    - (* rebuild *)
      apply andb_true_iff in Epath. destruct Epath as (Ea & Eb).
      apply Nat.leb_le in Ea. apply Nat.eqb_eq in Eb.
      assert (HM : M = [] /\ B = []).
      { rewrite HL, !app_length in Eb. destruct M, B; cbn in Eb; auto; lia. }
      destruct HM as (-> & ->). cbn [app] in HL. rewrite app_nil_r in HL.
      assert (HEL : E = L) by congruence. clear HL. subst E.
      bnd S as md d1 S1. apply (create_kmeans_core _ _ _ _ _ L []) in S1; auto; [|apply dim_ok_app; auto].
      destruct S1 as (cents' & cut' & wei' & css' & HC' & HB' & HE' & _). cbn [g_nbits g_start_from_scratch] in *.
      bnd S as y d2 S1. apply steps_ask in S1; destruct S1 as (Sl & ->).
      bnd S as has d2 S1. apply steps_ask in S1; destruct S1 as (S1 & ->). apply Ok_inj in S1; subst has.
      bnd S as u d2 S1. apply steps_ret in S. destruct S as (E1 & ->). injection E1 as -> ->.
      apply steps_when in S1.
      assert (HE2 : exists E', emb_rep d2 E' /\ buf_rep d2 [] /\ no_side d2 = no_side d1
                /\ (E' = L ++ docs \/ E' = [])).
      { destruct (Nat.leb_spec (length (L ++ docs)) (g_start_from_scratch g)) as [Hle|Hgt].
        - destruct S1 as [(F & _)|(_ & ->)].
          + apply andb_true_iff in F. destruct F as (F & _). apply Nat.ltb_lt in F. lia.
          + exists (L ++ docs). auto.
        - destruct S1 as [(F & S1)|(F & ->)].
          + apply clear_emb_rep in S1. destruct S1 as (HEd & HN & B1 & B2 & B3).
            exists []. split; auto. split; auto. unfold buf_rep in *. rewrite B1, B2, B3; auto.
          + assert (Eg : g_start_from_scratch g <? length (L ++ docs) = true) by (apply Nat.ltb_lt; lia).
            rewrite Eg in F. cbn [andb] in F.
            assert (HL0 : L = []).
            { unfold emb_rep, files_rep in HE'. destruct L; auto. destruct HE' as (F1 & _). rewrite F1 in F. discriminate. }
            exists []. rewrite HL0 in HE'. auto. }
      destruct HE2 as (E' & HEd & HBd & HN & HEE).
      pose proof (core_no_side _ _ _ _ _ _ _ _ HN HC') as HC2.
      exists nb, cents', cut', wei', css', E', [], true.
      split.
      { split; auto.
        - destruct HEE as [->| ->].
          + exists []. rewrite !app_nil_r; auto.
          + exists (L ++ docs). rewrite app_nil_r; auto.
        - apply dim_ok_app; auto. }
      assert (Hload : load d2 = load d1).
      { unfold no_side in HN. unfold load, load_metadata, load_codec.
        assert (f_meta d2 = f_meta d1) as -> by congruence.
        assert (f_doclens d2 = f_doclens d1) as -> by congruence.
        assert (f_centroids d2 = f_centroids d1) as -> by congruence.
        assert (f_cutoffs d2 = f_cutoffs d1) as -> by congruence.
        assert (f_weights d2 = f_weights d1) as -> by congruence.
        assert (f_ivf d2 = f_ivf d1) as -> by congruence.
        assert (f_ivf_lengths d2 = f_ivf_lengths d1) as -> by congruence.
        assert (f_codes d2 = f_codes d1) as -> by congruence.
        assert (f_residuals d2 = f_residuals d1) as -> by congruence. reflexivity. }
      split; [exact (load_inv_loaded _ _ _ _ _ _ _ _ HC' Sl)|]. split; [congruence|].
      split; [reflexivity|]. split; [reflexivity|].
      split; [discriminate|]. split; [discriminate|]. split; [auto|]. split; auto.
    - (* buffered or expansion *)
      assert (Hnot : ~ (length L <= g_start_from_scratch g /\ length E = length L)).
      { intros (F1 & F2). apply Nat.leb_le in F1. apply Nat.eqb_eq in F2. rewrite F1, F2 in Epath. discriminate. }
      bnd S as buf d1 S1. apply steps_ask in S1; destruct S1 as (S1 & ->). apply Ok_inj in S1; subst buf.
      pose proof HB as (HBf & HBi).
      unfold load_buffer in S. rewrite (files_rep_load _ _ _ HBf) in S.
      bnd S as c d1 S1. apply steps_ask in S1; destruct S1 as (S1 & ->).
      rewrite (load_codec_core _ _ _ _ _ _ _ _ _ _ HC) in S1. apply Ok_inj in S1; subst c.
      bnd S as start d9 Smain.
      bnd S as y d10 S1. apply steps_ask in S1; destruct S1 as (Sl & ->).
      apply steps_ret in S. destruct S as (E1 & ->). injection E1 as -> ->.
      assert (HLB : length L - length B = length (E ++ M)).
      { rewrite HL, app_assoc, (app_length (E ++ M) B). lia. }
      destruct (Nat.leb_spec (g_buffer_size g) (length docs + length B)) as [Hflush|Hbuf].
      + (* expansion *)
        bnd Smain as nbuf d1 S1. apply steps_ask in S1; destruct S1 as (S1 & ->). apply Ok_inj in S1; subst nbuf.
        rewrite (buf_rep_info _ _ HB) in Smain.
        bnd Smain as h' d1 S1.
        assert (HA : exists css1, core d1 nb cents cut wei (E ++ M) css1 /\ side d1 = side d
                  /\ h' = meta_of D nb cents (E ++ M) css1
                  /\ concat css1 = firstn (length (E ++ M)) (concat css)).
        { destruct B as [|b B'].
          - cbn [length Nat.ltb Nat.leb andb] in S1. apply steps_ret in S1. destruct S1 as (-> & ->).
            rewrite app_nil_r in HL. exists css. rewrite <- HL. split; auto. split; auto. split; auto.
            rewrite Hlen, firstn_all; auto.
          - set (B := b :: B') in *.
            assert (0 <? length B = true) as Hb by reflexivity. rewrite Hb in S1.
            assert (length B <=? length L = true) as Hbl.
            { apply Nat.leb_le. rewrite HL, !app_length. lia. }
            rewrite Hbl in S1. cbn [andb] in S1.
            bnd S1 as k d2 S2. apply steps_ask in S1. destruct S1 as (S1 & ->).
            destruct (delete_core fsub dot D _ _ _ _ _ _ _ _ _ _ _ (new_ids_pos _ _) HC S2) as (css1 & d3 & HC3 & Hcat & Hside & _ & _ & S4).
            apply steps_ret in S4. destruct S4 as (_ & ->).
            rewrite HLB in HC3, Hcat.
            assert (HkL : keep_from (new_ids (length (E ++ M)) (length B)) 0 L = E ++ M).
            { rewrite HL, app_assoc. apply keep_tail; auto. }
            rewrite HkL in HC3.
            exists css1. split; auto. split; auto.
            split; [rewrite (load_metadata_core _ _ _ _ _ _ _ _ _ _ HC3) in S1; congruence|].
            rewrite Hcat.
            assert (Hsplit : concat css = firstn (length (E ++ M)) (concat css) ++ skipn (length (E ++ M)) (concat css))
              by (symmetry; apply firstn_skipn).
            assert (Hl1 : length (firstn (length (E ++ M)) (concat css)) = length (E ++ M)).
            { rewrite firstn_length, <- Hlen, HL, app_assoc, (app_length (E ++ M)). lia. }
            rewrite Hsplit at 1.
            replace (length B) with (length (skipn (length (E ++ M)) (concat css))).
            2:{ rewrite skipn_length, <- Hlen, HL, app_assoc, (app_length (E ++ M)). lia. }
            apply keep_tail. auto. }
        clear S1. destruct HA as (css1 & HC1 & Hs1 & -> & Hcat1).
        bnd Smain as thr d2 S1. apply steps_ask in S1; destruct S1 as (S1 & ->). apply Ok_inj in S1; subst thr.
        bnd Smain as c' d2 S1.
        assert (HA : exists new, core d2 nb (cents ++ new) cut wei (E ++ M) css1 /\ side d2 = side d
                   /\ c' = codec_of D nb (cents ++ new) cut wei).
        { destruct (f_threshold d1) as [t|].
          - bnd S1 as k d3 S2.
            destruct (update_centroids_core fsub dot kmeans is_outlier D _ _ _ _ _ _ _ _ _ _ _ _ Hk HC1 S2)
              as (new & HC2 & -> & Hs2 & Hz).
            exists new. destruct (Nat.ltb_spec 0 (length new)) as [Hp|Hp].
            + apply steps_ask in S1. destruct S1 as (S1 & ->). split; auto. split; [congruence|].
              rewrite (load_codec_core _ _ _ _ _ _ _ _ _ _ HC2) in S1. congruence.
            + apply steps_ret in S1. destruct S1 as (-> & ->). split; auto. split; [congruence|].
              destruct new; [rewrite app_nil_r; auto|cbn in Hp; lia].
          - apply steps_ret in S1. destruct S1 as (-> & ->). exists []. rewrite app_nil_r. auto. }
        clear S1. destruct HA as (new & HC2 & Hs2 & ->).
        bnd Smain as u d3 S1. apply clear_buffer_rep in S1. destruct S1 as (HB3 & HN3 & HE3a & HE3b).
        pose proof (core_no_side _ _ _ _ _ _ _ _ HN3 HC2) as HC3.
        bnd Smain as n d4 S1. apply steps_ret in Smain. destruct Smain as (-> & ->).
        assert (HBd : B ++ docs <> []) by (destruct B; cbn; [auto|discriminate]).
        destruct (update_index_core fsub dot mem next_threshold D _ _ _ _ _ _ _ _ _ _ _ _ HBd HC3 S1) as (css' & newd & HC4 & Hcat4 & Hs4 & _).
        clear S1.
        assert (HL' : (E ++ M) ++ B ++ docs = L ++ docs) by (rewrite HL, !app_assoc; auto).
        rewrite HL' in HC4.
        assert (HE4 : emb_rep d4 E).
        { apply (side_emb d3); auto. unfold emb_rep. rewrite HE3a, HE3b.
          apply (side_emb d d2); auto. }
        exists nb, (cents ++ new), cut, wei, css', E, [], false.
        split.
        { split; auto.
          - exists (M ++ B ++ docs). rewrite app_nil_r, <- HL', !app_assoc; auto.
          - eapply side_buf; eauto.
          - apply dim_ok_app; auto. }
        split; [exact (load_inv_loaded _ _ _ _ _ _ _ _ HC4 Sl)|]. split; [auto|].
        split.
        { unfold new_ids. cbn [num_documents meta_of]. f_equal. f_equal.
          rewrite HL, !app_length; lia. }
        split.
        { split; auto. split; auto. split; auto. split; [eauto|].
          assert (Hl1 : length (concat css1) = length (E ++ M)) by (symmetry; eapply core_len; eauto).
          rewrite HLB, Hcat4, <- Hl1, firstn_app_exact. congruence. }
        split; [auto|]. split; [intros; lia|]. split; [discriminate|]. split; [discriminate|]. intro; contradiction.
      + (* buffered *)
        bnd Smain as u d1 S1. apply (save_buffer_rep D) in S1.
        2:{ apply dim_ok_app. split; auto. rewrite HL in HDL. apply dim_ok_app in HDL. destruct HDL as (_ & HDL).
            apply dim_ok_app in HDL. tauto. }
        2:{ destruct B; cbn; [auto|discriminate]. }
        destruct S1 as (HB1 & HN1 & HE1a & HE1b).
        pose proof (core_no_side _ _ _ _ _ _ _ _ HN1 HC) as HC1.
        bnd Smain as n d2 S1. apply steps_ret in Smain. destruct Smain as (-> & ->).
        destruct (update_index_core fsub dot mem next_threshold D _ _ _ _ _ _ _ _ _ _ _ _ Hdocs HC1 S1)
          as (css' & newd & HC2 & Hcat2 & Hs2 & _).
        exists nb, cents, cut, wei, css', E, (B ++ docs), false.
        split.
        { split; auto.
          - exists M. rewrite HL, !app_assoc; auto.
          - apply (side_emb d1); auto. unfold emb_rep in *. rewrite HE1a, HE1b. auto.
          - eapply side_buf; eauto.
          - apply dim_ok_app; auto. }
        split; [exact (load_inv_loaded _ _ _ _ _ _ _ _ HC2 Sl)|]. split; [auto|].
        split; [reflexivity|].
        split.
        { split; auto. split; auto. split; auto. split; [exists []; rewrite app_nil_r; auto|].
          rewrite Hcat2, firstn_app_le; auto. rewrite <- Hlen. lia. }
        split; [intros; lia|].
        split; [intros _ _; split; auto; split; auto; rewrite Hlen, Hcat2, firstn_app_exact; auto|].
        split; [discriminate|]. split; [discriminate|]. intro; contradiction.
  Qed.

  Lemma append_inv docs g d ids d' nb cents cut wei L css E :
    docs <> [] -> dim_ok D docs ->
    inv d nb cents cut wei L css E [] ->
    steps (update_append fsub dot mem next_threshold docs g) d ids d' ->
    exists css' new, inv d' nb cents cut wei (L ++ docs) css' E []
      /\ ids = map Z.of_nat (seq (length L) (length docs)) /\ concat css' = concat css ++ new.
  Proof.
    intros Hdocs Hdim [HC (M & HL) HE HB HDL] S. unfold update_append in S.
    bnd S as md d1 S1. apply steps_ask in S1; destruct S1 as (S1 & ->).
    rewrite (load_metadata_core _ _ _ _ _ _ _ _ _ _ HC) in S1. apply Ok_inj in S1; subst md.
    bnd S as c d1 S1. apply steps_ask in S1; destruct S1 as (S1 & ->).
    rewrite (load_codec_core _ _ _ _ _ _ _ _ _ _ HC) in S1. apply Ok_inj in S1; subst c.
    bnd S as n d1 S1. apply steps_ret in S. destruct S as (-> & ->).
    destruct (update_index_core fsub dot mem next_threshold D _ _ _ _ _ _ _ _ _ _ _ _ Hdocs HC S1)
      as (css' & newd & HC2 & Hcat2 & Hs2 & _).
    exists css', newd. split; [|split; auto].
    split; auto.
    - exists (M ++ docs). rewrite HL, !app_nil_r, app_assoc. auto.
    - eapply side_emb; eauto.
    - eapply side_buf; eauto.
    - apply dim_ok_app; auto.
  Qed.

  Lemma delete_inv ids d n d' nb cents cut wei L css E B :
    Forall (fun z => 0 <= z)%Z ids ->
    inv d nb cents cut wei L css E B ->
    steps (delete_from_index_impl ids true) d n d' ->
    exists css' E' B', inv d' nb cents cut wei (delete_positions ids L) css' E' B'
      /\ n = length L - length (delete_positions ids L)
      /\ concat css' = delete_positions ids (concat css)
      /\ (B = [] -> B' = []).
  Proof.
    intros Hids [HC (M & HL) HE HB HDL] S.
    destruct (delete_core fsub dot D _ _ _ _ _ _ _ _ _ _ _ Hids HC S)
      as (css' & d1 & HC1 & Hcat & Hs1 & _ & Hn & S1).
    apply steps_when in S1. destruct S1 as [(_ & S1)|(F & _)]; [|discriminate].
    apply (side_emb _ d1) in HE; auto. apply (side_buf _ d1) in HB; auto.
    destruct (clean_rep _ _ _ _ _ _ _ HE HB S1) as (HE' & HB' & HN').
    rewrite !delete_positions_keep.
    eexists css', _, _. split; [|split; [exact Hn|split; [exact Hcat|]]].
    - split; [eapply core_no_side; eauto| |exact HE'|exact HB'|apply dim_ok_keep; auto].
      exists (keep_from ids (Z.of_nat (length E)) M).
      rewrite HL at 1. rewrite !keep_from_app. rewrite Z.add_0_l. do 3 f_equal.
      rewrite HL, !app_length. lia.
    - intros ->. reflexivity.
  Qed.

  (** *** Histories *)
  Notation exec' := (exec fsub dot mem kmeans quantile_at threshold_of next_threshold is_outlier).
  Notation exec_all' := (exec_all fsub dot mem kmeans quantile_at threshold_of next_threshold is_outlier).

  Definition good (fresh pending : bool) (s : disk * metadata) (L : list doc) : Prop :=
    exists nb cents cut wei css E B,
      inv (fst s) nb cents cut wei L css E B
      /\ (fresh = true -> snd s = meta_of D nb cents L css)
      /\ (pending = false -> B = []).

  Lemma exec_all_good more ops : forall fresh pending s L outs s',
    good_kmeans D kmeans ->
    good fresh pending s L -> Forall (op_ok D) ops -> disciplined fresh pending (ops ++ more) ->
    exec_all' s ops = Ok (outs, s') ->
    outs = fst (spec_ops L ops) /\ exists fr pe, good fr pe s' (snd (spec_ops L ops)) /\ disciplined fr pe more.
  Proof.
    induction ops as [|o ops IH]; intros fresh pending s L outs s' Hk HG Hok Hdisc S.
    - cbn in S. injection S as <- <-. cbn. eauto.
    - cbn [exec_all] in S. apply bind_Ok in S. destruct S as ((out & s1) & S1 & S).
      apply bind_Ok in S. destruct S as ((outs1 & s2) & S2 & S). injection S as <- <-.
      inversion Hok as [|? ? Ho Hok']; subst.
      assert (Hstep : out = fst (spec_op L o) /\ exists fr pe, good fr pe s1 (snd (spec_op L o)) /\ disciplined fr pe (ops ++ more)).
      { destruct s as (d & h). destruct HG as (nb & cents & cut & wei & css & E & B & HI & Hfresh & Hpend).
        cbn [fst snd] in *. destruct o as [docs g|docs g|ids|]; cbn [exec spec_op op_ok disciplined fst snd app] in *.
        - destruct Hdisc as (-> & Hdisc). destruct Ho as (Hne & Hdim).
          apply bind_Ok in S1. destruct S1 as (((ids & x) & d') & S1 & E1). injection E1 as <- <-.
          apply complete_steps in S1.
          destruct (update_inv _ _ _ _ _ _ _ _ _ _ _ _ _ _ _ Hk Hne Hdim HI (Hfresh eq_refl) S1)
            as (nb' & cents' & cut' & wei' & css' & E' & B' & rb & HI' & Hx & Hl & -> & _ & HB1 & HB2 & HB3 & _).
          split; auto. exists true, (length docs <? g_buffer_size g). split; auto.
          exists nb', cents', cut', wei', css', E', B'. split; auto.
          split; [intros _; apply Hx|]. intro Hp. apply Nat.ltb_ge in Hp.
          destruct rb; [auto|apply HB1; auto; lia].
        - destruct Hdisc as (-> & Hdisc). destruct Ho as (Hne & Hdim).
          specialize (Hpend eq_refl). subst B.
          apply bind_Ok in S1. destruct S1 as ((ids & d') & S1 & E1). injection E1 as <- <-.
          apply complete_steps in S1.
          destruct (append_inv _ _ _ _ _ _ _ _ _ _ _ _ Hne Hdim HI S1) as (css' & new & HI' & -> & _).
          split; auto. exists false, false. split; auto.
          exists nb, cents, cut, wei, css', E, []. split; auto. split; [discriminate|auto].
        - apply bind_Ok in S1. destruct S1 as ((n & d') & S1 & E1). injection E1 as <- <-.
          apply complete_steps in S1.
          destruct (delete_inv _ _ _ _ _ _ _ _ _ _ _ _ Ho HI S1) as (css' & E' & B' & HI' & -> & _ & HB').
          split; auto. exists false, pending. split; auto.
          exists nb, cents, cut, wei, css', E', B'. split; auto. split; [discriminate|auto].
        - apply bind_Ok in S1. destruct S1 as (x & S1 & E1). injection E1 as <- <-.
          split; auto. exists true, pending. split; auto.
          exists nb, cents, cut, wei, css, E, B. split; auto. split; auto.
          intros _. cbn. apply (load_inv_loaded _ _ _ _ _ _ _ _ (in_core _ _ _ _ _ _ _ _ _ HI) S1). }
      destruct Hstep as (-> & fr & pe & HG' & Hd').
      destruct (IH _ _ _ _ _ _ Hk HG' Hok' Hd' S2) as (-> & HG2).
      cbn [spec_ops]. destruct (spec_op L o) as (out & L'). cbn [fst snd] in *.
      destruct (spec_ops L' ops) as (outs' & L''). cbn [fst snd] in *. auto.
  Qed.

  Lemma history_good more docs0 g0 ops outs s :
    1 <= D -> good_kmeans D kmeans -> dim_ok D docs0 -> Forall (op_ok D) ops -> disciplined true false (ops ++ more) ->
    history fsub dot mem kmeans quantile_at threshold_of next_threshold is_outlier docs0 g0 ops = Ok (outs, s) ->
    outs = fst (spec_ops docs0 ops)
    /\ exists fr pe, good fr pe s (snd (spec_ops docs0 ops)) /\ disciplined fr pe more.
  Proof.
    intros HD Hk Hdim Hok Hdisc S. unfold history in S.
    apply bind_Ok in S. destruct S as ((x & d) & S1 & S). apply complete_steps in S1.
    destruct (create_inv _ _ _ _ HD Hk Hdim S1) as (cents & cut & wei & css & E & HI & Hx & _).
    eapply exec_all_good; eauto. exists (g_nbits g0), cents, cut, wei, css, E, [].
    split; auto. split; auto. intros _. apply Hx.
  Qed.
End OPS.
