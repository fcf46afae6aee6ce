(** Crash points of the operations of a reached index. *)
From Verif Require Import Base F32 CodecModel CodecSpec CodecProofs IndexModel IndexSpec IndexLemmas IndexCore IndexCreate IndexUpdate IndexDelete IndexDelCore IndexOps IndexAccess IndexCrash CrashSpec.
From Verif Require SyncProofs.
Open Scope nat_scope.
Set Default Proof Using "Type".

Lemma partway_tail {A B} (P : disk -> Prop) (m : eff A) (k : A -> eff B) d :
  partway P m d -> (forall a d', steps m d a d' -> exists b, k a d' = ([], Ok b)) -> partway P (bindE m k) d.
Proof.
  intros H K n. specialize (H n). unfold bindE, steps in *. destruct (m d) as (ws, r). cbn [fst snd] in *.
  destruct r as [a| |]; cbn [fst snd]; [|intros _; apply H; right; intros a; discriminate..].
  destruct (K a _ (ex_intro _ ws (conj eq_refl eq_refl))) as (b & ->). cbn [fst snd]. rewrite app_nil_r.
  intros [Hn|Hn]; [auto|]. exfalso. apply (Hn b). reflexivity.
Qed.

Lemma load_Ok_nonzero fsub dot D d nb cents cut wei L css x :
  core fsub dot D d nb cents cut wei L css -> load d = Ok x -> concat (concat css) <> [] /\ D * nb / 8 <> 0.
Proof.
  intros H Hl. unfold load in Hl.
  rewrite (load_metadata_core _ _ _ _ _ _ _ _ _ _ H), (load_codec_core _ _ _ _ _ _ _ _ _ _ H) in Hl.
  cbn [bind] in Hl. rewrite (co_ivf _ _ _ _ _ _ _ _ _ _ H), (co_ivl _ _ _ _ _ _ _ _ _ _ H) in Hl. cbn [need bind] in Hl.
  apply bind_Ok in Hl. destruct Hl as (dls & _ & Hl). cbv zeta in Hl.
  apply bind_Ok in Hl. destruct Hl as (codes & Hc & Hl). unfold merge_chunks in Hc.
  change (num_chunks (meta_of D nb cents L css)) with (length css) in Hc.
  rewrite (map_seq_nth _ (fun cs : list stored_doc => map fst (concat cs))) in Hc.
  2:{ intros i cs Hi. destruct (co_chunks _ _ _ _ _ _ _ _ _ _ H i cs Hi) as (_ & -> & _). reflexivity. }
  rewrite concat_map_concat in Hc. split.
  - intro E. rewrite E in Hc. discriminate.
  - intro E. change (c_dim (codec_of D nb cents cut wei)) with D in Hl. change (nbits (meta_of D nb cents L css)) with nb in Hl.
    rewrite E in Hl. cbn in Hl. discriminate.
Qed.

Section UPDATE.
  Variable V : env.
  Variable D : nat.
  Notation fsub := (v_fsub V). Notation dot := (v_dot V). Notation mem := (v_mem V).
  Notation kmeans := (v_kmeans V). Notation is_outlier := (v_outlier V). Notation next_threshold := (v_next V).
  Notation inv' := (inv fsub dot D).
  Notation kept' := (kept D).

  Lemma save_buffer_kept docs d nb cents cut wei n css :
    kept' false nb cents cut wei n css d ->
    always (fun d' => kept' false nb cents cut wei n css d' /\ f_cmeta d' = f_cmeta d) (save_buffer docs) d.
  Proof.
    intro H. unfold save_buffer. destruct docs; [alw; auto|].
    apply always_bind; [alw; auto|intros flat d1 S1; apply steps_lift in S1; destruct S1 as (_ & ->)].
    assert (G : forall d w, kept' false nb cents cut wei n css d -> harmless (length css) w ->
      match w with WCMeta _ _ => False | _ => True end ->
      kept' false nb cents cut wei n css (apply_write d w) /\ f_cmeta (apply_write d w) = f_cmeta d).
    { intros d0 w H0 Hw Hc. split; [apply kept_harmless; auto|]. rewrite ap_cmeta. destruct w; auto. contradiction. }
    destruct (G d (WBuffer (Some flat)) H I I) as (H1 & C1).
    apply always_bind; [apply always_emit; auto|]. intros u d1 S1. apply steps_emit in S1. subst d1.
    match goal with |- always _ (bindE (emit ?w) _) ?d => destruct (G d w H1 I I) as (H2 & C2) end.
    apply always_bind; [apply always_emit; [auto|split; [auto|congruence]]|]. intros u2 d1 S1. apply steps_emit in S1. subst d1.
    match goal with |- always _ (emit ?w) ?d => destruct (G d w H2 I I) as (H3 & C3) end.
    apply always_emit; split; auto; congruence.
  Qed.
  Lemma clear_buffer_kept d nb cents cut wei n css :
    kept' false nb cents cut wei n css d ->
    always (fun d' => kept' false nb cents cut wei n css d' /\ f_cmeta d' = f_cmeta d) clear_buffer d.
  Proof.
    intro H. unfold clear_buffer.
    assert (G : forall d w, kept' false nb cents cut wei n css d -> harmless (length css) w ->
      match w with WCMeta _ _ => False | _ => True end ->
      kept' false nb cents cut wei n css (apply_write d w) /\ f_cmeta (apply_write d w) = f_cmeta d).
    { intros d0 w H0 Hw Hc. split; [apply kept_harmless; auto|]. rewrite ap_cmeta. destruct w; auto. contradiction. }
    destruct (G d (WBuffer None) H I I) as (H1 & C1).
    apply always_bind; [apply always_emit; auto|]. intros u d1 S1. apply steps_emit in S1. subst d1.
    match goal with |- always _ (bindE (emit ?w) _) ?d => destruct (G d w H1 I I) as (H2 & C2) end.
    apply always_bind; [apply always_emit; [auto|split; [auto|congruence]]|]. intros u2 d1 S1. apply steps_emit in S1. subst d1.
    match goal with |- always _ (emit ?w) ?d => destruct (G d w H2 I I) as (H3 & C3) end.
    apply always_emit; split; auto; congruence.
  Qed.

  Definition fullness (more : bool) (d : disk) (n : nat) : Prop :=
    more = false -> forall m, f_cmeta d (n - 1) = Some m -> last_chunk_limit <= m_ndocs m.

  Lemma append_partway more docs g d nb cents cut wei L css E B :
    inv' d nb cents cut wei L css E B -> L <> [] -> fullness more d (length css) ->
    partway (kept' more nb cents cut wei (length L) css) (update_append fsub dot mem next_threshold docs g) d.
  Proof.
    intros HI HL Hf. pose proof (core_kept _ _ _ _ _ _ _ _ _ _ (in_core _ _ _ _ _ _ _ _ _ _ _ _ HI)) as H0.
    assert (H : kept' more nb cents cut wei (length L) css d) by (destruct more; [apply kept_more|]; auto).
    unfold update_append.
    apply partway_bind; [alw; auto|intros md d1 S1; apply steps_ask in S1; destruct S1 as (_ & ->)].
    apply partway_bind; [alw; auto|intros c d1 S1; apply steps_ask in S1; destruct S1 as (_ & ->)].
    apply partway_ret. apply update_index_kept; auto. destruct L; [congruence|discriminate].
  Qed.

  Lemma update_partway more h docs g d nb cents cut wei L css E B :
    good_kmeans D kmeans -> docs <> [] -> dim_ok D docs ->
    inv' d nb cents cut wei L css E B -> h = meta_of D nb cents L css -> concat L <> [] ->
    fullness more d (length css) ->
    g_start_from_scratch g < length L \/ length E <> length L ->
    length docs + length B < g_buffer_size g \/ B = [] ->
    partway (kept' more nb cents cut wei (length L) css)
      (update fsub dot mem kmeans (v_quantile V) (v_threshold V) next_threshold is_outlier h docs g) d.
  Proof.
    intros Hk Hdocs Hdim HI -> HLt Hf Hnr Hb.
    destruct HI as [HC (M & HL) HE HB HDL].
    pose proof (core_kept _ _ _ _ _ _ _ _ _ _ HC) as H0.
    assert (HL0 : length L <> 0) by (destruct L; [cbn in HLt; congruence|discriminate]).
    assert (HLd : concat (L ++ docs) <> []).
    { rewrite concat_app. destruct (concat L); [congruence|discriminate]. }
    assert (H : kept' more nb cents cut wei (length L) css d) by (destruct more; [apply kept_more|]; auto).
    unfold update. cbn [num_documents nbits meta_of].
    apply partway_bind; [alw; auto|intros ex d1 S1; apply steps_ask in S1; destruct S1 as (S1 & ->)].
    apply Ok_inj in S1. subst ex. unfold load_embeddings_npy. rewrite (files_rep_load _ _ _ HE).
    assert ((length L <=? g_start_from_scratch g) && (length E =? length L) = false) as ->.
    { apply andb_false_iff. destruct Hnr as [Hn|Hn]; [left; apply Nat.leb_gt; lia|right; apply Nat.eqb_neq; auto]. }
    apply partway_bind; [alw; auto|intros buf d1 S1; apply steps_ask in S1; destruct S1 as (S1 & ->)].
    apply Ok_inj in S1. subst buf. pose proof HB as (HBf & _). unfold load_buffer. rewrite (files_rep_load _ _ _ HBf).
    apply partway_bind; [alw; auto|intros c d1 S1; apply steps_ask in S1; destruct S1 as (S1 & ->)].
    rewrite (load_codec_core _ _ _ _ _ _ _ _ _ _ HC) in S1. apply Ok_inj in S1. subst c.
    assert (Hgen : forall d', kept' false nb cents cut wei (length L) css d' /\ f_cmeta d' = f_cmeta d -> kept' more nb cents cut wei (length L) css d').
    { intros d' (K & _). destruct more; [apply kept_more|]; auto. }
    apply partway_tail.
    - destruct (Nat.leb_spec (g_buffer_size g) (length docs + length B)) as [Hflush|Hbuf].
      + destruct Hb as [Hb|Hb]; [lia|]. subst B.
        apply partway_bind; [alw; auto|intros nbuf d1 S1; apply steps_ask in S1; destruct S1 as (S1 & ->)].
        apply Ok_inj in S1. subst nbuf. rewrite (buf_rep_info _ _ HB). change (0 <? length (@nil doc)) with false. cbn [andb app].
        apply partway_bind; [alw; auto|intros h' d1 S1; apply steps_ret in S1; destruct S1 as (_ & ->)].
        apply partway_bind; [alw; auto|intros thr d1 S1; apply steps_ask in S1; destruct S1 as (S1 & ->)].
        match goal with |- partway _ (bindE ?m _) ?d =>
          assert (Hm : always (fun d' => kept' false nb cents cut wei (length L) css d' /\ f_cmeta d' = f_cmeta d) m d) end.
        { destruct thr as [t|]; [|alw; auto].
          pose proof (update_centroids_kept kmeans is_outlier D docs t g d nb cents cut wei (length L) css H0) as Hu.
          apply always_bind; [exact Hu|]. intros k d1 S2. pose proof (always_steps _ _ _ _ _ Hu S2) as H1.
          destruct (0 <? k); alw; exact H1. }
        apply partway_bind; [exact (always_weaken _ _ _ _ Hgen Hm)|].
        intros c' d1 S2. pose proof (always_steps _ _ _ _ _ Hm S2) as (H1 & C1). clear S2 Hm S1.
        pose proof (clear_buffer_kept d1 nb cents cut wei (length L) css H1) as Hc.
        rewrite C1 in Hc.
        apply partway_bind; [exact (always_weaken _ _ _ _ Hgen Hc)|].
        intros u d2 S2. pose proof (always_steps _ _ _ _ _ Hc S2) as (H2 & C2). clear S2 Hc.
        apply partway_ret. apply update_index_kept; auto. rewrite C2. exact Hf.
      + pose proof (save_buffer_kept (B ++ docs) d nb cents cut wei (length L) css H0) as Hs.
        apply partway_bind; [exact (always_weaken _ _ _ _ Hgen Hs)|].
        intros u d2 S2. pose proof (always_steps _ _ _ _ _ Hs S2) as (H2 & C2). clear S2 Hs.
        apply partway_ret. apply update_index_kept; auto. rewrite C2. exact Hf.
    - intros start d9 S.
      assert (Hl : exists x, load d9 = Ok x).
      { destruct (Nat.leb_spec (g_buffer_size g) (length docs + length B)) as [Hflush|Hbuf].
        - destruct Hb as [Hb|Hb]; [lia|]. subst B.
          apply steps_bind in S. destruct S as (nbuf & d1 & S1 & S). apply steps_ask in S1; destruct S1 as (S1 & ->).
          apply Ok_inj in S1. subst nbuf. rewrite (buf_rep_info _ _ HB) in S. change (0 <? length (@nil doc)) with false in S. cbn [andb app] in S.
          apply steps_bind in S. destruct S as (h' & d1 & S1 & S). apply steps_ret in S1; destruct S1 as (-> & ->).
          apply steps_bind in S. destruct S as (thr & d1 & S1 & S). apply steps_ask in S1; destruct S1 as (S1 & ->).
          apply Ok_inj in S1. subst thr.
          apply steps_bind in S. destruct S as (c' & d2 & S1 & S).
          assert (HA : exists new, core fsub dot D d2 nb (cents ++ new) cut wei L css
                     /\ c' = codec_of D nb (cents ++ new) cut wei).
          { destruct (f_threshold d) as [t|].
            - apply steps_bind in S1. destruct S1 as (k & d3 & S2 & S1).
              destruct (update_centroids_core fsub dot kmeans is_outlier D _ _ _ _ _ _ _ _ _ _ _ _ Hk HC S2)
                as (new & HC2 & -> & Hs2 & Hz).
              exists new. destruct (Nat.ltb_spec 0 (length new)) as [Hp|Hp].
              + apply steps_ask in S1. destruct S1 as (S1 & ->). split; auto.
                rewrite (load_codec_core _ _ _ _ _ _ _ _ _ _ HC2) in S1. congruence.
              + apply steps_ret in S1. destruct S1 as (-> & ->). split; auto.
                destruct new; [rewrite app_nil_r; auto|cbn in Hp; lia].
            - apply steps_ret in S1. destruct S1 as (-> & ->). exists []. rewrite app_nil_r. auto. }
          clear S1. destruct HA as (new & HC2 & ->).
          apply steps_bind in S. destruct S as (u & d3 & S1 & S).
          apply clear_buffer_rep in S1. destruct S1 as (_ & HN3 & _).
          pose proof (core_no_side _ _ _ _ _ _ _ _ _ _ _ HN3 HC2) as HC3.
          apply steps_bind in S. destruct S as (n & d4 & S1 & S). apply steps_ret in S. destruct S as (-> & ->).
          destruct (update_index_core fsub dot mem next_threshold D _ _ _ _ _ _ _ _ _ _ _ _ Hdocs HC3 S1) as (css' & newd & HC4 & _).
          destruct (load_total _ _ _ _ _ _ _ _ _ _ HC4 HLd) as (x & Hx & _). eauto.
        - apply steps_bind in S. destruct S as (u & d3 & S1 & S).
          apply (save_buffer_rep D) in S1.
          2:{ apply dim_ok_app. split; auto. rewrite HL in HDL. apply dim_ok_app in HDL. destruct HDL as (_ & HDL).
              apply dim_ok_app in HDL. tauto. }
          2:{ destruct B; cbn; [auto|discriminate]. }
          destruct S1 as (_ & HN1 & _).
          pose proof (core_no_side _ _ _ _ _ _ _ _ _ _ _ HN1 HC) as HC1.
          apply steps_bind in S. destruct S as (n & d4 & S1 & S). apply steps_ret in S. destruct S as (-> & ->).
          destruct (update_index_core fsub dot mem next_threshold D _ _ _ _ _ _ _ _ _ _ _ _ Hdocs HC1 S1) as (css' & newd & HC4 & _).
          destruct (load_total _ _ _ _ _ _ _ _ _ _ HC4 HLd) as (x & Hx & _). eauto. }
      destruct Hl as (x & Hl). eexists. unfold bindE, ask, ret, lift. rewrite Hl. reflexivity.
  Qed.
End UPDATE.

Section REACHED.
  Variable V : env.
  Variable D : nat.
  Variable docs0 : list doc.
  Variable g0 : config.
  Notation fsub := (v_fsub V). Notation dot := (v_dot V).

  Lemma reached_next ops outs d h o :
    reached V D docs0 g0 ops outs d h -> op_ok D o -> disciplined true false (ops ++ [o]) ->
    exists fr pe, good fsub dot D fr pe (d, h) (documents docs0 ops) /\ disciplined fr pe [o] /\ good_kmeans D (v_kmeans V).
  Proof.
    intros (HD & Hk & Hdim & Hok & _ & H) Ho Hdisc.
    destruct (history_good (v_fsub V) (v_dot V) (v_mem V) (v_kmeans V) (v_quantile V) (v_threshold V) (v_next V) (v_outlier V) D
       [o] docs0 g0 ops outs (d, h) HD Hk Hdim Hok Hdisc H) as (_ & fr & pe & G & Hd).
    eauto.
  Qed.

  Lemma kept_opens more d d' nb cents cut wei L css x :
    core fsub dot D d nb cents cut wei L css -> load d = Ok x -> L <> [] ->
    kept D more nb cents cut wei (length L) css d' ->
    exists x', load d' = Ok x' /\ same_documents V (length L) x x'
      /\ (more = false -> env_shows V x' L).
  Proof.
    intros HC Hx HL HK. destruct (load_Ok_nonzero _ _ _ _ _ _ _ _ _ _ _ HC Hx) as (Hne & Hw).
    pose proof (load_inv_loaded _ _ _ _ _ _ _ _ _ _ _ HC Hx) as HX.
    destruct (load_kept fsub dot D more d d' nb cents cut wei L css HC Hne Hw HL HK)
      as (x' & new & ml & mc & mr & Hl & Hnd & Hcod & Hlen & Hoff & Hco & Hre & Hml).
    pose proof (kept_reads (v_fadd V) fsub (v_norm V) dot D d nb cents cut wei L css x x' new ml mc mr HC HX Hcod Hlen Hoff Hco Hre) as Hr.
    pose proof HX as (HXm & HXc & _).
    exists x'. split; [exact Hl|]. split.
    { split; [rewrite HXm; reflexivity|]. split; [exact Hnd|]. intros i Hi. destruct (Hr i Hi) as (A & B).
      split; [exact A|]. unfold get_document_codes. cbn [mapM]. rewrite B. reflexivity. }
    intro Em. specialize (Hml Em). subst ml.
    destruct (core_shows (v_fadd V) fsub (v_norm V) dot D d nb cents cut wei L css x HC HX) as (S1 & S2 & w & c & S3 & S4 & S5).
    pose proof HX as (_ & _ & _ & _ & _ & HXl & _).
    split; [exact Hnd|]. split; [rewrite Hlen, app_nil_r, <- HXl; exact S2|].
    exists w, c. rewrite Hcod. cbn [c_weights c_cutoffs codec_of c_centroids].
    rewrite HXc in S3, S4. split; [exact S3|]. split; [exact S4|].
    intros i dd Hi. destruct (S5 i dd Hi) as (n & e & Hn & He & Hf).
    rewrite HXc in Hn, Hf. cbn [c_centroids codec_of] in Hn, Hf.
    exists n, e. split; [rewrite app_length; lia|]. split.
    - rewrite <- He. apply Hr. apply nth_error_Some. congruence.
    - rewrite firstn_app_le by lia. exact Hf.
  Qed.

  Lemma crash_keeps ops outs d h o x k :
    reached V D docs0 g0 ops outs d h -> op_ok D o -> disciplined true false (ops ++ [o]) ->
    load d = Ok x -> adds_in_place d (length (documents docs0 ops)) o ->
    exists x', load (stopped V (d, h) o k) = Ok x'
      /\ (same_documents V (length (documents docs0 ops)) x x'
            /\ (last_chunk_full d -> env_shows V x' (documents docs0 ops))
          \/ length (replacements V (d, h) o) <= k
             /\ (exists out s', step V (d, h) o = Ok (out, s'))
             /\ env_shows V x' (documents docs0 (ops ++ [o]))).
  Proof.
    intros R Ho Hdisc Hx Hin. set (L := documents docs0 ops) in *.
    destruct (reached_next _ _ _ _ _ R Ho Hdisc) as (fr & pe & HG & Hd & Hk).
    destruct HG as (nb & cents & cut & wei & css & E & B & HI & Hfr & Hpe). cbn [fst snd] in *. fold L in HI, Hfr.
    pose proof (in_core _ _ _ _ _ _ _ _ _ _ _ _ HI) as HC.
    destruct (load_Ok_nonzero _ _ _ _ _ _ _ _ _ _ _ HC Hx) as (Hne & Hw).
    pose proof (core_len _ _ _ _ _ _ _ _ _ _ HC) as Hlen.
    assert (HL : L <> []).
    { intro F. rewrite F in Hlen. destruct (concat css); [cbn in Hne; congruence|discriminate]. }
    assert (HLc : concat L <> []).
    { intro F. apply Hne. pose proof (co_enc _ _ _ _ _ _ _ _ _ _ HC) as He. revert He F. generalize (concat css) as sds.
      clear. induction L as [|r l IH]; intros sds He F; inversion He as [|r' sd l' sds' (q & _ & Hr) He']; subst; cbn; auto.
      cbn in F. apply app_eq_nil in F. destruct F as (F1 & F2). subst r. inversion Hr; subst. cbn. apply IH; auto. }
    assert (Hfull : last_chunk_full d -> fullness false d (length css)).
    { intros F _ m Hm. apply (F _ _ (co_meta _ _ _ _ _ _ _ _ _ _ HC)). exact Hm. }
    assert (HBuf : load_buffer d = B).
    { destruct (in_buf _ _ _ _ _ _ _ _ _ _ _ _ HI) as (Hf & _). apply files_rep_load; auto. }
    assert (HEmb : load_embeddings_npy d = E).
    { unfold load_embeddings_npy. apply files_rep_load. eapply in_emb; eauto. }
    assert (Hpart : (forall more, fullness more d (length css) -> kept D more nb cents cut wei (length L) css (stopped V (d, h) o k))
       \/ (length (replacements V (d, h) o) <= k /\ exists out s', step V (d, h) o = Ok (out, s')
             /\ stopped V (d, h) o k = fst s')).
    { unfold stopped, replacements. cbn [fst]. destruct o as [docs g|docs g|ids|].
      - cbn in Ho, Hd, Hin. destruct Ho as (Hdocs & Hdim). destruct Hd as (-> & _). specialize (Hfr eq_refl).
        destruct Hin as (Hnr & Hb). rewrite HEmb in Hnr. rewrite HBuf in Hb.
        pose proof (fun more Hm => update_partway V D more h docs g d nb cents cut wei L css E B Hk Hdocs Hdim HI Hfr HLc Hm Hnr Hb k) as HP.
        cbn [step exec]. unfold step, exec, complete.
        destruct (update _ _ _ _ _ _ _ _ h docs g d) as (ws, r) eqn:Eu. cbn [fst snd] in *.
        destruct r as [(ids & y)| |]; [|left; intros more Hm; apply (HP more Hm); right; intros a; discriminate..].
        destruct (le_lt_dec (length ws) k) as [Hge|Hlt]; [right|left; intros more Hm; apply (HP more Hm); left; auto].
        split; [exact Hge|]. cbn [bind]. eexists _, _. split; [reflexivity|]. cbn [fst]. rewrite firstn_all2 by auto. reflexivity.
      - cbn in Hd. 
        pose proof (fun more Hm => append_partway V D more docs g d nb cents cut wei L css E B HI HL Hm k) as HP.
        cbn [step exec]. unfold step, exec, complete.
        destruct (update_append _ _ _ _ docs g d) as (ws, r) eqn:Eu. cbn [fst snd] in *.
        destruct r as [ids| |]; [|left; intros more Hm; apply (HP more Hm); right; intros a; discriminate..].
        destruct (le_lt_dec (length ws) k) as [Hge|Hlt]; [right|left; intros more Hm; apply (HP more Hm); left; auto].
        split; [exact Hge|]. cbn [bind]. eexists _, _. split; [reflexivity|]. cbn [fst]. rewrite firstn_all2 by auto. reflexivity.
      - destruct Hin.
      - right. cbn [length]. split; [lia|]. unfold step, exec. rewrite Hx. cbn [bind]. eexists _, _. split; [reflexivity|].
        rewrite firstn_nil. reflexivity. }
    destruct Hpart as [HK|(Hge & out & s' & Hst & Hs')].
    - destruct (kept_opens true d _ nb cents cut wei L css x HC Hx HL (HK true ltac:(intro F; discriminate))) as (x' & Hl & Hs & _).
      exists x'. split; [exact Hl|]. left. split; [exact Hs|]. intro F.
      destruct (kept_opens false d _ nb cents cut wei L css x HC Hx HL (HK false (Hfull F))) as (x2 & Hl2 & _ & Hsh).
      assert (x2 = x') by congruence. subst x2. apply Hsh. reflexivity.
    - destruct (SyncProofs.reached_app V D docs0 g0 ops outs d h o out s' R Ho Hdisc Hst) as (R' & _ & Hdoc).
      destruct (history_list V D docs0 g0 _ _ _ _ R') as (_ & Hshow & Hopen).
      destruct Hopen as (x' & Hl).
      { rewrite Hdoc. destruct o; cbn [spec_op snd]; try (rewrite concat_app; destruct (concat L) eqn:EL; [congruence|fold L; rewrite EL; discriminate]).
        - destruct Hin.
        - exact HLc. }
      exists x'. rewrite Hs'. split; [exact Hl|]. right. split; [exact Hge|]. split; [eauto|]. apply Hshow. exact Hl.
  Qed.
End REACHED.

(** *** Creating *)
Definition no_meta (d : disk) : Prop := f_meta d = None.
Lemma no_meta_emit w d : no_meta d -> match w with WMeta _ => False | _ => True end -> always no_meta (emit w) d.
Proof. intros H Hw. apply always_emit; auto. unfold no_meta. rewrite ap_meta. destruct w; auto. contradiction. Qed.

Section CREATE.
  Variable fsub : f32 -> f32 -> f32.
  Variable dot : row -> row -> f32.
  Variable mem : nat.
  Variable kmeans : Z -> list doc -> res (nat * list row).
  Variable quantile_at : list row -> list doc -> nat -> nat -> f32.
  Variable threshold_of : list row -> list doc -> f32.

  Lemma emit_then (P : disk -> Prop) {A} w (k : unit -> eff A) d :
    P d -> P (apply_write d w) -> partway P (k tt) (apply_write d w) -> partway P (bindE (emit w) k) d.
  Proof.
    intros H H1 H2. apply partway_bind; [apply always_emit; auto|]. intros u d1 S1. apply steps_emit in S1. subst d1.
    destruct u. exact H2.
  Qed.
  Lemma emit_then' (P : disk -> Prop) {A} w (k : unit -> eff A) d :
    P d -> P (apply_write d w) -> always P (k tt) (apply_write d w) -> always P (bindE (emit w) k) d.
  Proof.
    intros H H1 H2. apply always_bind; [apply always_emit; auto|]. intros u d1 S1. apply steps_emit in S1. subst d1.
    destruct u. exact H2.
  Qed.
  Lemma create_chunk_no_meta docs c bs s i d : no_meta d -> always no_meta (create_chunk fsub dot mem docs c bs s i) d.
  Proof.
    intro H. unfold create_chunk. destruct s as (all & dls).
    apply always_bind; [alw; auto|intros cd d1 S1; apply steps_lift in S1; destruct S1 as (_ & ->)].
    apply always_bind; [alw; auto|intros batch d1 S1; apply steps_lift in S1; destruct S1 as (_ & ->)].
    apply always_bind; [alw; auto|intros ((codes & residuals) & packed) d1 S1; apply steps_lift in S1; destruct S1 as (_ & ->)].
    repeat (apply emit_then'; [unfold no_meta in *; rewrite ?ap_meta; exact H..|]).
    alw. unfold no_meta in *; rewrite ?ap_meta; exact H.
  Qed.
  Lemma fix_offset_no_meta n i d : no_meta d -> always no_meta (fix_offset n i) d.
  Proof.
    intro H. unfold fix_offset.
    apply always_bind; [alw; auto|intros m d1 S1; apply steps_ask in S1; destruct S1 as (_ & ->)].
    apply emit_then'; [unfold no_meta in *; rewrite ?ap_meta; exact H..|].
    alw. unfold no_meta in *; rewrite ?ap_meta; exact H.
  Qed.
  Lemma create_files_partway docs cen g d :
    no_meta d -> partway no_meta (create_index_files fsub dot mem quantile_at threshold_of docs cen g) d.
  Proof.
    intro H. unfold create_index_files. destruct (_ =? 0); [apply always_partway; alw; auto|].
    destruct (train quantile_at threshold_of (g_nbits g) (snd cen) docs) as ((cut & wei) & thr).
    apply partway_bind; [alw; auto|intros c d1 S1; apply steps_lift in S1; destruct S1 as (_ & ->)].
    do 4 (apply emit_then; [unfold no_meta in *; rewrite ?ap_meta; exact H..|]).
    match goal with |- partway _ _ ?d' => assert (H1 : no_meta d') by (unfold no_meta in *; rewrite ?ap_meta; exact H) end.
    revert H1. generalize (apply_write (apply_write (apply_write (apply_write d (WCentroids (Some cen))) (WCutoffs (Some cut))) (WWeights (Some wei))) (WThreshold (Some thr))) as d1.
    clear H d. intros d H.
    destruct (ceil_div (length docs) (g_batch_size g)) as [n|]; [|apply always_partway; alw; auto].
    pose proof (always_for no_meta (fun _ => True) (create_chunk fsub dot mem docs c (g_batch_size g))
      (fun s x d _ Hd => create_chunk_no_meta docs c (g_batch_size g) s x d Hd) (seq 0 n) ([], []) d
      (proj2 (Forall_forall _ _) (fun _ _ => I)) H) as Hm.
    apply partway_bind; [exact Hm|]. intros (all & dls) d1 S1. pose proof (always_steps _ _ _ _ _ Hm S1) as H1. clear S1 Hm H.
    pose proof (always_for no_meta (fun _ => True) fix_offset
      (fun s x d _ Hd => fix_offset_no_meta s x d Hd) (seq 0 n) 0 d1
      (proj2 (Forall_forall _ _) (fun _ _ => I)) H1) as Hm.
    apply partway_bind; [exact Hm|]. intros o d2 S1. pose proof (always_steps _ _ _ _ _ Hm S1) as H2. clear S1 Hm H1.
    apply partway_bind; [alw; auto|intros m d3 S1; apply steps_lift in S1; destruct S1 as (_ & ->)].
    do 2 (apply emit_then; [unfold no_meta in *; rewrite ?ap_meta; exact H2..|]).
    apply partway_last. unfold no_meta in *; rewrite ?ap_meta; exact H2.
  Qed.

  Lemma no_meta_load d : no_meta d -> load d = Err.
  Proof. intro H. unfold load, load_metadata. rewrite H. reflexivity. Qed.
  Lemma load_no_side d d' : no_side d' = no_side d -> load d' = load d.
  Proof.
    intro HN. unfold no_side in HN. unfold load, load_metadata, load_codec.
    assert (f_meta d' = f_meta d) as -> by congruence.
    assert (f_doclens d' = f_doclens d) as -> by congruence.
    assert (f_centroids d' = f_centroids d) as -> by congruence.
    assert (f_cutoffs d' = f_cutoffs d) as -> by congruence.
    assert (f_weights d' = f_weights d) as -> by congruence.
    assert (f_ivf d' = f_ivf d) as -> by congruence.
    assert (f_ivf_lengths d' = f_ivf_lengths d) as -> by congruence.
    assert (f_codes d' = f_codes d) as -> by congruence.
    assert (f_residuals d' = f_residuals d) as -> by congruence. reflexivity.
  Qed.
  Lemma save_emb_loads docs d : always (fun d' => load d' = load d) (save_embeddings_npy docs) d.
  Proof.
    unfold save_embeddings_npy. destruct docs; [alw; auto|].
    apply always_bind; [alw; auto|intros flat d1 S1; apply steps_lift in S1; destruct S1 as (_ & ->)].
    assert (G : forall v d, load (apply_write d (WEmb v)) = load d) by (intros v d0; apply load_no_side; destruct d0; reflexivity).
    assert (G' : forall v d, load (apply_write d (WEmbLengths v)) = load d) by (intros v d0; apply load_no_side; destruct d0; reflexivity).
    apply emit_then'; auto. apply always_emit; rewrite ?G', ?G; auto.
  Qed.

  Lemma two_phases {A B} (P : disk -> Prop) (m : eff A) (k : A -> eff B) (R : disk -> disk -> Prop) d :
    partway P m d -> (forall a d1, steps m d a d1 -> always (R d1) (k a) d1) ->
    forall n, P (final d (firstn n (fst (bindE m k d))))
      \/ exists d1, R d1 (final d (firstn n (fst (bindE m k d)))) /\ R d1 (final d (fst (bindE m k d))).
  Proof.
    intros H K n. specialize (H n). unfold bindE, steps in *. destruct (m d) as (ws, r). cbn [fst snd] in *.
    destruct r as [a| |]; cbn [fst snd]; [|left; apply H; right; intros a; discriminate..].
    specialize (K a _ (ex_intro _ ws (conj eq_refl eq_refl))).
    pose proof (K (n - length ws)) as Kn. pose proof (always_final _ _ _ K) as Ka.
    destruct (k a (final d ws)) as (ws', r'). cbn [fst snd] in *. rewrite firstn_app, !final_app.
    destruct (le_lt_dec (length ws) n) as [L|L].
    - right. exists (final d ws). rewrite (firstn_all2 ws) by auto. split; auto.
    - left. replace (n - length ws) with 0 by lia. apply H. left. exact L.
  Qed.
  Lemma bind_assoc {A B C} (m : eff A) (k : A -> eff B) (f : B -> eff C) d :
    bindE (bindE m k) f d = bindE m (fun a => bindE (k a) f) d.
  Proof.
    unfold bindE. destruct (m d) as (ws, [a| |]); auto. destruct (k a (final d ws)) as (ws1, [b| |]) eqn:E; auto.
    rewrite final_app. destruct (f b _) as (ws2, r). rewrite app_assoc. reflexivity.
  Qed.

  Lemma bind_lift {A B} (a : A) (k : A -> eff B) d : bindE (lift (Ok a)) k d = k a d.
  Proof. unfold bindE, lift. cbn [final fold_left]. destruct (k a d). reflexivity. Qed.

  Lemma create_crash docs g d k :
    f_meta d = None ->
    let ws := fst (create_with_kmeans fsub dot mem kmeans quantile_at threshold_of docs g d) in
    load (final d (firstn k ws)) = Err \/ load (final d (firstn k ws)) = load (final d ws).
  Proof.
    intros H ws. unfold ws. clear ws. unfold create_with_kmeans, create_index_with_kmeans_files.
    destruct (length docs =? 0).
    { left. unfold bindE, lift. cbn [fst]. rewrite firstn_nil. apply no_meta_load. exact H. }
    rewrite bind_assoc. destruct (kmeans (g_seed g) docs) as [cen| |].
    2,3: left; cbn [bindE lift fst]; rewrite firstn_nil; apply no_meta_load; exact H.
    rewrite bind_lift, bind_assoc.
    match goal with |- context [bindE ?m ?kk d] =>
      destruct (two_phases no_meta m kk (fun d1 d2 => load d2 = load d1) d (create_files_partway docs cen g d H)) with (n := k) as [Hn|(d1 & E1 & E2)] end.
    - intros md d1 _.
      assert (Hw : always (fun d2 => load d2 = load d1) (bindE (whenE (length docs <=? g_start_from_scratch g) (save_embeddings_npy docs)) (fun _ => ret md)) d1).
      { assert (H1 : always (fun d2 => load d2 = load d1) (whenE (length docs <=? g_start_from_scratch g) (save_embeddings_npy docs)) d1).
        { unfold whenE. destruct (_ <=? _); [apply save_emb_loads|alw; auto]. }
        apply always_bind; [exact H1|]. intros u d2 S2. alw. exact (always_steps _ _ _ _ _ H1 S2). }
      apply always_bind; [exact Hw|]. intros u d2 S2. alw. exact (always_steps _ _ _ _ _ Hw S2).
    - left. apply no_meta_load. exact Hn.
    - right. congruence.
  Qed.
End CREATE.
