(** Creating an index establishes the invariant. *)
From Verif Require Import Base F32 CodecModel CodecSpec CodecProofs IndexModel IndexSpec IndexLemmas IndexDelete IndexCore.
Open Scope nat_scope.
Set Default Proof Using "Type".

(** Everything on disk except the per-chunk files. *)
Definition rest (d : disk) :=
  (f_meta d, f_centroids d, f_cutoffs d, f_weights d, f_threshold d, f_ivf d, f_ivf_lengths d,
   (f_buffer d, f_buffer_lengths d, f_buffer_info d, f_emb d, f_emb_lengths d)).
(** The buffer and raw-embedding files. *)
Definition side (d : disk) := (f_buffer d, f_buffer_lengths d, f_buffer_info d, f_emb d, f_emb_lengths d).

Lemma rest_side d d' : rest d = rest d' -> side d = side d'.
Proof. unfold rest, side; intro H; congruence. Qed.

Lemma Ok_inj {A} (a b : A) : Ok a = Ok b -> a = b.
Proof. congruence. Qed.

(** Invert a successful run of primitive steps. *)
Ltac go_steps :=
  lazymatch goal with
  | |- steps (bindE _ _) _ _ _ -> _ =>
      let H := fresh in intro H; apply steps_bind in H;
      let H1 := fresh in let H2 := fresh in let a := fresh "a" in let dd := fresh "d" in
      destruct H as (a & dd & H1 & H2); revert H1 H2; go_steps
  | |- steps (lift _) _ _ _ -> _ =>
      let H := fresh "S" in intro H; apply steps_lift in H; destruct H as (H & ->); go_steps
  | |- steps (ret _) _ _ _ -> _ =>
      let H := fresh "S" in intro H; apply steps_ret in H; destruct H as (-> & ->); go_steps
  | |- steps (ask (fun _ => Ok _)) _ _ _ -> _ =>
      let H := fresh "S" in intro H; apply steps_ask in H; destruct H as (H & ->);
      apply Ok_inj in H; destruct H; go_steps
  | |- steps (ask _) _ _ _ -> _ =>
      let H := fresh "S" in intro H; apply steps_ask in H; destruct H as (H & ->); go_steps
  | |- steps (emit _) _ _ _ -> _ =>
      let H := fresh "S" in intro H; apply steps_emit in H;
      lazymatch type of H with ?x = _ => rewrite H; clear H; try clear x end;
      try (match goal with u : unit |- _ => clear u end); go_steps
  | |- steps _ _ _ _ -> _ => let H := fresh "S" in intro H; go_steps
  | |- _ => idtac
  end.
Ltac inv_steps H := revert H; go_steps.
(** Split off the first step of a bind. *)
Tactic Notation "bnd" hyp(H) "as" simple_intropattern(a) simple_intropattern(d1) simple_intropattern(H1) :=
  apply steps_bind in H; let H2 := fresh in destruct H as (a & d1 & H1 & H2); rename H2 into H.

Definition write4 (d : disk) (g : nat) a b c e : disk :=
  apply_write (apply_write (apply_write (apply_write d (WCMeta g (Some e))) (WDoclens g (Some a)))
    (WCodes g (Some b))) (WResiduals g (Some c)).

Lemma rest_doclens d i v : rest (apply_write d (WDoclens i v)) = rest d.
Proof. destruct d; reflexivity. Qed.
Lemma rest_codes d i v : rest (apply_write d (WCodes i v)) = rest d.
Proof. destruct d; reflexivity. Qed.
Lemma rest_residuals d i v : rest (apply_write d (WResiduals i v)) = rest d.
Proof. destruct d; reflexivity. Qed.
Lemma rest_cmeta d i v : rest (apply_write d (WCMeta i v)) = rest d.
Proof. destruct d; reflexivity. Qed.
Global Hint Rewrite rest_doclens rest_codes rest_residuals rest_cmeta : rest.

(** The chunk files of [i] are the same in both directories. *)
Definition same_chunk (d d' : disk) (i : nat) : Prop :=
  f_doclens d' i = f_doclens d i /\ f_codes d' i = f_codes d i
  /\ f_residuals d' i = f_residuals d i /\ f_cmeta d' i = f_cmeta d i.
Lemma same_chunk_refl d i : same_chunk d d i.
Proof. repeat split. Qed.
Lemma same_chunk_trans d1 d2 d3 i : same_chunk d1 d2 i -> same_chunk d2 d3 i -> same_chunk d1 d3 i.
Proof. unfold same_chunk; intuition congruence. Qed.
Lemma chunk_at_same d d' i cs : same_chunk d d' i -> chunk_at d i cs -> chunk_at d' i cs.
Proof.
  intros (E1 & E2 & E3 & E4) (A & B & C & off & E). unfold chunk_at.
  rewrite E1, E2, E3, E4. eauto 10.
Qed.

Ltac pdisk := repeat (rewrite put_same || (rewrite put_other by congruence)).

Section CREATE.
  Variable fsub : f32 -> f32 -> f32.
  Variable dot : row -> row -> f32.
  Variable mem : nat.
  Variable kmeans : Z -> list doc -> res (nat * list row).
  Variable quantile_at : list row -> list doc -> nat -> nat -> f32.
  Variable threshold_of : list row -> list doc -> f32.
  Variable D : nat.

  Notation encodes := (encodes fsub dot D).
  Notation enc_doc := (enc_doc fsub dot D).
  Notation codec_of := (codec_of D).
  Notation core := (core fsub dot D).

  Lemma encode_docs nb cents cut wei docs flat codes resid packed :
    cents <> [] ->
    concat_docs D docs = Ok flat ->
    encode_rows fsub dot mem (codec_of nb cents cut wei) flat = Ok (codes, resid, packed) ->
    exists cs, codes = map fst (concat cs) /\ packed = map snd (concat cs)
      /\ Forall2 (Forall2 (encodes nb cents cut)) docs cs.
  Proof.
    intros Hne Hf He. apply concat_docs_Ok in Hf. destruct Hf as (-> & Hd).
    apply (encode_rows_spec fsub dot mem D) with (cut := cut) in He; auto.
    destruct He as (sd & -> & -> & F). cbn [c_nbits c_centroids IndexCore.codec_of] in F.
    apply Forall2_concat_split in F. destruct F as (cs & -> & F). eauto.
  Qed.

  Lemma enc_doc_full nb cents cut r sd :
    cents <> [] -> Forall2 (encodes nb cents cut) r sd -> enc_doc nb cents cut r sd.
  Proof.
    intros Hne H. exists (length cents). rewrite firstn_all. split; auto.
    destruct cents; [congruence|]. cbn; lia.
  Qed.
  Lemma enc_docs_full nb cents cut docs cs :
    cents <> [] -> Forall2 (Forall2 (encodes nb cents cut)) docs cs -> Forall2 (enc_doc nb cents cut) docs cs.
  Proof. intro H; apply Forall2_impl'; intros; apply enc_doc_full; auto. Qed.
  Lemma enc_doc_more nb cents new cut r sd : enc_doc nb cents cut r sd -> enc_doc nb (cents ++ new) cut r sd.
  Proof.
    intros (k & Hk & F). exists k. rewrite app_length, firstn_app_le by lia. split; [lia|auto].
  Qed.

  Lemma slice_batch {A} (docs : list A) start bs r :
    slice docs start (Nat.min (start + bs) (length docs)) = Ok r ->
    r = firstn bs (skipn start docs) /\ length r = Nat.min (start + bs) (length docs) - start.
  Proof.
    intro H. apply slice_Ok in H. destruct H as (Hle & ->).
    assert (E : firstn (Nat.min (start + bs) (length docs) - start) (skipn start docs)
                = firstn bs (skipn start docs)).
    { destruct (Nat.le_ge_cases (start + bs) (length docs)).
      - f_equal; lia.
      - rewrite !firstn_all2; auto; rewrite skipn_length; lia. }
    rewrite E. split; auto. rewrite <- E, firstn_length, skipn_length. lia.
  Qed.

  Lemma create_chunk_step docs nb cents cut wei bs ac dl i d s1 d1 :
    cents <> [] ->
    steps (create_chunk fsub dot mem docs (codec_of nb cents cut wei) bs (ac, dl) i) d s1 d1 ->
    exists cs, Forall2 (Forall2 (encodes nb cents cut)) (firstn bs (skipn (i * bs) docs)) cs
      /\ s1 = (ac ++ map fst (concat cs), dl ++ map (@length _) cs)
      /\ chunk_at d1 i cs /\ (forall j, j <> i -> same_chunk d d1 j) /\ rest d1 = rest d.
  Proof.
    intros Hne H. unfold create_chunk in H. inv_steps H.
    destruct a1 as ((codes & resid) & packed). inv_steps S2.
    apply slice_batch in S. destruct S as (-> & Hlen).
    cbn [c_dim IndexCore.codec_of] in S0.
    destruct (encode_docs _ _ _ _ _ _ _ _ _ Hne S0 S1) as (cs & -> & -> & F).
    exists cs. split; auto. rewrite (Forall2_lengths _ _ _ F). split; [reflexivity|]. split.
    - unfold chunk_at. dsk. rewrite !put_same. repeat (split; [reflexivity|]). exists 0.
      f_equal. f_equal; [|apply map_length].
      rewrite <- Hlen. eapply Forall2_length; eauto.
    - split; [|autorewrite with rest; reflexivity].
      intros j Hj. unfold same_chunk. dsk. rewrite !put_other by congruence. repeat split.
  Qed.

  Lemma fix_offset_step cur i d s1 d1 :
    steps (fix_offset cur i) d s1 d1 ->
    (forall j, j <> i -> same_chunk d d1 j) /\ rest d1 = rest d
    /\ (forall cs, chunk_at d i cs -> chunk_at d1 i cs).
  Proof.
    intro H. unfold fix_offset in H. inv_steps H. split; [|split].
    - intros j Hj. unfold same_chunk. dsk. rewrite put_other by congruence. repeat split.
    - autorewrite with rest; reflexivity.
    - intros cs (A & B & C & off & E). unfold chunk_at; dsk. repeat (split; [assumption|]).
      rewrite put_same. rewrite E in S. cbn in S. injection S as <-. cbn [m_ndocs m_nembs]. eauto.
  Qed.

  Lemma build_pmap_ok (sds : list stored_doc) : forall m id,
    build_pmap m (Z.of_nat id) (map (@length _) sds) (map fst (concat sds))
    = Ok (fold_left push_codes
            (combine (map Z.of_nat (seq id (length sds))) (map (map fst) sds)) m).
  Proof.
    induction sds as [|sd sds IH]; intros m id; cbn [map concat build_pmap length seq combine fold_left]; auto.
    rewrite map_app, app_length, !map_length.
    destruct (Nat.leb_spec (length sd) (length sd + length (concat sds))); [|lia].
    assert (E : length sd = length (map fst sd)) by (rewrite map_length; auto).
    rewrite E, firstn_app_exact, skipn_app_exact.
    replace (Z.of_nat id + 1)%Z with (Z.of_nat (S id)) by lia. apply IH.
  Qed.

  Lemma fresh_lists (sds : list stored_doc) K :
    ivf_lists (fold_left push_codes
            (combine (map Z.of_nat (seq 0 (length sds))) (map (map fst) sds)) (fun _ => [])) K
    = map (postings sds) (seq 0 K).
  Proof.
    unfold ivf_lists. apply map_ext. intro c. apply sort_dedup_eq; [apply postings_sinc|].
    intro x. rewrite fold_push_In, postings_In. cbn [Nat.add]. split.
    - intros [[]|H]; auto.
    - auto.
  Qed.

  Lemma ceil_div_spec n b k : ceil_div n b = Some k -> 1 <= b /\ n <= k * b /\ (k = 0 <-> n = 0) /\ (1 <= n -> (k - 1) * b < n).
  Proof.
    unfold ceil_div. destruct (Nat.eqb_spec b 0); [discriminate|]. intro H.
    assert (k = (n + b - 1) / b) by congruence. clear H.
    pose proof (Nat.div_mod (n + b - 1) b ltac:(lia)) as E.
    pose proof (Nat.mod_upper_bound (n + b - 1) b ltac:(lia)) as U.
    rewrite <- H0 in E. repeat split; try nia.
  Qed.

  Lemma train_lengths nb cents docs cut wei thr :
    train quantile_at threshold_of nb cents docs = (cut, wei, thr) ->
    length cut < 2 ^ nb /\ length wei = 2 ^ nb.
  Proof.
    intro H. unfold train in H. injection H as <- <- _.
    rewrite !map_length, !seq_length. pose proof (Nat.pow_nonzero 2 nb). lia.
  Qed.

  Lemma create_index_files_core docs cents g d md d' :
    1 <= D -> cents <> [] -> Forall (fun r => length r = D) cents ->
    steps (create_index_files fsub dot mem quantile_at threshold_of docs (D, cents) g) d md d' ->
    exists cut wei css,
      core d' (g_nbits g) cents cut wei docs css /\ side d' = side d
      /\ f_threshold d' <> None
      /\ md = meta_of D (g_nbits g) cents docs css /\ docs <> []
      /\ Forall (fun r => length r = D) (concat docs)
      /\ Forall2 (Forall2 (encodes (g_nbits g) cents cut)) docs (concat css)
      /\ (cut, wei) = fst (train quantile_at threshold_of (g_nbits g) cents docs).
  Proof.
    intros HD Hne Hdims H. unfold create_index_files in H.
    destruct (Nat.eqb_spec (length docs) 0) as [E0|Hdocs]; [inv_steps H; discriminate|].
    destruct (train quantile_at threshold_of (g_nbits g) (snd (D, cents)) docs) as ((cut & wei) & thr) eqn:Et.
    pose proof Et as Et'. apply train_lengths in Et. destruct Et as (Hcl & Hwl).
    cbn [fst snd] in H. inv_steps H.
    pose proof (new_codec_inv _ _ _ _ _ _ S) as Hnb.
    rewrite new_codec_good in S by auto. injection S as <-.
    destruct (ceil_div (length docs) (g_batch_size g)) as [n|] eqn:Ec; [|inv_steps S1; discriminate].
    apply ceil_div_spec in Ec. destruct Ec as (Hbs & Hcov & Hn0 & _).
    apply steps_bind in S1. destruct S1 as ((ac & dl) & d5 & S & S1).
    apply steps_bind in S1. destruct S1 as (a3 & d6 & S0 & S1). inv_steps S1.
    set (d0 := apply_write _ (WThreshold (Some thr))) in *.
    pose (P := fun (i : nat) (s : list nat * list nat) (dd : disk) =>
      rest dd = rest d0 /\
      exists css, length css = i /\ s = (map fst (concat (concat css)), map (@length _) (concat css))
        /\ (forall j cs, nth_error css j = Some cs -> chunk_at dd j cs)
        /\ Forall2 (Forall2 (encodes (g_nbits g) cents cut)) (firstn (i * g_batch_size g) docs) (concat css)).
    pose proof (steps_for_seq _ P n 0 _ _ _ _ S) as HP.
    assert (HP0 : P (0 + n) (ac, dl) d5).
    { apply HP.
      - split; auto. exists []. split; [reflexivity|]. split; [reflexivity|].
        split; [intros [|j] cs; discriminate|constructor].
      - clear HP. intros i (ac1 & dl1) dd s1 dd1 Hi (HR & css & Hlen & Hs & Hch & HF) Hst.
        apply create_chunk_step in Hst; auto. destruct Hst as (cs & F & -> & Hc & Hsame & HR1).
        split; [congruence|]. exists (css ++ [cs]).
        injection Hs as -> ->. rewrite app_length. split; [cbn; lia|].
        split; [rewrite concat_app, concat_app, !map_app; cbn; rewrite !app_nil_r; reflexivity|].
        split.
        + intros j c Hj. destruct (Nat.lt_ge_cases j i).
          * rewrite nth_error_app1 in Hj by lia. eapply chunk_at_same; [apply Hsame; lia|auto].
          * rewrite nth_error_app2 in Hj by lia. destruct (j - length css) as [|k] eqn:Ej.
            -- cbn in Hj; injection Hj as <-. assert (j = i) by lia. subst; auto.
            -- destruct k; discriminate.
        + rewrite concat_app; cbn; rewrite app_nil_r.
          replace (g_batch_size g + i * g_batch_size g) with (i * g_batch_size g + g_batch_size g) by lia.
          rewrite firstn_add. apply Forall2_app; auto. }
    clear HP S. cbn [Nat.add] in HP0. destruct HP0 as (HR & css & Hlen & Hs & Hch & HF).
    injection Hs as -> ->. rewrite firstn_all2 in HF by lia.
    pose (Q := fun (i : nat) (s : nat) (dd : disk) =>
      rest dd = rest d0 /\ forall j cs, nth_error css j = Some cs -> chunk_at dd j cs).
    pose proof (steps_for_seq _ Q n 0 _ _ _ _ S0) as HQ.
    assert (HQ0 : Q (0 + n) a3 d6).
    { apply HQ.
      - split; auto.
      - clear HQ. intros i cur dd s1 dd1 Hi (HR1 & Hch1) Hst. apply fix_offset_step in Hst.
        destruct Hst as (Hsame & HR2 & Hc). split; [congruence|].
        intros j cs Hj. destruct (Nat.eq_dec j i) as [->|Hne']; auto.
        eapply chunk_at_same; [apply Hsame; auto|auto]. }
    clear HQ S0. destruct HQ0 as (HR2 & Hch2).
    match goal with E : build_pmap _ _ _ _ = Ok _ |- _ =>
      rewrite (build_pmap_ok (concat css) _ 0) in E; injection E as <- end.
    rewrite fresh_lists.
    assert (Hrest : rest d6 = (f_meta d, Some (D, cents), Some cut, Some wei, Some thr, f_ivf d, f_ivf_lengths d,
       (f_buffer d, f_buffer_lengths d, f_buffer_info d, f_emb d, f_emb_lengths d))).
    { rewrite HR2. unfold d0. destruct d; reflexivity. }
    unfold rest in Hrest.
    assert (Hlens : length docs = length (concat css)) by (eapply Forall2_length; eauto).
    assert (Htok : sum (map (@length row) docs) = length (concat (concat css))).
    { rewrite (Forall2_lengths _ _ _ HF). apply sum_map_length. }
    exists cut, wei, css. split.
    - split; auto; dsk; try congruence.
      + unfold meta_of. rewrite Hlen, Htok. reflexivity.
      + intros i cs Hi. specialize (Hch2 i cs Hi). eapply chunk_at_same; [|exact Hch2].
        unfold same_chunk; dsk; repeat split.
      + apply enc_docs_full; auto.
      + rewrite map_map. reflexivity.
    - split; [unfold side; dsk; congruence|]. split; [dsk; congruence|].
      split; [unfold meta_of; rewrite Hlen, Htok; reflexivity|].
      split; [destruct docs; cbn in Hdocs; congruence|].
      split; [|split; [exact HF|cbn [snd] in Et'; rewrite Et'; reflexivity]].
      clear -HF. rewrite Forall_forall. intros r Hr. apply in_concat in Hr. destruct Hr as (dd & Hd & Hr).
      apply In_nth_error in Hd. destruct Hd as (i & Hi).
      destruct (Forall2_nth_error _ _ _ HF _ _ Hi) as (sd & _ & F2).
      apply In_nth_error in Hr. destruct Hr as (j & Hj).
      destruct (Forall2_nth_error _ _ _ F2 _ _ Hj) as (t & _ & E & _). exact E.
  Qed.
End CREATE.
