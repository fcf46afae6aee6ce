(** Crash points of the index operations: the directory after any initial part of the file
    replacements of an operation. *)
From Verif Require Import Base F32 CodecModel CodecSpec CodecProofs IndexModel IndexSpec IndexLemmas IndexCore IndexCreate IndexUpdate IndexOps IndexAccess.
Open Scope nat_scope.
Set Default Proof Using "Type".

(** [P] holds of the directory at every crash point of [m] started in [d]. *)
Definition always {A} (P : disk -> Prop) (m : eff A) (d : disk) : Prop :=
  forall k, P (final d (firstn k (fst (m d)))).
(** ... except after the last replacement of a successful run. *)
Definition partway {A} (P : disk -> Prop) (m : eff A) (d : disk) : Prop :=
  forall k, k < length (fst (m d)) \/ (forall a, snd (m d) <> Ok a) -> P (final d (firstn k (fst (m d)))).

Lemma always_start {A} P (m : eff A) d : always P m d -> P d.
Proof. intro H. exact (H 0). Qed.
Lemma always_final {A} P (m : eff A) d : always P m d -> P (final d (fst (m d))).
Proof. intro H. specialize (H (length (fst (m d)))). rewrite firstn_all in H. exact H. Qed.
Lemma always_steps {A} P (m : eff A) d a d' : always P m d -> steps m d a d' -> P d'.
Proof.
  intros H (ws & E & ->). apply always_final in H. rewrite E in H. exact H.
Qed.
Lemma always_partway {A} P (m : eff A) d : always P m d -> partway P m d.
Proof. intros H k _. apply H. Qed.
Lemma always_weaken {A} (P Q : disk -> Prop) (m : eff A) d : (forall d, P d -> Q d) -> always P m d -> always Q m d.
Proof. intros H K k. apply H, K. Qed.
Lemma always_lift {A} (P : disk -> Prop) (r : res A) d : P d -> always P (lift r) d.
Proof. intros H k. cbn [lift fst]. rewrite firstn_nil. exact H. Qed.
Lemma always_ret {A} (P : disk -> Prop) (v : A) d : P d -> always P (ret v) d.
Proof. apply always_lift. Qed.
Lemma always_ask {A} (P : disk -> Prop) (f : disk -> res A) d : P d -> always P (ask f) d.
Proof. intros H k. cbn [ask fst]. rewrite firstn_nil. exact H. Qed.
Lemma always_emit (P : disk -> Prop) w d : P d -> P (apply_write d w) -> always P (emit w) d.
Proof. intros H K [|k]; cbn [emit fst firstn]; [exact H|]. rewrite firstn_nil. exact K. Qed.
Lemma always_bind {A B} P (m : eff A) (k : A -> eff B) d :
  always P m d -> (forall a d', steps m d a d' -> always P (k a) d') -> always P (bindE m k) d.
Proof.
  intros H K n. unfold bindE. pose proof (H n) as Hn. unfold steps in K.
  destruct (m d) as (ws, r) eqn:E. cbn [fst snd] in *. destruct r as [a| |].
  - specialize (K a (final d ws) (ex_intro _ ws (conj eq_refl eq_refl))).
    specialize (K (n - length ws)). destruct (k a (final d ws)) as (ws', r'). cbn [fst] in *.
    rewrite firstn_app. destruct (le_lt_dec n (length ws)) as [L|L].
    + replace (n - length ws) with 0 by lia. cbn [firstn]. rewrite app_nil_r. exact Hn.
    + rewrite (firstn_all2 ws) by lia. rewrite final_app. exact K.
  - exact Hn.
  - exact Hn.
Qed.
Lemma partway_bind {A B} P (m : eff A) (k : A -> eff B) d :
  always P m d -> (forall a d', steps m d a d' -> partway P (k a) d') -> partway P (bindE m k) d.
Proof.
  intros H K n. unfold bindE. pose proof (H n) as Hn. unfold steps in K.
  destruct (m d) as (ws, r) eqn:E. cbn [fst snd] in *. destruct r as [a| |].
  - specialize (K a (final d ws) (ex_intro _ ws (conj eq_refl eq_refl))).
    specialize (K (n - length ws)). destruct (k a (final d ws)) as (ws', r'). cbn [fst snd] in *.
    intro Hc. rewrite firstn_app. destruct (le_lt_dec n (length ws)) as [L|L].
    + replace (n - length ws) with 0 by lia. cbn [firstn]. rewrite app_nil_r. exact Hn.
    + rewrite (firstn_all2 ws) by lia. rewrite final_app. apply K.
      destruct Hc as [Hc|Hc]; [left; rewrite app_length in Hc; lia|right; exact Hc].
  - intros _. exact Hn.
  - intros _. exact Hn.
Qed.
(** A last replacement followed by a successful end. *)
Lemma partway_last {A} (P : disk -> Prop) w (v : A) d : P d -> partway P (bindE (emit w) (fun _ => ret v)) d.
Proof.
  intros H [|n] [Hn|Hn]; cbn in *; try exact H; try lia.
  exfalso. apply (Hn v). reflexivity.
Qed.
Lemma partway_ret {A B} (P : disk -> Prop) (m : eff A) (f : A -> B) d :
  partway P m d -> partway P (bindE m (fun a => ret (f a))) d.
Proof.
  intros H n. specialize (H n). unfold bindE. destruct (m d) as (ws, r). cbn [fst snd] in *.
  destruct r as [a| |]; cbn [ret lift fst snd]; [|intros _; apply H; right; intros a; discriminate..].
  rewrite app_nil_r. intros [Hn|Hn]; [auto|].
  exfalso. apply (Hn (f a)). reflexivity.
Qed.
Lemma always_for {X T} (P : disk -> Prop) (R : X -> Prop) (f : T -> X -> eff T) :
  (forall s x d, R x -> P d -> always P (f s x) d) ->
  forall l s d, Forall R l -> P d -> always P (forE f l s) d.
Proof.
  intro H. induction l as [|x xs IH]; intros s d Hl Hd; cbn [forE].
  - apply always_ret; auto.
  - inversion Hl; subst. apply always_bind; [apply H; auto|].
    intros a d' S. apply IH; auto. eapply always_steps; [|exact S]. apply H; auto.
Qed.

Lemma mapM_app {A B} (f : A -> res B) l l' :
  mapM f (l ++ l') = bind (mapM f l) (fun a => bind (mapM f l') (fun b => Ok (a ++ b))).
Proof.
  induction l as [|x l IH]; cbn [app mapM bind].
  - destruct (mapM f l'); reflexivity.
  - destruct (f x); cbn [bind]; auto. rewrite IH. destruct (mapM f l); cbn [bind]; auto.
    destruct (mapM f l'); reflexivity.
Qed.

Ltac alw := first [ apply always_ret | apply always_lift | apply always_ask ].

  Lemma mapM_need_kept (files : nat -> option (list nat)) (g : list stored_doc -> list nat) css :
    (forall i cs, nth_error css i = Some cs -> exists a, files i = Some (g cs ++ a) /\ (S i < length css -> a = [])) ->
    exists rest, mapM (fun i => need (files i)) (seq 0 (length css)) = Ok rest
      /\ exists more, concat rest = concat (map g css) ++ more
         /\ ((forall i cs, nth_error css i = Some cs -> files i = Some (g cs)) -> more = []).
  Proof.
    intro H.
    destruct css as [|c0 css0] using rev_ind.
    - exists []. split; [reflexivity|]. exists []. split; auto.
    - clear IHcss0. rewrite app_length, Nat.add_comm. cbn [length Nat.add].
      assert (Hl : length (css0 ++ [c0]) = S (length css0)) by (rewrite app_length; cbn; lia).
      rewrite seq_S. cbn [Nat.add].
      assert (H1 : mapM (fun i => need (files i)) (seq 0 (length css0)) = Ok (map g css0)).
      { apply mapM_seq_nth. intros i cs Hi.
        assert (i < length css0) by (apply nth_error_Some; congruence).
        destruct (H i cs) as (a & Ha & Ea); [rewrite nth_error_app1; auto|].
        rewrite Ea in Ha by lia. rewrite app_nil_r in Ha. rewrite Ha. reflexivity. }
      destruct (H (length css0) c0 (nth_error_last css0 c0)) as (a & Ha & _).
      exists (map g css0 ++ [g c0 ++ a]). split.
      + rewrite mapM_app. rewrite H1. cbn [bind mapM]. rewrite Ha. reflexivity.
      + exists a. split.
        * rewrite map_app, !concat_app. cbn [map concat]. rewrite !app_nil_r, app_assoc. auto.
        * intro Hx. specialize (Hx (length css0) c0 (nth_error_last css0 c0)). rewrite Ha in Hx.
          injection Hx as Hx. apply (app_inv_head (g c0)). rewrite app_nil_r. exact Hx.
  Qed.
  Lemma concat_files_kept {A} (files : nat -> option (list A)) (g : list stored_doc -> list A) css :
    (forall i cs, nth_error css i = Some cs -> exists a, files i = Some (g cs ++ a) /\ (S i < length css -> a = [])) ->
    exists more, concat (map (fun i => match files i with Some l => l | None => [] end) (seq 0 (length css)))
      = concat (map g css) ++ more.
  Proof.
    intro H.
    destruct css as [|c0 css0] using rev_ind.
    - exists []. reflexivity.
    - clear IHcss0.
      assert (Hl : length (css0 ++ [c0]) = S (length css0)) by (rewrite app_length; cbn; lia).
      rewrite Hl, seq_S. cbn [Nat.add].
      rewrite map_app, concat_app.
      rewrite (map_seq_nth _ g).
      2:{ intros i cs Hi.
        assert (i < length css0) by (apply nth_error_Some; congruence).
        destruct (H i cs) as (a & Ha & Ea); [rewrite nth_error_app1; auto|].
        rewrite Ea in Ha by lia. rewrite app_nil_r in Ha. rewrite Ha. reflexivity. }
      destruct (H (length css0) c0 (nth_error_last css0 c0)) as (a & Ha & _).
      exists a. cbn [map concat]. rewrite Ha, map_app, concat_app. cbn [map concat].
      rewrite !app_nil_r, app_assoc. reflexivity.
  Qed.

Section CRASH.
  Variable fadd : f32 -> f32 -> f32.
  Variable fsub : f32 -> f32 -> f32.
  Variable normalize : row -> row.
  Variable dot : row -> row -> f32.
  Variable mem : nat.
  Variable kmeans : Z -> list doc -> res (nat * list row).
  Variable quantile_at : list row -> list doc -> nat -> nat -> f32.
  Variable threshold_of : list row -> list doc -> f32.
  Variable next_threshold : option f32 -> list row -> nat -> f32.
  Variable is_outlier : list row -> f32 -> row -> bool.
  Variable D : nat.
  Notation core := (core fsub dot D).
  Notation loaded := (loaded D).

  (** [d'] still holds everything that was stored: the chunks that are counted hold what they
      held, the last one possibly followed by more ([more = false]: nothing more). *)
  Record kept (more : bool) (nb : nat) (cents : list row) (cut wei : list f32)
      (n : nat) (css : list (list stored_doc)) (d' : disk) : Prop := {
    ke_meta : exists m, f_meta d' = Some m /\ num_chunks m = length css /\ num_documents m = n /\ nbits m = nb;
    ke_cents : exists new, f_centroids d' = Some (D, cents ++ new);
    ke_cut : f_cutoffs d' = Some cut;
    ke_wei : f_weights d' = Some wei;
    ke_ivf : exists l, f_ivf d' = Some l;
    ke_ivl : exists l, f_ivf_lengths d' = Some l;
    ke_chunks : forall i cs, nth_error css i = Some cs -> exists a b c,
      f_doclens d' i = Some (map (@length _) cs ++ a)
      /\ f_codes d' i = Some (map fst (concat cs) ++ b)
      /\ f_residuals d' i = Some (map snd (concat cs) ++ c)
      /\ (S i < length css \/ more = false -> a = [] /\ b = [] /\ c = [])
  }.

  Lemma core_kept d nb cents cut wei L css :
    core d nb cents cut wei L css -> kept false nb cents cut wei (length L) css d.
  Proof.
    intro H. destruct H. split; [exists (meta_of D nb cents L css); auto| |auto|auto|eauto|eauto|].
    - exists []. rewrite app_nil_r. auto.
    - intros i cs Hi. destruct (co_chunks i cs Hi) as (A & B & C' & _). exists [], [], [].
      rewrite !app_nil_r. split; [exact A|]. split; [exact B|]. split; [exact C'|]. auto.
  Qed.
  Lemma kept_more nb cents cut wei n css d :
    kept false nb cents cut wei n css d -> kept true nb cents cut wei n css d.
  Proof.
    intros []. split; auto. intros i cs Hi. destruct (ke_chunks0 i cs Hi) as (a & b & c & A & B & C' & E).
    exists a, b, c. split; [exact A|]. split; [exact B|]. split; [exact C'|]. intros _. apply E. auto.
  Qed.

  (** Replacements that change nothing that is kept. *)
  Definition harmless (n : nat) (w : write) : Prop :=
    match w with
    | WMeta _ | WCentroids _ | WCutoffs _ | WWeights _ => False
    | WIvf v => v <> None
    | WIvfLengths v => v <> None
    | WDoclens i _ | WCodes i _ | WResiduals i _ => n <= i
    | _ => True
    end.
  Lemma kept_harmless more nb cents cut wei n css d w :
    harmless (length css) w -> kept more nb cents cut wei n css d -> kept more nb cents cut wei n css (apply_write d w).
  Proof.
    intros Hw []. split; rewrite ?ap_meta, ?ap_centroids, ?ap_cutoffs, ?ap_weights, ?ap_ivf, ?ap_ivf_lengths;
      try (destruct w; cbn in Hw; try contradiction; auto; fail).
    - destruct w; cbn in Hw; auto. destruct v; [eauto|contradiction].
    - destruct w; cbn in Hw; auto. destruct v; [eauto|contradiction].
    - intros i cs Hi. destruct (ke_chunks0 i cs Hi) as (a & b & c & A & B & C' & E).
      assert (Hlt : i < length css) by (apply nth_error_Some; congruence).
      exists a, b, c. rewrite ap_doclens, ap_codes, ap_residuals.
      destruct w; cbn in Hw; auto; rewrite put_other by lia; auto.
  Qed.
  Lemma kept_emit more nb cents cut wei n css w d :
    harmless (length css) w -> kept more nb cents cut wei n css d ->
    always (kept more nb cents cut wei n css) (emit w) d.
  Proof. intros Hw H. apply always_emit; auto. apply kept_harmless; auto. Qed.

  (** *** Loading a directory that still holds everything *)
  Lemma load_kept more d d' nb cents cut wei L css :
    core d nb cents cut wei L css -> concat (concat css) <> [] -> D * nb / 8 <> 0 -> L <> [] ->
    kept more nb cents cut wei (length L) css d' ->
    exists x' new ml mc mr, load d' = Ok x'
      /\ num_documents (x_meta x') = length L
      /\ x_codec x' = codec_of D nb (cents ++ new) cut wei
      /\ x_doc_lengths x' = map (@length _) (concat css) ++ ml
      /\ x_doc_offsets x' = prefix_sums 0 (x_doc_lengths x')
      /\ x_codes x' = map fst (concat (concat css)) ++ mc
      /\ x_residuals x' = map snd (concat (concat css)) ++ mr
      /\ (more = false -> ml = []).
  Proof.
    intros HC Hne Hw HL [(m & Hm & Hnc & Hnd & Hnb) (new & Hcen) Hcut Hwei (ivf & Hivf) (ivl & Hivl) Hch].
    unfold load, load_metadata. rewrite Hm. cbn [need bind].
    destruct (Nat.eqb_spec (num_documents m) 0) as [E0|_].
    { exfalso. destruct L; [congruence|cbn in Hnd; lia]. }
    cbn [bind]. unfold load_codec. rewrite Hcen, Hm. cbn [need bind fst snd].
    rewrite Hcut, Hwei, Hnb.
    rewrite (new_codec_good D nb (cents ++ new) cut wei (co_nb _ _ _ _ _ _ _ _ _ _ HC)). cbn [bind].
    rewrite Hivf, Hivl. cbn [need bind]. rewrite Hnc.
    destruct (mapM_need_kept (f_doclens d') (fun cs => map (@length (nat * list N)) cs) css) as (dls & -> & ml & Hdls & Hml).
    { intros i cs Hi. destruct (Hch i cs Hi) as (a & b & c & A & _ & _ & E). exists a. split; auto.
      intro. destruct E; auto. }
    cbn [bind].
    destruct (concat_files_kept (f_codes d') (fun cs => map fst (concat cs)) css) as (mc & Hmc).
    { intros i cs Hi. destruct (Hch i cs Hi) as (a & b & c & _ & B & _ & E). exists b. split; auto.
      intro. destruct E as (_ & ? & _); auto. }
    destruct (concat_files_kept (f_residuals d') (fun cs => map snd (concat cs)) css) as (mr & Hmr).
    { intros i cs Hi. destruct (Hch i cs Hi) as (a & b & c & _ & _ & B & E). exists c. split; auto.
      intro. destruct E as (_ & _ & ?); auto. }
    rewrite concat_map_concat in Hmc. rewrite concat_map_concat in Hmr. rewrite concat_map_map_length in Hdls.
    unfold merge_chunks. rewrite Hmc, Hmr.
    destruct (concat (concat css)) as [|t0 ts] eqn:Et; [congruence|].
    cbn [map app length Nat.eqb bind].
    change (c_dim (codec_of D nb (cents ++ new) cut wei)) with D.
    destruct (Nat.eqb_spec (D * nb / 8) 0) as [E0|E0]; [contradiction|].
    cbn [bind].
    eexists _, new, ml, _, _. split; [reflexivity|].
    cbn [x_meta x_codec x_doc_lengths x_doc_offsets x_codes x_residuals].
    split; auto. split; auto. split; auto. split; auto.
    split; [rewrite !app_comm_cons, <- app_assoc; reflexivity|].
    split; [rewrite !app_comm_cons, <- app_assoc; reflexivity|].
    intro Em. apply Hml. intros i cs Hi. destruct (Hch i cs Hi) as (a & b & c & A & _ & _ & E).
    destruct E as (-> & _); auto. rewrite app_nil_r in A. exact A.
  Qed.

  (** Documents read the same from an index whose rows are an extension. *)
  Lemma kept_reads d nb cents cut wei L css x x' new ml mc mr :
    core d nb cents cut wei L css -> loaded x nb cents cut wei L css ->
    x_codec x' = codec_of D nb (cents ++ new) cut wei ->
    x_doc_lengths x' = map (@length _) (concat css) ++ ml ->
    x_doc_offsets x' = prefix_sums 0 (x_doc_lengths x') ->
    x_codes x' = map fst (concat (concat css)) ++ mc ->
    x_residuals x' = map snd (concat (concat css)) ++ mr ->
    forall i, i < length L ->
      get_document_embeddings fadd normalize x' i = get_document_embeddings fadd normalize x i
      /\ get_document_codes1 x' i = get_document_codes1 x i.
  Proof.
    intros HC Hx Hcod Hl Ho Hco Hre i Hi.
    pose proof (core_len _ _ _ _ _ _ _ _ _ _ HC) as Hlen.
    destruct (nth_error (concat css) i) as [sd|] eqn:Hsd.
    2:{ apply nth_error_None in Hsd. lia. }
    rewrite (loaded_emb fadd normalize D x _ _ _ _ _ _ _ _ Hx Hsd).
    rewrite (loaded_codes D x _ _ _ _ _ _ _ _ Hx Hsd).
    set (lens := map (@length (nat * list N)) (concat css)) in *.
    assert (Hll : length lens = length (concat css)) by apply map_length.
    assert (Hln : nth_error lens i = Some (length sd)) by (unfold lens; rewrite nth_error_map', Hsd; auto).
    assert (Hfi : forall j, j <= length (concat css) -> firstn j (lens ++ ml) = firstn j lens).
    { intros j Hj. apply firstn_app_le. lia. }
    assert (Hr : doc_range x' i = Ok (sum (firstn i lens), sum (firstn i lens) + length sd)).
    { unfold doc_range. rewrite Ho, Hl.
      rewrite (proj2 (idx_Ok _ _ _) (nth_prefix_sums 0 (lens ++ ml) i ltac:(rewrite app_length; lia))).
      rewrite (proj2 (idx_Ok _ _ _) (nth_prefix_sums 0 (lens ++ ml) (S i) ltac:(rewrite app_length; lia))).
      cbn [bind Nat.add]. rewrite !Hfi by lia. rewrite (sum_firstn_S _ _ _ Hln). reflexivity. }
    assert (Hb : sum (firstn i lens) + length sd <= length (concat (concat css))).
    { rewrite <- sum_map_length. rewrite <- (sum_firstn_S _ _ _ Hln). apply sum_firstn_le. }
    pose proof (slice_concat (concat css) i sd Hsd) as Hs. fold lens in Hs.
    assert (Hsl : forall (B : Type) (f : nat * list N -> B) (rows m : list B), rows = map f (concat (concat css)) ++ m ->
              slice rows (sum (firstn i lens)) (sum (firstn i lens) + length sd) = Ok (map f sd)).
    { intros B f rows m0 ->. apply slice_Ok. rewrite app_length, map_length. split; [lia|].
      rewrite skipn_app, firstn_app, skipn_length, map_length.
      replace (sum (firstn i lens) + length sd - sum (firstn i lens)) with (length sd) by lia.
      replace (length sd - (length (concat (concat css)) - sum (firstn i lens))) with 0 by lia.
      cbn [firstn]. rewrite app_nil_r. rewrite <- Hs at 1. rewrite skipn_map, firstn_map. reflexivity. }
    unfold get_document_embeddings, get_document_codes1. rewrite Hl, app_length.
    destruct (Nat.leb_spec (length lens + length ml) i) as [F|_]; [lia|].
    rewrite Hr. cbn [bind fst snd].
    rewrite (Hsl _ fst _ _ Hco), (Hsl _ snd _ _ Hre). cbn [bind]. rewrite Hcod. split; auto.
    apply decompress_more. exact (core_codes_lt fsub dot D d _ _ _ _ _ _ sd HC (nth_error_In _ _ Hsd)).
  Qed.

  (** *** Operations *)
  Lemma update_chunk_beyond more docs c md bs start app s i d nb cents cut wei n css :
    length css <= start + i -> kept more nb cents cut wei n css d ->
    always (kept more nb cents cut wei n css) (update_chunk fsub dot mem docs c md bs start app s i) d.
  Proof.
    intros Hg H. unfold update_chunk.
    apply always_bind; [alw; auto|intros cd d1 S1; apply steps_lift in S1; destruct S1 as (_ & ->)].
    apply always_bind; [alw; auto|intros batch d1 S1; apply steps_lift in S1; destruct S1 as (_ & ->)].
    apply always_bind; [alw; auto|intros ((codes & residuals) & packed) d1 S1; apply steps_lift in S1; destruct S1 as (_ & ->)].
    match goal with |- always _ (bindE ?m _) _ => assert (Hm : always (kept more nb cents cut wei n css) m d) end.
    { destruct ((i =? 0) && app); [|alw; auto].
      apply always_bind; [alw; auto|intros odl d1 S1; apply steps_ask in S1; destruct S1 as (_ & ->)].
      destruct odl as [old|]; [|alw; auto].
      apply always_bind; [alw; auto|intros oc d1 S1; apply steps_ask in S1; destruct S1 as (_ & ->)].
      apply always_bind; [alw; auto|intros orr d1 S1; apply steps_ask in S1; destruct S1 as (_ & ->)].
      alw; auto. }
    apply always_bind; [exact Hm|]. intros ((dl & co) & pk) d1 S1. pose proof (always_steps _ _ _ _ _ Hm S1) as H1. clear S1 Hm H.
    apply always_bind; [apply kept_emit; [exact Hg|exact H1]|]. intros u d2 S1. apply steps_emit in S1. subst d2.
    apply (kept_harmless _ _ _ _ _ _ _ _ (WCodes (start + i) (Some co))) in H1; [|exact Hg].
    match goal with |- always _ (bindE ?m _) ?d => assert (Hm : always (kept more nb cents cut wei n css) m d) end.
    { destruct (_ =? _); alw; auto. }
    apply always_bind; [exact Hm|]. intros u' d2 S1. pose proof (always_steps _ _ _ _ _ Hm S1) as H2. clear S1 Hm H1.
    apply always_bind; [apply kept_emit; [exact Hg|exact H2]|]. intros u2 d3 S1. apply steps_emit in S1. subst d3.
    apply (kept_harmless _ _ _ _ _ _ _ _ (WResiduals (start + i) (Some pk))) in H2; [|exact Hg].
    apply always_bind; [apply kept_emit; [exact Hg|exact H2]|]. intros u3 d3 S1. apply steps_emit in S1. subst d3.
    apply (kept_harmless _ _ _ _ _ _ _ _ (WDoclens (start + i) (Some dl))) in H2; [|exact Hg].
    apply always_bind; [apply kept_emit; [exact I|exact H2]|]. intros u4 d3 S1. apply steps_emit in S1. subst d3.
    apply always_ret. apply kept_harmless; [exact I|exact H2].
  Qed.

  (** Extending the files of the last chunk. *)
  Lemma kept_extend nb cents cut wei n css d w g cs :
    nth_error css g = Some cs -> S g = length css ->
    match w with
    | WCodes i (Some l) => i = g /\ exists b, l = map fst (concat cs) ++ b
    | WResiduals i (Some l) => i = g /\ exists b, l = map snd (concat cs) ++ b
    | WDoclens i (Some l) => i = g /\ exists b, l = map (@length _) cs ++ b
    | _ => False
    end ->
    kept true nb cents cut wei n css d -> kept true nb cents cut wei n css (apply_write d w).
  Proof.
    intros Hg Hl Hw []. split; rewrite ?ap_meta, ?ap_centroids, ?ap_cutoffs, ?ap_weights, ?ap_ivf, ?ap_ivf_lengths;
      try (destruct w; cbn in Hw; try contradiction; auto; fail).
    intros i cs' Hi. destruct (ke_chunks0 i cs' Hi) as (a & b & c & A & B & C' & E).
    rewrite ap_doclens, ap_codes, ap_residuals.
    destruct (Nat.eq_dec i g) as [->|Hne].
    - assert (cs' = cs) by congruence. subst cs'.
      assert (Hno : S g < length css \/ true = false -> False) by (intros [F|F]; [lia|discriminate]).
      destruct w as [| | | | | | |j [l|]|j [l|]|j [l|]| | | | | |]; cbn in Hw; try contradiction;
        destruct Hw as (-> & bb & ->); rewrite put_same.
      + exists bb, b, c. split; [reflexivity|]. split; [exact B|]. split; [exact C'|]. intro F. destruct (Hno F).
      + exists a, bb, c. split; [exact A|]. split; [reflexivity|]. split; [exact C'|]. intro F. destruct (Hno F).
      + exists a, b, bb. split; [exact A|]. split; [exact B|]. split; [reflexivity|]. intro F. destruct (Hno F).
    - exists a, b, c.
      destruct w as [| | | | | | |j [l|]|j [l|]|j [l|]| | | | | |]; cbn in Hw; try contradiction;
        destruct Hw as (-> & bb & ->); rewrite put_other by auto; auto.
  Qed.

  Lemma update_chunk_first docs c md bs start s d nb cents cut wei n css :
    S start = length css -> kept false nb cents cut wei n css d ->
    always (kept true nb cents cut wei n css) (update_chunk fsub dot mem docs c md bs start true s 0) d.
  Proof.
    intros Hg H0. pose proof (kept_more _ _ _ _ _ _ _ H0) as H.
    destruct (nth_error css start) as [cs|] eqn:Ecs; [|apply nth_error_None in Ecs; lia].
    destruct (ke_chunks _ _ _ _ _ _ _ _ H0 start cs Ecs) as (a & b & c0 & A & B & C' & E).
    destruct E as (-> & -> & ->); [auto|]. rewrite app_nil_r in A, B, C'.
    unfold update_chunk. rewrite Nat.add_0_r. cbn [Nat.eqb andb].
    apply always_bind; [alw; auto|intros cd d1 S1; apply steps_lift in S1; destruct S1 as (_ & ->)].
    apply always_bind; [alw; auto|intros batch d1 S1; apply steps_lift in S1; destruct S1 as (_ & ->)].
    apply always_bind; [alw; auto|intros ((codes & residuals) & packed) d1 S1; apply steps_lift in S1; destruct S1 as (_ & ->)].
    match goal with |- always _ (bindE ?m _) _ => assert (Hm : always (kept true nb cents cut wei n css) m d
      /\ forall v d1, steps m d v d1 -> d1 = d /\ exists dl co pk,
           v = (map (@length _) cs ++ dl, map fst (concat cs) ++ co, map snd (concat cs) ++ pk)) end.
    { split.
      - apply always_bind; [alw; auto|intros odl d1 S1; apply steps_ask in S1; destruct S1 as (_ & ->)].
        destruct odl as [old|]; [|alw; auto].
        apply always_bind; [alw; auto|intros oc d1 S1; apply steps_ask in S1; destruct S1 as (_ & ->)].
        apply always_bind; [alw; auto|intros orr d1 S1; apply steps_ask in S1; destruct S1 as (_ & ->)].
        alw; auto.
      - intros v d1 S1. apply steps_bind in S1. destruct S1 as (odl & d2 & S1 & S2).
        apply steps_ask in S1; destruct S1 as (S1 & ->). rewrite A in S1. apply Ok_inj in S1. subst odl.
        apply steps_bind in S2. destruct S2 as (oc & d2 & S1 & S2).
        apply steps_ask in S1; destruct S1 as (S1 & ->). rewrite B in S1. apply Ok_inj in S1. subst oc.
        apply steps_bind in S2. destruct S2 as (orr & d2 & S1 & S2).
        apply steps_ask in S1; destruct S1 as (S1 & ->). rewrite C' in S1. apply Ok_inj in S1. subst orr.
        apply steps_ret in S2. destruct S2 as (-> & ->). split; auto. eauto. }
    destruct Hm as (Hm & Hv). apply always_bind; [exact Hm|].
    intros v d1 S1. apply Hv in S1. destruct S1 as (-> & dl & co & pk & ->). clear Hm Hv H0 A B C'.
    assert (H1 : kept true nb cents cut wei n css (apply_write d (WCodes start (Some (map fst (concat cs) ++ co))))).
    { apply (kept_extend _ _ _ _ _ _ _ _ start cs); eauto. }
    apply always_bind; [apply always_emit; [exact H|exact H1]|]. intros u d2 S1. apply steps_emit in S1. subst d2.
    match goal with |- always _ (bindE ?m _) ?d => assert (Hm : always (kept true nb cents cut wei n css) m d) end.
    { destruct (_ =? _); alw; auto. }
    apply always_bind; [exact Hm|]. intros u' d2 S1. pose proof (always_steps _ _ _ _ _ Hm S1) as H2. clear S1 Hm H1 H.
    assert (H3 : kept true nb cents cut wei n css (apply_write d2 (WResiduals start (Some (map snd (concat cs) ++ pk))))).
    { apply (kept_extend _ _ _ _ _ _ _ _ start cs); eauto. }
    apply always_bind; [apply always_emit; [exact H2|exact H3]|]. intros u2 d3 S1. apply steps_emit in S1. subst d3.
    match goal with |- always _ (bindE (emit ?w) _) ?d =>
      assert (H4 : kept true nb cents cut wei n css (apply_write d w)) by (apply (kept_extend _ _ _ _ _ _ _ _ start cs); eauto) end.
    apply always_bind; [apply always_emit; [exact H3|exact H4]|]. intros u3 d3 S1. apply steps_emit in S1. subst d3.
    apply always_bind; [apply kept_emit; [exact I|exact H4]|]. intros u4 d3 S1. apply steps_emit in S1. subst d3.
    apply always_ret. apply kept_harmless; [exact I|exact H4].
  Qed.

  Lemma update_index_kept more docs c bs ut d nb cents cut wei n css :
    kept false nb cents cut wei n css d -> n <> 0 ->
    (more = false -> forall m, f_cmeta d (length css - 1) = Some m -> last_chunk_limit <= m_ndocs m) ->
    partway (kept more nb cents cut wei n css) (update_index fsub dot mem next_threshold docs c bs ut) d.
  Proof.
    intros H0 Hn Hmore. unfold update_index.
    assert (H : kept more nb cents cut wei n css d) by (destruct more; [apply kept_more|]; auto).
    apply partway_bind; [alw; auto|intros md d1 S1; apply steps_ask in S1; destruct S1 as (S1 & ->)].
    assert (Hmd : num_chunks md = length css).
    { destruct (ke_meta _ _ _ _ _ _ _ _ H0) as (m & Hm & Hc & Hd & _). unfold load_metadata in S1.
      rewrite Hm in S1. cbn [need bind] in S1. destruct (Nat.eqb_spec (num_documents m) 0); [congruence|].
      apply Ok_inj in S1. congruence. }
    match goal with |- partway _ (bindE ?m _) ?d =>
      assert (Hp : always (kept more nb cents cut wei n css) m d
        /\ forall v d1, steps m d v d1 -> d1 = d /\
             (fst (fst v) = length css /\ snd (fst v) = false
              \/ more = true /\ S (fst (fst v)) = length css /\ snd (fst v) = true)) end.
    { unfold start_position. rewrite Hmd. destruct (Nat.ltb_spec 0 (length css)) as [Hc|Hc].
      - split.
        + apply always_bind; [alw; auto|intros lm d1 S2; apply steps_ask in S2; destruct S2 as (_ & ->)].
          destruct lm as [m|]; [destruct (_ <? _)|]; alw; auto.
        + intros v d1 S2. apply steps_bind in S2. destruct S2 as (lm & d2 & S2 & S3).
          apply steps_ask in S2; destruct S2 as (S2 & ->). apply Ok_inj in S2.
          destruct lm as [m|].
          * destruct (Nat.ltb_spec (m_ndocs m) last_chunk_limit) as [Hlt|Hge]; apply steps_ret in S3; destruct S3 as (-> & ->); split; auto.
            right. cbn [fst snd]. split; [|split; [lia|auto]].
            destruct more; auto. specialize (Hmore eq_refl _ S2). lia.
          * apply steps_ret in S3; destruct S3 as (-> & ->); split; auto.
      - split; [alw; auto|]. intros v d1 S2. apply steps_ret in S2. destruct S2 as (-> & ->). split; auto. }
    destruct Hp as (Hp & Hv). apply partway_bind; [exact Hp|].
    intros ((start & app) & off) d1 S2. apply Hv in S2. destruct S2 as (-> & Hpos). cbn [fst snd] in Hpos. clear Hp Hv.
    destruct (ceil_div (length docs) bs) as [n_new|]; [|apply always_partway; alw; auto].
    match goal with |- partway _ (bindE ?m _) ?d => assert (Hm : always (kept more nb cents cut wei n css) m d) end.
    { destruct n_new as [|k]; [apply always_ret; auto|].
      cbn [seq forE].
      destruct Hpos as [(-> & ->)|(-> & Hst & ->)].
      - apply always_bind; [apply update_chunk_beyond; [lia|auto]|].
        intros s1 d1 S2. apply (always_for _ (fun i => 1 <= i)).
        + intros s2 x d2 Hx Hd2. apply update_chunk_beyond; [lia|auto].
        + apply Forall_forall. intros x Hx. apply in_seq in Hx. lia.
        + eapply always_steps; [|exact S2]. apply update_chunk_beyond; [lia|auto].
      - apply always_bind; [apply update_chunk_first; auto|].
        intros s1 d1 S2. apply (always_for _ (fun i => 1 <= i)).
        + intros s2 x d2 Hx Hd2. apply update_chunk_beyond; [lia|auto].
        + apply Forall_forall. intros x Hx. apply in_seq in Hx. lia.
        + eapply always_steps; [|exact S2]. apply update_chunk_first; auto. }
    apply partway_bind; [exact Hm|]. intros s d1 S2. pose proof (always_steps _ _ _ _ _ Hm S2) as H1. clear S2 Hm H H0 Hmore S1.
    match goal with |- partway _ (bindE ?m _) ?d => assert (Hm : always (kept more nb cents cut wei n css) m d) end.
    { destruct (_ && _); [|alw; auto].
      apply always_bind; [alw; auto|intros o d2 S2; apply steps_ask in S2; destruct S2 as (_ & ->)].
      apply kept_emit; [exact I|auto]. }
    apply partway_bind; [exact Hm|]. intros u d2 S2. pose proof (always_steps _ _ _ _ _ Hm S2) as H2. clear S2 Hm H1.
    apply partway_bind; [alw; auto|intros o1 d3 S2; apply steps_ask in S2; destruct S2 as (_ & ->)].
    apply partway_bind; [alw; auto|intros o2 d3 S2; apply steps_ask in S2; destruct S2 as (_ & ->)].
    apply partway_bind; [alw; auto|intros lists d3 S2; apply steps_lift in S2; destruct S2 as (_ & ->)].
    apply partway_bind; [apply kept_emit; [discriminate|exact H2]|]. intros u1 d3 S2. apply steps_emit in S2. subst d3.
    apply (kept_harmless _ _ _ _ _ _ _ _ (WIvf (Some (concat lists)))) in H2; [|discriminate].
    apply partway_bind; [apply kept_emit; [discriminate|exact H2]|]. intros u2 d3 S2. apply steps_emit in S2. subst d3.
    apply partway_last. apply kept_harmless; [discriminate|exact H2].
  Qed.

  (** Adding centroids keeps everything, and the chunk descriptions. *)
  Lemma update_centroids_kept docs thr g d nb cents cut wei n css :
    kept false nb cents cut wei n css d ->
    always (fun d' => kept false nb cents cut wei n css d' /\ f_cmeta d' = f_cmeta d)
      (update_centroids kmeans is_outlier docs thr g) d.
  Proof.
    intro H. unfold update_centroids.
    apply always_bind; [alw; auto|intros cen d1 S1; apply steps_ask in S1; destruct S1 as (S1 & ->)].
    apply Ok_inj in S1. destruct (ke_cents _ _ _ _ _ _ _ _ H) as (new0 & Hc). rewrite Hc in S1. subst cen.
    destruct (_ =? 0); [alw; auto|].
    apply always_bind; [alw; auto|intros flat d1 S1; apply steps_lift in S1; destruct S1 as (_ & ->)].
    destruct (_ =? 0); [alw; auto|].
    apply always_bind; [alw; auto|intros nw d1 S1; apply steps_lift in S1; destruct S1 as (_ & ->)].
    match goal with |- always ?P (bindE ?m _) ?d => assert (Hm : always P m d) end.
    { destruct (_ =? _); alw; auto. }
    apply always_bind; [exact Hm|]. intros u d1 S1.
    assert (d1 = d) as ->.
    { destruct (_ =? _); [apply steps_ret in S1|apply steps_lift in S1]; exact (proj2 S1). }
    clear S1 Hm.
    assert (H1 : kept false nb cents cut wei n css (apply_write d (WCentroids (Some (D, (cents ++ new0) ++ snd nw))))).
    { destruct H. split; rewrite ?ap_meta, ?ap_centroids, ?ap_cutoffs, ?ap_weights, ?ap_ivf, ?ap_ivf_lengths; auto.
      - rewrite <- app_assoc. eauto.
      - intros i cs Hi. rewrite ap_doclens, ap_codes, ap_residuals. apply ke_chunks0; auto. }
    apply always_bind; [apply always_emit; split; auto; rewrite ap_cmeta; auto|].
    intros u1 d1 S1. apply steps_emit in S1. subst d1.
    assert (Hcm : f_cmeta (apply_write d (WCentroids (Some (D, (cents ++ new0) ++ snd nw)))) = f_cmeta d) by (rewrite ap_cmeta; auto).
    revert H1 Hcm. generalize (apply_write d (WCentroids (Some (D, (cents ++ new0) ++ snd nw)))) as d1. intros d1 H1 Hcm.
    apply always_bind; [alw; auto|intros ivl d2 S1; apply steps_ask in S1; destruct S1 as (_ & ->)].
    match goal with |- always ?P (bindE ?m _) ?d => assert (Hm : always P m d) end.
    { destruct ivl as [old|]; [|alw; auto]. destruct (_ <=? _); [|alw; auto].
      apply always_emit; split; auto; [apply kept_harmless; [discriminate|auto]|rewrite ap_cmeta; auto]. }
    apply always_bind; [exact Hm|]. intros u2 d2 S1. pose proof (always_steps _ _ _ _ _ Hm S1) as (H2 & Hcm2). clear S1 Hm.
    apply always_bind; [alw; auto|intros md d3 S1; apply steps_ask in S1; destruct S1 as (S1 & ->)].
    apply Ok_inj in S1. destruct (ke_meta _ _ _ _ _ _ _ _ H2) as (m & Hm & Hnc & Hnd & Hnb). rewrite Hm in S1. subst md.
    match goal with |- always ?P (bindE ?m _) ?d => assert (Ha : always P m d) end.
    { apply always_emit; split; auto; [|rewrite ap_cmeta; auto].
      destruct H2. split; rewrite ?ap_meta, ?ap_centroids, ?ap_cutoffs, ?ap_weights, ?ap_ivf, ?ap_ivf_lengths; auto.
      - eexists. split; [reflexivity|]. auto.
      - intros i cs Hi. rewrite ap_doclens, ap_codes, ap_residuals. apply ke_chunks0; auto. }
    apply always_bind; [exact Ha|]. intros u3 d3 S1. pose proof (always_steps _ _ _ _ _ Ha S1) as H3.
    apply always_ret. exact H3.
  Qed.
End CRASH.
