(** Search: proofs. *)
From Verif Require Import Base F32 CodecModel CodecSpec CodecProofs IndexModel IndexSpec IndexLemmas IndexDelete IndexCore IndexCreate IndexUpdate IndexDelCore IndexOps IndexAccess SearchModel SearchSpec SimdProofs ProbeProofs.
Open Scope nat_scope.

(** ** MaxSim *)
Lemma best_fold (l : list f32) : Forall f32_wf l -> forall m0, f32_wf m0 ->
  let m := fold_left (fun m s => if is_score_better s m then s else m) l m0 in
  f32_wf m /\ (In m l \/ m = m0) /\ forall s, In s (m0 :: l) -> ~ better s m.
Proof.
  induction l as [|s l IH]; intros W m0 W0; cbn [fold_left].
  - split; auto. split; auto. intros s [<-|[]]. apply better_irrefl.
  - inversion W; subst. destruct (is_score_better s m0) eqn:E.
    + apply is_score_better_iff in E. destruct (IH H2 s H1) as (A & B & C). split; auto.
      split; [left; destruct B; [right; auto|left; auto]|].
      intros v [<-|Hv]; [|auto]. apply better_trans_neg with s; [apply better_asym; auto|apply C; left; auto].
    + apply is_score_better_false in E. destruct (IH H2 m0 W0) as (A & B & C). split; auto.
      split; [destruct B; [left; right; auto|right; auto]|].
      intros v [<-|[<-|Hv]]; [apply C; left; auto| |apply C; right; auto].
      apply better_trans_neg with m0; auto. apply C; left; auto.
Qed.
Lemma neg_inf_not_finite : is_finite f_neg_inf = false. Proof. reflexivity. Qed.

(** A maximum in the sense of the code is a [row_max], or no element is finite. *)
Lemma max_row_or_none l m : Forall f32_wf l -> (In m l \/ m = f_neg_inf) -> (forall s, In s l -> ~ better s m) ->
  (is_finite m = true /\ row_max l m) \/ (is_finite m = false /\ forall s, In s l -> is_finite s = false).
Proof.
  intros W Hin Hb. rewrite Forall_forall in W. destruct (is_finite m) eqn:Fm.
  - left. split; auto. assert (Hm : In m l) by (destruct Hin as [|E]; auto; rewrite E in Fm; discriminate).
    split; auto. split; auto. intros s Hs Fs. apply not_better_lt; auto.
  - right. split; auto. intros s Hs. specialize (Hb s Hs). unfold better in Hb. rewrite Fm in Hb.
    destruct (is_finite s); tauto.
Qed.
Lemma simd_row_or_none a l : Forall f32_wf l ->
  (is_finite (simd_max a l) = true /\ row_max l (simd_max a l))
  \/ (is_finite (simd_max a l) = false /\ forall s, In s l -> is_finite s = false).
Proof.
  intro W. destruct l as [|x l]; [right; rewrite simd_max_nil; split; [reflexivity|intros ? []]|].
  destruct (simd_max_spec a (x :: l) W) as (A & B & _); [discriminate|].
  set (m := simd_max a (x :: l)) in *. destruct (is_finite m) eqn:F.
  - left. split; auto. split; auto. split; auto. intros s Hs Fs. apply B; auto.
  - right. split; auto. intros s Hs. destruct (is_finite s) eqn:Fs; auto. destruct (B s Hs Fs); discriminate.
Qed.

Section MAXSIM.
  Variable fadd : f32 -> f32 -> f32.
  Variable K : kernel.
  Hypothesis HK : good_kernel K.

  Lemma total_fold rows (pick : list f32 -> f32) :
    (forall r, In r rows -> (is_finite (pick r) = true /\ row_max r (pick r))
                           \/ (is_finite (pick r) = false /\ forall s, In s r -> is_finite s = false)) ->
    forall t, sum_of_max fadd rows t (fold_left (fun total r => add_finite fadd total (pick r)) rows t).
  Proof using Type.
    clear HK. induction rows as [|r rows IH]; intros H t; cbn [fold_left]; [constructor|].
    unfold add_finite at 2. destruct (H r (or_introl eq_refl)) as [(F & M)|(F & N)]; rewrite F.
    - apply som_add with (pick r); auto. apply IH. intros; apply H; right; auto.
    - apply som_skip; auto. apply IH. intros; apply H; right; auto.
  Qed.
  Lemma fold_left_map {A B C} (f : A -> B -> A) (g : C -> B) l : forall a,
    fold_left f (map g l) a = fold_left (fun a c => f a (g c)) l a.
  Proof using Type. clear HK. induction l; intro a'; cbn; auto. Qed.
  Lemma maxsim_score_spec query doc : maxsim fadd K query doc (maxsim_score fadd (k_mat K) (k_dot K) (k_arch K) query doc).
  Proof using HK.
    unfold maxsim, maxsim_score, maxsim_score_simple. destruct HK as (_ & _ & Wm & Wd).
    destruct (_ <? _).
    - pose proof (total_fold (map (fun q => map (k_dot K q) doc) query)
        (fun r => fold_left (fun m s => if is_score_better s m then s else m) r f_neg_inf)) as T.
      assert (E : fold_left (fun total q => add_finite fadd total (best_sim (k_dot K) q doc)) query f_zero
        = fold_left (fun total r => add_finite fadd total (fold_left (fun m s => if is_score_better s m then s else m) r f_neg_inf))
            (map (fun q => map (k_dot K q) doc) query) f_zero).
      { rewrite fold_left_map. unfold best_sim. 
        assert (X : forall t, fold_left (fun total q => add_finite fadd total (fold_left (fun m d => if is_score_better (k_dot K q d) m then k_dot K q d else m) doc f_neg_inf)) query t
          = fold_left (fun a c => add_finite fadd a (fold_left (fun m s => if is_score_better s m then s else m) (map (k_dot K c) doc) f_neg_inf)) query t).
        { clear T. induction query as [|q query IH]; intro t; cbn [fold_left]; auto. rewrite fold_left_map. apply IH. }
        apply X. }
      rewrite E. apply T. intros r Hr. apply in_map_iff in Hr. destruct Hr as (q & <- & _).
      assert (W : Forall f32_wf (map (k_dot K q) doc)).
      { apply Forall_forall. intros s Hs. apply in_map_iff in Hs. destruct Hs as (d & <- & _). apply Wd. }
      destruct (best_fold _ W f_neg_inf (proj1 neg_inf_lane)) as (A & B & C).
      apply max_row_or_none; auto. intros s Hs. apply C; right; auto.
    - rewrite <- (fold_left_map (fun total r => add_finite fadd total (simd_max (k_arch K) r)) (fun q => map (k_mat K q) doc)).
      apply total_fold. intros r Hr. apply in_map_iff in Hr. destruct Hr as (q & <- & _).
      apply simd_row_or_none. apply Forall_forall. intros s Hs. apply in_map_iff in Hs. destruct Hs as (d & <- & _). apply Wm.
  Qed.
End MAXSIM.

(** ** Ranking *)
Definition dleb (a b : Z * f32) : bool := match cmp_score_descending (snd a) (snd b) with Gt => false | _ => true end.
Lemma dleb_iff a b : dleb a b = true <-> ~ better (snd b) (snd a).
Proof.
  unfold dleb, cmp_score_descending. pose proof (cmp_better (snd b) (snd a)) as H.
  destruct (cmp_f32_for_max (snd b) (snd a)); split; intro X; try congruence; try tauto; intro Y; apply H in Y; congruence.
Qed.
Lemma dleb_total a b : dleb a b = true \/ dleb b a = true.
Proof.
  rewrite !dleb_iff. destruct (better_dec (snd b) (snd a)); [right; apply better_asym; auto|auto].
Qed.
Lemma dleb_trans a b c : dleb a b = true -> dleb b c = true -> dleb a c = true.
Proof. rewrite !dleb_iff. intros H1 H2. exact (better_trans_neg _ _ _ H2 H1). Qed.
Lemma sort_desc_sorted l : StronglySorted (fun a b => dleb a b = true) (sort_desc l).
Proof. exact (isort_sorted dleb dleb_total dleb_trans l). Qed.
Lemma sort_desc_perm l : Permutation (sort_desc l) l.
Proof. exact (isort_perm dleb l). Qed.
Lemma firstn_In {A} n (l : list A) x : In x (firstn n l) -> In x l.
Proof. intro H. rewrite <- (firstn_skipn n l). apply in_or_app; auto. Qed.
Lemma firstn_NoDup {A} n (l : list A) : NoDup l -> NoDup (firstn n l).
Proof. intro H. rewrite <- (firstn_skipn n l) in H. apply NoDup_app_disj in H. tauto. Qed.
Lemma sorted_pairs l : StronglySorted (fun a b => dleb a b = true) l -> non_increasing (map snd l).
Proof.
  unfold non_increasing. induction 1 as [|a l Hs IH Ha]; cbn; constructor; auto.
  rewrite Forall_forall in Ha |- *. intros s Hx. apply in_map_iff in Hx. destruct Hx as (b & <- & Hb). apply dleb_iff; auto.
Qed.
Lemma sorted_firstn {A} (R : A -> A -> Prop) n l : StronglySorted R l -> StronglySorted R (firstn n l)
  /\ forall a b, In a (firstn n l) -> In b (skipn n l) -> R a b.
Proof.
  intro H. revert n. induction H as [|a l Hs IH Ha]; intros [|n]; cbn [firstn skipn].
  - split; [constructor|intros ? ? []].
  - split; [constructor|intros ? ? []].
  - split; [constructor|intros ? ? []].
  - destruct (IH n) as (A1 & A2). rewrite Forall_forall in Ha. split.
    + constructor; auto. apply Forall_forall. intros x Hx. apply Ha, firstn_In with n, Hx.
    + intros x y [<-|Hx] Hy; [|auto]. apply Ha. rewrite <- (firstn_skipn n l). apply in_or_app; auto.
Qed.

(** The [k] first of the ranking of [(id, f id)] for [id] in [C] are the best of [C]. *)
Lemma top_k_best k C (f : Z -> f32) : NoDup C ->
  let sorted := sort_desc (map (fun id => (id, f id)) C) in
  let count := Nat.min k (length sorted) in
  best_of k C f (map fst (firstn count sorted)) (map snd (firstn count sorted)).
Proof.
  intros Hnd. cbv zeta. set (sorted := sort_desc (map (fun id => (id, f id)) C)).
  pose proof (sort_desc_perm (map (fun id => (id, f id)) C)) as P. fold sorted in P.
  assert (HL : length sorted = length C) by (rewrite (Permutation_length P), map_length; auto).
  set (c := Nat.min k (length sorted)).
  assert (Hel : forall p, In p sorted -> p = (fst p, f (fst p)) /\ In (fst p) C).
  { intros p Hp. apply (Permutation_in _ P), in_map_iff in Hp. destruct Hp as (id & <- & Hid). auto. }
  pose proof (Permutation_map fst P) as Pf. rewrite map_map in Pf. cbn [fst] in Pf. rewrite map_id in Pf.
  assert (N : NoDup (map fst sorted)) by (eapply Permutation_NoDup; [symmetry; exact Pf|auto]).
  destruct (sorted_firstn _ c sorted (sort_desc_sorted _)) as (S1 & S2).
  split; [rewrite <- firstn_map; apply firstn_NoDup; auto|].
  split; [intros id Hid; apply in_map_iff in Hid; destruct Hid as (p & <- & Hp); apply Hel, firstn_In with c, Hp|].
  split; [rewrite map_length, firstn_length; unfold c; lia|].
  split.
  { rewrite map_map. apply map_ext_in. intros p Hp. destruct (Hel p (firstn_In _ _ _ Hp)) as (E & _). rewrite E; auto. }
  split; [apply sorted_pairs; auto|].
  intros u i Hu Hnu Hi. apply in_map_iff in Hi. destruct Hi as (p & <- & Hp).
  assert (X : In (u, f u) sorted) by (apply (Permutation_in _ (Permutation_sym P)), in_map_iff; eauto).
  rewrite <- (firstn_skipn c sorted) in X. apply in_app_or in X. destruct X as [X|X].
  { exfalso. apply Hnu, in_map_iff. exists (u, f u). auto. }
  pose proof (S2 _ _ Hp X) as D. apply dleb_iff in D. destruct (Hel p (firstn_In _ _ _ Hp)) as (E & _).
  rewrite E in D. exact D.
Qed.
Lemma best_of_perm k C U f ids scores : Permutation C U -> best_of k C f ids scores -> best_of k U f ids scores.
Proof.
  intros P (A & B & D & E & F & G). split; auto.
  split; [intros x Hx; apply (Permutation_in _ P); auto|]. split; [rewrite D, (Permutation_length P); auto|].
  split; auto. split; auto. intros u i Hu. apply G. apply (Permutation_in _ (Permutation_sym P)); auto.
Qed.

Lemma filter_length_le {A} (f : A -> bool) l : length (filter f l) <= length l.
Proof. induction l as [|a l IH]; cbn; auto. destruct (f a); cbn; lia. Qed.

Section SEARCHP.
  Variable V : env.
  Variable K : kernel.
  Hypothesis HK : good_kernel K.
  Notation fadd := (v_fadd V).
  Notation norm := (v_norm V).
  Notation mscore := (maxsim_score fadd (k_mat K) (k_dot K) (k_arch K)).

  (** Score of a document as computed (0 when it cannot be read). *)
  Definition fscore (x : index) (q : query) (id : Z) : f32 :=
    match embeddings V x (Z.to_nat id) with Ok e => mscore (q_rows q) e | _ => f_zero end.
  Definition readable (x : index) (id : Z) : bool :=
    (0 <=? id)%Z && match embeddings V x (Z.to_nat id) with Ok _ => true | _ => false end.
  Lemma readable_score x q id : readable x id = true -> doc_score V K x q id (fscore x q id).
  Proof using HK.
    unfold readable, fscore, doc_score. intro H. apply andb_true_iff in H. destruct H as (H0 & H).
    split; [lia|]. destruct (embeddings V x (Z.to_nat id)) as [e| |]; try discriminate.
    exists e. split; auto. apply maxsim_score_spec; auto.
  Qed.
  Lemma exact_scores_spec x q ids ex :
    exact_scores fadd norm (k_mat K) (k_dot K) (k_arch K) x (q_rows q) ids = Ok ex ->
    ex = map (fun id => (id, fscore x q id)) (filter (readable x) ids).
  Proof using Type.
    clear HK. revert ex. induction ids as [|id ids IH]; intros ex H; cbn [exact_scores] in H; [injection H as <-; auto|].
    cbn [filter]. destruct (Z.ltb_spec id 0) as [Hn|Hp].
    - assert (readable x id = false) as -> by (unfold readable; destruct (Z.leb_spec 0 id); auto; lia). auto.
    - unfold readable at 1, embeddings. destruct (Z.leb_spec 0 id); [|lia]. cbn [andb].
      destruct (get_document_embeddings fadd norm x (Z.to_nat id)) as [e| |] eqn:E; [|auto|discriminate].
      apply bind_Ok in H. destruct H as (r & Hr & H). injection H as <-. cbn [map]. f_equal; auto.
      unfold fscore, embeddings. rewrite E. reflexivity.
  Qed.
  Lemma exact_scores_total x q ids : (forall id, In id ids -> embeddings V x (Z.to_nat id) <> Panic) ->
    exists ex, exact_scores fadd norm (k_mat K) (k_dot K) (k_arch K) x (q_rows q) ids = Ok ex.
  Proof using Type.
    clear HK. induction ids as [|id ids IH]; intro H; cbn [exact_scores]; [eauto|].
    destruct IH as (ex & E); [intros; apply H; right; auto|]. rewrite E.
    destruct (id <? 0)%Z; [eauto|]. specialize (H id (or_introl eq_refl)). unfold embeddings in H.
    destruct (get_document_embeddings fadd norm x (Z.to_nat id)); [cbn [bind]; eauto|eauto|congruence].
  Qed.

  (** [rank]: the result is the best of the rescored candidates. *)
  Lemma rank_spec x q p approx r : NoDup (map fst approx) ->
    rank fadd norm (k_mat K) (k_dot K) (k_arch K) x (q_rows q) p approx = Ok r ->
    let T := firstn (Nat.max (p_n_full_scores p / 4) (p_top_k p)) (map fst (firstn (p_n_full_scores p) (sort_desc approx))) in
    r_query_id r = 0 /\ best_of (p_top_k p) (filter (readable x) T) (fscore x q) (r_passage_ids r) (r_scores r).
  Proof using Type.
    clear HK. intros Hnd H. cbv zeta. unfold rank in H.
    set (T := firstn _ (map fst _)) in *.
    assert (NT : NoDup T).
    { unfold T. apply firstn_NoDup. rewrite <- firstn_map. apply firstn_NoDup.
      eapply Permutation_NoDup; [|exact Hnd]. apply Permutation_map. symmetry. apply sort_desc_perm. }
    pose proof (top_k_best (p_top_k p) (filter (readable x) T) (fscore x q) (NoDup_filter _ NT)) as TB. cbv zeta in TB.
    destruct T as [|t0 T0] eqn:ET.
    - injection H as <-. split; auto. cbn in TB. rewrite Nat.min_0_r in TB. exact TB.
    - apply bind_Ok in H. destruct H as (ex & He & H). apply exact_scores_spec in He. subst ex.
      injection H as <-. split; auto.
  Qed.
  Lemma rank_total x q p approx :
    (forall id, In id (map fst approx) -> embeddings V x (Z.to_nat id) <> Panic) ->
    exists r, rank fadd norm (k_mat K) (k_dot K) (k_arch K) x (q_rows q) p approx = Ok r.
  Proof using Type.
    clear HK. intro H. unfold rank. destruct (firstn _ (map fst _)) as [|t T] eqn:ET; [eauto|]. rewrite <- ET.
    destruct (exact_scores_total x q (firstn (Nat.max (p_n_full_scores p / 4) (p_top_k p)) (map fst (firstn (p_n_full_scores p) (sort_desc approx))))) as (ex & E).
    - intros id Hid. apply H. apply firstn_In in Hid. rewrite <- firstn_map in Hid. apply firstn_In in Hid.
      eapply Permutation_in; [apply Permutation_map, sort_desc_perm|exact Hid].
    - rewrite E. cbn [bind]. eauto.
  Qed.

  Lemma with_scores_fst score x c approx : with_scores score x c = Ok approx -> map fst approx = c.
  Proof using Type.
    clear HK. unfold with_scores. revert approx. induction c as [|id c IH]; intros approx H; cbn [mapM] in H.
    - injection H as <-; auto.
    - apply bind_Ok in H. destruct H as (y & Hy & H). apply bind_Ok in H. destruct H as (ys & Hys & H). injection H as <-.
      apply bind_Ok in Hy. destruct Hy as (codes & _ & Hy). apply bind_Ok in Hy. destruct Hy as (s & _ & Hy). injection Hy as <-.
      cbn. f_equal; auto.
  Qed.

  (** Shape of a successful search: candidates from some cells, then [rank]. *)
  Definition stage (x : index) (q : query) (p : params) (subset : option (list Z)) (cells : list nat) (r : result) : Prop :=
    exists cands, get_candidates x cells = Ok cands
      /\ let c := filter (in_subset subset) cands in
         (c = [] /\ r = empty_result
          \/ exists approx, map fst approx = c
               /\ rank fadd norm (k_mat K) (k_dot K) (k_arch K) x (q_rows q) p approx = Ok r).
  Definition uses_batches (x : index) (p : params) : bool :=
    (0 <? p_centroid_batch_size p) && (p_centroid_batch_size p <? length (c_centroids (x_codec x))).
  Notation qscores x q := (map (fun qr => map (k_mat K qr) (c_centroids (x_codec x))) (q_rows q)).
  Lemma search_stage x q p subset r : search V K x q p subset = Ok r ->
    q_dim q = c_dim (x_codec x)
    /\ exists cells, stage x q p subset cells r
      /\ (if uses_batches x p
          then cells = ivf_probe_batched (k_mat K) (k_heap K) (q_rows q) (c_centroids (x_codec x)) (p_n_ivf_probe p) (p_centroid_batch_size p) (p_threshold p)
          else cells_to_probe (k_select K) x (qscores x q) p subset = Ok cells).
  Proof using Type.
    clear HK. unfold search, search_one_mmap, uses_batches. intro H. cbv zeta in H.
    destruct (_ && _) eqn:EB.
    - unfold search_one_mmap_batched in H. cbv zeta in H.
      destruct (Nat.eqb_spec (q_dim q) (c_dim (x_codec x))) as [Ed|]; cbn [negb] in H; [|discriminate].
      split; auto. apply bind_Ok in H. destruct H as (cands & Hc & H).
      eexists. split; [|reflexivity]. exists cands. split; auto. cbv zeta.
      destruct (filter (in_subset subset) cands) as [|c0 cs] eqn:EC.
      + left. split; auto. congruence.
      + right. rewrite <- EC in *.
        apply bind_Ok in H. destruct H as (ls & _ & H). apply bind_Ok in H. destruct H as (sp & _ & H).
        apply bind_Ok in H. destruct H as (approx & Ha & H). exists approx. split; auto.
        eapply with_scores_fst; eauto.
    - destruct (Nat.eqb_spec (q_dim q) (c_dim (x_codec x))) as [Ed|]; cbn [negb] in H; [|discriminate].
      split; auto. apply bind_Ok in H. destruct H as (cells & Hcells & H). apply bind_Ok in H. destruct H as (cands & Hc & H).
      exists cells. split; auto. exists cands. split; auto. cbv zeta.
      destruct (filter (in_subset subset) cands) as [|c0 cs] eqn:EC.
      + left. split; auto. congruence.
      + right. rewrite <- EC in *. apply bind_Ok in H. destruct H as (approx & Ha & H). exists approx. split; auto.
        eapply with_scores_fst; eauto.
  Qed.
  Lemma candidates_nodup x cells cands : get_candidates x cells = Ok cands -> NoDup cands.
  Proof using Type.
    clear HK. unfold get_candidates. intro H. apply bind_Ok in H. destruct H as (ls & _ & H). injection H as <-.
    pose proof (sort_dedup_sinc (concat ls)) as S. unfold sinc in S.
    induction S as [|a l S IH Ha]; constructor; auto. rewrite Forall_forall in Ha. intro X. apply Ha in X. lia.
  Qed.

  (** Everything C17 and C18 need, in one statement. *)
  Lemma search_sound x q p subset r : search V K x q p subset = Ok r ->
    r_query_id r = 0
    /\ exists C, NoDup C /\ length C <= Nat.max (p_n_full_scores p / 4) (p_top_k p)
       /\ length C <= p_n_full_scores p
       /\ (forall id, In id C -> readable x id = true /\ in_subset subset id = true)
       /\ best_of (p_top_k p) C (fscore x q) (r_passage_ids r) (r_scores r).
  Proof using Type.
    clear HK. intro H. destruct (search_stage _ _ _ _ _ H) as (_ & cells & (cands & Hc & HS) & _). cbv zeta in HS.
    pose proof (candidates_nodup _ _ _ Hc) as ND.
    destruct HS as [(E & ->)|(approx & Ef & Hr)].
    - split; auto. exists []. split; [constructor|]. split; [cbn; lia|]. split; [cbn; lia|]. split; [intros ? []|].
      split; [constructor|]. split; [intros ? []|]. split; [cbn; lia|]. split; auto. split; [constructor|]. intros ? ? [].
    - assert (NA : NoDup (map fst approx)) by (rewrite Ef; apply NoDup_filter; auto).
      destruct (rank_spec _ _ _ _ _ NA Hr) as (E0 & HB). split; auto.
      eexists. split; [|split; [|split; [|split; [|exact HB]]]].
      + apply NoDup_filter, firstn_NoDup. rewrite <- firstn_map. apply firstn_NoDup.
        eapply Permutation_NoDup; [|exact NA]. apply Permutation_map. symmetry. apply sort_desc_perm.
      + etransitivity; [apply filter_length_le|]. rewrite firstn_length. lia.
      + etransitivity; [apply filter_length_le|]. rewrite firstn_length, map_length, firstn_length. lia.
      + intros id Hid. apply filter_In in Hid. destruct Hid as (Hid & Hrd). split; auto.
        apply firstn_In in Hid. rewrite <- firstn_map in Hid. apply firstn_In in Hid.
        assert (X : In id (map fst approx)) by (eapply Permutation_in; [apply Permutation_map, sort_desc_perm|exact Hid]).
        rewrite Ef in X. apply filter_In in X. tauto.
  Qed.

  (** ** The standard probe *)
  Lemma cells_standard x q p cells : p_threshold p = None ->
    cells_to_probe (k_select K) x (qscores x q) p None = Ok cells ->
    best_cells_union (p_n_ivf_probe p) (qscores x q) cells.
  Proof using HK.
    intros Ht H. unfold cells_to_probe in H. cbn [bind effective_n_ivf_probe] in H.
    apply bind_Ok in H. destruct H as (ls & Hm & H). rewrite Ht in H. injection H as <-.
    apply mapM_Ok_inv in Hm. exists ls. split; [|split; [apply NoDup_nodup|intro c; apply nodup_In]].
    assert (HF : forall sc, In sc (qscores x q) -> length sc = length (c_centroids (x_codec x))).
    { intros sc Hs. apply in_map_iff in Hs. destruct Hs as (qr & <- & _). apply map_length. }
    revert HF. induction Hm as [|sc cl scs ls Hc Hm IH]; intro HF; constructor; [|apply IH; intros; apply HF; right; auto].
    assert (El : length sc = length (c_centroids (x_codec x))) by (apply HF; left; auto).
    destruct HK as (HS & _).
    destruct (token_cells_spec _ HS _ _ _ _ (seq_NoDup _ _) Hc) as (A & B & C & D & E).
    rewrite seq_length in B. split; auto. split; [rewrite B, El; auto|].
    split; [intros c Hcc; apply D, C, Hcc|].
    intros c c' Hcc Hcc' Hlt. apply E; auto. apply in_seq. lia.
  Qed.

  (** ** Searching a sound index *)
  Record searchable (x : index) : Prop := {
    s_codes : forall i, i < length (x_doc_lengths x) ->
      exists codes, doc_codes x (Z.of_nat i) = Ok codes /\ (forall c, In c codes -> c < length (c_centroids (x_codec x)))
        /\ length codes = nth i (x_doc_lengths x) 0;
    s_emb : forall i, i < length (x_doc_lengths x) -> exists e, embeddings V x i = Ok e;
    s_cand : forall cs, exists l, get_candidates x cs = Ok l
      /\ forall z, In z l <-> exists i codes c, z = Z.of_nat i /\ i < length (x_doc_lengths x)
            /\ doc_codes x z = Ok codes /\ In c codes /\ In c cs }.

  Lemma searchable_readable x id : searchable x -> readable x id = true <-> (0 <= id < Z.of_nat (length (x_doc_lengths x)))%Z.
  Proof using Type.
    clear HK. intro S. unfold readable, embeddings, get_document_embeddings. rewrite andb_true_iff, Z.leb_le.
    destruct (Nat.leb_spec (length (x_doc_lengths x)) (Z.to_nat id)) as [Hl|Hl].
    - split; [intros (_ & X); discriminate|lia].
    - split; [lia|]. intro Hr. split; [lia|]. destruct (s_emb _ S (Z.to_nat id) Hl) as (e & E).
      unfold embeddings, get_document_embeddings in E.
      destruct (Nat.leb_spec (length (x_doc_lengths x)) (Z.to_nat id)); [lia|]. rewrite E. reflexivity.
  Qed.

  Lemma eligible_spec x sub : searchable x -> exists el, eligible_centroids x sub = Ok el /\ NoDup el
    /\ forall c, In c el <-> exists i codes, In (Z.of_nat i) sub /\ i < length (x_doc_lengths x)
         /\ doc_codes x (Z.of_nat i) = Ok codes /\ In c codes.
  Proof using Type.
    clear HK. intro S. unfold eligible_centroids.
    set (g := fun id => match (if (0 <=? id)%Z && (Z.to_nat id <? length (x_doc_lengths x)) then doc_codes x id else Ok []) with Ok l => l | _ => [] end).
    assert (Hg : forall id, (if (0 <=? id)%Z && (Z.to_nat id <? length (x_doc_lengths x)) then doc_codes x id else Ok []) = Ok (g id)).
    { intro id. unfold g. destruct (Z.leb_spec 0 id); cbn [andb]; auto.
      destruct (Nat.ltb_spec (Z.to_nat id) (length (x_doc_lengths x))) as [Hl|]; auto.
      destruct (s_codes _ S _ Hl) as (codes & E & _). rewrite Z2Nat.id in E by auto. rewrite E. auto. }
    rewrite (mapM_Ok_map _ g) by (intros; apply Hg). cbn [bind].
    eexists. split; [reflexivity|]. split; [apply NoDup_nodup|]. intro c. rewrite nodup_In, in_concat. split.
    - intros (l & Hl & Hc). apply in_map_iff in Hl. destruct Hl as (id & <- & Hid). specialize (Hg id).
      destruct (Z.leb_spec 0 id) as [H0|]; cbn [andb] in Hg; [|injection Hg as Hg; rewrite <- Hg in Hc; destruct Hc].
      destruct (Nat.ltb_spec (Z.to_nat id) (length (x_doc_lengths x))) as [Hl|]; [|injection Hg as Hg; rewrite <- Hg in Hc; destruct Hc].
      exists (Z.to_nat id), (g id). rewrite Z2Nat.id by auto. auto.
    - intros (i & codes & Hi & Hl & E & Hc). exists (g (Z.of_nat i)). split; [apply in_map; auto|].
      specialize (Hg (Z.of_nat i)). destruct (Z.leb_spec 0 (Z.of_nat i)); [|lia]. cbn [andb] in Hg.
      rewrite Nat2Z.id in Hg. destruct (Nat.ltb_spec i (length (x_doc_lengths x))); [|lia]. congruence.
  Qed.

  (** Lower-level totality. *)
  Lemma foldM_total {S X} (f : S -> X -> res S) l : (forall s a, In a l -> exists s', f s a = Ok s') ->
    forall s, exists s', foldM f l s = Ok s'.
  Proof using Type.
    clear HK. induction l as [|a l IH]; intros H s; cbn [foldM]; [eauto|].
    destruct (H s a (or_introl eq_refl)) as (s1 & ->). cbn [bind]. apply IH. intros; apply H; right; auto.
  Qed.
  Lemma mapM_total {A B} (f : A -> res B) l : (forall a, In a l -> exists b, f a = Ok b) -> exists bs, mapM f l = Ok bs.
  Proof using Type.
    clear HK. induction l as [|a l IH]; intro H; cbn [mapM]; [eauto|].
    destruct (H a (or_introl eq_refl)) as (b & ->). cbn [bind].
    destruct IH as (bs & ->); [intros; apply H; right; auto|]. cbn [bind]. eauto.
  Qed.
  Lemma retainM_total {A} (f : A -> res bool) l : (forall a, In a l -> exists b, f a = Ok b) -> exists bs, retainM f l = Ok bs /\ incl bs l.
  Proof using Type.
    clear HK. induction l as [|a l IH]; intro H; cbn [retainM]; [exists []; split; auto; apply incl_refl|].
    destruct (H a (or_introl eq_refl)) as (b & ->). cbn [bind].
    destruct IH as (bs & -> & Hi); [intros; apply H; right; auto|]. cbn [bind]. eexists. split; [reflexivity|].
    destruct b; intros y Hy; [destruct Hy as [<-|Hy]; [left; auto|right; auto]|right; auto].
  Qed.

  Lemma cells_total x q p sub : searchable x -> 1 <= p_n_ivf_probe p ->
    exists cells, cells_to_probe (k_select K) x (qscores x q) p sub = Ok cells.
  Proof using HK.
    intros S Hn. unfold cells_to_probe.
    assert (HE : exists el, match sub with
                  | None => Ok None
                  | Some s => bind (eligible_centroids x s) (fun e => Ok (Some e)) end = Ok el
               /\ (el = None \/ exists e, el = Some e /\ NoDup e /\ forall c, In c e -> c < length (c_centroids (x_codec x)))).
    { destruct sub as [s|]; [|eauto]. destruct (eligible_spec x s S) as (el & -> & Hnd & Hel). cbn [bind]. eexists. split; [reflexivity|].
      right. exists el. split; auto. split; auto. intros c Hc. apply Hel in Hc. destruct Hc as (i & codes & _ & Hi & E & Hc).
      destruct (s_codes _ S i Hi) as (codes' & E' & Hlt & _). rewrite E in E'. injection E' as <-. auto. }
    destruct HE as (el & -> & Hel). cbn [bind].
    set (pool := match el with Some e => e | None => _ end).
    set (n := effective_n_ivf_probe _ _ _ _).
    assert (Hpool : forall c, In c pool -> c < length (c_centroids (x_codec x))).
    { destruct Hel as [->|(e & -> & _ & He)]; unfold pool; auto. intros c Hc. apply in_seq in Hc. lia. }
    assert (Hpn : NoDup pool) by (destruct Hel as [->|(e & -> & He & _)]; unfold pool; auto; apply seq_NoDup).
    assert (Hnn : 1 <= n \/ pool = []).
    { unfold n, pool, effective_n_ivf_probe. destruct el as [[|e0 es]|]; auto; destruct sub as [s|]; auto.
      left. cbn [length]. destruct (0 <? length s); lia. }
    destruct (mapM_total (token_cells (k_select K) n pool) (qscores x q)) as (ls & Hls).
    { intros sc Hs. apply token_cells_total; auto. intros c Hc. apply in_map_iff in Hs. destruct Hs as (qr & <- & _).
      rewrite map_length. auto. }
    rewrite Hls. cbn [bind]. destruct (p_threshold p) as [t|]; [|eauto].
    destruct (retainM_total (fun c => bind (column_max (qscores x q) c) (fun m => Ok (f_ge m t))) (nodup Nat.eq_dec (concat ls))) as (bs & Hb & _); [|eauto].
    intros c Hc. apply nodup_In in Hc. unfold column_max.
    destruct (mapM_total (fun r => idx r c) (qscores x q)) as (col & ->); [|cbn [bind]; eauto].
    intros r Hr. apply in_map_iff in Hr. destruct Hr as (qr & <- & _).
    assert (Hcl : c < length (c_centroids (x_codec x))).
    { apply in_concat in Hc. destruct Hc as (l & Hl & Hc). apply In_nth_error in Hl. destruct Hl as (i & Hi).
      apply mapM_Ok_inv in Hls. assert (Hlt : i < length (qscores x q)).
      { apply Forall2_length in Hls. rewrite Hls. apply nth_error_Some. congruence. }
      destruct (nth_error (qscores x q) i) as [sc|] eqn:Es; [|apply nth_error_None in Es; lia].
      destruct (Forall2_nth_error _ _ _ Hls i sc Es) as (l' & El & Ht). rewrite Hi in El. injection El as <-.
      destruct (token_cells_spec _ (proj1 HK) _ _ _ _ Hpn Ht) as (_ & _ & Hinc & _). auto. }
    rewrite (idx_nth _ c f_zero) by (rewrite map_length; auto). eauto.
  Qed.

  Lemma with_scores_total score x c : searchable x ->
    (forall z, In z c -> exists i, z = Z.of_nat i /\ i < length (x_doc_lengths x)) ->
    (forall codes, (forall k, In k codes -> k < length (c_centroids (x_codec x))) -> exists s, score codes = Ok s) ->
    exists approx, with_scores score x c = Ok approx.
  Proof using Type.
    clear HK. intros S Hc Hs. apply mapM_total. intros z Hz. destruct (Hc z Hz) as (i & -> & Hi).
    destruct (s_codes _ S i Hi) as (codes & -> & Hlt & _). cbn [bind]. destruct (Hs codes Hlt) as (s & ->). cbn [bind]. eauto.
  Qed.

  Lemma search_total x q p sub : searchable x -> q_dim q = c_dim (x_codec x) -> 1 <= p_n_ivf_probe p ->
    exists r, search V K x q p sub = Ok r.
  Proof using HK.
    intros S Hd Hn. unfold search, search_one_mmap. cbv zeta.
    assert (Hcands : forall cells, exists cands, get_candidates x cells = Ok cands
       /\ forall z, In z (filter (in_subset sub) cands) -> exists i, z = Z.of_nat i /\ i < length (x_doc_lengths x)).
    { intro cells. destruct (s_cand _ S cells) as (l & E & H). exists l. split; auto. intros z Hz. apply filter_In in Hz.
      destruct Hz as (Hz & _). apply H in Hz. destruct Hz as (i & codes & c & -> & Hi & _). eauto. }
    assert (Hrank : forall approx, (forall z, In z (map fst approx) -> exists i, z = Z.of_nat i /\ i < length (x_doc_lengths x)) ->
       exists r, rank fadd norm (k_mat K) (k_dot K) (k_arch K) x (q_rows q) p approx = Ok r).
    { intros approx Ha. apply rank_total. intros id Hid. destruct (Ha id Hid) as (i & -> & Hi). rewrite Nat2Z.id.
      destruct (s_emb _ S i Hi) as (e & ->). discriminate. }
    destruct (_ && _).
    - unfold search_one_mmap_batched. cbv zeta. rewrite Hd, Nat.eqb_refl. cbn [negb].
      destruct (Hcands (ivf_probe_batched (k_mat K) (k_heap K) (q_rows q) (c_centroids (x_codec x)) (p_n_ivf_probe p) (p_centroid_batch_size p) (p_threshold p)))
        as (cands & -> & Hcd). cbn [bind].
      destruct (filter (in_subset sub) cands) as [|c0 cs] eqn:EC; [eauto|]. rewrite <- EC in *.
      assert (HL : exists ls, mapM (doc_codes x) (filter (in_subset sub) cands) = Ok ls
                  /\ forall c, In c (concat ls) -> c < length (c_centroids (x_codec x))).
      { destruct (mapM_total (doc_codes x) (filter (in_subset sub) cands)) as (ls & Hls).
        { intros z Hz. destruct (Hcd z Hz) as (i & -> & Hi). destruct (s_codes _ S i Hi) as (codes & -> & _). eauto. }
        exists ls. split; auto. intros c Hc. apply in_concat in Hc. destruct Hc as (l & Hl & Hc).
        apply In_nth_error in Hl. destruct Hl as (k & Hk). apply mapM_Ok_inv in Hls.
        assert (Hkl : k < length (filter (in_subset sub) cands)).
        { apply Forall2_length in Hls. rewrite Hls. apply nth_error_Some; congruence. }
        destruct (nth_error (filter (in_subset sub) cands) k) as [z|] eqn:Ez; [|apply nth_error_None in Ez; lia].
        destruct (Forall2_nth_error _ _ _ Hls k z Ez) as (l' & El & Ed). rewrite Hk in El. injection El as <-.
        destruct (Hcd z (nth_error_In _ _ Ez)) as (i & -> & Hi). destruct (s_codes _ S i Hi) as (codes & E2 & Hlt & _).
        rewrite Ed in E2. injection E2 as <-. auto. }
      destruct HL as (ls & -> & Hlt). cbn [bind].
      set (sp := map (fun c => (c, map (fun qr => k_vec K qr (nth c (c_centroids (x_codec x)) [])) (q_rows q))) (nodup Nat.eq_dec (concat ls))).
      assert (HSp : build_sparse (k_vec K) (q_rows q) (c_centroids (x_codec x)) (nodup Nat.eq_dec (concat ls)) = Ok sp).
      { unfold build_sparse, sp. apply mapM_Ok_map. intros c Hc. apply nodup_In in Hc.
        rewrite (idx_nth _ c []) by auto. reflexivity. }
      rewrite HSp. cbn [bind].
      destruct (with_scores_total (fun codes => approximate_score_sparse fadd sp codes (length (q_rows q))) x (filter (in_subset sub) cands) S Hcd) as (approx & Ha).
      { intros codes _. unfold approximate_score_sparse. apply foldM_total. intros t qi Hqi. apply in_seq in Hqi.
        destruct (foldM_total (fun m code => match lookup code sp with
                         | None => Ok m
                         | Some scores => bind (idx scores qi) (fun s => Ok (if f_gt s m then s else m))
                         end) codes) with (s := f_neg_inf) as (m & Hm).
        - intros m code _. destruct (lookup code sp) as [scores|] eqn:El; [|eauto].
          assert (length scores = length (q_rows q)).
          { clear -El. unfold sp in El. induction (nodup Nat.eq_dec (concat ls)) as [|c l IH]; cbn [map lookup] in El; [discriminate|].
            destruct (code =? c); auto. injection El as <-. apply map_length. }
          rewrite (idx_nth _ qi f_zero) by lia. cbn [bind]. eauto.
        - unfold sparse_token. rewrite Hm. cbn [bind]. eauto. }
      rewrite Ha. cbn [bind]. apply Hrank. rewrite (with_scores_fst _ _ _ _ Ha). auto.
    - rewrite Hd, Nat.eqb_refl. cbn [negb]. destruct (cells_total x q p sub S Hn) as (cells & ->). cbn [bind].
      destruct (Hcands cells) as (cands & -> & Hcd). cbn [bind].
      destruct (filter (in_subset sub) cands) as [|c0 cs] eqn:EC; [eauto|]. rewrite <- EC in *.
      destruct (with_scores_total (approximate_score_mmap fadd (qscores x q)) x (filter (in_subset sub) cands) S Hcd) as (approx & Ha).
      { intros codes Hlt. unfold approximate_score_mmap. apply foldM_total. intros t sc Hsc.
        apply in_map_iff in Hsc. destruct Hsc as (qr & <- & _). unfold approx_token.
        destruct (foldM_total (fun m code => bind (idx (map (k_mat K qr) (c_centroids (x_codec x))) code) (fun s => Ok (if f_gt s m then s else m))) codes) with (s := f_neg_inf) as (m & ->).
        - intros m code Hc. rewrite (idx_nth _ code f_zero) by (rewrite map_length; auto). cbn [bind]. eauto.
        - cbn [bind]. eauto. }
      rewrite Ha. cbn [bind]. apply Hrank. rewrite (with_scores_fst _ _ _ _ Ha). auto.
  Qed.

  (** ** Exhaustive search *)
  Lemma all_cells n scores cells : best_cells n scores cells -> length scores <= n -> forall c, c < length scores -> In c cells.
  Proof using Type.
    clear HK. intros (N & L & R & _) Hn c Hc.
    refine (NoDup_length_incl N _ _ c _).
    - rewrite (seq_length (length scores) 0 : length (seq 0 (length scores)) = _). lia.
    - intros k Hk. apply in_seq. specialize (R k Hk). lia.
    - apply in_seq. lia.
  Qed.

  (** Positions of the documents with a token, in the subset. *)
  Definition universe (x : index) (sub : option (list Z)) : list Z :=
    filter (in_subset sub) (map Z.of_nat (filter (fun i => negb (nth i (x_doc_lengths x) 0 =? 0)) (seq 0 (length (x_doc_lengths x))))).
  Lemma universe_In x sub z : In z (universe x sub) <-> in_subset sub z = true
    /\ exists i, z = Z.of_nat i /\ i < length (x_doc_lengths x) /\ nth i (x_doc_lengths x) 0 <> 0.
  Proof using Type.
    clear HK. unfold universe. rewrite filter_In, in_map_iff. split.
    - intros ((i & <- & Hi) & Hs). apply filter_In in Hi. destruct Hi as (Hi & Hz). apply in_seq in Hi.
      split; auto. exists i. split; auto. split; [lia|]. intro E; rewrite E in Hz; discriminate.
    - intros (Hs & i & -> & Hi & Hz). split; auto. exists i. split; auto. apply filter_In. split; [apply in_seq; lia|].
      destruct (Nat.eqb_spec (nth i (x_doc_lengths x) 0) 0); auto.
  Qed.
  Lemma universe_NoDup x sub : NoDup (universe x sub).
  Proof using Type.
    clear HK. unfold universe. apply NoDup_filter. apply FinFun.Injective_map_NoDup; [intros a b; lia|].
    apply NoDup_filter, seq_NoDup.
  Qed.

  Lemma search_exhaustive x q p sub r : searchable x -> q_rows q <> [] ->
    length (c_centroids (x_codec x)) <= p_n_ivf_probe p -> p_threshold p = None ->
    length (universe x sub) <= p_n_full_scores p ->
    length (universe x sub) <= Nat.max (p_n_full_scores p / 4) (p_top_k p) ->
    search V K x q p sub = Ok r ->
    best_of (p_top_k p) (universe x sub) (fscore x q) (r_passage_ids r) (r_scores r).
  Proof using HK.
    intros S Hq Hn Ht H1 H2 H. destruct (search_stage _ _ _ _ _ H) as (_ & cells & (cands & Hc & HS) & Hcells).
    cbv zeta in HS. pose proof (candidates_nodup _ _ _ Hc) as ND.
    destruct (s_cand _ S cells) as (l & El & Hl). rewrite Hc in El. injection El as <-.
    (* every code of a subset document is a probed cell *)
    assert (Hall : forall i codes c, i < length (x_doc_lengths x) -> doc_codes x (Z.of_nat i) = Ok codes -> In c codes ->
        in_subset sub (Z.of_nat i) = true -> In c cells).
    { intros i codes c Hi E Hcc Hsub. destruct (s_codes _ S i Hi) as (codes' & E' & Hlt & _). rewrite E in E'. injection E' as <-.
      destruct (q_rows q) as [|q0 qs] eqn:Eq; [congruence|].
      assert (Hunion : forall cl, best_cells_union (p_n_ivf_probe p) (map (fun qr => map (k_mat K qr) (c_centroids (x_codec x))) (q0 :: qs)) cl -> In c cl).
      { intros cl (ch & HF & _ & Hch). apply Hch. cbn [map] in HF. inversion HF as [|s0 c0 ss cs HB _]; subst. cbn [concat].
        apply in_or_app. left. eapply all_cells; [exact HB| |]; rewrite map_length; auto. }
      destruct (uses_batches x p) eqn:EB.
      - subst cells. apply Hunion. rewrite Ht. apply batched_best; [apply HK|].
        unfold uses_batches in EB. apply andb_true_iff in EB. destruct EB as (EB & _). apply Nat.ltb_lt in EB. lia.
      - destruct sub as [s|].
        + unfold cells_to_probe in Hcells. destruct (eligible_spec x s S) as (el & Eel & Hnd & Hel). rewrite Eel in Hcells.
          cbn [bind] in Hcells. apply bind_Ok in Hcells. destruct Hcells as (ls & Hm & Hcells). rewrite Ht in Hcells. injection Hcells as <-.
          apply nodup_In. cbn [map mapM] in Hm. apply bind_Ok in Hm. destruct Hm as (c0 & Hc0 & Hm).
          apply bind_Ok in Hm. destruct Hm as (cs & _ & Hm). injection Hm as <-. cbn [concat]. apply in_or_app. left.
          destruct (token_cells_spec _ (proj1 HK) _ _ _ _ Hnd Hc0) as (N0 & L0 & I0 & _).
          assert (Hin : In c el).
          { apply Hel. exists i, codes. split; auto. cbn in Hsub. apply existsb_exists in Hsub. destruct Hsub as (z & Hz & E2).
            apply Z.eqb_eq in E2. subst z. auto. }
          assert (Hel_le : length el <= length (c_centroids (x_codec x))).
          { rewrite <- (seq_length (length (c_centroids (x_codec x))) 0). apply NoDup_incl_length; auto.
            intros k Hk. apply Hel in Hk. destruct Hk as (i' & codes' & _ & Hi' & E2 & Hk).
            destruct (s_codes _ S i' Hi') as (codes'' & E3 & Hlt' & _). rewrite E2 in E3. injection E3 as <-.
            apply in_seq. specialize (Hlt' k Hk). lia. }
          refine (NoDup_length_incl N0 _ I0 c Hin). rewrite L0. unfold effective_n_ivf_probe.
          destruct el as [|e0 es]; [destruct Hin|]. cbn [length] in *. destruct (0 <? length s); lia.
        + apply Hunion. rewrite <- Eq. apply cells_standard; auto. rewrite Eq; auto. }
    assert (PU : Permutation (filter (in_subset sub) cands) (universe x sub)).
    { apply NoDup_Permutation; [apply NoDup_filter; auto|apply universe_NoDup|]. intro z.
      rewrite filter_In, universe_In, Hl. split.
      - intros ((i & codes & c & -> & Hi & E & Hcc & _) & Hsub). split; auto. exists i. split; auto. split; auto.
        destruct (s_codes _ S i Hi) as (codes' & E' & _ & HL). rewrite E in E'. injection E' as <-.
        rewrite <- HL. destruct codes; [destruct Hcc|discriminate].
      - intros (Hsub & i & -> & Hi & Hz). split; auto.
        destruct (s_codes _ S i Hi) as (codes & E & _ & HL).
        destruct codes as [|c codes]; [cbn in HL; congruence|].
        exists i, (c :: codes), c. split; auto. split; auto. split; auto. split; [left; auto|].
        apply (Hall i (c :: codes)); auto. left; auto. }
    destruct HS as [(E & ->)|(approx & Ef & Hr)].
    - rewrite E in PU. apply Permutation_nil in PU. rewrite PU.
      split; [constructor|]. split; [intros ? []|]. split; [cbn; lia|]. split; auto. split; [constructor|]. intros ? ? [].
    - assert (NA : NoDup (map fst approx)) by (rewrite Ef; apply NoDup_filter; auto).
      destruct (rank_spec _ _ _ _ _ NA Hr) as (_ & HB).
      pose proof (Permutation_map fst (sort_desc_perm approx)) as Ps. rewrite Ef in Ps.
      pose proof (Permutation_length (Permutation_trans Ps PU)) as HLs. rewrite map_length in HLs.
      rewrite (firstn_all2 (n := p_n_full_scores p)) in HB by lia.
      rewrite firstn_all2 in HB by (rewrite map_length; lia).
      revert HB. apply best_of_perm.
      assert (PT : Permutation (map fst (sort_desc approx)) (universe x sub)) by (etransitivity; eauto).
      rewrite <- PT. 
      assert (Hrd : forall z, In z (map fst (sort_desc approx)) -> readable x z = true).
      { intros z Hz. apply (Permutation_in _ PT), universe_In in Hz. destruct Hz as (_ & i & -> & Hi & _).
        apply searchable_readable; auto. lia. }
      clear -Hrd. induction (map fst (sort_desc approx)) as [|z zs IH]; cbn [filter]; auto.
      rewrite (Hrd z) by (left; auto). apply perm_skip, IH. intros; apply Hrd; right; auto.
  Qed.
End SEARCHP.
