(** Reached indexes are searchable; multi-query search; reranking; centroid assignment. *)
From Verif Require Import Base F32 CodecModel CodecSpec CodecProofs IndexModel IndexSpec IndexLemmas IndexCore IndexOps IndexAccess
  SearchModel SearchSpec SimdProofs ProbeProofs SearchProofs.
Open Scope nat_scope.
Set Default Proof Using "Type".

(** ** Reached indexes *)
Lemma reached_searchable V D docs0 g0 ops outs d h x :
  reached V D docs0 g0 ops outs d h -> load d = Ok x ->
  searchable V x /\ c_dim (x_codec x) = D /\ c_centroids (x_codec x) <> []
  /\ x_doc_lengths x = map (@length row) (documents docs0 ops)
  /\ num_documents (x_meta x) = length (documents docs0 ops).
Proof.
  intros R Hx. destruct (history_list V D docs0 g0 _ _ _ _ R) as (_ & HS & _). specialize (HS x Hx).
  destruct HS as (HN & HL & w & c & _ & _ & HE).
  destruct (reached_good _ _ _ _ _ _ _ _ R) as (_ & fr & pe & nb & cents & cut & wei & css & E & B & HI & _).
  cbn [fst] in HI. pose proof (in_core _ _ _ _ _ _ _ _ _ _ _ _ HI) as HC.
  pose proof (load_inv_loaded _ _ _ _ _ _ _ _ _ _ _ HC Hx) as HX.
  pose proof HX as (Hm & Hcod & _ & _ & _ & Hl & _).
  assert (Hlen : length (concat css) = length (x_doc_lengths x)) by (rewrite Hl, map_length; auto).
  assert (Hcodes : forall i sd, nth_error (concat css) i = Some sd -> doc_codes x (Z.of_nat i) = Ok (map fst sd)).
  { intros i sd Hi. unfold doc_codes. destruct (Z.ltb_spec (Z.of_nat i) 0); [lia|]. rewrite Nat2Z.id.
    destruct (loaded_range D _ _ _ _ _ _ _ _ _ HX Hi) as (s & -> & Hc & _). exact Hc. }
  assert (Hlt : forall i sd k, nth_error (concat css) i = Some sd -> In k (map fst sd) -> k < length cents).
  { intros i sd k Hi Hk. pose proof (core_codes_lt _ _ _ _ _ _ _ _ _ _ _ HC (nth_error_In _ _ Hi)) as F.
    apply in_map_iff in Hk. destruct Hk as (t & <- & Ht). rewrite Forall_forall in F. auto. }
  split; [|split; [rewrite Hcod; reflexivity|split; [rewrite Hcod; exact (co_ne _ _ _ _ _ _ _ _ _ _ HC)|auto]]].
  split.
  - intros i Hi. destruct (nth_error (concat css) i) as [sd|] eqn:Es; [|apply nth_error_None in Es; lia].
    exists (map fst sd). split; [auto|]. split; [intros k Hk; rewrite Hcod; eapply Hlt; eauto|].
    rewrite Hl, map_length. rewrite (nth_indep _ 0 (length (@nil (nat * list N)))) by (rewrite map_length; lia).
    rewrite map_nth, (nth_error_nth _ _ _ Es). reflexivity.
  - intros i Hi. rewrite HL, map_length in Hi.
    destruct (nth_error (documents docs0 ops) i) as [dd|] eqn:Ed; [|apply nth_error_None in Ed; lia].
    destruct (HE i dd Ed) as (n & e & _ & He & _). exists e. exact He.
  - intro cs. destruct (loaded_candidates D _ _ _ _ _ _ _ cs HX) as (l & El & _ & Hin).
    exists l. split; auto. intro z. rewrite Hin. split.
    + intros (k & Hk & Hkl & Hz). apply postings_In in Hz. destruct Hz as (i & sd & -> & Hi & Hh).
      exists i, (map fst sd), k. split; auto. split; [rewrite <- Hlen; apply nth_error_Some; congruence|].
      split; auto. split; auto. apply has_code_In; auto.
    + intros (i & codes & k & -> & Hi & Hc & Hk & Hkc).
      destruct (nth_error (concat css) i) as [sd|] eqn:Es; [|apply nth_error_None in Es; lia].
      rewrite (Hcodes _ _ Es) in Hc. injection Hc as <-. exists k. split; auto.
      split; [eapply Hlt; eauto|]. apply postings_In. exists i, sd. split; auto. split; auto. apply has_code_In; auto.
Qed.

Lemma universe_docs x L sub : x_doc_lengths x = map (@length row) L -> universe x sub = searchable_docs L sub.
Proof.
  intro H. unfold universe, searchable_docs, in_subset. f_equal. f_equal. rewrite H, map_length.
  apply filter_ext_in. intros i Hi. apply in_seq in Hi.
  rewrite (nth_indep _ 0 (length (@nil row))) by (rewrite map_length; lia). rewrite map_nth. reflexivity.
Qed.

(** ** Searches never fail with an error *)
Definition no_err {A} (m : res A) : Prop := m <> Err.
Lemma no_err_bind {A B} (m : res A) (f : A -> res B) : no_err m -> (forall a, no_err (f a)) -> no_err (bind m f).
Proof. unfold no_err. destruct m; cbn; auto; discriminate. Qed.
Lemma no_err_Ok {A} (a : A) : no_err (Ok a).
Proof. discriminate. Qed.
Lemma no_err_mapM {A B} (f : A -> res B) l : (forall a, no_err (f a)) -> no_err (mapM f l).
Proof.
  intro H. induction l as [|a l IH]; cbn [mapM]; [discriminate|].
  apply no_err_bind; auto. intro b. apply no_err_bind; auto. discriminate.
Qed.
Lemma no_err_foldM {S X} (f : S -> X -> res S) l : (forall s a, no_err (f s a)) -> forall s, no_err (foldM f l s).
Proof.
  intro H. induction l as [|a l IH]; intro s; cbn [foldM]; [discriminate|]. apply no_err_bind; auto.
Qed.
Lemma no_err_retainM {A} (f : A -> res bool) l : (forall a, no_err (f a)) -> no_err (retainM f l).
Proof.
  intro H. induction l as [|a l IH]; cbn [retainM]; [discriminate|].
  apply no_err_bind; auto. intro b. apply no_err_bind; auto. discriminate.
Qed.
Lemma no_err_idx {A} (l : list A) i : no_err (idx l i).
Proof. unfold idx. destruct (nth_error l i); discriminate. Qed.
Lemma no_err_slice {A} (l : list A) a b : no_err (slice l a b).
Proof. unfold slice. destruct (_ && _); discriminate. Qed.
Ltac noerr := repeat (cbn beta iota zeta; first
  [ apply no_err_Ok | apply no_err_idx | apply no_err_slice | discriminate
  | apply no_err_bind; [|intro] | apply no_err_mapM; intro | apply no_err_foldM; intros ? ?
  | apply no_err_retainM; intro ]).
Lemma no_err_candidates x cells : no_err (get_candidates x cells).
Proof. unfold get_candidates, candidate_slice. noerr. destruct (_ <? _); noerr. Qed.
Lemma no_err_codes x id : no_err (doc_codes x id).
Proof. unfold doc_codes, doc_range. destruct (_ <? _)%Z; noerr. Qed.
Lemma no_err_cells sel x sc p sub : no_err (cells_to_probe sel x sc p sub).
Proof.
  unfold cells_to_probe. apply no_err_bind.
  - destruct sub; noerr. unfold eligible_centroids. noerr. destruct (_ && _); [apply no_err_codes|noerr].
  - intro el. noerr.
    + unfold token_cells. noerr. destruct (_ <? _); [destruct (_ =? 0)|]; noerr.
    + destruct (p_threshold p); noerr.
Qed.

Lemma mapM_ext {A B} (f g : A -> res B) l : (forall a, In a l -> f a = g a) -> mapM f l = mapM g l.
Proof.
  induction l as [|a l IH]; intro H; cbn [mapM]; auto. rewrite H by (left; auto). rewrite IH; auto. intros; apply H; right; auto.
Qed.

Section SEARCHES.
  Variables (V : env) (K : kernel).
  Lemma no_err_exact x qr ids : no_err (exact_scores (v_fadd V) (v_norm V) (k_mat K) (k_dot K) (k_arch K) x qr ids).
  Proof.
    induction ids as [|i ids IH]; cbn [exact_scores]; noerr.
    destruct (if (i <? 0)%Z then _ else _); noerr; auto.
  Qed.
  Lemma no_err_rank x qr p ap : no_err (rank (v_fadd V) (v_norm V) (k_mat K) (k_dot K) (k_arch K) x qr p ap).
  Proof. unfold rank. destruct (firstn _ (map fst _)); noerr. apply no_err_exact. Qed.
  Lemma no_err_with score x c : (forall l, no_err (score l)) -> no_err (with_scores score x c).
  Proof. intro H. unfold with_scores. noerr; [apply no_err_codes|apply H]. Qed.

  Lemma search_no_err x q p sub : search V K x q p sub <> Err.
  Proof.
    change (no_err (search V K x q p sub)). unfold search, search_one_mmap, search_one_mmap_batched. cbv zeta.
    destruct (_ && _); (destruct (negb _); [discriminate|]).
    - apply no_err_bind; [apply no_err_candidates|intro cs]. destruct (filter _ cs); [discriminate|].
      apply no_err_bind; [apply no_err_mapM; intro; apply no_err_codes|intro ls].
      apply no_err_bind; [unfold build_sparse; noerr|intro sp].
      apply no_err_bind; [|intro; apply no_err_rank].
      apply no_err_with. intro cl. unfold approximate_score_sparse, sparse_token. noerr. destruct (lookup _ _); noerr.
    - apply no_err_bind; [apply no_err_cells|intro cells]. apply no_err_bind; [apply no_err_candidates|intro cs].
      destruct (filter _ cs); [discriminate|].
      apply no_err_bind; [|intro; apply no_err_rank].
      apply no_err_with. intro cl. unfold approximate_score_mmap, approx_token. noerr.
  Qed.

  Lemma search_many_parallel x qs p sub :
    search_batch V K x qs p true sub = search_batch V K x qs p false sub.
  Proof.
    unfold search_batch, search_many_mmap. apply mapM_ext. intros (i & q) _. cbn [fst snd].
    pose proof (search_no_err x q p sub) as H. unfold search in H. destruct (search_one_mmap _ _ _ _ _ _ _ _ _ _ _ _); auto; congruence.
  Qed.
  Lemma mapM_combine {A B} (f : nat * A -> res B) qs rs : forall s, mapM f (combine (seq s (length qs)) qs) = Ok rs ->
    length rs = length qs /\ forall i q, nth_error qs i = Some q -> exists r, nth_error rs i = Some r /\ f (s + i, q) = Ok r.
  Proof.
    revert rs. induction qs as [|q qs IH]; intros rs s H; cbn [length seq combine mapM] in H.
    - injection H as <-. split; auto. intros [|i] q H; discriminate.
    - apply bind_Ok in H. destruct H as (r & Hr & H). apply bind_Ok in H. destruct H as (rs' & Hs & H). injection H as <-.
      destruct (IH _ _ Hs) as (HL & HI). split; [cbn; auto|]. intros [|i] q' Hi.
      + injection Hi as <-. exists r. rewrite Nat.add_0_r. auto.
      + cbn in Hi. destruct (HI i q' Hi) as (r' & A1 & B0). exists r'. split; auto. rewrite <- Nat.add_succ_comm. auto.
  Qed.
  Lemma search_many_spec x qs p par sub rs : search_batch V K x qs p par sub = Ok rs ->
    length rs = length qs
    /\ forall i q, nth_error qs i = Some q ->
         exists r, search V K x q p sub = Ok r
           /\ nth_error rs i = Some {| r_query_id := i; r_passage_ids := r_passage_ids r; r_scores := r_scores r |}.
  Proof.
    intro H. destruct (mapM_combine _ _ _ _ H) as (HL & HI). split; auto. intros i q Hi.
    destruct (HI i q Hi) as (r & Hr & E). cbn [fst snd Nat.add] in E. unfold search in *.
    pose proof (search_no_err x q p sub) as HE. unfold search in HE.
    destruct (search_one_mmap _ _ _ _ _ _ _ _ _ _ _ _) as [r0| |] eqn:E0; try congruence.
    injection E as <-. exists r0. auto.
  Qed.
  Lemma search_many_ok x qs p par sub :
    (forall q, In q qs -> exists r, search V K x q p sub = Ok r) -> exists rs, search_batch V K x qs p par sub = Ok rs.
  Proof.
    intro H. apply mapM_total. intros (i & q) Hi. apply in_combine_r in Hi. destruct (H q Hi) as (r & Hr).
    cbn [fst snd]. unfold search in Hr. rewrite Hr. eauto.
  Qed.
End SEARCHES.

(** ** Reranking *)
Lemma finite_fval s : is_finite s = true -> (-2139095040 < fval s < 2139095040)%Z.
Proof.
  unfold is_finite, fval. intro H. apply Z.ltb_lt in H.
  assert (0 <= fabs s)%Z by (unfold fabs; apply Z.mod_pos_bound; lia). destruct (is_neg s); lia.
Qed.
Lemma finite_gt_neg_inf s : is_finite s = true -> f_gt s f_neg_inf = true.
Proof.
  intro H. unfold f_gt, f_lt. rewrite (finite_not_nan s H). change (is_nan f_neg_inf) with false.
  change (fval f_neg_inf) with (-2139095040)%Z. pose proof (finite_fval s H). cbn [negb andb]. apply Z.ltb_lt. lia.
Qed.

Section RERANK.
  Variables (fadd : f32 -> f32 -> f32) (dot : row -> row -> f32).
  (** Accumulating over [xs] after the prefix [pre] with first maximum [m]. *)
  Lemma rr_fold xs : forall pre m, Forall (fun s => is_finite s = true) pre -> first_max pre m ->
    foldM (fun m s => if negb (is_finite s) then Err else Ok (if f_gt s m then s else m)) xs m
    = (if forallb is_finite xs then Ok (fold_left (fun m s => if f_gt s m then s else m) xs m) else Err)
    /\ (forallb is_finite xs = true -> first_max (pre ++ xs) (fold_left (fun m s => if f_gt s m then s else m) xs m)).
  Proof.
    induction xs as [|s xs IH]; intros pre m Hp Hm; cbn [foldM forallb fold_left].
    - split; auto. intros _. rewrite app_nil_r. auto.
    - destruct (is_finite s) eqn:Fs; cbn [negb andb bind].
      2:{ split; [reflexivity|discriminate]. }
      assert (Hm' : first_max (pre ++ [s]) (if f_gt s m then s else m)).
      { destruct Hm as (a & b & -> & Ha & Hb). rewrite Forall_app in Hp. destruct Hp as (Fa & Fb).
        inversion Fb as [|? ? Fm Fb']; subst. rewrite Forall_forall in Fa, Fb'. unfold f_gt. destruct (f_lt m s) eqn:E.
        - exists (a ++ m :: b), []. split; auto. split; [|intros ? []]. intros y Hy. apply in_app_or in Hy.
          rewrite f_lt_finite in E by auto. apply Z.ltb_lt in E. destruct Hy as [Hy|[<-|Hy]].
          + specialize (Ha y Hy). rewrite f_lt_finite in * by auto. apply Z.ltb_lt in Ha. apply Z.ltb_lt. lia.
          + rewrite f_lt_finite by auto. apply Z.ltb_lt; auto.
          + specialize (Hb y Hy). rewrite f_lt_finite in * by auto. apply Z.ltb_ge in Hb. apply Z.ltb_lt. lia.
        - exists a, (b ++ [s]). split; [rewrite <- app_assoc; reflexivity|]. split; auto. intros y Hy.
          apply in_app_or in Hy. destruct Hy as [Hy|[<-|[]]]; auto. }
      destruct (IH (pre ++ [s]) _ (proj2 (Forall_app _ _ _) (conj Hp (Forall_cons _ Fs (Forall_nil _)))) Hm') as (A & B).
      split; [exact A|]. intro H. rewrite <- app_assoc in B. apply B, H.
  Qed.
  Lemma rr_token_spec q docs :
    match rr_token dot q docs with
    | Ok m => Forall (fun s => is_finite s = true) (map (dot q) docs)
              /\ (docs = [] /\ m = f_neg_inf \/ first_max (map (dot q) docs) m)
    | Err => ~ Forall (fun s => is_finite s = true) (map (dot q) docs)
    | Panic => False
    end.
  Proof.
    assert (E : rr_token dot q docs
      = foldM (fun m s => if negb (is_finite s) then Err else Ok (if f_gt s m then s else m)) (map (dot q) docs) f_neg_inf).
    { unfold rr_token. generalize f_neg_inf. induction docs as [|d docs IH]; intro m; cbn [map foldM]; auto.
      destruct (negb _); cbn [bind]; auto. }
    rewrite E. clear E. destruct docs as [|d docs]; cbn [map foldM].
    - split; [constructor|auto].
    - destruct (is_finite (dot q d)) eqn:Fd; cbn [negb bind].
      2:{ intro F. inversion F; congruence. }
      rewrite (finite_gt_neg_inf _ Fd).
      destruct (rr_fold (map (dot q) docs) [dot q d] (dot q d)) as (A & B).
      { repeat constructor; auto. } { exists [], []. split; auto. split; intros ? []. }
      rewrite A. destruct (forallb is_finite (map (dot q) docs)) eqn:F.
      + split; [constructor; auto; apply Forall_forall; apply forallb_forall; auto|]. right. apply B; auto.
      + intro G. inversion G as [|? ? _ G']; subst. rewrite Forall_forall in G'. rewrite <- forallb_forall in G'. congruence.
  Qed.
  Lemma first_max_finite l m : Forall (fun s => is_finite s = true) l -> first_max l m -> is_finite m = true.
  Proof. intros F (a & b & -> & _). rewrite Forall_forall in F. apply F, in_or_app. right; left; auto. Qed.

  Lemma first_max_unique l m m' : first_max l m -> first_max l m' -> m' = m.
  Proof.
    intros (a & b & Eab & Ha & Hb) (a' & b' & Eab' & Ha' & Hb'). rewrite Eab in Eab'.
    clear -Eab' Ha Hb Ha' Hb'. revert a' Eab' Ha'. induction a as [|x a IH]; intros [|y a'] E Ha'; cbn in E.
    - congruence.
    - injection E as E1 E2. subst. specialize (Ha' y (or_introl eq_refl)). rewrite Hb in Ha'; [discriminate|].
      apply in_or_app; right; left; auto.
    - injection E as E1 E2. subst. specialize (Ha m' (or_introl eq_refl)). rewrite Hb' in Ha; [discriminate|].
      apply in_or_app; right; left; auto.
    - injection E as E1 E2. refine (IH _ a' E2 _); [intros; apply Ha; right; auto|intros; apply Ha'; right; auto].
  Qed.
  Lemma fsom_inv l ls t u : finite_sum_of_max fadd (l :: ls) t u ->
    l = [] /\ finite_sum_of_max fadd ls t u
    \/ exists m, Forall (fun s => is_finite s = true) l /\ first_max l m /\ is_finite (fadd t m) = true
         /\ finite_sum_of_max fadd ls (fadd t m) u.
  Proof. intro H. inversion H; subst; [left; auto|right]. exists m. auto. Qed.
  Lemma first_max_nil m : ~ first_max [] m.
  Proof. intros (a & b & E & _). destruct a; discriminate. Qed.

  Lemma compute_maxsim_spec docs query : forall t,
    let go := foldM (fun total q => bind (rr_token dot q docs) (fun m =>
             if f_gt m f_neg_inf then
               let t := fadd total m in if negb (is_finite t) then Err else Ok t
             else Ok total)) query t in
    go <> Panic /\ forall u, go = Ok u <-> finite_sum_of_max fadd (map (fun q => map (dot q) docs) query) t u.
  Proof.
    cbv zeta. induction query as [|q qs IH]; intro t; cbn [foldM map].
    - split; [discriminate|]. intro u. split; [intro H; injection H as <-; constructor|intro H; inversion H; auto].
    - pose proof (rr_token_spec q docs) as T. destruct (rr_token dot q docs) as [m| |]; [|split; [discriminate|]|tauto]; cbn [bind].
      + destruct T as (F & [(-> & ->)|M]).
        * change (f_gt f_neg_inf f_neg_inf) with false. cbn [bind]. destruct (IH t) as (P & Q). split; auto. intro u. rewrite Q. cbn [map].
          split; [apply fsom_skip|]. intro H. apply fsom_inv in H. destruct H as [(_ & H)|(m & _ & H & _)]; auto.
          destruct (first_max_nil _ H).
        * assert (Hnn : map (dot q) docs <> []) by (intro E; rewrite E in M; destruct (first_max_nil _ M)).
          rewrite (finite_gt_neg_inf m (first_max_finite _ _ F M)). cbn zeta. destruct (is_finite (fadd t m)) eqn:Ft; cbn [negb bind].
          -- destruct (IH (fadd t m)) as (P & Q). split; auto. intro u. rewrite Q. split; [intro H; eapply fsom_add; eauto|].
             intro H. apply fsom_inv in H. destruct H as [(E & _)|(m' & _ & M' & _ & H)]; [congruence|].
             rewrite (first_max_unique _ _ _ M M') in H. auto.
          -- split; [discriminate|]. intro u. split; [discriminate|]. intro H.
             apply fsom_inv in H. destruct H as [(E & _)|(m' & _ & M' & Ft' & H)]; [congruence|].
             rewrite (first_max_unique _ _ _ M M') in Ft'. congruence.
      + intro u. split; [discriminate|]. intro H. apply fsom_inv in H. destruct H as [(E & _)|(m' & F' & _)]; [|contradiction].
        rewrite E in T. destruct T. constructor.
  Qed.

  (** The documented order: better scores first, equal scores in input order. *)
  Lemma stable_sorted l : StronglySorted (fun a b : Z * f32 => (fst a < fst b)%Z) l ->
    StronglySorted (fun a b => ~ better (snd b) (snd a) /\ (better (snd a) (snd b) \/ (fst a < fst b)%Z)) (sort_desc l).
  Proof.
    intro S. induction S as [|a l S IH Hal]; cbn; [constructor|].
    change (isort _ l) with (sort_desc l).
    assert (HA : Forall (fun b => (fst a < fst b)%Z) (sort_desc l)).
    { apply Forall_forall. intros b Hb. apply (Permutation_in _ (sort_desc_perm l)) in Hb. rewrite Forall_forall in Hal. auto. }
    induction IH as [|b ls IH' IH2 Hb]; cbn [insert]; [constructor; constructor|].
    inversion HA as [|? ? Hab HA']; subst.
    assert (D : match cmp_score_descending (snd a) (snd b) with Gt => false | _ => true end = true <-> ~ better (snd b) (snd a)).
    { unfold cmp_score_descending. rewrite <- cmp_better. destruct (cmp_f32_for_max (snd b) (snd a)); split; congruence. }
    destruct (match cmp_score_descending (snd a) (snd b) with Gt => false | _ => true end).
    - constructor; [constructor; auto|]. constructor; [split; [apply D; auto|auto]|].
      rewrite Forall_forall in *. intros c Hc. destruct (Hb c Hc) as (N1 & _). split; [|right; auto].
      apply better_trans_neg with (snd b); auto. apply D; auto.
    - assert (Bba : better (snd b) (snd a)).
      { destruct (better_dec (snd b) (snd a)) as [|N]; auto. apply D in N. discriminate. }
      constructor; [apply IH2; auto|]. apply Forall_forall. intros c Hc.
      apply (Permutation_in _ (insert_perm _ _ _)) in Hc. destruct Hc as [<-|Hc].
      + split; [apply better_asym; auto|auto].
      + rewrite Forall_forall in Hb. auto.
  Qed.

  Lemma rerank_ok q docs l : rerank fadd dot q docs = Ok l ->
    map fst l <> [] /\ Permutation (map fst l) (map Z.of_nat (seq 0 (length docs)))
    /\ (forall i s, In (Z.of_nat i, s) l -> exists d, nth_error docs i = Some d /\ q_dim d = q_dim q
                       /\ rerank_score fadd dot (q_rows q) (q_rows d) s)
    /\ StronglySorted (fun a b => ~ better (snd b) (snd a) /\ (better (snd a) (snd b) \/ (fst a < fst b)%Z)) l.
  Proof.
    unfold rerank. destruct docs as [|d0 ds]; [discriminate|]. set (docs := d0 :: ds) in *.
    destruct (forallb _ docs) eqn:Ef; cbn [negb]; [|discriminate]. intro H.
    apply bind_Ok in H. destruct H as (r & Hr & H). injection H as <-.
    destruct (mapM_combine _ _ _ _ Hr) as (HL & HI). cbn [Nat.add fst snd] in HI.
    assert (Er : map fst r = map Z.of_nat (seq 0 (length docs))).
    { apply nth_ext with (d := 0%Z) (d' := Z.of_nat 0); [rewrite !map_length, seq_length; auto|]. intros i Hi.
      rewrite map_length in Hi. rewrite map_nth, seq_nth by lia.
      destruct (nth_error docs i) as [d|] eqn:Ed; [|apply nth_error_None in Ed; lia].
      destruct (HI i d Ed) as (x & Hx & E). apply bind_Ok in E. destruct E as (s & _ & E). injection E as <-.
      apply (map_nth_error fst) in Hx. rewrite (nth_error_nth _ _ _ Hx). reflexivity. }
    assert (HM : Permutation (map fst (sort_desc r)) (map Z.of_nat (seq 0 (length docs)))).
    { rewrite <- Er. apply Permutation_map, sort_desc_perm. }
    split; [intro E; rewrite E in HM; apply Permutation_nil in HM; discriminate|]. split; auto. split.
    - intros i s Hin. apply (Permutation_in _ (sort_desc_perm r)) in Hin. apply In_nth_error in Hin. destruct Hin as (j & Hj).
      assert (Hjl : j < length docs) by (rewrite <- HL; apply nth_error_Some; congruence).
      destruct (nth_error docs j) as [d|] eqn:Ed; [|apply nth_error_None in Ed; lia].
      destruct (HI j d Ed) as (x & Hx & E). rewrite Hj in Hx. injection Hx as <-. apply bind_Ok in E. destruct E as (s' & Hs & E).
      injection E as E1 E2. apply Nat2Z.inj in E1. subst i s'. exists d. split; auto. split.
      + rewrite forallb_forall in Ef. apply Nat.eqb_eq, Ef. eapply nth_error_In; eauto.
      + apply (compute_maxsim_spec (q_rows d) (q_rows q) f_zero). exact Hs.
    - apply stable_sorted. assert (SS : forall n s, StronglySorted Z.lt (map Z.of_nat (seq s n))).
      { induction n; intro s; cbn; constructor; auto. apply Forall_forall. intros z Hz. apply in_map_iff in Hz.
        destruct Hz as (k & <- & Hk). apply in_seq in Hk. lia. }
      specialize (SS (length docs) 0). rewrite <- Er in SS. clear -SS.
      induction r as [|a r IH]; cbn in *; constructor; inversion SS; subst; auto. rewrite Forall_map in H2. auto.
  Qed.
  Lemma rerank_total q docs :
    rerank fadd dot q docs <> Panic
    /\ (rerank fadd dot q docs = Err <->
        docs = [] \/ (exists d, In d docs /\ q_dim d <> q_dim q)
        \/ exists d, In d docs /\ forall s, ~ rerank_score fadd dot (q_rows q) (q_rows d) s).
  Proof.
    unfold rerank. destruct docs as [|d0 ds]; [split; [discriminate|tauto]|]. set (docs := d0 :: ds) in *.
    destruct (forallb _ docs) eqn:Ef; cbn [negb].
    - rewrite forallb_forall in Ef.
      assert (HC : forall d, compute_maxsim fadd dot (q_rows q) (q_rows d) <> Panic
         /\ (compute_maxsim fadd dot (q_rows q) (q_rows d) = Err <-> forall s, ~ rerank_score fadd dot (q_rows q) (q_rows d) s)).
      { intro d. destruct (compute_maxsim_spec (q_rows d) (q_rows q) f_zero) as (P & Q). split; auto. unfold rerank_score, compute_maxsim.
        destruct (foldM _ (q_rows q) f_zero) as [u| |] eqn:E.
        - split; [discriminate|]. intro H. destruct (H u). apply Q. reflexivity.
        - split; auto. intros _ s Hs. apply Q in Hs. discriminate.
        - congruence. }
      set (f := fun id : nat * query => _).
      assert (HF : forall l, mapM f l <> Panic /\ (mapM f l = Err <-> exists p, In p l /\ f p = Err)).
      { induction l as [|a l (IP & IE)]; cbn [mapM]; [split; [discriminate|split; [discriminate|intros (? & [] & _)]]|].
        assert (FP : f a <> Panic).
        { unfold f. destruct (HC (snd a)) as (P & _). destruct (compute_maxsim _ _ _ _); cbn; congruence. }
        destruct (f a) as [b| |] eqn:Ea; cbn [bind]; [|split; [discriminate|split; auto; intros _; exists a; split; [left; auto|auto]]|congruence].
        destruct (mapM f l) as [bs| |]; cbn [bind]; [| |congruence].
        - split; [discriminate|]. split; [discriminate|]. intros (p & [<-|Hp] & E); [congruence|]. assert (X : Ok bs = @Err (list (Z * f32))) by (apply IE; eauto). discriminate X.
        - split; [discriminate|]. split; auto. intros _. destruct (proj1 IE eq_refl) as (p & Hp & E). exists p. split; auto. right; auto. }
      destruct (HF (combine (seq 0 (length docs)) docs)) as (P & Q).
      split; [destruct (mapM f _); cbn; congruence|]. split.
      + intro H. right; right. assert (HE : mapM f (combine (seq 0 (length docs)) docs) = Err).
        { destruct (mapM f (combine (seq 0 (length docs)) docs)); cbn in H; congruence. }
        apply Q in HE. destruct HE as ((i & d) & Hp & E). apply in_combine_r in Hp. exists d. split; auto. apply HC.
        unfold f in E. cbn [fst snd] in E. destruct (compute_maxsim _ _ _ _); cbn in E; congruence.
      + intros [E|[(d & Hd & E)|(d & Hd & E)]]; [discriminate|destruct E; apply Nat.eqb_eq, Ef, Hd|].
        assert (HE : mapM f (combine (seq 0 (length docs)) docs) = Err).
        { apply Q. apply In_nth_error in Hd. destruct Hd as (i & Hi). exists (i, d). split.
          - apply (nth_error_In _ i). rewrite (nth_error_combine (seq 0 (length docs)) docs i). 
            rewrite Hi. rewrite (nth_error_nth' _ 0) by (rewrite seq_length; apply nth_error_Some; congruence).
            rewrite seq_nth by (apply nth_error_Some; congruence). reflexivity.
          - unfold f. cbn [fst snd]. apply HC in E. rewrite E. reflexivity. }
        rewrite HE. reflexivity.
    - split; [discriminate|]. split; auto. intros _. right; left.
      assert (exists d, In d docs /\ (q_dim d =? q_dim q) = false) as (d & Hd & E).
      { clear -Ef. induction docs as [|d l IH]; cbn in Ef; [discriminate|]. destruct (q_dim d =? q_dim q) eqn:E.
        - destruct (IH Ef) as (d' & H & E'). exists d'. split; auto. right; auto.
        - exists d. split; auto. left; auto. }
      exists d. split; auto. apply Nat.eqb_neq; auto.
  Qed.
End RERANK.

(** ** Centroid assignment *)
Lemma f_eq_finite v m : is_finite m = true -> f_eq v m = true -> is_finite v = true /\ fval v = fval m.
Proof.
  intros Fm H. unfold f_eq in H. apply andb_true_iff in H. destruct H as (_ & H). apply Z.eqb_eq in H. split; auto.
  pose proof (finite_fval m Fm) as B. rewrite <- H in B. unfold is_finite, fval in *. destruct (is_neg v); apply Z.ltb_lt; lia.
Qed.
Lemma position_some {A} (p : A -> bool) l i : position p l = Some i -> exists v, nth_error l i = Some v /\ p v = true.
Proof.
  revert i. induction l as [|x l IH]; intros i H; cbn in H; [discriminate|]. destruct (p x) eqn:E.
  - injection H as <-. exists x. auto.
  - destruct (position p l) as [j|]; [|discriminate]. injection H as <-. destruct (IH j eq_refl) as (v & Hv & Hp). exists v; auto.
Qed.
Lemma position_none {A} (p : A -> bool) l : position p l = None -> forall v, In v l -> p v = false.
Proof.
  induction l as [|x l IH]; intros H v Hv; [destruct Hv|]. cbn in H. destruct (p x) eqn:E; [discriminate|].
  destruct (position p l) eqn:E2; [discriminate|]. destruct Hv as [<-|Hv]; auto.
Qed.
Lemma argmax_best l : Forall f32_wf l -> l <> [] -> is_best_index l (argmax_row l).
Proof.
  intros W Hne. destruct (argmax_row_spec l Hne) as (s & Hs & Hm & _). split; [apply nth_error_Some; congruence|].
  rewrite (nth_error_nth _ _ _ Hs). intros v Hv Fv. rewrite Forall_forall in W.
  apply In_nth_error in Hv as Hv'. destruct Hv' as (j & Hj). specialize (Hm j v Hj).
  assert (Fs : is_finite s = true). { unfold better in Hm. rewrite Fv in Hm. destruct (is_finite s); tauto. }
  split; auto. apply not_better_lt; auto. apply W. eapply nth_error_In; eauto.
Qed.
Lemma simd_argmax_best a l : Forall f32_wf l -> l <> [] -> is_best_index l (simd_argmax a l).
Proof.
  intros W Hne. unfold simd_argmax. destruct l as [|x xs] eqn:El; [congruence|]. rewrite <- El in *. clear El.
  destruct (_ || _); [apply argmax_best; auto|].
  destruct (simd_max_spec a l W Hne) as (Hin & Hmax & _).
  destruct (position (fun v => f_eq v (simd_max a l)) l) as [i|] eqn:Ep.
  - destruct (position_some _ _ _ Ep) as (v & Hv & Ev). split; [apply nth_error_Some; congruence|].
    rewrite (nth_error_nth _ _ _ Hv). intros s Hs Fs. destruct (Hmax s Hs Fs) as (Fm & Hlt).
    destruct (f_eq_finite _ _ Fm Ev) as (Fv & E). split; auto. rewrite f_lt_finite in * by auto. rewrite E. auto.
  - split; [destruct l; [congruence|cbn; lia]|]. intros s Hs Fs. exfalso. destruct (Hmax s Hs Fs) as (Fm & _).
    pose proof (position_none _ _ Ep _ Hin) as E. unfold f_eq in E. rewrite finite_not_nan, Z.eqb_refl in E by auto. discriminate.
Qed.

Section ASSIGN.
  Variable K : kernel.
  Hypothesis HK : good_kernel K.
  Definition sims (e : row) (sim : row -> row -> f32) (cents : list row) := map (sim e) cents.
  Lemma assign_simple_best cents e : cents <> [] -> is_best_index (map (k_dot K e) cents) (assign_simple (k_dot K) cents e).
  Proof using HK.
    intro Hne. unfold assign_simple.
    set (step := fun (best : nat * f32) (ic : nat * row) => _).
    assert (H : forall cs pre b, length pre < length pre + 1 ->
      (snd b = f_neg_inf /\ fst b = 0 /\ (forall s, In s (map (k_dot K e) pre) -> is_finite s = false)
       \/ fst b < length pre /\ nth (fst b) (map (k_dot K e) pre) f_zero = snd b /\ is_finite (snd b) = true
          /\ forall s, In s (map (k_dot K e) pre) -> is_finite s = true -> f_lt (snd b) s = false) ->
      let r := fold_left step (combine (seq (length pre) (length cs)) cs) b in
      (fst r = 0 /\ (forall s, In s (map (k_dot K e) (pre ++ cs)) -> is_finite s = false)
       \/ fst r < length (pre ++ cs) /\ is_finite (nth (fst r) (map (k_dot K e) (pre ++ cs)) f_zero) = true
          /\ forall s, In s (map (k_dot K e) (pre ++ cs)) -> is_finite s = true ->
               f_lt (nth (fst r) (map (k_dot K e) (pre ++ cs)) f_zero) s = false)).
    { destruct HK as (_ & _ & _ & WD). clear HK.
      induction cs as [|c cs IH]; intros pre b _ Hb; cbn [length seq combine fold_left].
      - cbv zeta. rewrite app_nil_r. destruct Hb as [(_ & A & B)|(A & B & C & E)]; [left; auto|right]. rewrite B. auto.
      - replace (pre ++ c :: cs) with ((pre ++ [c]) ++ cs) by (rewrite <- app_assoc; reflexivity).
        replace (S (length pre)) with (length (pre ++ [c])) by (rewrite app_length; cbn; lia).
        apply IH; [lia|]. unfold step. cbn [fst snd]. cbv zeta.
        destruct (is_score_better (k_dot K e c) (snd b)) eqn:E.
        + apply is_score_better_iff in E. assert (Fc : is_finite (k_dot K e c) = true).
          { unfold better in E. destruct (is_finite (k_dot K e c)); auto; destruct (is_finite (snd b)); tauto. }
          right. cbn [fst snd]. split; [rewrite app_length; cbn; lia|]. rewrite map_app, app_nth2 by (rewrite map_length; lia).
          rewrite map_length, Nat.sub_diag. cbn [map nth]. split; auto. split; auto.
          intros s Hs Fs. apply in_app_or in Hs. destruct Hs as [Hs|[<-|[]]].
          * destruct Hb as [(A & _ & B)|(A & B & C & F)]; [rewrite (B s Hs) in Fs; discriminate|].
            specialize (F s Hs Fs). rewrite f_lt_finite in * by auto. apply Z.ltb_ge in F. apply Z.ltb_ge.
            unfold better in E. rewrite Fc, C in E.
            assert (Wb : f32_wf (snd b)).
            { rewrite <- B. rewrite (nth_indep _ f_zero (k_dot K e [])) by (rewrite map_length; auto). rewrite map_nth. apply WD. }
            pose proof (fkey_le_fval (snd b) (k_dot K e c) Wb (WD _ _)). lia.
          * rewrite f_lt_finite by auto. apply Z.ltb_ge. lia.
        + apply is_score_better_false in E. destruct Hb as [(A & B & C)|(A & B & C & F)].
          * left. split; auto. split; auto. intros s Hs. rewrite map_app in Hs. apply in_app_or in Hs.
            destruct Hs as [Hs|[<-|[]]]; auto. rewrite A in E. unfold better in E. change (is_finite f_neg_inf) with false in E.
            destruct (is_finite (k_dot K e c)); auto; tauto.
          * right. split; [rewrite app_length; lia|]. rewrite map_app, app_nth1 by (rewrite map_length; auto).
            split; auto. split; auto. intros s Hs Fs. apply in_app_or in Hs. destruct Hs as [Hs|[<-|[]]]; auto.
            apply not_better_lt; auto. rewrite <- B.
            rewrite (nth_indep _ f_zero (k_dot K e [])) by (rewrite map_length; auto). rewrite map_nth. apply WD. }
    specialize (H cents [] (0, f_neg_inf)). cbn [length] in H. cbv zeta in H.
    destruct H as [(A & B)|(A & B & C)]; [lia|left; split; auto; split; auto; intros ? []| |].
    - cbn [app] in *. split; [rewrite A, map_length; destruct cents; [congruence|cbn; lia]|].
      intros s Hs Fs. rewrite (B s Hs) in Fs. discriminate.
    - cbn [app] in *. split; [rewrite map_length; auto|]. auto.
  Qed.
  Lemma assign_spec bs embs cents : 1 <= bs -> cents <> [] ->
    let sim := if length embs * length cents <? 1024 then k_dot K else k_mat K in
    Forall2 (fun e k => is_best_index (map (sim e) cents) k) embs
      (assign_to_centroids (k_mat K) (k_dot K) (k_arch K) bs embs cents).
  Proof using HK.
    intros Hb Hne. cbv zeta. unfold assign_to_centroids. destruct embs as [|e0 es] eqn:Ee; [constructor|]. rewrite <- Ee in *.
    assert (length embs <> 0) by (rewrite Ee; discriminate). clear Ee.
    assert (length cents <> 0) by (destruct cents; [congruence|discriminate]).
    destruct (Nat.eqb_spec (length embs) 0); [lia|]. destruct (Nat.eqb_spec (length cents) 0); [lia|]. cbn [orb].
    assert (G : forall (f : row -> nat) (P : row -> nat -> Prop) l, (forall e, P e (f e)) -> Forall2 P l (map f l)).
    { intros f P l Hf. induction l; cbn; constructor; auto. }
    destruct (_ <? 1024).
    - apply G. intro e. apply assign_simple_best; auto.
    - rewrite map_chunks_concat by auto. apply G. intro e. apply simd_argmax_best.
      + apply Forall_forall. intros s Hs. apply in_map_iff in Hs. destruct Hs as (c & <- & _). apply HK.
      + destruct cents; [congruence|discriminate].
  Qed.
End ASSIGN.

(** ** Statements used by PropsSearch.v *)
Lemma search_well_formed V K x q p subset r : search V K x q p subset = Ok r ->
    length (r_passage_ids r) = length (r_scores r)
    /\ length (r_passage_ids r) <= p_top_k p
    /\ NoDup (r_passage_ids r)
    /\ non_increasing (r_scores r)
    /\ forall id, In id (r_passage_ids r) ->
         (0 <= id)%Z /\ (exists e, embeddings V x (Z.to_nat id) = Ok e)
         /\ match subset with None => True | Some s => In id s end.
Proof.
  intro H. destruct (search_sound V K x q p subset r H) as (_ & C & ND & _ & _ & HC & HB).
  destruct HB as (N & I & L & S & M & _). split; [rewrite S, map_length; auto|]. split; [lia|]. split; auto. split; auto.
  intros id Hid. destruct (HC id (I id Hid)) as (R & T). unfold readable in R. apply andb_true_iff in R. destruct R as (R0 & R).
  split; [lia|]. split; [destruct (embeddings V x (Z.to_nat id)); eauto; discriminate|].
  destruct subset as [s|]; auto. cbn in T. apply existsb_exists in T. destruct T as (z & Hz & E). apply Z.eqb_eq in E. subst; auto.
Qed.
Lemma search_returns V K D docs0 g0 ops outs d h x q p subset :
    good_kernel K -> reached V D docs0 g0 ops outs d h -> load d = Ok x ->
    q_dim q = D -> 1 <= p_n_ivf_probe p ->
    exists r, search V K x q p subset = Ok r
      /\ forall id, In id (r_passage_ids r) -> (0 <= id < Z.of_nat (length (documents docs0 ops)))%Z.
Proof.
  intros HK R Hx Hq Hp. destruct (reached_searchable _ _ _ _ _ _ _ _ _ R Hx) as (S & HD & _ & HL & _).
  destruct (search_total V K HK x q p subset S) as (r & Hr); [congruence|auto|]. exists r. split; auto.
  intros id Hid. destruct (search_sound V K x q p subset r Hr) as (_ & C & ND & _ & _ & HC & HB).
  destruct HB as (_ & I & _). destruct (HC id (I id Hid)) as (Rd & _). apply (searchable_readable V x id S) in Rd.
  rewrite HL, map_length in Rd. exact Rd.
Qed.
Lemma search_scores V K x q p subset r : good_kernel K -> search V K x q p subset = Ok r ->
    exists C score,
      (forall id, In id C -> doc_score V K x q id (score id))
      /\ NoDup C /\ length C <= Nat.max (p_n_full_scores p / 4) (p_top_k p) /\ length C <= p_n_full_scores p
      /\ best_of (p_top_k p) C score (r_passage_ids r) (r_scores r).
Proof.
  intros HK H. destruct (search_sound V K x q p subset r H) as (_ & C & ND & L1 & L2 & HC & HB).
  exists C, (fscore V K x q). split; [|auto]. intros id Hid. apply readable_score; auto. apply HC; auto.
Qed.
Lemma search_exact V K D docs0 g0 ops outs d h x q p subset r :
    good_kernel K -> reached V D docs0 g0 ops outs d h -> load d = Ok x ->
    q_rows q <> [] -> num_partitions (x_meta x) <= p_n_ivf_probe p -> p_threshold p = None ->
    let U := searchable_docs (documents docs0 ops) subset in
    length U <= p_n_full_scores p -> length U <= Nat.max (p_n_full_scores p / 4) (p_top_k p) ->
    search V K x q p subset = Ok r ->
    exists score, (forall id, In id U -> doc_score V K x q id (score id))
      /\ best_of (p_top_k p) U score (r_passage_ids r) (r_scores r).
Proof.
  intros HK R Hx Hq Hp Ht U H1 H2 H. destruct (reached_searchable _ _ _ _ _ _ _ _ _ R Hx) as (S & HD & _ & HL & _).
  assert (HP : num_partitions (x_meta x) = length (c_centroids (x_codec x))).
  { destruct (reached_good _ _ _ _ _ _ _ _ R) as (_ & fr & pe & nb & cents & cut & wei & css & E & B & HI & _).
    cbn [fst] in HI. pose proof (in_core _ _ _ _ _ _ _ _ _ _ _ _ HI) as HC.
    pose proof (load_inv_loaded _ _ _ _ _ _ _ _ _ _ _ HC Hx) as (Hm & Hcod & _). rewrite Hm, Hcod. reflexivity. }
  unfold U in *. clear U. rewrite <- (universe_docs x (documents docs0 ops) subset HL) in *.
  exists (fscore V K x q). split.
  - intros id Hid. apply readable_score; auto. apply universe_In in Hid. destruct Hid as (_ & i & -> & Hi & _).
    apply searchable_readable; auto. lia.
  - apply search_exhaustive; auto. lia.
Qed.
Lemma batched_cells K qrows centroids n batch : good_kernel K -> 1 <= batch ->
    best_cells_union n (map (fun q => map (k_mat K q) centroids) qrows)
      (ivf_probe_batched (k_mat K) (k_heap K) qrows centroids n batch None).
Proof. intros HK Hb. apply batched_best; auto. apply HK. Qed.
Lemma standard_cells K x q p cells : good_kernel K -> p_threshold p = None ->
    cells_to_probe (k_select K) x (map (fun qr => map (k_mat K qr) (c_centroids (x_codec x))) (q_rows q)) p None = Ok cells ->
    best_cells_union (p_n_ivf_probe p) (map (fun qr => map (k_mat K qr) (c_centroids (x_codec x))) (q_rows q)) cells.
Proof. intros HK Ht H. apply (cells_standard K HK x q p cells Ht H). Qed.
Lemma probes_agree K x q p batch cells : good_kernel K -> 1 <= batch -> p_threshold p = None ->
    let scores := map (fun qr => map (k_mat K qr) (c_centroids (x_codec x))) (q_rows q) in
    Forall no_ties scores ->
    cells_to_probe (k_select K) x scores p None = Ok cells ->
    forall c, In c cells <->
      In c (ivf_probe_batched (k_mat K) (k_heap K) (q_rows q) (c_centroids (x_codec x)) (p_n_ivf_probe p) batch None).
Proof.
  intros HK Hb Ht scores Hn H c. apply (best_union_unique (p_n_ivf_probe p) scores); auto.
  - apply standard_cells; auto.
  - apply batched_cells; auto.
Qed.
