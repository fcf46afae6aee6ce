(** The probing and approximate-ranking stages of a search. *)
From Verif Require Import Base F32 CodecModel CodecSpec CodecProofs IndexModel IndexSpec IndexLemmas
  SearchModel SearchSpec SimdProofs ProbeProofs SearchProofs SearchOps.
Open Scope nat_scope.
Set Default Proof Using "Type".

(** ** Approximate score of one token *)
Lemma f_lt_trans a b c : f_lt a b = true -> f_lt b c = true -> f_lt a c = true.
Proof.
  unfold f_lt. rewrite !andb_true_iff. intros ((A & B) & C) ((D & E) & F). apply Z.ltb_lt in C, F.
  rewrite A, E, Z.ltb_lt. split; auto. lia.
Qed.
Lemma f_lt_neg_l a b c : f_lt a b = true -> f_lt c b = false -> is_nan c = false -> f_lt a c = true.
Proof.
  unfold f_lt. rewrite !andb_true_iff. intros ((A & B) & C) D E. rewrite E, B in D. cbn [andb negb] in D.
  apply Z.ltb_lt in C. apply Z.ltb_ge in D. rewrite A, E. cbn [negb]. repeat split. apply Z.ltb_lt. lia.
Qed.
Lemma max_fold l : forall pre m,
  (forall s, In s pre -> f_lt m s = false) -> is_nan m = false ->
  (m = f_neg_inf /\ (forall s, In s pre -> f_gt s f_neg_inf = false) \/ In m pre /\ f_gt m f_neg_inf = true) ->
  let r := fold_left (fun m s => if f_gt s m then s else m) l m in
  (forall s, In s (pre ++ l) -> f_lt r s = false) /\ is_nan r = false
  /\ (r = f_neg_inf /\ (forall s, In s (pre ++ l) -> f_gt s f_neg_inf = false) \/ In r (pre ++ l) /\ f_gt r f_neg_inf = true).
Proof.
  induction l as [|s l IH]; intros pre m H1 H2 H3; cbn [fold_left]; cbv zeta.
  - rewrite app_nil_r. auto.
  - replace (pre ++ s :: l) with ((pre ++ [s]) ++ l) by (rewrite <- app_assoc; reflexivity).
    assert (Hself : f_lt s s = false) by (unfold f_lt; rewrite Z.ltb_irrefl, andb_false_r; auto).
    change (f_gt s m) with (f_lt m s). destruct (f_lt m s) eqn:E; apply IH.
    + intros y Hy. apply in_app_or in Hy. destruct Hy as [Hy|[<-|[]]]; auto.
      specialize (H1 y Hy). destruct (f_lt s y) eqn:E2; auto. rewrite (f_lt_trans _ _ _ E E2) in H1. discriminate.
    + unfold f_lt in E. rewrite !andb_true_iff in E. destruct E as ((_ & E) & _). destruct (is_nan s); auto.
    + right. split; [apply in_or_app; right; left; auto|]. destruct H3 as [(-> & _)|(_ & H3)]; auto.
      unfold f_gt in *. eapply f_lt_trans; eauto.
    + intros y Hy. apply in_app_or in Hy. destruct Hy as [Hy|[<-|[]]]; auto.
    + auto.
    + destruct H3 as [(-> & H3)|(H3 & H4)]; [left|right; split; auto; apply in_or_app; auto].
      split; auto. intros y Hy. apply in_app_or in Hy. destruct Hy as [Hy|[<-|[]]]; auto.
Qed.
Lemma approx_max l : let m := fold_left (fun m s => if f_gt s m then s else m) l f_neg_inf in
  if f_gt m f_neg_inf then largest_above l m else forall s, In s l -> f_gt s f_neg_inf = false.
Proof.
  cbv zeta. destruct (max_fold l [] f_neg_inf) as (A & B & C); [intros ? []|reflexivity|left; split; auto; intros ? []|].
  cbn [app] in *. destruct C as [(E & C)|(C & D)].
  - rewrite E. change (f_gt f_neg_inf f_neg_inf) with false. auto.
  - rewrite D. split; auto.
Qed.

Section APPROX.
  Variable fadd : f32 -> f32 -> f32.
  Lemma approx_token_Ok (scores : list f32) codes m : approx_token scores codes = Ok m ->
    m = fold_left (fun m s => if f_gt s m then s else m) (map (fun c => nth c scores f_zero) codes) f_neg_inf.
  Proof.
    unfold approx_token. generalize f_neg_inf. induction codes as [|c codes IH]; intros a H; cbn [foldM map fold_left] in *.
    - injection H as <-; auto.
    - apply bind_Ok in H. destruct H as (s & Hs & H). apply bind_Ok in Hs. destruct Hs as (v & Hv & Hs). injection Hs as <-.
      apply idx_Ok in Hv. rewrite (nth_error_nth _ _ _ Hv). apply IH; auto.
  Qed.
  Lemma approx_mmap_spec (sim : row -> row -> f32) cents codes query : (forall c, In c codes -> c < length cents) -> forall t u,
    foldM (fun total r => bind (approx_token r codes) (fun m => Ok (add_above fadd total m)))
      (map (fun q => map (sim q) cents) query) t = Ok u ->
    approx_sum fadd (map (fun q => map (fun c => sim q (nth c cents [])) codes) query) t u.
  Proof.
    intro Hlt. induction query as [|q qs IH]; intros t u H; cbn [map foldM] in *.
    - injection H as <-. constructor.
    - apply bind_Ok in H. destruct H as (t1 & H1 & H). apply bind_Ok in H1. destruct H1 as (m & Hm & H1). injection H1 as <-.
      apply approx_token_Ok in Hm.
      assert (E : map (fun c => nth c (map (sim q) cents) f_zero) codes = map (fun c => sim q (nth c cents [])) codes).
      { apply map_ext_in. intros c Hc. rewrite (nth_indep _ f_zero (sim q [])) by (rewrite map_length; auto). apply map_nth. }
      rewrite E in Hm. pose proof (approx_max (map (fun c => sim q (nth c cents [])) codes)) as A. cbv zeta in A. rewrite <- Hm in A.
      unfold add_above in H. destruct (f_gt m f_neg_inf); [eapply as_add|apply as_skip]; eauto.
  Qed.
  Lemma sparse_spec (sim : row -> row -> f32) cents ids sp qrows codes :
    build_sparse sim qrows cents ids = Ok sp -> (forall c, In c codes -> In c ids) -> (forall c, In c ids -> c < length cents) -> forall k qs t u,
    skipn k qrows = qs ->
    foldM (fun total q_idx => bind (sparse_token sp codes q_idx) (fun m => Ok (add_above fadd total m))) (seq k (length qs)) t = Ok u ->
    approx_sum fadd (map (fun q => map (fun c => sim q (nth c cents [])) codes) qs) t u.
  Proof.
    intros HB Hin Hlt.
    assert (HL : forall c, In c codes -> lookup c sp = Some (map (fun q => sim q (nth c cents [])) qrows)).
    { intros c Hc. assert (HE : sp = map (fun c => (c, map (fun q => sim q (nth c cents [])) qrows)) ids).
      { unfold build_sparse in HB. rewrite (mapM_Ok_map _ (fun c => (c, map (fun q => sim q (nth c cents [])) qrows))) in HB; [congruence|].
        intros a Ha. rewrite (idx_nth _ a []) by auto. reflexivity. }
      rewrite HE. specialize (Hin c Hc). clear -Hin. induction ids as [|a ids IH]; [destruct Hin|]. cbn [map lookup].
      destruct (Nat.eqb_spec c a) as [->|Hne]; auto. destruct Hin; [congruence|auto]. }
    intros k qs. revert k. induction qs as [|q qs IH]; intros k t u Hk H; cbn [map length seq foldM] in *.
    - injection H as <-. constructor.
    - apply bind_Ok in H. destruct H as (t1 & H1 & H). apply bind_Ok in H1. destruct H1 as (m & Hm & H1). injection H1 as <-.
      assert (Hq : nth_error qrows k = Some q).
      { rewrite <- (firstn_skipn k qrows), Hk. assert (Hkl : k < length qrows).
        { destruct (Nat.lt_ge_cases k (length qrows)); auto. rewrite skipn_all2 in Hk by auto. discriminate. }
        rewrite nth_error_app2; rewrite firstn_length_le by lia; auto. rewrite Nat.sub_diag. reflexivity. }
      assert (Em : m = fold_left (fun m s => if f_gt s m then s else m) (map (fun c => sim q (nth c cents [])) codes) f_neg_inf).
      { clear -Hm HL Hq. unfold sparse_token in Hm. revert Hm. generalize f_neg_inf. induction codes as [|c codes IH]; intros a H; cbn [foldM map fold_left] in *.
        - injection H as <-; auto.
        - apply bind_Ok in H. destruct H as (s & Hs & H). rewrite HL in Hs by (left; auto). apply bind_Ok in Hs. destruct Hs as (v & Hv & Hs).
          injection Hs as <-. apply idx_Ok in Hv. rewrite nth_error_map', Hq in Hv. injection Hv as <-. apply IH; auto.
          intros; apply HL; right; auto. }
      pose proof (approx_max (map (fun c => sim q (nth c cents [])) codes)) as A. cbv zeta in A. rewrite <- Em in A.
      assert (Hk' : skipn (S k) qrows = qs).
      { clear -Hk. revert k Hk. induction qrows as [|y l IH]; intros k Hk; [rewrite skipn_nil in Hk; discriminate|].
        destruct k; [cbn in Hk; injection Hk as -> ->; reflexivity|]. cbn in *. apply IH; auto. }
      unfold add_above in H. destruct (f_gt m f_neg_inf); [eapply as_add|apply as_skip]; eauto.
  Qed.
End APPROX.

(** ** Batched probing with a threshold *)
Section BATCHED.
  Variable mat : row -> row -> f32.
  Variable ord : list (f32 * nat) -> list (f32 * nat).
  Definition fm_from (P : nat -> f32 -> Prop) (m : fmap) : Prop := forall c s, m c = Some s -> P c s.
  Lemma fm_merge_from P m c s join : (forall a b, join a b = a \/ join a b = b) -> fm_from P m -> P c s -> fm_from P (fm_merge join m c s).
  Proof.
    intros Hj Hm Hc c' s' H. unfold fm_merge in H. destruct (Nat.eqb_spec c' c) as [->|]; [|apply Hm; auto]. injection H as <-.
    destruct (m c) as [s0|] eqn:E; auto. destruct (Hj s0 s) as [-> | ->]; auto.
  Qed.
  Lemma probe_token_from (P : nat -> f32 -> Prop) n start scores mx : fm_from P mx ->
    (forall j s, nth_error scores j = Some s -> P (start + j) s) -> fm_from P (snd (probe_token n start scores mx)).
  Proof.
    intros Hm Hs. unfold probe_token.
    assert (G : forall l st, fm_from P (snd st) -> (forall j s, In (j, s) l -> P (start + j) s) ->
      fm_from P (snd (fold_left (fun s ls =>
        let '(h, mx) := s in let '(local_c, score) := ls in
        let '(h', taken) := heap_offer n h (score, start + local_c) in
        (h', if taken : bool then fm_merge max_score mx (start + local_c) score else mx)) l st))).
    { induction l as [|(j & s) l IH]; intros (h & mx') H1 H2; cbn [fold_left]; auto. apply IH; [|intros; apply H2; right; auto].
      destruct (heap_offer n h (s, start + j)) as (h' & []); cbn [snd] in *; auto.
      apply fm_merge_from; auto; [|apply H2; left; auto]. intros a b. unfold max_score. destruct (is_score_better b a); auto. }
    apply G; auto. intros j s Hj. apply Hs. apply In_nth_error in Hj. destruct Hj as (k & Hk). rewrite nth_error_combine in Hk.
    destruct (nth_error (seq 0 (length scores)) k) as [a|] eqn:E1; [|discriminate]. destruct (nth_error scores k) eqn:E2; [|discriminate].
    injection Hk as -> ->. assert (k < length scores) by (apply nth_error_Some; congruence).
    rewrite (nth_error_nth' _ 0) in E1 by (rewrite seq_length; auto). rewrite seq_nth in E1 by auto. cbn in E1. injection E1 as <-. auto.
  Qed.
  Lemma probe_batch_from (P : nat -> f32 -> Prop) n start cents qrows :
    (forall q j c, In q qrows -> nth_error cents j = Some c -> P (start + j) (mat q c)) ->
    fm_from P (snd (probe_batch mat qrows cents n start)).
  Proof.
    unfold probe_batch. intro H.
    assert (G : forall l (st : list (list (f32 * nat)) * fmap), (forall q, In q l -> In q qrows) -> fm_from P (snd st) ->
      fm_from P (snd (fold_left (fun s q => let '(hs, mx) := s in
        let '(h, mx') := probe_token n start (map (mat q) cents) mx in (hs ++ [h], mx')) l st))).
    { induction l as [|q l IH]; intros (hs & mx) Hl Hm; cbn [fold_left]; auto.
      apply IH; [intros; apply Hl; right; auto|].
      pose proof (probe_token_from P n start (map (mat q) cents) mx Hm) as T.
      destruct (probe_token n start (map (mat q) cents) mx) as (h & mx'). cbn [snd] in *. apply T.
      intros j s Hj. rewrite nth_error_map' in Hj. destruct (nth_error cents j) eqn:E; [|discriminate]. injection Hj as <-.
      apply H; auto. apply Hl; left; auto. }
    apply G; auto. intros c s X; discriminate.
  Qed.
  Lemma merge_from (P : nat -> f32 -> Prop) n ls : forall acc, fm_from P (snd acc) -> (forall l, In l ls -> fm_from P (snd l)) ->
    fm_from P (snd (fold_left (merge_batch ord n) ls acc)).
  Proof.
    induction ls as [|l ls IH]; intros acc Ha Hl; cbn [fold_left]; auto. apply IH; [|intros; apply Hl; right; auto].
    unfold merge_batch. cbn [snd]. intros c s H. unfold fm_merge_all in H.
    destruct (snd l c) as [s1|] eqn:E1; [|apply Ha; auto].
    assert (P c s1) by (apply (Hl l (or_introl eq_refl)); auto). injection H as <-.
    destruct (snd acc c) as [s0|] eqn:E0; auto. unfold f_max. destruct (is_nan s0); auto. destruct (is_nan s1); [apply Ha; auto|].
    destruct (_ <? _)%Z; auto.
  Qed.
  Lemma with_starts_In s bs st b : In (st, b) (with_starts s bs) ->
    exists pre post, bs = pre ++ b :: post /\ st = s + length (concat pre).
  Proof.
    revert s. induction bs as [|b0 bs IH]; intros s H; [destruct H|]. cbn [with_starts] in H. destruct H as [E|H].
    - injection E as -> ->. exists [], bs. cbn. split; auto.
    - destruct (IH _ H) as (pre & post & -> & ->). exists (b0 :: pre), post. split; auto. cbn. rewrite app_length. lia.
  Qed.
  Lemma batched_threshold qrows cents n batch t c : 1 <= batch ->
    In c (ivf_probe_batched mat ord qrows cents n batch (Some t)) ->
    In c (ivf_probe_batched mat ord qrows cents n batch None)
    /\ (f_ge f_neg_inf t = true
        \/ exists s, In s (map (fun r => nth c r f_zero) (map (fun q => map (mat q) cents) qrows)) /\ f_ge s t = true).
  Proof.
    intro Hb. unfold ivf_probe_batched.
    set (locals := map (fun sb => probe_batch mat qrows (snd sb) n (fst sb)) (with_starts 0 (chunks batch cents))).
    pose (P := fun c s => exists q, In q qrows /\ exists ce, nth_error cents c = Some ce /\ s = mat q ce).
    assert (HP : fm_from P (snd (fold_left (merge_batch ord n) locals (map (fun _ => []) qrows, fun _ => None)))).
    { apply merge_from; [intros ? ? X; discriminate|]. intros l Hl. unfold locals in Hl. apply in_map_iff in Hl.
      destruct Hl as ((st & b) & <- & Hsb). cbn [fst snd]. apply probe_batch_from. intros q j ce Hq Hj.
      apply with_starts_In in Hsb. destruct Hsb as (pre & post & Hbs & ->).
      exists q. split; auto. exists ce. split; auto. rewrite <- (concat_chunks batch cents Hb), Hbs, concat_app.
      rewrite nth_error_app2 by lia. replace (0 + length (concat pre) + j - length (concat pre)) with j by lia.
      cbn [concat]. rewrite nth_error_app1; auto. apply nth_error_Some; congruence. }
    destruct (fold_left (merge_batch ord n) locals (map (fun _ => []) qrows, fun _ => None)) as (heaps & mx). cbn [snd] in HP.
    intro H. apply filter_In in H. destruct H as (H & Ht). split; auto. unfold thr_ge in Ht.
    destruct (mx c) as [s|] eqn:E.
    - right. destruct (HP c s E) as (q & Hq & ce & Hce & ->). exists (mat q ce). split; auto. rewrite map_map. apply in_map_iff. exists q. split; auto.
      apply (map_nth_error (mat q)) in Hce. apply nth_error_nth; auto.
    - left. exact Ht.
  Qed.
  Lemma batched_threshold_nodup qrows cents n batch t : NoDup (ivf_probe_batched mat ord qrows cents n batch t).
  Proof.
    unfold ivf_probe_batched. destruct (fold_left _ _ _) as (heaps & mx). destruct t; [apply NoDup_filter|]; apply NoDup_nodup.
  Qed.
End BATCHED.

(** ** Standard probing with subset and threshold *)
Lemma retainM_In {A} (f : A -> res bool) l r : retainM f l = Ok r -> NoDup l ->
  NoDup r /\ forall a, In a r <-> In a l /\ f a = Ok true.
Proof.
  revert r. induction l as [|a l IH]; intros r H N; cbn [retainM] in H.
  - injection H as <-. split; [constructor|]. intro; cbn; tauto.
  - inversion N as [|? ? Na Nl]; subst. apply bind_Ok in H. destruct H as (b & Hb & H). apply bind_Ok in H. destruct H as (t & Ht & H).
    destruct (IH t Ht Nl) as (Nt & It). injection H as <-. destruct b.
    + split; [constructor; auto; rewrite It; tauto|]. intro y. cbn. rewrite It. split; [intros [<-|]; tauto|tauto].
    + split; auto. intro y. cbn. rewrite It. split; [tauto|]. intros ([<-|] & E); [congruence|tauto].
Qed.
Lemma max_by_val_argmax l : max_by_val l = match l with [] => None | _ => Some (nth (argmax_row l) l f_zero) end.
Proof.
  destruct l as [|a xs]; [reflexivity|].
  pose proof (argmax_row_spec (a :: xs) ltac:(discriminate)) as (s & Hs & _).
  assert (G : forall xs n i s, fold_left mb_step xs (Some s)
     = option_map snd (fold_left (max_by_step cmp_f32_for_max) (combine (seq n (length xs)) xs) (Some (i, s)))).
  { clear. induction xs as [|x xs IH]; intros n i s; cbn [fold_left length seq combine]; auto.
    unfold mb_step at 2, max_by_step at 2. cbn [snd]. destruct (cmp_f32_for_max s x); apply IH. }
  change (fold_left mb_step xs (Some a) = Some (nth (argmax_row (a :: xs)) (a :: xs) f_zero)).
  rewrite (G xs 1 0 a). rewrite (nth_error_nth _ _ _ Hs). unfold argmax_row in Hs. cbn [length seq combine fold_left] in Hs.
  change (max_by_step cmp_f32_for_max None (0, a)) with (Some (0, a)) in Hs.
  destruct (fold_max_spec xs 1 0 a [a]) as (i & s' & E & H1 & _); auto.
  - intros [|j] t Hj; [inversion Hj; subst; apply better_irrefl|destruct j; discriminate].
  - intros [|j] t Hj Hij; [lia|destruct j; discriminate].
  - rewrite E in *. cbn [option_map snd]. cbn [app] in H1. congruence.
Qed.
Lemma column_max_reaches scores c t : scores <> [] -> Forall (fun r => c < length r) scores ->
  bind (column_max scores c) (fun m => Ok (f_ge m t)) = Ok true <-> reaches scores t c.
Proof.
  intros Hne F. unfold column_max, reaches.
  assert (E : mapM (fun r => idx r c) scores = Ok (map (fun r => nth c r f_zero) scores)).
  { apply mapM_Ok_map. intros r Hr. rewrite Forall_forall in F. apply idx_nth. auto. }
  rewrite E. cbn [bind]. rewrite max_by_val_argmax. set (col := map (fun r => nth c r f_zero) scores).
  assert (Hc : col <> []) by (unfold col; destruct scores; [congruence|discriminate]).
  destruct col as [|s0 ss] eqn:Ec; [congruence|]. rewrite <- Ec in *. split.
  - intro H. injection H as H. exists (argmax_row col). split; auto. apply argmax_row_spec; auto.
  - intros (i & Hi & Ht). rewrite (is_last_argmax_unique _ _ _ (argmax_row_spec col Hc) Hi), Ht. reflexivity.
Qed.

Section STAGES.
  Variables (V : env) (K : kernel).
  Hypothesis HK : good_kernel K.
  Notation qscores x q := (map (fun qr => map (k_mat K qr) (c_centroids (x_codec x))) (q_rows q)).

  Lemma codes_eq x i codes : searchable V x -> i < length (x_doc_lengths x) ->
    (get_document_codes x [i] = Ok [codes] <-> doc_codes x (Z.of_nat i) = Ok codes).
  Proof.
    clear HK. intros S Hi. unfold get_document_codes, get_document_codes1, doc_codes. cbn [mapM].
    destruct (Nat.leb_spec (length (x_doc_lengths x)) i); [lia|]. destruct (Z.ltb_spec (Z.of_nat i) 0); [lia|]. rewrite Nat2Z.id.
    destruct (bind (doc_range x i) _) as [l| |]; cbn [bind]; split; congruence.
  Qed.

  Lemma cells_spec x q p sub cells : searchable V x ->
    cells_to_probe (k_select K) x (qscores x q) p sub = Ok cells -> standard_probe x p sub (qscores x q) cells.
  Proof using HK.
    intros S H. unfold cells_to_probe in H. apply bind_Ok in H. destruct H as (el & Hel & H).
    apply bind_Ok in H. destruct H as (ls & Hm & H).
    set (pool := match el with Some e => e | None => seq 0 (length (c_centroids (x_codec x))) end) in *.
    set (n := effective_n_ivf_probe x (p_n_ivf_probe p) el sub) in *.
    assert (HP : NoDup pool /\ (forall c, In c pool -> c < length (c_centroids (x_codec x))) /\
      match sub with
      | None => pool = seq 0 (length (c_centroids (x_codec x))) /\ n = p_n_ivf_probe p
      | Some s =>
        NoDup pool
        /\ (forall c, In c pool <-> exists i codes, In (Z.of_nat i) s /\ i < length (x_doc_lengths x)
                                   /\ get_document_codes x [i] = Ok [codes] /\ In c codes)
        /\ (pool <> [] -> n = Nat.min (Nat.max (p_n_ivf_probe p * length (x_doc_lengths x) / length s) (p_n_ivf_probe p)) (length pool))
      end).
    { destruct sub as [s|].
      - destruct (eligible_spec V x s S) as (e & Ee & Nd & Ie). rewrite Ee in Hel. cbn [bind] in Hel. injection Hel as <-.
        split; auto. split.
        + intros c Hc. apply Ie in Hc. destruct Hc as (i & codes & _ & Hi & E & Hc).
          destruct (s_codes _ _ S i Hi) as (codes' & E' & Hlt & _). rewrite E in E'. injection E' as <-. auto.
        + split; auto. split.
          * intro c. unfold pool. rewrite Ie. split; intros (i & codes & A & B & C & D); exists i, codes; (split; [auto|split; [auto|split; [|auto]]]); apply (codes_eq x i codes S B); auto.
          * intro Hne. unfold n, pool, effective_n_ivf_probe in *. destruct e as [|e0 es]; [congruence|].
            assert (0 <? length s = true) as ->; [|reflexivity].
            apply Nat.ltb_lt. destruct (proj1 (Ie e0) (or_introl eq_refl)) as (i & _ & Hs & _). destruct s; [destruct Hs|cbn; lia].
      - injection Hel as <-. split; [apply seq_NoDup|]. split; [intros c Hc; apply in_seq in Hc; lia|]. split; reflexivity. }
    destruct HP as (Nd & Hlt & HP).
    exists pool, n, ls. split; [exact HP|]. clearbody pool n.
    assert (HF : Forall2 (best_among n pool) (qscores x q) ls).
    { apply mapM_Ok_inv in Hm. clear -HK Hm Nd. induction Hm as [|sc cl scs ls Hc Hm IH]; constructor; auto.
      destruct (token_cells_spec _ (proj1 HK) _ _ _ _ Nd Hc) as (A & B & C & D & E). split; auto. }
    split; auto.
    assert (Hin : forall c, In c (concat ls) -> In c pool).
    { intros c Hc. apply in_concat in Hc. destruct Hc as (l & Hl & Hc). clear -HF Hl Hc.
      induction HF as [|sc cl scs ls (_ & _ & Hi & _) HF IH]; [destruct Hl|]. destruct Hl as [<-|Hl]; auto. }
    unfold above_threshold. destruct (p_threshold p) as [t|].
    - destruct (retainM_In _ _ _ H (NoDup_nodup _ _)) as (Nc & Ic). split; auto. intro c. rewrite Ic, nodup_In. split.
      + intros (Hc & Ht). split; auto. apply column_max_reaches; auto.
        * destruct (qscores x q); [|discriminate]. inversion HF; subst. destruct Hc.
        * apply Forall_forall. intros r Hr. apply in_map_iff in Hr. destruct Hr as (qr & <- & _). rewrite map_length. auto.
      + intros (Hc & Ht). split; auto. apply column_max_reaches; auto.
        * destruct (qscores x q); [|discriminate]. inversion HF; subst. destruct Hc.
        * apply Forall_forall. intros r Hr. apply in_map_iff in Hr. destruct Hr as (qr & <- & _). rewrite map_length. auto.
    - injection H as <-. split; [apply NoDup_nodup|]. intro c. rewrite nodup_In. tauto.
  Qed.

  Lemma with_scores_map score x c approx : with_scores score x c = Ok approx ->
    exists f, approx = map (fun id => (id, f id)) c
      /\ forall id, In id c -> exists codes, doc_codes x id = Ok codes /\ score codes = Ok (f id).
  Proof.
    clear HK. intro H. exists (fun id => match doc_codes x id with Ok codes => match score codes with Ok s => s | _ => f_zero end | _ => f_zero end).
    revert approx H. unfold with_scores. induction c as [|id c IH]; intros approx H; cbn [mapM] in H.
    - injection H as <-. split; [reflexivity|intros ? []].
    - apply bind_Ok in H. destruct H as (y & Hy & H). apply bind_Ok in H. destruct H as (ys & Hys & H). injection H as <-.
      apply bind_Ok in Hy. destruct Hy as (codes & Hc & Hy). apply bind_Ok in Hy. destruct Hy as (s & Hs & Hy). injection Hy as <-.
      destruct (IH ys Hys) as (-> & I). split; [cbn [map]; rewrite Hc, Hs; reflexivity|].
      intros z [<-|Hz]; [|auto]. exists codes. rewrite Hc, Hs. auto.
  Qed.

  (** All stages of a search on a sound index. *)
  Lemma search_stages x q p sub r : searchable V x -> search V K x q p sub = Ok r ->
    let scores := qscores x q in
    let sim := if batched x p then k_vec K else k_mat K in
    exists cells cands approx C score,
      (if batched x p then batched_probe x p scores cells else standard_probe x p sub scores cells)
      /\ NoDup cands
      /\ (forall z, In z cands <-> match sub with None => True | Some s => In z s end
            /\ exists i codes c, z = Z.of_nat i /\ i < length (x_doc_lengths x)
                 /\ get_document_codes x [i] = Ok [codes] /\ In c codes /\ In c cells)
      /\ (forall i codes, In (Z.of_nat i) cands -> get_document_codes x [i] = Ok [codes] ->
            approx_score (v_fadd V) sim (q_rows q) (c_centroids (x_codec x)) codes (approx (Z.of_nat i)))
      /\ best_of (Nat.min (p_n_full_scores p) (Nat.max (p_n_full_scores p / 4) (p_top_k p))) cands approx C (map approx C)
      /\ (forall id, In id C -> doc_score V K x q id (score id))
      /\ best_of (p_top_k p) C score (r_passage_ids r) (r_scores r).
  Proof using HK.
    intros S H. cbv zeta.
    assert (HM : exists cells cands, get_candidates x cells = Ok cands
      /\ (if batched x p then batched_probe x p (qscores x q) cells else standard_probe x p sub (qscores x q) cells)
      /\ let c := filter (in_subset sub) cands in
         exists approx, (c <> [] -> rank (v_fadd V) (v_norm V) (k_mat K) (k_dot K) (k_arch K) x (q_rows q) p (map (fun id => (id, approx id)) c) = Ok r)
          /\ (c = [] -> r = empty_result)
          /\ forall i codes, In (Z.of_nat i) c -> doc_codes x (Z.of_nat i) = Ok codes ->
               approx_score (v_fadd V) (if batched x p then k_vec K else k_mat K) (q_rows q) (c_centroids (x_codec x)) codes (approx (Z.of_nat i))).
    { pose proof H as H0. unfold search, search_one_mmap in H. cbv zeta in H. fold (batched x p) in H. destruct (batched x p) eqn:EB.
      - unfold search_one_mmap_batched in H. cbv zeta in H.
        destruct (Nat.eqb_spec (q_dim q) (c_dim (x_codec x))) as [Ed|]; cbn [negb] in H; [|discriminate].
        apply bind_Ok in H. destruct H as (cands & Hc & H).
        assert (HB1 : 1 <= p_centroid_batch_size p).
        { unfold batched in EB. apply andb_true_iff in EB. destruct EB as (EB & _). apply Nat.ltb_lt in EB. lia. }
        eexists. exists cands. split; [exact Hc|]. split.
        { exists (ivf_probe_batched (k_mat K) (k_heap K) (q_rows q) (c_centroids (x_codec x)) (p_n_ivf_probe p) (p_centroid_batch_size p) None).
          split; [apply batched_best; [apply HK|auto]|]. destruct (p_threshold p) as [t|]; auto.
          split; [apply batched_threshold_nodup|]. intros c Hcc. apply batched_threshold in Hcc; auto. }
        cbv zeta. destruct (filter (in_subset sub) cands) as [|c0 cs] eqn:EC.
        + exists (fun _ => f_zero). split; [congruence|]. split; [congruence|]. intros ? ? [].
        + rewrite <- EC in *. apply bind_Ok in H. destruct H as (ls & Hls & H). apply bind_Ok in H. destruct H as (sp & Hsp & H).
          apply bind_Ok in H. destruct H as (approx & Ha & H). destruct (with_scores_map _ _ _ _ Ha) as (f & -> & Hf).
          exists f. split; auto. split; [congruence|]. intros i codes Hi Hcd. destruct (Hf _ Hi) as (codes' & E1 & E2). rewrite Hcd in E1. injection E1 as <-.
          assert (HI : forall c, In c (concat ls) -> c < length (c_centroids (x_codec x))).
          { intros c Hcc. apply in_concat in Hcc. destruct Hcc as (l & Hl & Hcc).
            apply In_nth_error in Hl. destruct Hl as (k & Hk). apply mapM_Ok_inv in Hls.
            assert (Hkl : k < length (filter (in_subset sub) cands)).
            { apply Forall2_length in Hls. rewrite Hls. apply nth_error_Some; congruence. }
            destruct (nth_error (filter (in_subset sub) cands) k) as [z|] eqn:Ez; [|apply nth_error_None in Ez; lia].
            destruct (Forall2_nth_error _ _ _ Hls k z Ez) as (l' & El & Edc). rewrite Hk in El. injection El as <-.
            destruct (s_cand _ _ S (ivf_probe_batched (k_mat K) (k_heap K) (q_rows q) (c_centroids (x_codec x)) (p_n_ivf_probe p) (p_centroid_batch_size p) (p_threshold p))) as (cd & Ecd & Icd).
            rewrite Hc in Ecd. injection Ecd as <-. apply nth_error_In, filter_In in Ez. destruct Ez as (Ez & _). apply Icd in Ez.
            destruct Ez as (j & cj & _ & -> & Hj & _). destruct (s_codes _ _ S j Hj) as (codes2 & E3 & Hlt & _).
            rewrite Edc in E3. injection E3 as <-. auto. }
          unfold approx_score. apply (sparse_spec (v_fadd V) (k_vec K) (c_centroids (x_codec x)) (nodup Nat.eq_dec (concat ls)) sp (q_rows q) codes Hsp) with (k := 0); auto.
          * intros c Hcc. apply nodup_In. apply in_concat. exists codes. split; auto.
            apply In_nth_error in Hi. destruct Hi as (k & Hk). apply mapM_Ok_inv in Hls.
            destruct (Forall2_nth_error _ _ _ Hls k _ Hk) as (l' & El & Edc). rewrite Hcd in Edc. injection Edc as <-.
            eapply nth_error_In; eauto.
          * intros c Hcc. apply nodup_In in Hcc. auto.
      - destruct (Nat.eqb_spec (q_dim q) (c_dim (x_codec x))) as [Ed|]; cbn [negb] in H; [|discriminate].
        apply bind_Ok in H. destruct H as (cells & Hcells & H). apply bind_Ok in H. destruct H as (cands & Hc & H).
        exists cells, cands. split; auto. split; [apply cells_spec; auto|]. cbv zeta.
        destruct (filter (in_subset sub) cands) as [|c0 cs] eqn:EC.
        + exists (fun _ => f_zero). split; [congruence|]. split; [congruence|]. intros ? ? [].
        + rewrite <- EC in *. apply bind_Ok in H. destruct H as (approx & Ha & H). destruct (with_scores_map _ _ _ _ Ha) as (f & -> & Hf).
          exists f. split; auto. split; [congruence|]. intros i codes Hi Hcd. destruct (Hf _ Hi) as (codes' & E1 & E2). rewrite Hcd in E1. injection E1 as <-.
          destruct (s_cand _ _ S cells) as (cd & Ecd & Icd). rewrite Hc in Ecd. injection Ecd as <-.
          apply filter_In in Hi. destruct Hi as (Hi & _). apply Icd in Hi. destruct Hi as (j & cj & _ & Ez & Hj & _).
          apply Nat2Z.inj in Ez. subst j. destruct (s_codes _ _ S i Hj) as (codes2 & E3 & Hlt & _). rewrite Hcd in E3. injection E3 as <-.
          apply (approx_mmap_spec (v_fadd V) (k_mat K) (c_centroids (x_codec x)) codes (q_rows q) Hlt f_zero). exact E2. }
    destruct HM as (cells & cands & Hc & Hpr & approx & HR & HE & HA). 
    destruct (s_cand _ _ S cells) as (cd & Ecd & Icd). rewrite Hc in Ecd. injection Ecd as <-.
    set (c := filter (in_subset sub) cands) in *.
    assert (Nc : NoDup c) by (apply NoDup_filter; eapply candidates_nodup; eauto).
    assert (Ic : forall z, In z c <-> match sub with None => True | Some s => In z s end
            /\ exists i codes k, z = Z.of_nat i /\ i < length (x_doc_lengths x)
                 /\ get_document_codes x [i] = Ok [codes] /\ In k codes /\ In k cells).
    { intro z. unfold c. rewrite filter_In, Icd.
      assert (B : in_subset sub z = true <-> match sub with None => True | Some s => In z s end).
      { destruct sub as [s|]; cbn; [|tauto]. rewrite existsb_exists. split; [intros (y & Hy & E); apply Z.eqb_eq in E; subst; auto|].
        intro Hs. exists z. split; auto. apply Z.eqb_refl. }
      rewrite B. split.
      - intros ((i & codes & k & -> & Hi & Hd & Hk) & Hs). split; auto. exists i, codes, k. split; auto. split; auto. split; auto. apply codes_eq; auto.
      - intros (Hs & i & codes & k & -> & Hi & Hd & Hk). split; auto. exists i, codes, k. split; auto. split; auto. split; auto. apply codes_eq; auto. }
    assert (Hread : forall z, In z c -> readable V x z = true).
    { intros z Hz. apply Ic in Hz. destruct Hz as (_ & i & _ & _ & -> & Hi & _). apply searchable_readable; auto. lia. }
    set (m := Nat.min (p_n_full_scores p) (Nat.max (p_n_full_scores p / 4) (p_top_k p))).
    set (C := map fst (firstn m (sort_desc (map (fun id => (id, approx id)) c)))).
    assert (BC : best_of m c approx C (map approx C)).
    { pose proof (top_k_best m c approx Nc) as T. cbv zeta in T.
      assert (E : firstn (Nat.min m (length (sort_desc (map (fun id => (id, approx id)) c)))) (sort_desc (map (fun id => (id, approx id)) c))
                  = firstn m (sort_desc (map (fun id => (id, approx id)) c))).
      { set (l := sort_desc _). destruct (Nat.le_gt_cases m (length l)); [rewrite Nat.min_l by auto; auto|].
        rewrite Nat.min_r, !firstn_all2 by lia. auto. }
      rewrite E in T. fold C in T. destruct T as (T1 & T2 & T3 & T4 & T5 & T6). rewrite T4 in T5.
      repeat (split; auto). }
    exists cells, c, approx, C, (fscore V K x q). split; auto. split; auto. split; auto. split.
    { intros i codes Hi Hg. apply HA; auto. apply Ic in Hi as (_ & j & _ & _ & E & Hj & _). apply Nat2Z.inj in E. subst j. apply codes_eq; auto. }
    split; auto.
    assert (IC : forall id, In id C -> readable V x id = true).
    { intros id Hid. apply Hread. destruct BC as (_ & I & _). auto. }
    split; [intros id Hid; apply readable_score; auto|].
    assert (Hdec : c = [] \/ c <> []) by (destruct c; [left; auto|right; discriminate]).
    destruct Hdec as [E0|E0].
    - rewrite (HE E0). unfold C. rewrite E0. cbn. rewrite firstn_nil. cbn.
      split; [constructor|]. split; [intros ? []|]. split; [cbn; lia|]. split; auto. split; [constructor|]. intros ? ? [].
    - specialize (HR E0). pose proof (rank_spec V K x q p (map (fun id => (id, approx id)) c) r) as RS.
      rewrite map_map in RS. cbn [fst] in RS. rewrite map_id in RS. specialize (RS Nc HR). cbv zeta in RS. destruct RS as (_ & HB).
      rewrite <- firstn_map, firstn_firstn, firstn_map in HB.
      replace (Nat.min (Nat.max (p_n_full_scores p / 4) (p_top_k p)) (p_n_full_scores p)) with m in HB by (unfold m; lia). fold C in HB.
      assert (EF : filter (readable V x) C = C).
      { clear -IC. induction C as [|z zs IH]; cbn; auto. rewrite (IC z) by (left; auto). f_equal. apply IH. intros; apply IC; right; auto. }
      rewrite EF in HB. exact HB.
  Qed.
End STAGES.
Lemma search_stages_reached V K D docs0 g0 ops outs d h x q p subset r :
    good_kernel K -> reached V D docs0 g0 ops outs d h -> load d = Ok x ->
    search V K x q p subset = Ok r ->
    let scores := map (fun qr => map (k_mat K qr) (c_centroids (x_codec x))) (q_rows q) in
    let sim := if batched x p then k_vec K else k_mat K in
    exists cells cands approx C score,
      (if batched x p then batched_probe x p scores cells else standard_probe x p subset scores cells)
      /\ NoDup cands
      /\ (forall z, In z cands <-> match subset with None => True | Some s => In z s end
            /\ exists i codes c, z = Z.of_nat i /\ i < length (x_doc_lengths x)
                 /\ get_document_codes x [i] = Ok [codes] /\ In c codes /\ In c cells)
      /\ (forall i codes, In (Z.of_nat i) cands -> get_document_codes x [i] = Ok [codes] ->
            approx_score (v_fadd V) sim (q_rows q) (c_centroids (x_codec x)) codes (approx (Z.of_nat i)))
      /\ best_of (Nat.min (p_n_full_scores p) (Nat.max (p_n_full_scores p / 4) (p_top_k p))) cands approx C (map approx C)
      /\ (forall id, In id C -> doc_score V K x q id (score id))
      /\ best_of (p_top_k p) C score (r_passage_ids r) (r_scores r).
Proof.
  intros HK R Hx H. destruct (reached_searchable _ _ _ _ _ _ _ _ _ R Hx) as (S & _).
  exact (search_stages V K HK x q p subset r S H).
Qed.
