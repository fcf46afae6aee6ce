(** C20, continued: batched probing with a threshold keeps every cell that a query token selects with a score
    that passes. *)
From Verif Require Import Base F32 CodecModel CodecSpec CodecProofs IndexModel IndexSpec SearchModel SearchSpec SimdProofs ProbeProofs SearchStages SearchOps SearchExamples.
Open Scope nat_scope.

Section KEEPS.
  Variable mat : list f32 -> list f32 -> f32.
  Variable ord : list (f32 * nat) -> list (f32 * nat).
  Hypothesis Hord : forall l, Permutation (ord l) l.
  Variable t : f32.
  Definition sound (s : f32) : Prop := f32_wf s /\ is_finite s = true.
  Definition passing (m : fmap) (c : nat) : Prop := exists s, m c = Some s /\ f_ge s t = true.
  Definition all_sound (m : fmap) : Prop := forall c s, m c = Some s -> sound s.
  Lemma finite_number s : is_finite s = true -> is_nan s = false.
  Proof using mat t. unfold is_finite, is_nan. intro H. apply Z.ltb_lt in H. apply Z.ltb_ge. lia. Qed.
  Lemma key_value a b : sound a -> sound b -> (fkey a <= fkey b)%Z -> (fval a <= fval b)%Z.
  Proof using mat t.
    intros (Wa & _) (Wb & _). unfold fkey, fval, fabs, is_neg, f32_wf in *. destruct (Z.leb_spec 2147483648 a), (Z.leb_spec 2147483648 b); intro L.
    - assert (a mod 2147483648 = a - 2147483648)%Z by (symmetry; apply (Z.mod_unique_pos _ _ 1); lia). assert (b mod 2147483648 = b - 2147483648)%Z by (symmetry; apply (Z.mod_unique_pos _ _ 1); lia). lia.
    - pose proof (Z.mod_pos_bound a 2147483648 ltac:(lia)). pose proof (Z.mod_pos_bound b 2147483648 ltac:(lia)). lia.
    - lia.
    - rewrite !Z.mod_small by lia. exact L.
  Qed.
  Lemma max_sound a b : sound a -> sound b -> sound (max_score a b).
  Proof using mat t. intros A B. unfold max_score. destruct (is_score_better b a); assumption. Qed.
  Lemma ge_iff s : sound s -> f_ge s t = true <-> is_nan t = false /\ (fval t <= fval s)%Z.
  Proof using mat t. intros (_ & S). unfold f_ge. rewrite (finite_number _ S). cbn [negb andb]. rewrite andb_true_iff, negb_true_iff, Z.leb_le. reflexivity. Qed.
  Lemma max_ge a b : sound a -> sound b -> f_ge a t = true \/ f_ge b t = true -> f_ge (max_score a b) t = true.
  Proof using mat t.
    intros A B. pose proof (max_sound a b A B) as M. rewrite !ge_iff by assumption. unfold max_score, is_score_better, cmp_f32_for_max, total_cmp. destruct A as (Wa & Fa), B as (Wb & Fb). rewrite Fa, Fb.
    destruct (Z.compare_spec (fkey b) (fkey a)) as [E|E|E].
    - pose proof (key_value b a (conj Wb Fb) (conj Wa Fa) ltac:(lia)). intros [H1|H1]; destruct H1; split; auto; lia.
    - pose proof (key_value b a (conj Wb Fb) (conj Wa Fa) ltac:(lia)). intros [H1|H1]; destruct H1; split; auto; lia.
    - pose proof (key_value a b (conj Wa Fa) (conj Wb Fb) ltac:(lia)). intros [H1|H1]; destruct H1; split; auto; lia.
  Qed.
  Lemma fmax_ge a b : sound a -> sound b -> f_ge a t = true \/ f_ge b t = true -> f_ge (f_max a b) t = true.
  Proof using mat t.
    intros A B. assert (M : sound (f_max a b)). { unfold f_max. destruct (is_nan a); [exact B|]. destruct (is_nan b); [exact A|]. destruct (_ <? _)%Z; assumption. }
    rewrite !ge_iff by assumption. unfold f_max. rewrite (finite_number _ (proj2 A)), (finite_number _ (proj2 B)). destruct (Z.ltb_spec (fval a) (fval b)); intros [H1|H1]; destruct H1; split; auto; lia.
  Qed.
  Lemma merge_sound m c s : all_sound m -> sound s -> all_sound (fm_merge max_score m c s).
  Proof using mat t. intros Hm Hs c' s' H. unfold fm_merge in H. destruct (c' =? c); [|exact (Hm _ _ H)]. injection H as <-. destruct (m c) eqn:E; [apply max_sound; [exact (Hm _ _ E)|exact Hs]|exact Hs]. Qed.
  Lemma merge_passing m c s c' : all_sound m -> sound s -> passing m c' \/ c' = c /\ f_ge s t = true -> passing (fm_merge max_score m c s) c'.
  Proof using mat t.
    intros Hm Hs H. unfold passing, fm_merge. destruct (Nat.eqb_spec c' c) as [->|N]; [|destruct H as [H|(H & _)]; [exact H|contradiction]].
    eexists. split; [reflexivity|]. destruct (m c) as [s0|] eqn:E.
    - apply max_ge; [exact (Hm _ _ E)|exact Hs|]. destruct H as [(s1 & E1 & G)|(_ & G)]; [left; congruence|right; exact G].
    - destruct H as [(s1 & E1 & G)|(_ & G)]; [congruence|exact G].
  Qed.
  (** one token: what its heap holds is recorded *)
  Lemma token_keeps n start scores mx : all_sound mx -> Forall sound scores ->
    let (h, mx') := probe_token n start scores mx in
    all_sound mx' /\ (forall c, passing mx c -> passing mx' c) /\ forall s c, In (s, c) h -> f_ge s t = true -> passing mx' c.
  Proof using mat t.
    intros Hm Hs. unfold probe_token.
    assert (G : forall l h mx, all_sound mx -> (forall j s, In (j, s) l -> sound s) -> (forall s c, In (s, c) h -> f_ge s t = true -> passing mx c) ->
      let (h', mx') := fold_left (fun s ls => let '(h, mx) := s in let '(local_c, score) := ls in let '(h', taken) := heap_offer n h (score, start + local_c) in
        (h', if taken : bool then fm_merge max_score mx (start + local_c) score else mx)) l (h, mx) in
      all_sound mx' /\ (forall c, passing mx c -> passing mx' c) /\ forall s c, In (s, c) h' -> f_ge s t = true -> passing mx' c).
    { induction l as [|(j & s) l IH]; intros h mx0 A B C; cbn [fold_left]; [auto|]. assert (Ss : sound s) by (apply (B j); left; reflexivity).
      destruct (heap_offer n h (s, start + j)) as (h' & taken) eqn:E.
      assert (Hh : (taken = true /\ forall e, In e h' -> e = (s, start + j) \/ In e h) \/ taken = false /\ h' = h).
      { unfold heap_offer in E. assert (PI : forall e r x, In x (heap_push e r) -> x = e \/ In x r). { intros e r x I. unfold heap_push in I. apply (Permutation_in _ (insert_perm _ e r)) in I. destruct I as [<-|I]; auto. }
        destruct (length h <? n); [injection E as <- <-; left; split; [reflexivity|intros e I; apply PI in I; exact I]|]. destruct h as [|m rest]; [injection E as <- <-; auto|].
        destruct (is_score_better _ _); injection E as <- <-; [left; split; [reflexivity|intros e I; apply PI in I; cbn [In]; tauto]|auto]. }
      destruct Hh as [(-> & Hh)|(-> & ->)].
      - specialize (IH h' (fm_merge max_score mx0 (start + j) s) (merge_sound _ _ _ A Ss) (fun j' s' I => B j' s' (or_intror I))). destruct (fold_left _ l _) as (h2 & mx2). destruct IH as (I1 & I2 & I3).
        + intros s' c' I K. apply Hh in I. apply merge_passing; [exact A|exact Ss|]. destruct I as [X|I]; [injection X as -> ->; right; auto|left; exact (C _ _ I K)].
        + split; [exact I1|split; [intros c P; apply I2, merge_passing; auto|exact I3]].
      - apply IH; [exact A|intros j' s' I; apply (B j'); right; exact I|exact C]. }
    apply G; [exact Hm| |intros s c []]. intros j s I. apply in_combine_r in I. rewrite Forall_forall in Hs. exact (Hs s I).
  Qed.
  (** one batch *)
  Lemma batch_keeps qrows cents n start : (forall q c, In q qrows -> In c cents -> sound (mat q c)) ->
    let (hs, mx) := probe_batch mat qrows cents n start in all_sound mx /\ forall h s c, In h hs -> In (s, c) h -> f_ge s t = true -> passing mx c.
  Proof using mat t.
    intro H. unfold probe_batch.
    assert (G : forall l hs mx, (forall q, In q l -> In q qrows) -> all_sound mx -> (forall h s c, In h hs -> In (s, c) h -> f_ge s t = true -> passing mx c) ->
      let (hs', mx') := fold_left (fun s q => let '(hs, mx) := s in let '(h, mx') := probe_token n start (map (mat q) cents) mx in (hs ++ [h], mx')) l (hs, mx) in
      all_sound mx' /\ forall h s c, In h hs' -> In (s, c) h -> f_ge s t = true -> passing mx' c).
    { induction l as [|q l IH]; intros hs mx Q A C; cbn [fold_left]; [auto|].
      assert (Sq : Forall sound (map (mat q) cents)). { rewrite Forall_map, Forall_forall. intros c I. apply H; [apply Q; left; reflexivity|exact I]. }
      pose proof (token_keeps n start (map (mat q) cents) mx A Sq) as K. destruct (probe_token n start (map (mat q) cents) mx) as (h & mx1). destruct K as (K1 & K2 & K3).
      apply IH; [intros; apply Q; right; assumption|exact K1|]. intros h' s c I J V. apply in_app_or in I. destruct I as [I|[<-|[]]]; [apply K2; exact (C _ _ _ I J V)|exact (K3 _ _ J V)]. }
    apply G; auto; [intros c s X; discriminate X|intros h s c []].
  Qed.
  (** all batches *)
  Lemma merges_keep n locals : (forall l, In l locals -> all_sound (snd l) /\ forall h s c, In h (fst l) -> In (s, c) h -> f_ge s t = true -> passing (snd l) c) ->
    forall hs mx, all_sound mx -> (forall h s c, In h hs -> In (s, c) h -> f_ge s t = true -> passing mx c) ->
    let (hs', mx') := fold_left (merge_batch ord n) locals (hs, mx) in forall h s c, In h hs' -> In (s, c) h -> f_ge s t = true -> passing mx' c.
  Proof using mat t Hord.
    induction locals as [|l locals IH]; intros Hl hs mx A C; cbn [fold_left]; [exact C|]. destruct (Hl l (or_introl eq_refl)) as (L1 & L2). unfold merge_batch at 2. cbn [fst snd].
    assert (A' : all_sound (fm_merge_all mx (snd l))). { intros c s H. unfold fm_merge_all in H. destruct (snd l c) as [s1|] eqn:E1; [|exact (A _ _ H)]. injection H as <-. pose proof (L1 _ _ E1). destruct (mx c) as [s0|] eqn:E0; [|assumption]. pose proof (A _ _ E0). unfold f_max. destruct (is_nan s0); [assumption|]. destruct (is_nan s1); [assumption|]. destruct (_ <? _)%Z; assumption. }
    assert (P1 : forall c, passing mx c \/ passing (snd l) c -> passing (fm_merge_all mx (snd l)) c).
    { intros c P. unfold passing, fm_merge_all. destruct (snd l c) as [s1|] eqn:E1.
      - eexists. split; [reflexivity|]. destruct (mx c) as [s0|] eqn:E0.
        + apply fmax_ge; [exact (A _ _ E0)|exact (L1 _ _ E1)|]. destruct P as [(s & E & V)|(s & E & V)]; [left|right]; congruence.
        + destruct P as [(s & E & V)|(s & E & V)]; congruence.
      - destruct P as [P|(s & E & V)]; [exact P|congruence]. }
    apply IH; [intros; apply Hl; right; assumption|exact A'|]. intros h s c I J V. unfold map2 in I. apply in_map_iff in I. destruct I as ((h1 & h2) & <- & I). cbn [fst snd] in J. pose proof (in_combine_l _ _ _ _ I) as I1. apply in_combine_r in I.
    assert (X : In (s, c) h1 \/ In (s, c) h2).
    { assert (O : forall l' h0 e, In e (fold_left (fun h e => fst (heap_offer n h e)) l' h0) -> In e h0 \/ In e l').
      { induction l' as [|e0 l' IH']; intros h0 e X; [left; exact X|]. cbn [fold_left] in X. apply IH' in X. destruct X as [X|X]; [|right; right; exact X].
        unfold heap_offer in X. destruct (length h0 <? n); cbn [fst] in X.
        - unfold heap_push in X. apply (Permutation_in _ (insert_perm _ e0 h0)) in X. destruct X as [<-|X]; [right; left; reflexivity|left; exact X].
        - destruct h0 as [|m rest]; [destruct X|]. destruct (is_score_better _ _); cbn [fst] in X; [|left; exact X]. unfold heap_push in X. apply (Permutation_in _ (insert_perm _ e0 rest)) in X. destruct X as [<-|X]; [right; left; reflexivity|left; right; exact X]. }
      unfold merge_heap in J. apply O in J. destruct J as [J|J]; [left; exact J|right; exact (Permutation_in _ (Hord _) J)]. }
    apply P1. destruct X as [X|X]; [left; exact (C _ _ _ I1 X V)|right; exact (L2 _ _ _ I X V)].
  Qed.
  Lemma threshold_keeps qrows cents n batch : 1 <= batch -> (forall q c, In q qrows -> In c cents -> sound (mat q c)) ->
    exists choice, Forall2 (best_cells n) (map (fun q => map (mat q) cents) qrows) choice
      /\ (forall c, In c (ivf_probe_batched mat ord qrows cents n batch None) <-> In c (List.concat choice))
      /\ forall q cells c ce, In (q, cells) (combine qrows choice) -> In c cells -> nth_error cents c = Some ce -> f_ge (mat q ce) t = true ->
           In c (ivf_probe_batched mat ord qrows cents n batch (Some t)).
  Proof using mat t Hord.
    intros Hb Hs. unfold ivf_probe_batched. set (bs := with_starts 0 (chunks batch cents)).
    pose proof (merge_heaps mat ord n qrows bs (fun _ => []) (fun _ => None)) as HH.
    pose proof (merges_keep n (map (fun sb => probe_batch mat qrows (snd sb) n (fst sb)) bs)) as K.
    assert (K1 : forall l, In l (map (fun sb => probe_batch mat qrows (snd sb) n (fst sb)) bs) -> all_sound (snd l) /\ forall h s c, In h (fst l) -> In (s, c) h -> f_ge s t = true -> passing (snd l) c).
    { intros l I. apply in_map_iff in I. destruct I as ((st & b) & <- & I). cbn [fst snd]. unfold bs in I. apply with_starts_In in I. destruct I as (pre & post & Hbs & ->).
      pose proof (batch_keeps qrows b n (0 + length (List.concat pre))) as B. destruct (probe_batch mat qrows b n (0 + length (List.concat pre))) as (hs & mx). apply B. intros q c Iq Ic. apply Hs; [exact Iq|]. rewrite <- (concat_chunks batch cents Hb), Hbs, concat_app. apply in_or_app. right. cbn [List.concat]. apply in_or_app. left. exact Ic. }
    specialize (K K1 (map (fun _ => []) qrows) (fun _ => None) ltac:(intros c s X; discriminate X) ltac:(intros h s c I; apply in_map_iff in I; destruct I as (x & <- & _); intros [])).
    destruct (fold_left (merge_batch ord n) _ _) as (heaps & mx). cbn [fst] in HH. subst heaps.
    set (heap := fun q => fold_left (fun h sb => merge_heap ord n h (local mat n sb q)) bs []) in *.
    assert (HI : forall q, heap_inv n (heap q) (entries 0 (map (mat q) cents))).
    { intro q. pose proof (merge_all_inv mat ord Hord n q (chunks batch cents) 0 [] []) as HI. cbn [app] in HI. rewrite concat_chunks in HI by auto. apply HI; [apply entries_nodup|apply heap_inv_nil]. }
    exists (map (fun q => map snd (ord (heap q))) qrows). split; [|split].
    - clear -HI Hord. induction qrows as [|q qrows IH]; cbn [map]; constructor; auto. apply heap_best_cells; [exact mat|exact Hord|apply HI].
    - intro c. rewrite nodup_In, map_map. reflexivity.
    - intros q cells c ce I Ic E V. assert (X : In q qrows /\ cells = map snd (ord (heap q))).
      { clear -I. induction qrows as [|q0 qrows IH]; [destruct I|]. cbn [map combine] in I. destruct I as [I|I]; [injection I as <- <-; split; [left; reflexivity|reflexivity]|]. destruct (IH I). split; [right; assumption|assumption]. }
      destruct X as (Iq & ->). apply in_map_iff in Ic. destruct Ic as ((s & c0) & Ec & Ic). cbn [snd] in Ec. subst c0.
      assert (Ih : In (s, c) (heap q)) by exact (Permutation_in _ (Hord _) Ic).
      assert (Es : s = mat q ce). { destruct (HI q) as (_ & _ & dr & Hp & _). assert (Y : In (s, c) (entries 0 (map (mat q) cents))) by (apply (Permutation_in _ Hp), in_or_app; left; exact Ih). apply entries_In in Y. destruct Y as (_ & Y). rewrite Nat.sub_0_r in Y. apply (map_nth_error (mat q)) in E. congruence. }
      subst s. apply filter_In. split.
      + apply nodup_In, in_concat. exists (map snd (ord (heap q))). split; [rewrite map_map; apply in_map_iff; exists q; auto|apply in_map_iff; exists (mat q ce, c); auto].
      + destruct (K (heap q) (mat q ce) c) as (s' & E' & V'); [apply in_map_iff; exists q; auto|exact Ih|exact V|]. unfold thr_ge. rewrite E'. exact V'.
  Qed.
End KEEPS.

(** Each query token has its best cells; a cell is probed without threshold exactly if it is one of them for some
    token, and with a threshold it is still probed if the score of such a token passes. *)
Theorem C20_threshold_keeps : forall K t qrows centroids n batch, good_kernel K -> 1 <= batch ->
  (forall q c, In q qrows -> In c centroids -> is_finite (k_mat K q c) = true) ->
  exists choice, Forall2 (best_cells n) (map (fun q => map (k_mat K q) centroids) qrows) choice
    /\ (forall c, In c (ivf_probe_batched (k_mat K) (k_heap K) qrows centroids n batch None) <-> In c (List.concat choice))
    /\ forall q cells c ce, In (q, cells) (combine qrows choice) -> In c cells -> nth_error centroids c = Some ce -> f_ge (k_mat K q ce) t = true ->
         In c (ivf_probe_batched (k_mat K) (k_heap K) qrows centroids n batch (Some t)).
Proof. intros K t qrows cents n batch G Hb Hf. apply threshold_keeps; [apply G|exact Hb|]. intros q c I J. split; [apply G|exact (Hf q c I J)]. Qed.
Print Assumptions C20_threshold_keeps.
(** Tokens scoring centroid 0 as 9 and 1, both selecting it: it passes 4. *)
Example C20_threshold_keeps_met :
  ivf_probe_batched (k_mat td_kernel) (k_heap td_kernel) [[9; 5]; [3; 1]]%Z [[0; 0]; [1; 0]]%Z 1 2 (Some 4%Z) = [0]
  /\ ivf_probe_batched (k_mat td_kernel) (k_heap td_kernel) [[3; 1]; [9; 5]]%Z [[0; 0]; [1; 0]]%Z 1 1 (Some 4%Z) = [0]
  /\ good_kernel td_kernel /\ forallb (fun q => forallb (fun c => is_finite (k_mat td_kernel q c)) [[0; 0]; [1; 0]]%Z) [[9; 5]; [3; 1]]%Z = true.
Proof. split; [vm_compute; reflexivity|]. split; [vm_compute; reflexivity|]. split; [exact td_good|vm_compute; reflexivity]. Qed.

(** C55, continued: one index per embedding, in whatever order the batches are done, even without centroids. *)
Theorem C55_one_each : forall K batch embeddings centroids, 1 <= batch ->
  List.length (assign_to_centroids (k_mat K) (k_dot K) (k_arch K) batch embeddings centroids) = List.length embeddings
  /\ (centroids = [] -> forall i, In i (assign_to_centroids (k_mat K) (k_dot K) (k_arch K) batch embeddings centroids) -> i = 0).
Proof.
  intros K batch embs cents Hb. unfold assign_to_centroids. split.
  - destruct (_ || _); [apply repeat_length|]. destruct (_ <? 1024); [apply map_length|]. rewrite map_chunks_concat by exact Hb. apply map_length.
  - intros -> i. cbn [List.length]. change (0 =? 0) with true. rewrite orb_true_r. apply repeat_spec.
Qed.
Print Assumptions C55_one_each.
Example C55_one_each_met : assign_to_centroids (k_mat td_kernel) (k_dot td_kernel) (k_arch td_kernel) 1 [[9; 5]; [3; 1]]%Z [] = [0; 0].
Proof. reflexivity. Qed.
