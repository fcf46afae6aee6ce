(** Centroid probing: bounded heaps against plain selection. *)
From Verif Require Import Base F32 CodecModel CodecSpec CodecProofs IndexModel IndexSpec SearchModel SearchSpec SimdProofs.
Open Scope nat_scope.

(** ** The entry order is total and transitive *)
Definition eleb (a b : f32 * nat) : bool := negb (entry_gt b a).
Lemma eleb_total a b : eleb a b = true \/ eleb b a = true.
Proof.
  unfold eleb, entry_gt, cmp_f32_for_max, total_cmp. destruct a as (s & c), b as (t & d). cbn [fst snd].
  destruct (is_finite s), (is_finite t); cbn -[Nat.ltb]; auto.
  - destruct (Z.compare_spec (fkey s) (fkey t)), (Z.compare_spec (fkey t) (fkey s)); cbn -[Nat.ltb]; auto; try lia.
  - destruct (Nat.ltb_spec c d), (Nat.ltb_spec d c); cbn -[Nat.ltb]; auto; lia.
Qed.
Lemma eleb_trans a b c : eleb a b = true -> eleb b c = true -> eleb a c = true.
Proof.
  unfold eleb, entry_gt, cmp_f32_for_max, total_cmp. destruct a as (s & i), b as (t & j), c as (u & k). cbn [fst snd].
  destruct (is_finite s), (is_finite t), (is_finite u); cbn -[Nat.ltb]; auto; try discriminate.
  - destruct (Z.compare_spec (fkey s) (fkey t)), (Z.compare_spec (fkey t) (fkey u)), (Z.compare_spec (fkey s) (fkey u)); cbn -[Nat.ltb]; auto; try discriminate; try lia.
  - intros A B. destruct (Nat.ltb_spec i j), (Nat.ltb_spec j k), (Nat.ltb_spec i k); try discriminate; auto; lia.
Qed.
Lemma eleb_better a b : eleb a b = true -> ~ better (fst a) (fst b).
Proof.
  unfold eleb, entry_gt. intros H B. apply cmp_better in B. rewrite B in H. discriminate.
Qed.

(** ** One bounded heap *)
Definition heap_inv (n : nat) (h seen : list (f32 * nat)) : Prop :=
  StronglySorted (fun a b => eleb a b = true) h
  /\ length h = Nat.min n (length seen)
  /\ exists dropped, Permutation (h ++ dropped) seen
       /\ forall a b, In a h -> In b dropped -> ~ better (fst b) (fst a).

Lemma heap_inv_nil n : heap_inv n [] [].
Proof. split; [constructor|]. split; [cbn; lia|]. exists []. split; auto. Qed.
Lemma heap_offer_inv n h seen e : heap_inv n h seen -> heap_inv n (fst (heap_offer n h e)) (seen ++ [e]).
Proof.
  intros (Hs & Hl & dr & Hp & Hb). unfold heap_offer.
  pose proof (Permutation_length Hp) as HL. rewrite app_length in HL.
  destruct (Nat.ltb_spec (length h) n) as [Hlt|Hge]; cbn [fst].
  - assert (dr = []) as -> by (destruct dr; auto; cbn in HL; lia). rewrite app_nil_r in Hp.
    pose proof (insert_perm eleb e h) as P. fold (heap_push e h) in P.
    change (insert eleb e h) with (heap_push e h) in P.
    split; [exact (insert_sorted eleb eleb_total eleb_trans e h Hs)|].
    split; [rewrite (Permutation_length P), app_length; cbn; cbn in HL; lia|].
    exists []. rewrite app_nil_r. split; [|intros ? ? ? []].
    rewrite P, Hp. apply Permutation_cons_append.
  - destruct h as [|m rest].
    + cbn [fst]. split; auto. split; [rewrite app_length; cbn in *; lia|].
      exists (dr ++ [e]). split; [cbn in *; apply Permutation_app; auto|]. intros a b [].
    + inversion Hs as [|? ? Hs' Hm]; subst. rewrite Forall_forall in Hm.
      assert (Hm' : forall a, In a (m :: rest) -> ~ better (fst m) (fst a)).
      { intros a [<-|Ha]; [apply better_irrefl|]. apply eleb_better, Hm, Ha. }
      destruct (is_score_better (fst e) (fst m)) eqn:E; cbn [fst].
      * apply is_score_better_iff in E.
        pose proof (insert_perm eleb e rest) as P. change (insert eleb e rest) with (heap_push e rest) in P.
        split; [exact (insert_sorted eleb eleb_total eleb_trans e rest Hs')|].
        split; [rewrite (Permutation_length P), app_length; cbn in *; lia|].
        exists (m :: dr). split.
        -- rewrite P. cbn [app]. rewrite <- Permutation_middle, <- Permutation_cons_append.
           apply perm_skip. exact Hp.
        -- intros a b Ha Hb'. apply (Permutation_in _ P) in Ha.
           destruct Ha as [<-|Ha], Hb' as [<-|Hb'].
           ++ apply better_asym; auto.
           ++ apply better_trans_neg with (fst m); [apply Hb; [left; auto|auto]|apply better_asym; auto].
           ++ apply Hm'; right; auto.
           ++ apply Hb; [right; auto|auto].
      * apply is_score_better_false in E. split; auto.
        split; [rewrite app_length; cbn in *; lia|].
        exists (e :: dr). split.
        -- rewrite <- Permutation_middle. rewrite Hp. apply Permutation_cons_append.
        -- intros a b Ha [<-|Hb']; [|apply Hb; auto].
           apply better_trans_neg with (fst m); auto.
Qed.
Definition offers (n : nat) (l h : list (f32 * nat)) : list (f32 * nat) :=
  fold_left (fun h e => fst (heap_offer n h e)) l h.
Lemma offers_inv n l : forall h seen, heap_inv n h seen -> heap_inv n (offers n l h) (seen ++ l).
Proof.
  induction l as [|e l IH]; intros h seen H; cbn [offers fold_left].
  - rewrite app_nil_r; auto.
  - apply (heap_offer_inv n h seen e) in H. apply IH in H. rewrite <- app_assoc in H. exact H.
Qed.
Lemma heap_inv_perm n h s s' : Permutation s s' -> heap_inv n h s -> heap_inv n h s'.
Proof.
  intros P (Hs & Hl & dr & Hp & Hb). split; auto. split; [rewrite <- (Permutation_length P); auto|].
  exists dr. split; auto. rewrite Hp; auto.
Qed.
Lemma NoDup_app_disj {A} (l m : list A) : NoDup (l ++ m) -> NoDup l /\ NoDup m /\ forall x, In x l -> ~ In x m.
Proof.
  induction l as [|a l IH]; cbn; intro H.
  - split; [constructor|]. split; auto.
  - inversion H as [|? ? Hn H']; subst. destruct (IH H') as (A1 & A2 & A3).
    split; [constructor; auto; intro Hx; apply Hn, in_or_app; auto|]. split; auto.
    intros x [<-|Hx]; auto. intro Hm; apply Hn, in_or_app; auto.
Qed.
(** Merging a bounded heap into another loses nothing. *)
Lemma merge_inv n (ord : list (f32 * nat) -> list (f32 * nat)) h S hl B :
  (forall l, Permutation (ord l) l) -> NoDup (S ++ B) ->
  heap_inv n h S -> heap_inv n hl B -> heap_inv n (offers n (ord hl) h) (S ++ B).
Proof.
  intros Ho Hnd Hh (Ls & Ll & db & Pl & Bl).
  pose proof (offers_inv n (ord hl) h S Hh) as HI.
  apply (heap_inv_perm n _ _ (S ++ hl)) in HI; [|apply Permutation_app_head, Ho].
  destruct HI as (Hs & Hl & d & Hp & Hb).
  pose proof (Permutation_length Pl) as HLl. rewrite app_length in HLl.
  assert (PB : Permutation (S ++ B) (S ++ hl ++ db)) by (rewrite Pl; reflexivity).
  split; auto. rewrite app_length in Hl. rewrite app_length. split; [lia|].
  exists (d ++ db). split; [rewrite app_assoc, Hp, <- app_assoc, Pl; reflexivity|].
  intros a b Ha Hb'. apply in_app_or in Hb'. destruct Hb' as [Hb'|Hb']; [auto|].
  assert (Hfull : length hl = n) by (destruct db; [destruct Hb'|cbn in HLl; lia]).
  assert (Hnd' : NoDup (S ++ hl ++ db)) by (eapply Permutation_NoDup; eauto).
  rewrite app_assoc in Hnd'. apply NoDup_app_disj in Hnd'. destruct Hnd' as (Hnd1 & _ & _).
  pose proof (Permutation_NoDup (Permutation_sym Hp) Hnd1) as Hnd2.
  apply NoDup_app_disj in Hnd2. destruct Hnd2 as (Hnd3 & _ & _).
  apply NoDup_app_disj in Hnd1. destruct Hnd1 as (_ & Hndl & _).
  assert (Hdec : (exists e, In e hl /\ In e d) \/ (forall e, In e hl -> In e (offers n (ord hl) h))).
  { assert (Hall : forall e, In e hl -> In e d \/ In e (offers n (ord hl) h)).
    { intros e He. assert (X : In e (offers n (ord hl) h ++ d)).
      { apply (Permutation_in _ (Permutation_sym Hp)), in_or_app; auto. }
      apply in_app_or in X. tauto. }
    clear -Hall. revert Hall. generalize (offers n (ord hl) h) as o. intros o Hall.
    induction hl as [|e hl IH]; [right; intros ? []|].
    destruct (Hall e (or_introl eq_refl)) as [Hd|Hh].
    - left. exists e. split; [left; auto|auto].
    - destruct IH as [(e' & H1 & H2)|H].
      + intros e' He'. apply Hall; right; auto.
      + left. exists e'. split; [right; auto|auto].
      + right. intros e' [<-|He']; auto. }
  destruct Hdec as [(e & He & Hd)|Hall].
  - apply better_trans_neg with (fst e); [apply Bl; auto|apply Hb; auto].
  - assert (In a hl).
    { refine (NoDup_length_incl Hndl _ Hall a Ha). lia. }
    apply Bl; auto.
Qed.

(** ** The batched probe *)
Definition entries (start : nat) (scores : list f32) : list (f32 * nat) :=
  map (fun ls => (snd ls, start + fst ls)) (combine (seq 0 (length scores)) scores).
Lemma combine_seq_shift {A} (l : list A) : forall k, combine (seq k (length l)) l =
  map (fun p => (k + fst p, snd p)) (combine (seq 0 (length l)) l).
Proof.
  induction l as [|a l IH]; intro k; auto. cbn [length seq combine map fst snd].
  f_equal; [f_equal; lia|]. rewrite (IH (S k)), (IH 1), map_map. apply map_ext. intros (x & y). cbn. f_equal; lia.
Qed.
Lemma entries_app start a b : entries start (a ++ b) = entries start a ++ entries (start + length a) b.
Proof.
  unfold entries. revert start. induction a as [|x a IH]; intro start.
  - cbn. f_equal. rewrite Nat.add_0_r. auto.
  - cbn [app length seq combine map fst snd]. f_equal.
    rewrite (combine_seq_shift (a ++ b) 1), (combine_seq_shift a 1), !map_map. cbn [fst snd].
    specialize (IH (S start)).
    erewrite map_ext with (g := fun ls => (snd ls, S start + fst ls)) by (intros (u & v); cbn; f_equal; lia).
    erewrite (map_ext (fun x0 => (snd x0, start + (1 + fst x0)))) with (g := fun ls => (snd ls, S start + fst ls)) by (intros (u & v); cbn; f_equal; lia).
    rewrite IH. f_equal. apply map_ext. intros (u & v). cbn. f_equal; lia.
Qed.
Lemma entries_nodup start scores : NoDup (entries start scores).
Proof.
  apply (NoDup_map_inv snd). unfold entries. rewrite map_map. cbn [snd].
  rewrite <- (map_map fst (fun k => start + k)).
  assert (E : forall k, map fst (combine (seq k (length scores)) scores) = seq k (length scores)).
  { induction scores as [|s scores IH]; intro k; cbn; auto. f_equal; auto. }
  rewrite E. apply FinFun.Injective_map_NoDup; [intros a b; lia|apply seq_NoDup].
Qed.
Lemma entries_In start scores s c : In (s, c) (entries start scores) <->
  start <= c /\ nth_error scores (c - start) = Some s.
Proof.
  unfold entries. rewrite in_map_iff. split.
  - intros ((l & s') & E & H). cbn in E. injection E as <- <-.
    apply In_nth_error in H. destruct H as (i & H). rewrite nth_error_combine in H.
    destruct (nth_error (seq 0 (length scores)) i) eqn:E1; [|discriminate].
    destruct (nth_error scores i) eqn:E2; [|discriminate]. injection H as -> ->.
    assert (i < length scores) by (apply nth_error_Some; congruence).
    rewrite nth_error_nth' with (d := 0) in E1 by (rewrite seq_length; auto).
    rewrite seq_nth in E1 by auto. injection E1 as <-. split; [lia|].
    replace (start + i - start) with i by lia. auto.
  - intros (Hc & H). exists (c - start, s). cbn. split; [f_equal; lia|].
    assert (c - start < length scores) by (apply nth_error_Some; congruence).
    apply nth_error_In with (c - start). rewrite nth_error_combine, H.
    rewrite nth_error_nth' with (d := 0) by (rewrite seq_length; auto).
    rewrite seq_nth by auto. auto.
Qed.
Lemma entries_length start scores : length (entries start scores) = length scores.
Proof. unfold entries. rewrite map_length, combine_length, seq_length. lia. Qed.

Lemma probe_token_heap n start scores mx :
  fst (probe_token n start scores mx) = offers n (entries start scores) [].
Proof.
  unfold probe_token, entries, offers. generalize (combine (seq 0 (length scores)) scores) as l.
  generalize (@nil (f32 * nat)) as h. intros h l. revert h mx.
  induction l as [|(lc & s) l IH]; intros h mx; cbn [fold_left map fst snd]; auto.
  destruct (heap_offer n h (s, start + lc)) as (h' & taken) eqn:E. cbn [fst].
  rewrite IH. reflexivity.
Qed.
Section PROBE.
  Variable mat : list f32 -> list f32 -> f32.
  Variable ord : list (f32 * nat) -> list (f32 * nat).
  Hypothesis Hord : forall l, Permutation (ord l) l.

  Lemma probe_batch_heaps qrows cents n start :
    fst (probe_batch mat qrows cents n start) = map (fun q => offers n (entries start (map (mat q) cents)) []) qrows.
  Proof using Type.
    unfold probe_batch.
    assert (G : forall hs mx, fst (fold_left (fun s q => let '(hs, mx) := s in
        let '(h, mx') := probe_token n start (map (mat q) cents) mx in (hs ++ [h], mx')) qrows (hs, mx))
      = hs ++ map (fun q => offers n (entries start (map (mat q) cents)) []) qrows); [|apply (G [])].
    induction qrows as [|q qrows IH]; intros hs mx; cbn [fold_left map].
    - rewrite app_nil_r; auto.
    - destruct (probe_token n start (map (mat q) cents) mx) as (h & mx') eqn:E.
      rewrite IH, <- app_assoc. cbn [app]. do 2 f_equal.
      rewrite <- (probe_token_heap n start _ mx), E. reflexivity.
  Qed.
  Lemma map2_map {A B C X} (f : A -> B -> C) (g : X -> A) (h : X -> B) l :
    map2 f (map g l) (map h l) = map (fun x => f (g x) (h x)) l.
  Proof using Type. induction l as [|x l IH]; auto. cbn. unfold map2 in *. cbn. rewrite IH. reflexivity. Qed.
  Definition local (n : nat) (sb : nat * list (list f32)) (q : list f32) :=
    offers n (entries (fst sb) (map (mat q) (snd sb))) [].
  Lemma merge_heaps n qrows batches : forall acc mx,
    fst (fold_left (merge_batch ord n) (map (fun sb => probe_batch mat qrows (snd sb) n (fst sb)) batches) (map acc qrows, mx))
    = map (fun q => fold_left (fun h sb => merge_heap ord n h (local n sb q)) batches (acc q)) qrows.
  Proof using Type.
    induction batches as [|sb batches IH]; intros acc mx; cbn [map fold_left]; auto.
    unfold merge_batch at 2. cbn [fst snd]. rewrite probe_batch_heaps, map2_map. rewrite IH. reflexivity.
  Qed.
  Lemma merge_all_inv n q batches : forall start h S,
    NoDup (S ++ entries start (map (mat q) (concat batches))) -> heap_inv n h S ->
    heap_inv n (fold_left (fun h sb => merge_heap ord n h (local n sb q)) (with_starts start batches) h)
      (S ++ entries start (map (mat q) (concat batches))).
  Proof using Hord.
    induction batches as [|b batches IH]; intros start h S Hnd H; cbn [with_starts fold_left concat map].
    - cbn. rewrite app_nil_r. auto.
    - cbn [concat] in Hnd. rewrite map_app, entries_app, map_length, app_assoc in *.
      apply IH; [exact Hnd|].
      unfold merge_heap, local. cbn [fst snd]. fold (offers n (ord (offers n (entries start (map (mat q) b)) [])) h).
      apply NoDup_app_disj in Hnd. destruct Hnd as (Hnd & _).
      apply merge_inv; auto.
      exact (offers_inv n _ [] [] (heap_inv_nil n)).
  Qed.

  Lemma heap_best_cells n scores h : heap_inv n h (entries 0 scores) -> best_cells n scores (map snd (ord h)).
  Proof using Hord mat.
    intros (Hs & Hl & dr & Hp & Hb).
    assert (Hnd : NoDup (map snd (entries 0 scores))).
    { unfold entries. rewrite map_map. cbn [snd].
      assert (E : forall k, map (fun x : nat * f32 => 0 + fst x) (combine (seq k (length scores)) scores) = seq k (length scores)).
      { induction scores as [|s sc IH]; intro k; auto. cbn in *. f_equal.
        clear -k. revert k. induction sc as [|s sc IH]; intro k; auto. cbn. f_equal. apply IH. }
      rewrite E. apply seq_NoDup. }
    pose proof (Permutation_map snd (Permutation_sym Hp)) as Pm. apply (Permutation_NoDup Pm) in Hnd.
    rewrite map_app in Hnd. apply NoDup_app_disj in Hnd. destruct Hnd as (N1 & N2 & N3).
    assert (HIn : forall c, In c (map snd (ord h)) <-> In c (map snd h)).
    { intro c. split; apply Permutation_in, Permutation_map; [|symmetry]; apply Hord. }
    split; [eapply Permutation_NoDup; [|exact N1]; apply Permutation_map; symmetry; apply Hord|].
    split; [rewrite map_length, (Permutation_length (Hord h)), Hl, entries_length; auto|].
    assert (Hel : forall s c, In (s, c) h \/ In (s, c) dr -> nth_error scores c = Some s).
    { intros s c H. assert (X : In (s, c) (entries 0 scores)).
      { apply (Permutation_in _ Hp), in_or_app; auto. }
      apply entries_In in X. rewrite Nat.sub_0_r in X. tauto. }
    split.
    - intros c Hc. apply HIn, in_map_iff in Hc. destruct Hc as ((s & c') & <- & Hc).
      apply nth_error_Some. cbn. rewrite (Hel s c'); auto; discriminate.
    - intros c c' Hc Hc' Hlt. apply HIn, in_map_iff in Hc. destruct Hc as ((s & c0) & <- & Hc). cbn [snd] in *.
      destruct (nth_error scores c') as [s'|] eqn:E'; [|apply nth_error_None in E'; lia].
      assert (X : In (s', c') (h ++ dr)).
      { apply (Permutation_in _ (Permutation_sym Hp)), entries_In. rewrite Nat.sub_0_r. split; auto; lia. }
      apply in_app_or in X. destruct X as [X|X].
      { exfalso. apply Hc', HIn, in_map_iff. exists (s', c'). auto. }
      rewrite (nth_error_nth scores c' f_zero E'), (nth_error_nth scores c0 f_zero (Hel s c0 (or_introl Hc))).
      exact (Hb _ _ Hc X).
  Qed.
  Lemma batched_best qrows cents n batch : 1 <= batch ->
    best_cells_union n (map (fun q => map (mat q) cents) qrows) (ivf_probe_batched mat ord qrows cents n batch None).
  Proof using Hord.
    intro Hb. unfold ivf_probe_batched. set (bs := with_starts 0 (chunks batch cents)).
    pose proof (merge_heaps n qrows bs (fun _ => []) (fun _ => None)) as HH.
    destruct (fold_left (merge_batch ord n) _ _) as (heaps & mx). cbn [fst] in HH. subst heaps.
    exists (map (fun q => map snd (ord (fold_left (fun h sb => merge_heap ord n h (local n sb q)) bs []))) qrows).
    split.
    - induction qrows as [|q qrows IH]; cbn [map]; constructor; auto.
      apply heap_best_cells. pose proof (merge_all_inv n q (chunks batch cents) 0 [] []) as HI. cbn [app] in HI.
      rewrite concat_chunks in HI by auto. apply HI; [apply entries_nodup|apply heap_inv_nil].
    - split; [apply NoDup_nodup|]. intro c. rewrite nodup_In, map_map. reflexivity.
  Qed.
End PROBE.

(** ** Plain selection *)
Section SELECT.
  Variable select : nat -> list (nat * f32) -> list (nat * f32).
  Hypothesis Hsel : forall n l, 1 <= n <= length l ->
     Permutation (select n l) l
     /\ forall a b, In a (firstn n (select n l)) -> In b (skipn n (select n l)) -> ~ better (snd b) (snd a).

  (** The cells of one token: [n] best of the pool. *)
  Lemma token_cells_spec n pool scores cells : NoDup pool -> token_cells select n pool scores = Ok cells ->
    NoDup cells /\ length cells = Nat.min n (length pool) /\ incl cells pool
    /\ (forall c, In c pool -> c < length scores)
    /\ forall c c', In c cells -> ~ In c' cells -> In c' pool ->
         ~ better (nth c' scores f_zero) (nth c scores f_zero).
  Proof using Hsel.
    intros Hnd H. unfold token_cells in H. apply bind_Ok in H. destruct H as (l & Hm & H).
    apply mapM_Ok_inv in Hm.
    assert (Hl : l = map (fun c => (c, nth c scores f_zero)) pool /\ forall c, In c pool -> c < length scores).
    { clear H Hnd. induction Hm as [|c p pool l Hc Hm (IH1 & IH2)]; [split; [auto|intros ? []]|].
      apply bind_Ok in Hc. destruct Hc as (s & Hs & E). injection E as <-. apply idx_Ok in Hs.
      split; [cbn; rewrite (nth_error_nth _ _ _ Hs), IH1; auto|].
      intros c' [<-|Hc']; auto. apply nth_error_Some; congruence. }
    clear Hm. destruct Hl as (-> & Hlt). set (f := fun c => (c, nth c scores f_zero)) in *.
    rewrite map_length in H. 
    assert (Hfst : forall m, map fst (map f m) = m) by (intro m; rewrite map_map; apply map_id).
    destruct (Nat.ltb_spec (Nat.min n (length pool)) (length pool)) as [Hn|Hn].
    - destruct (Nat.eqb_spec (Nat.min n (length pool)) 0) as [|Hpos]; [discriminate|]. injection H as <-.
      set (k := Nat.min n (length pool)) in *.
      destruct (Hsel k (map f pool)) as (P & B); [rewrite map_length; lia|].
      set (r := select k (map f pool)) in *.
      pose proof (Permutation_map fst P) as Pf. rewrite Hfst in Pf.
      assert (Hel : forall p, In p r -> p = f (fst p) /\ In (fst p) pool).
      { intros p Hp. apply (Permutation_in _ P), in_map_iff in Hp. destruct Hp as (c & <- & Hc). auto. }
      assert (Hnd' : NoDup (map fst r)) by (eapply Permutation_NoDup; [symmetry; exact Pf|auto]).
      rewrite <- (firstn_skipn k r), map_app in Hnd'. apply NoDup_app_disj in Hnd'. destruct Hnd' as (N1 & _ & _).
      split; auto.
      split; [rewrite map_length, firstn_length, (Permutation_length P), map_length; lia|].
      split.
      { intros c Hc. apply in_map_iff in Hc. destruct Hc as (p & <- & Hp). apply Hel.
        rewrite <- (firstn_skipn k r). apply in_or_app; auto. }
      split; auto.
      intros c c' Hc Hc' Hp'. apply in_map_iff in Hc. destruct Hc as (p & <- & Hp).
      assert (X : In (f c') r) by (apply (Permutation_in _ (Permutation_sym P)), in_map; auto).
      rewrite <- (firstn_skipn k r) in X. apply in_app_or in X. destruct X as [X|X].
      { exfalso. apply Hc', in_map_iff. exists (f c'). auto. }
      pose proof (B _ _ Hp X) as HB. destruct (Hel p) as (Ep & _).
      { rewrite <- (firstn_skipn k r). apply in_or_app; auto. }
      rewrite Ep in HB. exact HB.
    - injection H as <-. rewrite firstn_all2 by (rewrite map_length; lia). rewrite Hfst.
      split; auto. split; [lia|]. split; [apply incl_refl|]. split; auto.
  Qed.
  Lemma token_cells_total n pool scores : (1 <= n \/ pool = []) -> (forall c, In c pool -> c < length scores) ->
    exists cells, token_cells select n pool scores = Ok cells.
  Proof using Type.
    clear Hsel. intros Hn Hlt. unfold token_cells.
    rewrite (mapM_Ok_map _ (fun c => (c, nth c scores f_zero))).
    2:{ intros c Hc. rewrite (idx_nth scores c f_zero (Hlt c Hc)). reflexivity. }
    cbn [bind]. rewrite map_length. destruct (Nat.ltb_spec (Nat.min n (length pool)) (length pool)); [|eauto].
    destruct (Nat.eqb_spec (Nat.min n (length pool)) 0); [|eauto]. exfalso.
    destruct Hn as [Hn| ->]; cbn in *; lia.
  Qed.
End SELECT.

(** ** Uniqueness without ties *)
Lemma best_cells_unique n scores A B : no_ties scores -> best_cells n scores A -> best_cells n scores B ->
  forall c, In c A -> In c B.
Proof.
  intros Ht (NA & LA & RA & BA) (NB & LB & RB & BB) c Hc.
  destruct (in_dec Nat.eq_dec c B) as [|Hn]; auto. exfalso.
  assert (Hex : exists c', In c' B /\ ~ In c' A).
  { assert (Hdec : (exists c', In c' B /\ ~ In c' A) \/ incl B A).
    { clear -A. induction B as [|b B [(c' & H1 & H2)|IH]].
      - right. intros x [].
      - left. exists c'. split; [right; auto|auto].
      - destruct (in_dec Nat.eq_dec b A); [right; intros x [<-|Hx]; auto|left; exists b; split; [left; auto|auto]]. }
    destruct Hdec as [|Hi]; auto. exfalso.
    apply Hn. refine (NoDup_length_incl NB _ Hi c Hc). lia. }
  destruct Hex as (c' & HcB & HcA).
  assert (Hne : c <> c') by congruence.
  destruct (Ht c c' (RA c Hc) (RB c' HcB) Hne) as [X|X].
  - apply (BB c' c HcB Hn (RA c Hc) X).
  - apply (BA c c' Hc HcA (RB c' HcB) X).
Qed.
Lemma best_union_unique n scores S T : Forall no_ties scores -> best_cells_union n scores S -> best_cells_union n scores T ->
  forall c, In c S <-> In c T.
Proof.
  intros Ht (ca & Fa & _ & Ha) (cb & Fb & _ & Hb) c. rewrite Ha, Hb. clear Ha Hb S T.
  revert cb Fb. induction Fa as [|s A scores ca HA Fa IH]; intros cb Fb; inversion Fb as [|? B ? cb' HB Fb']; subst; [tauto|].
  inversion Ht; subst. cbn [concat]. rewrite !in_app_iff, (IH H2 _ Fb').
  assert (In c A <-> In c B) by (split; eapply best_cells_unique; eauto). tauto.
Qed.
