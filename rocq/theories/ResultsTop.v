(** Where results come from; the whole command. *)
From Verif Require Import Base Text FtsRank FtsRankSpec FtsRankProofs FtsText Results ResultsSpec ResultsProofs ResultsBoost ResultsMore ResultsCmd.
Open Scope nat_scope.

Section ORIGIN.
  Variable A : arith.
  Notation F := (num A).
  Notation hit := (hit A).
  Notation file_of := (file_of A).
  Notation score_of := (score_of A).
  Variable T : tuning A.
  Variable B : backend A.
  Variable iter : list (Z * F) -> list (Z * F).
  Hypothesis GB : good_backend A B.
  Hypothesis IT : forall l, Permutation (iter l) l.
  Definition same_path (t : text) : text := t.
  Notation origin := (from_row A B same_path).

  Lemma from_row_ext path P (h h' : hit) : file_of h' = file_of h -> u_name (h_unit A h') = u_name (h_unit A h) ->
    u_definition (h_unit A h') = u_definition (h_unit A h) -> u_text_format (h_unit A h') = u_text_format (h_unit A h) ->
    u_code (h_unit A h') = u_code (h_unit A h) -> from_row A B path P h -> from_row A B path P h'.
  Proof using.
    intros E1 E2 E3 E4 E5 (i & u & H1 & H2 & (S1 & S2 & S3 & S4 & S5)). exists i, u. split; [exact H1|]. split; [exact H2|].
    unfold shows_unit. rewrite E1, E2, E3, E4, E5. auto.
  Qed.
  Lemma from_row_weak path (P Q : Z -> Prop) h : (forall i, P i -> Q i) -> from_row A B path P h -> from_row A B path Q h.
  Proof using. intros H (i & u & H1 & H2). exists i, u. split; [apply H; exact H1|exact H2]. Qed.
  Lemma merge_into_origin P out r out' : Forall (origin P) out -> merge_into A out r = Some out' -> Forall (origin P) out'.
  Proof using.
    intros H M. apply merge_into_some in M. destruct M as (a & h & b & -> & _ & ->). rewrite Forall_app in H. destruct H as (H1 & H2). inversion H2; subst.
    apply Forall_app. split; [exact H1|]. constructor; [|assumption]. eapply from_row_ext; [..|eassumption]; reflexivity.
  Qed.
  Lemma collapse_origin P l k : forall out, Forall (origin P) out -> Forall (origin P) l -> Forall (origin P) (collapse_from A out l k).
  Proof using.
    induction l as [|r l IH]; intros out H1 H2; cbn [collapse_from]; [exact H1|]. inversion H2 as [|? ? Hr Hl]; subst.
    destruct (merge_into A out r) as [out'|] eqn:M; [apply IH; [exact (merge_into_origin P out r out' H1 M)|exact Hl]|].
    destruct (k <=? length out); apply IH; try assumption. apply Forall_app. split; [exact H1|]. constructor; [assumption|constructor].
  Qed.
  Lemma units_origin (P : Z -> Prop) r : (forall i, In i (fst r) -> P i) -> Forall (origin P) (units A B r).
  Proof using.
    intro H. rewrite Forall_forall. intros h Hh. unfold units in Hh. apply in_flat_map in Hh. destruct Hh as ([i s] & H1 & H2). cbn [fst snd] in H2.
    destruct (b_row A B i) as [[u|]|] eqn:E; [|destruct H2|destruct H2]. destruct H2 as [<-|[]].
    exists i, u. split; [apply H; apply in_combine_l in H1; exact H1|]. split; [exact E|]. repeat split.
  Qed.
  Lemma same_units P (l l' : list hit) : map (h_unit A) l' = map (h_unit A) l -> Forall (origin P) l -> Forall (origin P) l'.
  Proof using.
    revert l'. induction l as [|h l IH]; intros [|h' l'] E H; try discriminate; constructor; cbn [map] in E; injection E as E1 E2; inversion H; subst.
    - eapply from_row_ext; [..|eassumption]; unfold ResultsSpec.file_of; rewrite E1; reflexivity.
    - apply IH; assumption.
  Qed.
  Lemma hybrid_origin q k sub alpha cached out : good_cached A cached -> search_hybrid_with_embedding A T B iter q k sub alpha cached = Ok out ->
    Forall (origin (in_subset sub)) out.
  Proof using GB IT.
    intros GC H. unfold search_hybrid_with_embedding in H. destruct (fused A B iter q k sub alpha cached) as [r| |] eqn:EF; cbn [bind] in H; try discriminate.
    injection H as <-. destruct (fused_ok A B iter GB IT _ _ _ _ _ _ GC EF) as (F1 & F2 & F3 & F4).
    apply collapse_origin; [constructor|]. unfold ranked_hits. eapply Permutation_Forall; [symmetry; apply isort_perm|].
    rewrite (take_rows_units A B [] (fst r) (snd r) F2) by (intros i _ []). rewrite <- surjective_pairing.
    apply same_units with (units A B r); [apply boosted_units|]. apply units_origin. intros i Hi. apply F4. exact Hi.
  Qed.
  Lemma semantic_origin q k sub out : search_with_embedding A B q k sub = Ok out -> Forall (origin (in_subset sub)) out.
  Proof using GB.
    intro H. unfold search_with_embedding in H. destruct (b_search A B q k sub) as [r| |] eqn:ES; cbn [bind] in H; try discriminate. injection H as <-.
    destruct (gb_search A B GB _ _ _ _ ES) as (_ & _ & _ & G4). rewrite Forall_forall. intros h Hh. apply in_flat_map in Hh.
    destruct Hh as ([o s] & H1 & H2). cbn [fst snd] in H2. destruct o as [u|]; [|destruct H2]. destruct H2 as [<-|[]].
    apply in_combine_l in H1. unfold rows_of in H1. apply in_flat_map in H1. destruct H1 as (i & Hi & K). destruct (b_row A B i) as [u'|] eqn:E; [|destruct K].
    destruct K as [->|[]]. exists i, u. split; [destruct sub; [apply G4; exact Hi|exact Logic.I]|]. split; [exact E|]. repeat split.
  Qed.
  Lemma one_origin semantic_only alpha q k sub cached out : good_cached A cached -> one_search A T B iter semantic_only alpha q k sub cached = Ok out ->
    Forall (origin (in_subset sub)) out.
  Proof using GB IT.
    intros GC H. unfold one_search in H. destruct semantic_only; [apply semantic_origin with q k; exact H|]. eapply hybrid_origin; eassumption.
  Qed.
  Lemma fts5_cached q k sub c : fts5_search A B q k sub = Ok c -> good_cached A c.
  Proof using GB.
    unfold fts5_search. destruct (sanitize_fts5_query_or q) as [|c0 t]; [intro H; injection H as <-; exact Logic.I|].
    destruct (b_keyword A B (c0 :: t) k sub) as [r| |] eqn:E; intro H; try discriminate; injection H as <-; [|exact Logic.I].
    destruct (gb_keyword A B GB _ _ _ _ E) as (G1 & G2 & _). split; assumption.
  Qed.
  Lemma both_origin semantic_only alpha q k sub literal sem lit :
    both_searches A T B iter semantic_only alpha q k sub literal = Ok (sem, lit) -> Forall (origin (in_subset sub)) (sem ++ lit).
  Proof using GB IT.
    intro H. unfold both_searches in H.
    destruct (if semantic_only then Ok None else fts5_search A B q (k * 3) sub) as [c| |] eqn:EC; cbn [bind] in H; try discriminate.
    assert (GC : good_cached A c) by (destruct semantic_only; [injection EC as <-; exact Logic.I|apply fts5_cached with q (k * 3) sub; exact EC]).
    destruct (one_search A T B iter semantic_only alpha q k sub c) as [s| |] eqn:ES; cbn [bind] in H; try discriminate.
    apply Forall_app. pose proof (one_origin _ _ _ _ _ _ _ GC ES) as O1.
    set (ids := match sub with Some e => filter (fun i => existsb (Z.eqb i) e) literal | None => literal end) in *.
    assert (SUB : forall i, In i ids -> in_subset sub i).
    { intros i Hi. unfold ids in Hi. destruct sub as [e|]; [|exact Logic.I]. apply filter_In in Hi. apply zmem_in. apply Hi. }
    clearbody ids. destruct ids as [|i0 ids]; cbn [bind] in H; [injection H as <- <-; split; [exact O1|constructor]|].
    destruct (one_search A T B iter semantic_only alpha q k (Some (i0 :: ids)) None) as [l| |] eqn:EL; cbn [bind] in H; try discriminate.
    injection H as <- <-. split; [exact O1|]. eapply Forall_impl; [|apply (one_origin _ _ _ _ _ None _ Logic.I EL)].
    intros h. apply from_row_weak. intros i Hi. apply SUB. exact Hi.
  Qed.
  Lemma merge_origin P l : forall m, Forall (origin P) m -> Forall (origin P) l -> Forall (origin P) (fold_left (merge_result A) l m).
  Proof using.
    induction l as [|r l IH]; intros m H1 H2; cbn [fold_left]; [exact H1|]. inversion H2 as [|? ? Hr Hl]; subst. apply IH; [|exact Hl].
    clear IH H2 Hl. induction H1 as [|h m Hh Hm IH]; cbn [merge_result]; [constructor; [exact Hr|constructor]|].
    destruct (same_file A h r); constructor; try assumption.
    destruct (f_above A (h_score A r) (h_score A h)); eapply from_row_ext; [..|exact Hr| | | | | |exact Hh]; reflexivity.
  Qed.
  Variable hash_order : list Z -> list Z.
  Hypothesis HO : forall l, Permutation (hash_order l) l.
  Variable merged_order : list hit -> list hit.
  Hypothesis MO : forall l, Permutation (merged_order l) l.
  Variable path_cmp : text -> text -> comparison.
  Lemma absolute_row P absolute h : origin P h -> from_row A B absolute P (with_file A h (absolute (u_file (h_unit A h)))).
  Proof using.
    intros (i & u & H1 & H2 & (S1 & S2 & S3 & S4 & S5)). exists i, u. split; [exact H1|]. split; [exact H2|]. unfold ResultsSpec.file_of, same_path in S1. unfold shows_unit, ResultsSpec.file_of. cbn. rewrite S1. auto.
  Qed.
  Theorem single_origin o semantic_only code_only alpha q enhanced literal absolute k out :
    search_single_path A T B iter hash_order merged_order path_cmp o semantic_only code_only alpha q enhanced literal absolute k = Ok out ->
    Forall (from_row A B absolute (passes o)) out.
  Proof using GB IT HO MO.
    intro H. unfold search_single_path in H. pose proof (combined_ok hash_order HO o) as C.
    destruct (combined hash_order o) as [sub|]; [|injection H as <-; constructor].
    assert (SUB : forall i, in_subset sub i -> passes o i).
    { destruct sub as [l|]; [intros i Hi; apply C; exact Hi|]. destruct C as (C1 & C2 & C3 & C4 & C5 & C6). intros i _. unfold passes. rewrite C1, C2, C3, C4, C5, C6. auto 6. }
    cbv zeta in H. set (n := if code_only then k * 4 else k * 3) in *.
    assert (K : forall l, Forall (origin (in_subset sub)) l ->
      Forall (from_row A B absolute (passes o)) (map (fun h => with_file A h (absolute (u_file (h_unit A h)))) (isort (results_le A path_cmp) l))).
    { intros l Hl. rewrite Forall_map. eapply Permutation_Forall; [symmetry; apply isort_perm|]. eapply Forall_impl; [|exact Hl].
      intros h Hh. apply absolute_row. eapply from_row_weak; [exact SUB|exact Hh]. }
    destruct (o_pattern o) as [p|].
    - destruct (one_search A T B iter semantic_only alpha enhanced n sub None) as [l| |] eqn:E; cbn [bind] in H; try discriminate. injection H as <-.
      apply K. apply (one_origin _ _ _ _ _ None _ Logic.I E).
    - destruct (both_searches A T B iter semantic_only alpha q n sub literal) as [[sem lit]| |] eqn:E; cbn [bind] in H; try discriminate. injection H as <-.
      apply K. cbn [fst snd]. unfold merged. eapply Permutation_Forall; [symmetry; apply MO|]. apply merge_origin; [constructor|]. eapply both_origin; exact E.
  Qed.
End ORIGIN.

Section COMMAND.
  Variable A : arith.
  Notation hit := (hit A).
  Notation file_of := (file_of A).
  Notation score_of := (score_of A).
  Hypothesis GO : good_order A.
  Variable path_cmp : text -> text -> comparison.
  Hypothesis GP : good_paths path_cmp.
  Definition is_code (h : hit) : bool := negb (u_text_format (h_unit A h)).
  Lemma sorted_filter (R : hit -> hit -> Prop) f l : StronglySorted R l -> StronglySorted R (filter f l).
  Proof using.
    induction 1 as [|x l S0 IH H]; cbn [filter]; [constructor|]. destruct (f x); [|exact IH]. constructor; [exact IH|].
    rewrite Forall_forall in *. intros y Hy. apply filter_In in Hy. apply H. apply Hy.
  Qed.
  Lemma filter_perm (f : hit -> bool) l l' : Permutation l l' -> Permutation (filter f l) (filter f l').
  Proof using.
    induction 1; cbn [filter]; [constructor| | |eapply Permutation_trans; eassumption].
    - destruct (f x); [constructor|]; assumption.
    - destruct (f x), (f y); try reflexivity. apply perm_swap.
  Qed.
  Theorem command_ok code_only k paths all out : all_paths A paths = Ok all -> Forall (fun h => is_number A (score_of h)) all ->
    cmd_results A path_cmp code_only k paths = Ok out ->
    let wanted := if code_only then filter is_code all else all in
    length out = Nat.min k (length wanted)
    /\ exists rest, Permutation wanted (out ++ rest) /\ StronglySorted (before A path_cmp) (out ++ rest).
  Proof using GO GP.
    intros EA NB H. unfold cmd_results in H. rewrite EA in H. cbn [bind] in H. cbv zeta.
    destruct all as [|h0 all0].
    { destruct (existsb (is_missing A) paths); [discriminate|]. injection H as <-. destruct code_only; cbn; (split; [lia|exists []; split; constructor]). }
    set (all := h0 :: all0) in *. injection H as H. subst out.
    set (sorted := isort (results_le A path_cmp) all).
    assert (S1 : StronglySorted (before A path_cmp) sorted) by (apply sort_before; assumption).
    assert (P1 : Permutation sorted all) by apply isort_perm.
    set (s2 := if code_only then filter (fun h => negb (u_text_format (h_unit A h))) sorted else sorted).
    assert (S2 : StronglySorted (before A path_cmp) s2) by (unfold s2; destruct code_only; [apply sorted_filter|]; exact S1).
    assert (P2 : Permutation s2 (if code_only then filter is_code all else all)) by (unfold s2; destruct code_only; [apply filter_perm|]; exact P1).
    assert (L := Permutation_length P2).
    change (length (firstn k s2) = Nat.min k (length (if code_only then filter is_code all else all))
      /\ exists rest, Permutation (if code_only then filter is_code all else all) (firstn k s2 ++ rest) /\ StronglySorted (before A path_cmp) (firstn k s2 ++ rest)).
    split; [rewrite firstn_length, L; reflexivity|].
    exists (skipn k s2). rewrite firstn_skipn. split; [symmetry; exact P2|exact S2].
  Qed.
  Theorem command_fails code_only k paths : (exists p, In p paths /\ p = Some Err) -> (forall p, In p paths -> p <> Some Panic) -> cmd_results A path_cmp code_only k paths = Err.
  Proof using.
    intros (p & Hp & ->) NP. unfold cmd_results. assert (E : all_paths A paths = Err); [|rewrite E; reflexivity].
    induction paths as [|x paths IH]; [destruct Hp|]. cbn [all_paths].
    destruct x as [r|].
    - destruct r as [l| |]; cbn [bind].
      + destruct Hp as [Hp|Hp]; [discriminate|]. rewrite IH; [reflexivity|exact Hp|]. intros y Hy. apply NP. right. exact Hy.
      + reflexivity.
      + exfalso. apply (NP (Some Panic)); [left; reflexivity|reflexivity].
    - destruct Hp as [Hp|Hp]; [discriminate|]. apply IH; [exact Hp|]. intros y Hy. apply NP. right. exact Hy.
  Qed.
  Lemma all_paths_single l : all_paths A [Some (Ok l)] = Ok l.
  Proof using. cbn. rewrite app_nil_r. reflexivity. Qed.
End COMMAND.

(** ** One path: every file once, as many files as were found *)
Section CONTRACT.
  Variable A : arith.
  Notation F := (num A).
  Notation hit := (hit A).
  Notation file_of := (file_of A).
  Notation score_of := (score_of A).
  Variable T : tuning A.
  Variable B : backend A.
  Variable iter : list (Z * F) -> list (Z * F).
  Hypothesis GB : good_backend A B.
  Hypothesis IT : forall l, Permutation (iter l) l.
  Hypothesis GO : good_order A.
  Variable hash_order : list Z -> list Z.
  Variable path_cmp : text -> text -> comparison.
  Hypothesis GP : good_paths path_cmp.
  Notation number h := (is_number A (score_of h)).
  Notation nfiles l := (length (nodup text_dec (map file_of l))).

  Lemma isort_each l m : each_file A l m -> each_file A l (isort (results_le A path_cmp) m).
  Proof using. intro H. eapply each_perm; [apply isort_perm|exact H]. Qed.
  Lemma each_numbers l m : Forall (fun h => number h) l -> each_file A l m -> Forall (fun h => number h) m.
  Proof using.
    intros NB E. rewrite Forall_forall in *. intros h Hh. destruct (ef_shown A _ _ E h Hh) as (_ & b & Hb & Sh & _).
    rewrite (shown_score A _ _ Sh). apply NB. exact Hb.
  Qed.
  Lemma each_count l m : each_file A l m -> length m = nfiles l.
  Proof using.
    intros [E1 E2 _]. rewrite <- (map_length file_of). apply Nat.le_antisymm.
    - apply NoDup_incl_length; [exact E2|]. intros f Hf. apply nodup_In. apply E1. exact Hf.
    - apply NoDup_incl_length; [apply NoDup_nodup|]. intros f Hf. apply nodup_In in Hf. apply E1. exact Hf.
  Qed.
  (** without a pattern: each file of the two searches once, in the final order *)
  Theorem single_each merged_order o sub semantic_only (code_only : bool) alpha q enhanced literal absolute k sem lit :
    (forall l, Permutation (merged_order l) l) -> combined hash_order o = Some sub -> o_pattern o = None ->
    both_searches A T B iter semantic_only alpha q (if code_only then k * 4 else k * 3) sub literal = Ok (sem, lit) ->
    Forall (fun h => number h) (sem ++ lit) ->
    exists l, each_file A (sem ++ lit) l /\ StronglySorted (before A path_cmp) l
      /\ search_single_path A T B iter hash_order merged_order path_cmp o semantic_only code_only alpha q enhanced literal absolute k
         = Ok (map (fun h => with_file A h (absolute (file_of h))) l).
  Proof using GO GP.
    intros MO C NP E NB. pose proof (merged_each A GO merged_order (sem ++ lit) MO NB) as ME.
    exists (isort (results_le A path_cmp) (merged A merged_order (sem ++ lit))). split; [apply isort_each; exact ME|].
    split; [apply sort_before; try assumption; eapply each_numbers; eassumption|].
    unfold search_single_path. rewrite C, NP. cbv zeta. rewrite E. cbn [bind fst snd]. reflexivity.
  Qed.
  (** the order of the hash map of the merge does not matter *)
  Theorem single_order o1 o2 o sub semantic_only (code_only : bool) alpha q enhanced literal absolute k sem lit :
    (forall l, Permutation (o1 l) l) -> (forall l, Permutation (o2 l) l) -> combined hash_order o = Some sub -> o_pattern o = None ->
    both_searches A T B iter semantic_only alpha q (if code_only then k * 4 else k * 3) sub literal = Ok (sem, lit) ->
    Forall (fun h => number h) (sem ++ lit) ->
    search_single_path A T B iter hash_order o1 path_cmp o semantic_only code_only alpha q enhanced literal absolute k
    = search_single_path A T B iter hash_order o2 path_cmp o semantic_only code_only alpha q enhanced literal absolute k.
  Proof using GO GP.
    intros P1 P2 C NP E NB. unfold search_single_path. rewrite C, NP. cbv zeta. rewrite E. cbn [bind fst snd].
    rewrite (merged_order_irrelevant A GO path_cmp GP o1 o2 (sem ++ lit) P1 P2 NB). reflexivity.
  Qed.
  Lemma map_inj_nodup (f : text -> text) l : (forall x y, f x = f y -> x = y) -> NoDup l -> NoDup (map f l).
  Proof using. intros I. induction 1 as [|x l H N IH]; cbn [map]; constructor; [|exact IH]. intro K. apply in_map_iff in K. destruct K as (y & E & Hy). apply I in E. subst. contradiction. Qed.
  Lemma absolute_files absolute (l : list hit) : map file_of (map (fun h => with_file A h (absolute (file_of h))) l) = map absolute (map file_of l).
  Proof using. rewrite !map_map. reflexivity. Qed.
  (** the command on one path, without --code-only: each file once, [-k] of them if there are *)
  Theorem command_contract merged_order o sub semantic_only alpha q enhanced literal absolute k sem lit out :
    (forall l, Permutation (merged_order l) l) -> combined hash_order o = Some sub -> o_pattern o = None ->
    (forall x y, absolute x = absolute y -> x = y) ->
    both_searches A T B iter semantic_only alpha q (k * 3) sub literal = Ok (sem, lit) -> Forall (fun h => number h) (sem ++ lit) ->
    cmd_results A path_cmp false k
      [Some (search_single_path A T B iter hash_order merged_order path_cmp o semantic_only false alpha q enhanced literal absolute k)] = Ok out ->
    NoDup (map file_of out) /\ length out = Nat.min k (nfiles (sem ++ lit)).
  Proof using GO GP.
    intros MO C NP INJ E NB H. destruct (single_each merged_order o sub semantic_only false alpha q enhanced literal absolute k sem lit MO C NP E NB) as (l & E1 & _ & E3).
    rewrite E3 in H.
    assert (N : Forall (fun h => number h) (map (fun h => with_file A h (absolute (file_of h))) l)).
    { rewrite Forall_map. eapply Forall_impl; [|eapply each_numbers; eassumption]. intros h Hh. exact Hh. }
    destruct (command_ok A GO path_cmp GP false k _ _ _ (all_paths_single A _) N H) as (L & rest & P & _). cbv iota in L, P.
    split.
    - assert (D : NoDup (map file_of (out ++ rest))).
      { eapply Permutation_NoDup; [apply Permutation_map; exact P|]. rewrite absolute_files. apply map_inj_nodup; [exact INJ|apply (ef_distinct A _ _ E1)]. }
      rewrite map_app in D. clear -D. induction (map file_of out) as [|x m IH]; [constructor|]. cbn [app] in D. inversion D as [|? ? D1 D2]; subst.
      constructor; [intro K; apply D1, in_or_app; left; exact K|apply IH; exact D2].
    - rewrite L, map_length, (each_count _ _ E1). reflexivity.
  Qed.
  (** a search that gives [min (3k) n] distinct files is enough for [min k n] results *)
  Lemma enough_files k pool sem lit : best_files A (k * 3) pool sem -> Nat.min k (nfiles pool) <= Nat.min k (nfiles (sem ++ lit)).
  Proof using.
    intros [C D _ _ _]. assert (H : length sem <= nfiles (sem ++ lit)).
    { rewrite <- (map_length file_of). apply NoDup_incl_length; [exact D|]. intros f Hf. apply nodup_In. rewrite map_app. apply in_or_app. left. exact Hf. }
    lia.
  Qed.

  (** ** With a pattern: every match the index search gives *)
  Lemma nodup_le (x y : list Z) : incl x y -> length (nodup Z.eq_dec x) <= length (nodup Z.eq_dec y).
  Proof using. intro I. apply NoDup_incl_length; [apply NoDup_nodup|]. intros i Hi. apply nodup_In in Hi. apply nodup_In, I, Hi. Qed.
  Lemma fused_all q k l alpha sem r : b_search A B q (fetch_k A B k) (Some l) = Ok sem -> fused A B iter q k (Some l) alpha None = Ok r ->
    length (nodup Z.eq_dec l) <= fetch_k A B k -> incl (fst sem) (fst r).
  Proof using GB IT.
    intros ES H L. unfold fused in H. rewrite ES in H. cbn [bind] in H.
    destruct (gb_search A B GB _ _ _ _ ES) as (G1 & G2 & G3 & G4).
    destruct (keyword_side A B q (fetch_k A B k) (Some l) None) as [kw| |] eqn:EK; cbn [bind] in H; try discriminate. injection H as <-.
    destruct kw as [[ids scores]|]; [|apply incl_refl].
    destruct (keyword_ok A B GB _ _ _ None _ Logic.I EK) as (K1 & K2 & K3 & _). cbn [fst snd] in K1, K2, K3. destruct ids as [|i0 ids]; [apply incl_refl|].
    destruct (fused_ids A iter IT (fst sem) (snd sem) (i0 :: ids) scores alpha (fetch_k A B k) G1 K1) as (F1 & F2 & F3 & F4).
    assert (IN : incl (fst sem ++ i0 :: ids) l).
    { intros i Hi. apply in_app_iff in Hi. destruct Hi as [Hi|Hi]; [apply G4; exact Hi|apply K3; exact Hi]. }
    pose proof (fused_count A iter IT (fst sem) (snd sem) (i0 :: ids) scores alpha (fetch_k A B k) G1 K1) as FC. pose proof (nodup_le _ _ IN) as LE.
    intros i Hi.
    apply (NoDup_length_incl F1 (l' := nodup Z.eq_dec (fst sem ++ i0 :: ids))); [lia| |apply nodup_In, in_or_app; left; exact Hi].
    intros j Hj. apply nodup_In, F4, Hj.
  Qed.
  Lemma collapse_all l k : forall out, length out + length l <= k -> incl (map file_of (out ++ l)) (map file_of (collapse_from A out l k)).
  Proof using.
    clear - l k. induction l as [|r l IH]; intros out L; cbn [collapse_from]; [rewrite app_nil_r; apply incl_refl|]. cbn [length] in L.
    destruct (merge_into A out r) as [out'|] eqn:M.
    - apply merge_into_some in M. destruct M as (a & h & b & -> & EF & ->). eapply incl_tran; [|apply IH; rewrite app_length in *; cbn [length] in *; lia].
      intros f Hf. rewrite !map_app in *. cbn [map] in *. change (file_of (merge_lines A h r)) with (file_of h).
      rewrite !in_app_iff in *. cbn [In] in *. rewrite ?in_app_iff in *. destruct Hf as [[Hf|Hf]|[Hf|Hf]]; try tauto. rewrite <- EF in Hf || rewrite EF in Hf. tauto.
    - replace (k <=? length out) with false by (symmetry; apply Nat.leb_gt; lia).
      eapply incl_tran; [|apply IH; rewrite app_length; cbn [length]; lia]. rewrite <- app_assoc. apply incl_refl.
  Qed.
  Lemma collapse_length l k : forall out, length (collapse_from A out l k) <= length out + length l.
  Proof using.
    clear - l k. induction l as [|r l IH]; intro out; cbn [collapse_from length]; [lia|].
    destruct (merge_into A out r) as [out'|] eqn:M.
    - apply merge_into_some in M. destruct M as (a & h & b & -> & _ & ->). etransitivity; [apply IH|]. rewrite !app_length. cbn [length]. lia.
    - destruct (k <=? length out); (etransitivity; [apply IH|]); rewrite ?app_length; cbn [length]; lia.
  Qed.
  Lemma units_length r : length (units A B r) <= length (fst r).
  Proof using.
    destruct r as [ids scores]. unfold units. cbn [fst snd]. revert scores. induction ids as [|i ids IH]; intros [|s scores]; cbn [combine flat_map length]; try lia.
    rewrite app_length. specialize (IH scores). cbn [fst snd]. destruct (b_row A B i) as [[u|]|]; cbn [length]; lia.
  Qed.
  Lemma hybrid_all q k l alpha sem out : b_search A B q (fetch_k A B k) (Some l) = Ok sem ->
    search_hybrid_with_embedding A T B iter q k (Some l) alpha None = Ok out -> length (nodup Z.eq_dec l) <= k ->
    length out <= length (nodup Z.eq_dec l)
    /\ forall i u, In i (fst sem) -> b_row A B i = Some (Some u) -> In (u_file u) (map file_of out).
  Proof using GB IT.
    intros ES H L. assert (LF : k <= fetch_k A B k) by (unfold fetch_k; lia).
    unfold search_hybrid_with_embedding in H. destruct (fused A B iter q k (Some l) alpha None) as [r| |] eqn:EF; cbn [bind] in H; try discriminate. injection H as <-.
    destruct (fused_ok A B iter GB IT _ _ _ _ None _ Logic.I EF) as (F1 & F2 & _ & F4).
    assert (LR : length (fst r) <= length (nodup Z.eq_dec l)).
    { apply NoDup_incl_length; [exact F2|]. intros i Hi. apply nodup_In. apply (F4 i Hi). }
    set (pool := ranked_hits A T B q r).
    assert (PU : exists p, Permutation pool p /\ map (h_unit A) p = map (h_unit A) (units A B r)).
    { unfold pool, ranked_hits. rewrite (take_rows_units A B [] (fst r) (snd r) F2) by (intros i _ []). rewrite <- surjective_pairing.
      eexists. split; [apply isort_perm|]. apply boosted_units. }
    destruct PU as (p & P1 & P2).
    assert (LP : length pool <= length (nodup Z.eq_dec l)).
    { rewrite (Permutation_length P1), <- (map_length (h_unit A)), P2, map_length. pose proof (units_length r). lia. }
    split; [pose proof (collapse_length pool k []) as X; cbn [length] in X; unfold collapse_by_file; lia|].
    intros i u Hi Hu. apply (collapse_all pool k []); [cbn [length]; lia|]. cbn [app].
    pose proof (fused_all q k l alpha sem r ES EF ltac:(lia) i Hi) as Hr.
    assert (IU : In u (map (h_unit A) p)).
    { rewrite P2. destruct (In_nth_error _ _ Hr) as (n & En). assert (exists s, nth_error (snd r) n = Some s) as (s & Es).
      { destruct (nth_error (snd r) n) as [s|] eqn:X; [eauto|]. apply nth_error_None in X. assert (n < length (fst r)) by (apply nth_error_Some; congruence). lia. }
      apply in_map_iff. exists {| h_unit := u; h_score := s |}. split; [reflexivity|]. unfold units. apply in_flat_map. exists (i, s). split.
      - apply nth_error_In with n. clear -En Es. revert n En Es. generalize (fst r) (snd r). induction l as [|a l IH]; intros [|b m] [|n] En Es; cbn in *; try discriminate; [congruence|auto].
      - cbn [fst snd]. rewrite Hu. left. reflexivity. }
    apply in_map_iff in IU. destruct IU as (h & <- & Hh). change (In (file_of h) (map file_of pool)). apply in_map. eapply Permutation_in; [symmetry; exact P1|exact Hh].
  Qed.
  (** with a pattern and room enough, the command lists the file of every match that the index search gives *)
  Theorem every_match merged_order o p l alpha q enhanced literal absolute k sem out :
    o_pattern o = Some p -> combined hash_order o = Some (Some l) -> length (nodup Z.eq_dec l) <= k ->
    b_search A B enhanced (fetch_k A B (k * 3)) (Some l) = Ok sem ->
    cmd_results A path_cmp false k
      [Some (search_single_path A T B iter hash_order merged_order path_cmp o false false alpha q enhanced literal absolute k)] = Ok out ->
    forall i u, In i (fst sem) -> b_row A B i = Some (Some u) -> In (absolute (u_file u)) (map file_of out).
  Proof using GB IT.
    intros EP C L ES H i u Hi Hu. unfold search_single_path in H. rewrite C, EP in H. cbv zeta iota in H. unfold one_search in H.
    destruct (search_hybrid_with_embedding A T B iter enhanced (k * 3) (Some l) alpha None) as [res| |] eqn:EH; cbn [bind] in H; try discriminate.
    destruct (hybrid_all _ _ _ _ _ _ ES EH ltac:(lia)) as (L1 & K). specialize (K i u Hi Hu).
    unfold cmd_results in H. rewrite all_paths_single in H. cbn [bind] in H.
    set (abs := map (fun h => with_file A h (absolute (u_file (h_unit A h)))) (isort (results_le A path_cmp) res)) in *.
    assert (IA : In (absolute (u_file u)) (map file_of abs)).
    { unfold abs. rewrite map_map. apply in_map_iff in K. destruct K as (h & E & Hh). apply in_map_iff. exists h. split; [cbn; rewrite <- E; reflexivity|].
      eapply Permutation_in; [symmetry; apply isort_perm|exact Hh]. }
    assert (LA : length abs <= k) by (unfold abs; rewrite map_length, (Permutation_length (isort_perm _ res)); lia).
    clearbody abs. destruct abs as [|h0 abs]; [destruct IA|]. injection H as H. subst out.
    change (In (absolute (u_file u)) (map file_of (firstn k (isort (results_le A path_cmp) (h0 :: abs))))).
    rewrite firstn_all2 by (rewrite (Permutation_length (isort_perm _ (h0 :: abs))); exact LA).
    eapply Permutation_in; [apply Permutation_map; symmetry; apply isort_perm|exact IA].
  Qed.
End CONTRACT.
