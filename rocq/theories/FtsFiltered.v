(** Filtered full-text search: the merge of the chunks is the global choice. *)
From Verif Require Import Base FtsRank FtsRankSpec FtsRankProofs.
Open Scope nat_scope.

Lemma shuffle {T} (t r f m : list T) : Permutation (((t ++ r) ++ f) ++ m) ((f ++ (t ++ m)) ++ r).
Proof.
  rewrite <- !app_assoc. transitivity (t ++ f ++ m ++ r).
  - apply Permutation_app_head. rewrite (app_assoc f m r). apply Permutation_app_comm.
  - rewrite !app_assoc. do 2 apply Permutation_app_tail. apply Permutation_app_comm.
Qed.

Section FILTERED.
  Variable A : arith.
  Hypothesis GO : good_order A.
  Notation nb p := (is_number A (snd p)).
  Notation le p q := (not_above A (snd q) (snd p)).

  Lemma top_perm k c c' out : Permutation c c' -> top_of A k c out -> top_of A k c' out.
  Proof using.
    intros P (rest & T1 & T2 & T3 & T4). exists rest. split; [rewrite <- P; exact T1|].
    rewrite <- (Permutation_length P). auto.
  Qed.

  Lemma top_merge k c1 o1 m out : Forall (fun p => nb p) (c1 ++ m) -> NoDup (map fst (c1 ++ m)) ->
    top_of A k c1 o1 -> top_of A k (o1 ++ m) out -> top_of A k (c1 ++ m) out.
  Proof using GO.
    intros NB ND (r1 & P1 & L1 & S1 & B1) (r2 & P2 & L2 & S2 & B2).
    assert (PC : Permutation (c1 ++ m) (out ++ (r2 ++ r1))).
    { rewrite P1, <- app_assoc, (Permutation_app_comm r1 m), app_assoc, P2, <- app_assoc. reflexivity. }
    exists (r2 ++ r1). split; [exact PC|]. split.
    - rewrite L2, !app_length. apply Permutation_length in P1. rewrite app_length in P1. lia.
    - split; [exact S2|]. intros x y Hx Hy. apply in_app_or in Hy. destruct Hy as [Hy|Hy]; [auto|].
      assert (Lk : length o1 = k).
      { pose proof (Permutation_length P1) as Q. rewrite app_length in Q. destruct r1; [destruct Hy|]. cbn [length] in Q. lia. }
      assert (Lo : length out = k) by (rewrite L2, app_length; lia).
      assert (N1 : NoDup (map fst (o1 ++ m))).
      { assert (Q : Permutation (c1 ++ m) ((o1 ++ m) ++ r1))
          by (rewrite P1, <- !app_assoc; apply Permutation_app_head, Permutation_app_comm).
        apply (Permutation_map fst) in Q. pose proof (Permutation_NoDup Q ND) as Q2. rewrite map_app in Q2. eapply nodup_app_l. exact Q2. }
      destruct (in_dec Z.eq_dec (fst x) (map fst o1)) as [C|C].
      + assert (Ho : In x o1).
        { apply in_map_iff in C. destruct C as (x' & E & C).
          assert (In x (o1 ++ m)) by (eapply Permutation_in; [symmetry; exact P2|apply in_or_app; auto]).
          assert (In x' (o1 ++ m)) by (apply in_or_app; auto).
          assert (x = x'); [|subst; exact C].
          clear - N1 H H0 E. induction (o1 ++ m) as [|a l IH]; [destruct H|]. cbn [map] in N1. inversion N1 as [|? ? Na Nl]; subst.
          destruct H as [<-|H]; destruct H0 as [<-|H0]; auto.
          - exfalso. apply Na. rewrite <- E. apply in_map. exact H0.
          - exfalso. apply Na. rewrite E. apply in_map. exact H. }
        exact (B1 _ _ Ho Hy).
      + destruct (Forall_Exists_dec (fun p : Z * num A => In (fst p) (map fst out)) (fun p => in_dec Z.eq_dec (fst p) (map fst out)) o1) as [F|F].
        * exfalso. apply C.
          assert (I1 : incl (map fst out) (map fst o1)).
          { apply NoDup_length_incl.
            - rewrite map_app in N1. eapply nodup_app_l. exact N1.
            - rewrite !map_length. lia.
            - intros z Hz. apply in_map_iff in Hz. destruct Hz as (p & <- & Hp). rewrite Forall_forall in F. auto. }
          apply I1. apply in_map. exact Hx.
        * apply Exists_exists in F. destruct F as (o & Ho & No).
          assert (Ro : In o r2).
          { assert (Q : In o (out ++ r2)) by (eapply Permutation_in; [exact P2|apply in_or_app; auto]).
            apply in_app_or in Q. destruct Q as [Q|Q]; [exfalso; apply No, in_map; exact Q|exact Q]. }
          rewrite Forall_forall in NB.
          assert (NBx : nb x) by (apply NB; eapply Permutation_in; [symmetry; exact PC|apply in_or_app; auto]).
          assert (NBy : nb y) by (apply NB; eapply Permutation_in; [symmetry; exact PC|apply in_or_app; right; apply in_or_app; auto]).
          assert (NBo : nb o) by (apply NB; eapply Permutation_in; [symmetry; exact PC|apply in_or_app; right; apply in_or_app; auto]).
          eapply (go_trans A GO); [exact NBy|exact NBo|exact NBx|exact (B1 _ _ Ho Hy)|exact (B2 _ _ Hx Ro)].
  Qed.

  Lemma top_merge_all {T} k (part topk : T -> list (Z * num A)) cs : (forall c, top_of A k (part c) (topk c)) ->
    forall m out, Forall (fun p => nb p) (flat_map part cs ++ m) -> NoDup (map fst (flat_map part cs ++ m)) ->
    top_of A k (flat_map topk cs ++ m) out -> top_of A k (flat_map part cs ++ m) out.
  Proof using GO.
    intro Top. induction cs as [|c cs IH]; cbn [flat_map]; intros m out NB ND H; [exact H|].
    destruct (Top c) as (r & P & _).
    assert (Q : Permutation ((part c ++ flat_map part cs) ++ m) ((flat_map part cs ++ (topk c ++ m)) ++ r)).
    { rewrite P. apply shuffle. }
    assert (NB' : Forall (fun p : Z * num A => nb p) (flat_map part cs ++ (topk c ++ m))).
    { rewrite Forall_forall in *. intros z Hz. apply NB. eapply Permutation_in; [symmetry; exact Q|apply in_or_app; auto]. }
    assert (ND' : NoDup (map fst (flat_map part cs ++ (topk c ++ m)))).
    { apply (Permutation_map fst) in Q. pose proof (Permutation_NoDup Q ND) as Q2. rewrite map_app in Q2. eapply nodup_app_l. exact Q2. }
    rewrite <- app_assoc. apply top_merge with (o1 := topk c); [rewrite app_assoc; assumption..|apply Top|].
    eapply top_perm; [|apply (IH (topk c ++ m) out NB' ND'); eapply top_perm; [|exact H]].
    - rewrite !app_assoc. apply Permutation_app_tail, Permutation_app_comm.
    - rewrite !app_assoc. apply Permutation_app_tail, Permutation_app_comm.
  Qed.

  (** two best-first choices have the same scores *)
  Lemma sorted_agree (l1 : list (Z * num A)) : forall l1' l2, Forall (fun p => nb p) (l1 ++ l2) ->
    Permutation l1 l1' -> Forall2 (fun p q => f_cmp A (snd p) (snd q) = Some Eq) l1' l2 ->
    StronglySorted (fun x y => le x y) l1 -> StronglySorted (fun x y => le x y) l2 ->
    Forall2 (fun p q => f_cmp A (snd p) (snd q) = Some Eq) l1 l2.
  Proof using GO.
    induction l1 as [|x l1 IH]; intros l1' l2 NB P F S1 S2.
    - apply Permutation_nil in P. subst l1'. exact F.
    - destruct l1' as [|y' l1']; [symmetry in P; apply Permutation_nil in P; discriminate|].
      inversion F as [|? y ? l2' Ey F']; subst.
      inversion S1 as [|? ? S1' M1]; subst. inversion S2 as [|? ? S2' M2]; subst.
      rewrite Forall_forall in M1, M2, NB.
      assert (Eqv : forall a b, f_cmp A a b = Some Eq -> not_above A a b /\ not_above A b a)
        by (intros a b E; split; right; [exact E|apply (go_sym A GO); exact E]).
      assert (NBx : nb x) by (apply NB; left; reflexivity).
      assert (NBy : nb y) by (apply NB; apply in_or_app; right; left; reflexivity).
      assert (NBy' : nb y') by (apply NB; apply in_or_app; left; eapply Permutation_in; [symmetry; exact P|left; reflexivity]).
      assert (F2 : forall z, In z l1' -> exists w, In w l2' /\ f_cmp A (snd z) (snd w) = Some Eq).
      { intros z Hz. clear - F' Hz. induction F' as [|a b l l' E F IH]; [destruct Hz|].
        destruct Hz as [<-|Hz]; [exists b; split; [left; reflexivity|exact E]|].
        destruct (IH Hz) as (w & Hw & Ew). exists w. split; [right; exact Hw|exact Ew]. }
      (* x is at most y and y at most x *)
      assert (X1 : not_above A (snd x) (snd y)).
      { assert (Hx : In x (y' :: l1')) by (eapply Permutation_in; [exact P|left; reflexivity]).
        destruct Hx as [<-|Hx]; [apply (Eqv _ _ Ey)|].
        destruct (F2 x Hx) as (w & Hw & Ew).
        assert (NBw : nb w) by (apply NB; apply in_or_app; right; right; exact Hw).
        eapply (go_trans A GO); [exact NBx|exact NBw|exact NBy|apply (Eqv _ _ Ew)|apply M2; exact Hw]. }
      assert (X2 : not_above A (snd y) (snd x)).
      { assert (Hy : In y' (x :: l1)) by (eapply Permutation_in; [symmetry; exact P|left; reflexivity]).
        destruct Hy as [->|Hy]; [apply (Eqv _ _ Ey)|].
        eapply (go_trans A GO); [exact NBy|exact NBy'|exact NBx|apply (Eqv _ _ Ey)|apply M1; exact Hy]. }
      assert (Exy : f_cmp A (snd x) (snd y) = Some Eq).
      { destruct X1 as [X1|X1]; [exfalso|exact X1]. destruct X2 as [X2|X2].
        - apply (go_opp A GO) in X2; [congruence|assumption..].
        - apply (go_sym A GO) in X2. congruence. }
      constructor; [exact Exy|].
      assert (NB2 : Forall (fun p : Z * num A => nb p) (l1 ++ l2')).
      { rewrite Forall_forall. intros z Hz. apply NB. apply in_app_or in Hz. apply in_or_app.
        destruct Hz; [left; right; assumption|right; right; assumption]. }
      assert (Hx : In x (y' :: l1')) by (eapply Permutation_in; [exact P|left; reflexivity]).
      destruct Hx as [->|Hx].
      + apply (IH l1' l2' NB2); [apply Permutation_cons_inv in P; exact P|exact F'|exact S1'|exact S2'].
      + apply in_split in Hx. destruct Hx as (a & b & E). subst l1'.
        apply (IH (a ++ y' :: b) l2' NB2); [| |exact S1'|exact S2'].
        * apply (Permutation_cons_inv (a := x)). rewrite P.
          rewrite <- (Permutation_middle a b x), <- (Permutation_middle a b y'). apply perm_swap.
        * apply Forall2_app_inv_l in F'. destruct F' as (p & q & Fa & Fb & E2).
          inversion Fb as [|? w ? q' Ew Fq]; subst.
          apply Forall2_app; [exact Fa|]. constructor; [|exact Fq].
          (* y' ~ y ~ x ~ w *)
          assert (NBw : nb w) by (apply NB; apply in_or_app; right; right; apply in_or_app; right; left; reflexivity).
          assert (Q1 : not_above A (snd y') (snd w)).
          { eapply (go_trans A GO); [exact NBy'|exact NBy|exact NBw|apply (Eqv _ _ Ey)|].
            eapply (go_trans A GO); [exact NBy|exact NBx|exact NBw|apply (Eqv _ _ Exy)|apply (Eqv _ _ Ew)]. }
          assert (Q2 : not_above A (snd w) (snd y')).
          { eapply (go_trans A GO); [exact NBw|exact NBy|exact NBy'| |apply (Eqv _ _ Ey)].
            eapply (go_trans A GO); [exact NBw|exact NBx|exact NBy|apply (Eqv _ _ Ew)|apply (Eqv _ _ Exy)]. }
          destruct Q1 as [Q1|Q1]; [exfalso|exact Q1]. destruct Q2 as [Q2|Q2].
          -- apply (go_opp A GO) in Q2; [congruence|assumption..].
          -- apply (go_sym A GO) in Q2. congruence.
  Qed.

  Lemma sorted_join (l1 l2 : list (Z * num A)) : StronglySorted (fun x y => le x y) l1 -> StronglySorted (fun x y => le x y) l2 ->
    (forall x y, In x l1 -> In y l2 -> le x y) -> StronglySorted (fun x y => le x y) (l1 ++ l2).
  Proof using.
    induction l1 as [|a l1 IH]; cbn [app]; intros S1 S2 B; [exact S2|].
    inversion S1 as [|? ? S1' M]; subst. constructor.
    - apply IH; auto. intros x y Hx Hy. apply B; [right; exact Hx|exact Hy].
    - apply Forall_app. split; [exact M|]. rewrite Forall_forall. intros y Hy. apply B; [left; reflexivity|exact Hy].
  Qed.
  Lemma top_full k cand out : Forall (fun p => nb p) cand -> top_of A k cand out ->
    exists r, Permutation cand (out ++ r) /\ StronglySorted (fun x y => le x y) (out ++ r).
  Proof using GO.
    intros NB (r & P & _ & S1 & B). exists (isort (desc A) r).
    split; [rewrite (isort_perm (desc A) r); exact P|].
    apply sorted_join; [exact S1| |].
    - apply isort_desc_sorted; [exact GO|]. rewrite Forall_forall in *. intros z Hz. apply NB.
      eapply Permutation_in; [symmetry; exact P|apply in_or_app; auto].
    - intros x y Hx Hy. apply isort_In in Hy. auto.
  Qed.
  Lemma Forall2_take {S' T} (R : S' -> T -> Prop) l1 l2 r1 r2 : length l1 = length l2 -> Forall2 R (l1 ++ r1) (l2 ++ r2) -> Forall2 R l1 l2.
  Proof using.
    revert l2. induction l1 as [|a l1 IH]; intros [|b l2] E F; try discriminate; [constructor|].
    cbn [app] in F. inversion F; subst. constructor; [assumption|]. apply IH; [injection E; auto|assumption].
  Qed.
  Lemma top_agree k cand o1 o2 : Forall (fun p => nb p) cand -> top_of A k cand o1 -> top_of A k cand o2 ->
    Forall2 (fun a b => f_cmp A a b = Some Eq) (map snd o1) (map snd o2).
  Proof using GO.
    intros NB T1 T2. destruct (top_full _ _ _ NB T1) as (r1 & P1 & S1). destruct (top_full _ _ _ NB T2) as (r2 & P2 & S2).
    destruct T1 as (_ & _ & L1 & _). destruct T2 as (_ & _ & L2 & _).
    assert (F : Forall2 (fun p q => f_cmp A (snd p) (snd q) = Some Eq) (o1 ++ r1) (o2 ++ r2)).
    { eapply sorted_agree; [| | |exact S1|exact S2].
      - rewrite Forall_forall in *. intros z Hz. apply in_app_or in Hz. destruct Hz as [Hz|Hz]; apply NB;
          [apply (Permutation_in _ (Permutation_sym P1) Hz)|apply (Permutation_in _ (Permutation_sym P2) Hz)].
      - rewrite <- P1. exact P2.
      - assert (N2 : Forall (fun p : Z * num A => nb p) (o2 ++ r2)).
        { rewrite Forall_forall in *. intros z Hz. apply NB. eapply Permutation_in; [symmetry; exact P2|exact Hz]. }
        clear - N2. induction N2; constructor; auto. }
    apply Forall2_take in F; [|lia]. clear - F. induction F; cbn [map]; constructor; auto.
  Qed.

  (** *** the search *)
  Context {G : Type}.
  Variable order : list (Z * G) -> list (Z * G).
  Variable conv : G -> num A.
  Hypothesis OB : good_order_by conv order.

  Lemma query_top k hits : Forall (fun p => is_number A (conv (snd p))) hits ->
    top_of A k (collect A G conv hits) (collect A G conv (firstn k (order hits))).
  Proof using OB.
    intro NB. destruct OB as [OP OS]. unfold collect. rewrite <- firstn_map. apply top_firstn.
    - apply Permutation_map, OP.
    - apply sorted_map. cbn [snd]. apply OS. exact NB.
  Qed.

  Lemma zin_In z l : zin z l = true <-> In z l.
  Proof using.
    unfold zin. rewrite existsb_exists. split.
    - intros (w & Hw & E). apply Z.eqb_eq in E. subst w. exact Hw.
    - intro H. exists z. split; [exact H|apply Z.eqb_refl].
  Qed.

  Lemma filter_split (l : list (Z * G)) c d : (forall z, In z c -> ~ In z d) ->
    Permutation (filter (fun p => zin (fst p) (c ++ d)) l) (filter (fun p => zin (fst p) c) l ++ filter (fun p => zin (fst p) d) l).
  Proof using.
    intro D. induction l as [|p l IH]; [reflexivity|]. cbn [filter].
    assert (E : zin (fst p) (c ++ d) = (zin (fst p) c || zin (fst p) d)%bool) by (unfold zin; apply existsb_app).
    rewrite E. destruct (zin (fst p) c) eqn:E1; destruct (zin (fst p) d) eqn:E2; cbn [orb app].
    - apply zin_In in E1, E2. exfalso. exact (D _ E1 E2).
    - rewrite IH. reflexivity.
    - rewrite IH. apply Permutation_middle.
    - exact IH.
  Qed.
  Lemma filter_chunks (l : list (Z * G)) cs : NoDup (concat cs) ->
    Permutation (filter (fun p => zin (fst p) (concat cs)) l) (flat_map (fun c => filter (fun p => zin (fst p) c) l) cs).
  Proof using.
    induction cs as [|c cs IH]; cbn [concat flat_map]; intro N.
    - cbn. induction l; cbn [filter]; auto.
    - rewrite filter_split.
      + apply Permutation_app_head, IH. clear - N. induction c; cbn [app] in N; [exact N|]. inversion N; auto.
      + intros z Hc Hd. apply in_split in Hc. destruct Hc as (a & b & ->). rewrite <- app_assoc in N. cbn [app] in N.
        apply NoDup_remove_2 in N. apply N. rewrite !in_app_iff. auto.
  Qed.
  Lemma flat_map_map {S' T U} (f : S' -> list T) (g : T -> U) l : flat_map (fun x => map g (f x)) l = map g (flat_map f l).
  Proof using. induction l as [|x l IH]; cbn [flat_map map]; [reflexivity|]. rewrite map_app, IH. reflexivity. Qed.

  Lemma search_filtered_top hits k subset : NoDup (map fst hits) -> NoDup subset ->
    Forall (fun p => is_number A (conv (snd p))) hits ->
    exists out, search_filtered A G order conv hits k subset = split_pairs A out
      /\ top_of A k (collect A G conv (filter (fun p => zin (fst p) subset) hits)) out.
  Proof using GO OB.
    intros NH NS NB. destruct subset as [|s0 sub] eqn:Es.
    - exists []. split; [reflexivity|]. exists []. cbn.
      assert (E : filter (fun p : Z * G => false) hits = []) by (clear; induction hits; cbn; auto).
      rewrite E. cbn [app collect map length]. split; [reflexivity|]. split; [symmetry; apply Nat.min_0_r|]. split; [constructor|intros x y []].
    - rewrite <- Es in *. assert (Ne : search_filtered A G order conv hits k subset =
        split_pairs A (firstn k (isort (desc A) (flat_map (fun chunk => collect A G conv (firstn k (order (filter (fun p => zin (fst p) chunk) hits)))) (chunks fts_param_limit subset)))))
        by (rewrite Es; reflexivity).
      eexists. split; [exact Ne|]. clear Ne.
      assert (NBf : forall f, Forall (fun p : Z * G => is_number A (conv (snd p))) (filter f hits)).
      { intro f. rewrite Forall_forall in *. intros z Hz. apply filter_In in Hz. apply NB, Hz. }
      assert (Cc : concat (chunks fts_param_limit subset) = subset) by (apply concat_chunks; unfold fts_param_limit; lia).
      assert (Pc : Permutation (collect A G conv (filter (fun p => zin (fst p) subset) hits))
        (flat_map (fun c => collect A G conv (filter (fun p => zin (fst p) c) hits)) (chunks fts_param_limit subset))).
      { unfold collect. rewrite flat_map_map. apply Permutation_map.
        pose proof (filter_chunks hits (chunks fts_param_limit subset)) as Q. rewrite Cc in Q. apply Q. exact NS. }
      assert (NBc : Forall (fun p : Z * num A => nb p) (flat_map (fun c => collect A G conv (filter (fun p => zin (fst p) c) hits)) (chunks fts_param_limit subset))).
      { rewrite Forall_forall. intros z Hz. apply (Permutation_in _ (Permutation_sym Pc)) in Hz. unfold collect in Hz.
        apply in_map_iff in Hz. destruct Hz as (p & <- & Hp). cbn [snd].
        specialize (NBf (fun p => zin (fst p) subset)). rewrite Forall_forall in NBf. apply NBf. exact Hp. }
      eapply top_perm; [symmetry; exact Pc|].
      match goal with |- top_of A k ?c ?o => rewrite <- (app_nil_r c) end.
      apply (top_merge_all k (fun c => collect A G conv (filter (fun p => zin (fst p) c) hits))
               (fun chunk => collect A G conv (firstn k (order (filter (fun p => zin (fst p) chunk) hits))))).
      + intro c. apply query_top. apply NBf.
      + rewrite app_nil_r. exact NBc.
      + rewrite app_nil_r. eapply Permutation_NoDup; [apply Permutation_map; exact Pc|].
        unfold collect. rewrite map_map. cbn [fst]. clear - NH.
        induction hits as [|p l IH]; cbn [filter map]; [constructor|]. cbn [map] in NH. inversion NH; subst.
        destruct (zin (fst p) subset); [|auto]. cbn [map]. constructor; [|auto].
        intro B. apply in_map_iff in B. destruct B as (q & E & B). apply filter_In in B. apply H1. rewrite <- E. apply in_map, B.
      + rewrite app_nil_r. apply top_firstn; [apply isort_perm|].
        apply isort_desc_sorted; [exact GO|]. rewrite Forall_forall in *. intros z Hz. apply in_flat_map in Hz.
        destruct Hz as (c & Hc & Hz). apply NBc. apply in_flat_map. exists c. split; [exact Hc|].
        unfold collect in *. apply in_map_iff in Hz. destruct Hz as (p & <- & Hp). apply in_map_iff. exists p. split; [reflexivity|].
        eapply Permutation_in; [apply (proj1 OB)|]. rewrite <- (firstn_skipn k (order _)). apply in_or_app. left. exact Hp.
  Qed.
End FILTERED.
