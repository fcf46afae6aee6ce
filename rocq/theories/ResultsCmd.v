(** Merging the two searches, the final order, several paths. *)
From Verif Require Import Base Text FtsRank FtsRankSpec FtsRankProofs FtsText Results ResultsSpec ResultsProofs ResultsBoost ResultsMore.
Open Scope nat_scope.

Section MERGE.
  Variable A : arith.
  Notation hit := (hit A).
  Notation file_of := (file_of A).
  Notation score_of := (score_of A).
  Hypothesis GO : good_order A.
  Notation le x y := (not_above A (score_of x) (score_of y)).

  Lemma merge_result_in m r : In (file_of r) (map file_of m) -> exists a h b, m = a ++ h :: b /\ file_of h = file_of r
    /\ merge_result A m r = a ++ with_lines A (if f_above A (h_score A r) (h_score A h) then r else h)
         (Nat.min (u_line (h_unit A h)) (u_line (h_unit A r))) (Nat.max (u_end (h_unit A h)) (u_end (h_unit A r))) :: b.
  Proof using.
    induction m as [|h m IH]; intro H; [destruct H|]. cbn [merge_result]. destruct (same_file A h r) eqn:E.
    - apply same_file_iff in E. exists [], h, m. split; [reflexivity|]. split; [exact E|reflexivity].
    - apply same_file_false in E. destruct H as [H|H]; [contradiction|]. destruct (IH H) as (a & h' & b & -> & E1 & ->).
      exists (h :: a), h', b. split; [reflexivity|]. split; [exact E1|reflexivity].
  Qed.
  Lemma merge_result_out m r : ~ In (file_of r) (map file_of m) -> merge_result A m r = m ++ [r].
  Proof using.
    induction m as [|h m IH]; intro H; [reflexivity|]. cbn [merge_result]. destruct (same_file A h r) eqn:E.
    - apply same_file_iff in E. exfalso. apply H. left. exact E.
    - cbn [app]. f_equal. apply IH. intro X. apply H. right. exact X.
  Qed.
  Lemma each_step pool out r : Forall (fun h => is_number A (score_of h)) (pool ++ [r]) -> each_file A pool out -> each_file A (pool ++ [r]) (merge_result A out r).
  Proof using GO.
    intros NB [E1 E2 E3]. rewrite Forall_forall in NB.
    assert (NR : is_number A (score_of r)) by (apply NB, in_or_app; right; left; reflexivity).
    assert (NP : forall c, In c pool -> is_number A (score_of c)) by (intros c Hc; apply NB, in_or_app; left; exact Hc).
    destruct (in_dec text_dec (file_of r) (map file_of out)) as [I|I].
    - destruct (merge_result_in out r I) as (a & h & b & Eo & EF & Em).
      set (h' := with_lines A (if f_above A (h_score A r) (h_score A h) then r else h)
         (Nat.min (u_line (h_unit A h)) (u_line (h_unit A r))) (Nat.max (u_end (h_unit A h)) (u_end (h_unit A r)))) in *.
      assert (Fh : file_of h' = file_of h) by (unfold h'; destruct (f_above A _ _); [symmetry; exact EF|reflexivity]).
      assert (FO : map file_of (merge_result A out r) = map file_of out).
      { rewrite Em, Eo, !map_app. cbn [map]. rewrite Fh. reflexivity. }
      assert (Hin : In h out) by (rewrite Eo; apply in_or_app; right; left; reflexivity).
      destruct (E3 h Hin) as (SP & c & Hc & Sh & Bst). pose proof (shown_score A _ _ Sh) as SC.
      split.
      + intro f. rewrite FO, E1, map_app, in_app_iff. cbn [map In]. split; [auto|]. intros [X|[<-|[]]]; [exact X|]. apply E1. exact I.
      + rewrite FO. exact E2.
      + intros x Hx. rewrite Em in Hx. rewrite Eo, map_app in E2. cbn [map] in E2. apply NoDup_remove_2 in E2. rewrite <- map_app in E2.
        assert (OTHER : forall x, In x (a ++ b) -> spans A (pool ++ [r]) x /\ exists b0, In b0 (pool ++ [r]) /\ shows A x b0
          /\ forall c, In c (pool ++ [r]) -> file_of c = file_of b0 -> le c b0).
        { intros y Hy. assert (Hy' : In y out) by (rewrite Eo; apply in_app_iff in Hy; apply in_or_app; cbn [In]; tauto).
          assert (D : file_of r <> file_of y) by (intro X; apply E2; rewrite EF, X; apply in_map; exact Hy).
          destruct (E3 y Hy') as (SPy & cy & Hcy & Shy & By). split; [apply spans_other; assumption|]. exists cy. split; [apply in_or_app; auto|].
          split; [exact Shy|]. intros z Hz Ez. apply in_app_iff in Hz. destruct Hz as [Hz|[<-|[]]]; [apply By; assumption|].
          exfalso. apply D. rewrite Ez. symmetry. apply Shy. }
        apply in_app_iff in Hx. destruct Hx as [Hx|[<-|Hx]]; [apply OTHER, in_or_app; auto| |apply OTHER, in_or_app; auto].
        assert (SPM : spans A (pool ++ [r]) h').
        { pose proof (spans_merge A pool h r (eq_sym EF) SP) as (S1 & S2 & S3). unfold spans. rewrite Fh.
          change (file_of (merge_lines A h r)) with (file_of h) in *.
          assert (L1 : u_line (h_unit A h') = u_line (h_unit A (merge_lines A h r))) by (unfold h'; destruct (f_above A _ _); reflexivity).
          assert (L2 : u_end (h_unit A h') = u_end (h_unit A (merge_lines A h r))) by (unfold h'; destruct (f_above A _ _); reflexivity).
          rewrite L1, L2. split; [exact S1|]. split; [exact S2|exact S3]. }
        split; [exact SPM|]. unfold h'. destruct (f_above A (h_score A r) (h_score A h)) eqn:AB.
        * exists r. split; [apply in_or_app; right; left; reflexivity|]. split; [repeat split|]. intros z Hz Ez.
          assert (G : f_cmp A (score_of r) (score_of h) = Some Gt) by (unfold f_above in AB; unfold score_of; destruct (f_cmp A _ _) as [[]|]; try discriminate; reflexivity).
          apply in_app_iff in Hz. destruct Hz as [Hz|[<-|[]]]; [|right; exact NR].
          apply gt_below; [exact GO|exact NR|apply NP; exact Hz|]. apply gt_trans with (score_of h); [exact GO|exact NR| |apply NP; exact Hz|exact G|].
          -- rewrite SC. apply NP. exact Hc.
          -- rewrite SC. apply Bst; [exact Hz|]. rewrite Ez, <- EF. apply Sh.
        * exists c. split; [apply in_or_app; auto|]. split; [exact Sh|]. intros z Hz Ez. apply in_app_iff in Hz. destruct Hz as [Hz|[<-|[]]]; [apply Bst; assumption|].
          rewrite <- SC. apply not_gt; [exact GO|exact NR|rewrite SC; apply NP; exact Hc|exact AB].
    - rewrite (merge_result_out out r I). assert (IP : ~ In (file_of r) (map file_of pool)) by (rewrite <- E1; exact I). split.
      + intro f. rewrite !map_app, !in_app_iff, E1. tauto.
      + rewrite map_app. cbn [map]. eapply Permutation_NoDup; [apply Permutation_cons_append|]. constructor; assumption.
      + intros x Hx. apply in_app_iff in Hx. destruct Hx as [Hx|[<-|[]]].
        * assert (D : file_of r <> file_of x) by (intro X; apply I; rewrite X; apply in_map; exact Hx).
          destruct (E3 x Hx) as (SPy & cy & Hcy & Shy & By). split; [apply spans_other; assumption|]. exists cy. split; [apply in_or_app; auto|].
          split; [exact Shy|]. intros z Hz Ez. apply in_app_iff in Hz. destruct Hz as [Hz|[<-|[]]]; [apply By; assumption|].
          exfalso. apply D. rewrite Ez. symmetry. apply Shy.
        * assert (Only : forall d, In d (pool ++ [r]) -> file_of d = file_of r -> d = r).
          { intros d Hd Ed. apply in_app_iff in Hd. destruct Hd as [Hd|[<-|[]]]; [|reflexivity]. exfalso. apply IP. rewrite <- Ed. apply in_map. exact Hd. }
          assert (Hr : In r (pool ++ [r])) by (apply in_or_app; right; left; reflexivity).
          split; [split; [exists r; auto|]; split; [exists r; auto|]; intros d Hd Ed; rewrite (Only d Hd Ed); lia|].
          exists r. split; [exact Hr|]. split; [repeat split|]. intros d Hd Ed. rewrite (Only d Hd Ed). right. exact NR.
  Qed.
  Lemma each_fold l : forall pool out, Forall (fun h => is_number A (score_of h)) (pool ++ l) -> each_file A pool out ->
    each_file A (pool ++ l) (fold_left (merge_result A) l out).
  Proof using GO.
    induction l as [|r l IH]; intros pool out NB E; cbn [fold_left]; [rewrite app_nil_r; exact E|].
    replace (pool ++ r :: l) with ((pool ++ [r]) ++ l) in * by (rewrite <- app_assoc; reflexivity). apply IH; [exact NB|].
    apply each_step; [|exact E]. rewrite Forall_app in NB. apply NB.
  Qed.
  Lemma each_perm pool out out' : Permutation out' out -> each_file A pool out -> each_file A pool out'.
  Proof using.
    intros P [E1 E2 E3]. split.
    - intro f. rewrite <- E1. split; apply Permutation_in, Permutation_map; [exact P|symmetry; exact P].
    - eapply Permutation_NoDup; [apply Permutation_map; symmetry; exact P|exact E2].
    - intros h Hh. apply E3. eapply Permutation_in; [exact P|exact Hh].
  Qed.
  Theorem merged_each order l : (forall m, Permutation (order m) m) -> Forall (fun h => is_number A (score_of h)) l -> each_file A l (merged A order l).
  Proof using GO.
    intros P NB. apply each_perm with (fold_left (merge_result A) l []); [apply P|]. apply (each_fold l [] []); [exact NB|].
    split; [intro f; cbn; tauto|constructor|intros h []].
  Qed.
  (** ** the final order *)
  Variable path_cmp : text -> text -> comparison.
  Hypothesis GP : good_paths path_cmp.
  Notation rle := (results_le A path_cmp).
  Lemma rle_before x y : is_number A (score_of x) -> is_number A (score_of y) -> rle x y = true <-> before A path_cmp x y.
  Proof using GO GP.
    intros Nx Ny. unfold results_le, cmp_results, before. change (h_score A y) with (score_of y). change (h_score A x) with (score_of x).
    change (u_file (h_unit A x)) with (file_of x). change (u_file (h_unit A y)) with (file_of y).
    destruct (f_cmp A (score_of y) (score_of x)) as [c|] eqn:E; [|exfalso; exact (not_none A GO _ _ Ny Nx E)].
    destruct c; cbn [then_with].
    - destruct (path_cmp (file_of x) (file_of y)) eqn:EP; cbn [then_with].
      + destruct (Nat.compare_spec (u_line (h_unit A x)) (u_line (h_unit A y))) as [EL|EL|EL]; cbn [then_with].
        * destruct (Nat.compare_spec (u_end (h_unit A x)) (u_end (h_unit A y))) as [EE|EE|EE]; split; intro H; try reflexivity; try discriminate.
          -- right. split; [reflexivity|]. right. split; [reflexivity|]. right. split; [exact EL|lia].
          -- right. split; [reflexivity|]. right. split; [reflexivity|]. right. split; [exact EL|lia].
          -- exfalso. destruct H as [H|(_ & [H|(_ & [H|(_ & H)])])]; try discriminate; lia.
        * split; [intros _|reflexivity]. right. split; [reflexivity|]. right. split; [reflexivity|]. left. exact EL.
        * split; [discriminate|]. intros [H|(_ & [H|(_ & [H|(H & _)])])]; try discriminate; lia.
      + split; [intros _|reflexivity]. right. split; [reflexivity|]. left. reflexivity.
      + split; [discriminate|]. intros [H|(_ & [H|(H & _)])]; discriminate.
    - split; [intros _; left; reflexivity|reflexivity].
    - split; [discriminate|]. intros [H|(H & _)]; discriminate.
  Qed.
  Lemma before_total x y : is_number A (score_of x) -> is_number A (score_of y) -> before A path_cmp x y \/ before A path_cmp y x.
  Proof using GO GP.
    intros Nx Ny. destruct (f_cmp A (score_of y) (score_of x)) as [[]|] eqn:E.
    - destruct (path_cmp (file_of x) (file_of y)) eqn:EP.
      + assert (EP' : path_cmp (file_of y) (file_of x) = Eq) by (rewrite (gp_opp _ GP), EP; reflexivity).
        pose proof (go_sym A GO _ _ E) as E'. unfold before. rewrite E, E', EP, EP'.
        destruct (Nat.lt_trichotomy (u_line (h_unit A x)) (u_line (h_unit A y))) as [L|[L|L]].
        * left. right. split; [reflexivity|]. right. split; [reflexivity|]. left. exact L.
        * destruct (Nat.le_ge_cases (u_end (h_unit A x)) (u_end (h_unit A y))); [left|right]; right; (split; [reflexivity|]); right; (split; [reflexivity|]); right; split; lia.
        * right. right. split; [reflexivity|]. right. split; [reflexivity|]. left. exact L.
      + left. right. split; [exact E|]. left. exact EP.
      + right. right. split; [apply (go_sym A GO); exact E|]. left. rewrite (gp_opp _ GP), EP. reflexivity.
    - left. left. exact E.
    - right. left. apply (go_opp A GO); assumption.
    - exfalso. exact (not_none A GO _ _ Ny Nx E).
  Qed.
  Lemma before_score x y : before A path_cmp x y -> le y x.
  Proof using. intros [H|(H & _)]; [left|right]; exact H. Qed.
  Lemma lt_le_trans x y z : is_number A x -> is_number A y -> is_number A z -> f_cmp A x y = Some Lt -> not_above A y z -> f_cmp A x z = Some Lt.
  Proof using GO.
    intros Nx Ny Nz H K. apply (go_opp A GO z x Nz Nx). destruct (f_cmp A z x) as [[]|] eqn:E; [| |reflexivity|].
    - exfalso. assert (L : not_above A y x) by (apply (go_trans A GO) with z; [| | |exact K|right]; assumption).
      apply (go_opp A GO y x Ny Nx) in H. unfold not_above in L. rewrite H in L. destruct L; discriminate.
    - exfalso. assert (L : not_above A y x) by (apply (go_trans A GO) with z; [| | |exact K|left]; assumption).
      apply (go_opp A GO y x Ny Nx) in H. unfold not_above in L. rewrite H in L. destruct L; discriminate.
    - exfalso. exact (not_none A GO _ _ Nz Nx E).
  Qed.
  Lemma le_lt_trans x y z : is_number A x -> is_number A y -> is_number A z -> not_above A x y -> f_cmp A y z = Some Lt -> f_cmp A x z = Some Lt.
  Proof using GO.
    intros Nx Ny Nz K H. apply (go_opp A GO z x Nz Nx). destruct (f_cmp A z x) as [[]|] eqn:E; [| |reflexivity|].
    - exfalso. assert (L : not_above A z y) by (apply (go_trans A GO) with x; [| | |right|exact K]; assumption).
      apply (go_opp A GO z y Nz Ny) in H. unfold not_above in L. rewrite H in L. destruct L; discriminate.
    - exfalso. assert (L : not_above A z y) by (apply (go_trans A GO) with x; [| | |left|exact K]; assumption).
      apply (go_opp A GO z y Nz Ny) in H. unfold not_above in L. rewrite H in L. destruct L; discriminate.
    - exfalso. exact (not_none A GO _ _ Nz Nx E).
  Qed.
  Lemma eq_trans_num x y z : is_number A x -> is_number A y -> is_number A z -> f_cmp A x y = Some Eq -> f_cmp A y z = Some Eq -> f_cmp A x z = Some Eq.
  Proof using GO.
    intros Nx Ny Nz H K. apply (below_antisym A GO); [assumption|assumption| |].
    - apply (go_trans A GO) with y; try assumption; right; assumption.
    - apply (go_trans A GO) with y; try assumption; right; apply (go_sym A GO); assumption.
  Qed.
  Lemma before_trans x y z : is_number A (score_of x) -> is_number A (score_of y) -> is_number A (score_of z) ->
    before A path_cmp x y -> before A path_cmp y z -> before A path_cmp x z.
  Proof using GO GP.
    intros Nx Ny Nz H K. pose proof (before_score _ _ H) as H1. pose proof (before_score _ _ K) as K1.
    destruct H as [H|(H & H2)]; [left; apply le_lt_trans with (score_of y); assumption|].
    destruct K as [K|(K & K2)]; [left; apply lt_le_trans with (score_of y); assumption|].
    right. split; [apply eq_trans_num with (score_of y); assumption|].
    destruct H2 as [H2|(H2 & H3)], K2 as [K2|(K2 & K3)].
    - left. apply (gp_trans _ GP) with (file_of y); assumption.
    - left. apply (gp_eq _ GP) in K2. rewrite <- K2. exact H2.
    - left. apply (gp_eq _ GP) in H2. rewrite H2. exact K2.
    - right. apply (gp_eq _ GP) in H2, K2. split; [apply (gp_eq _ GP); congruence|]. lia.
  Qed.
  Lemma sort_before l : Forall (fun h => is_number A (score_of h)) l -> StronglySorted (before A path_cmp) (isort rle l).
  Proof using GO GP.
    intro NB. assert (S0 : StronglySorted (fun a b => rle a b = true) (isort rle l)).
    { apply isort_sorted_on with (P := fun h => is_number A (score_of h)); [| |exact NB].
      - intros x y Nx Ny. rewrite !rle_before by assumption. apply before_total; assumption.
      - intros x y z Nx Ny Nz. rewrite !rle_before by assumption. apply before_trans; assumption. }
    assert (NB' : Forall (fun h => is_number A (score_of h)) (isort rle l)).
    { eapply Permutation_Forall; [symmetry; apply isort_perm|exact NB]. }
    clear NB. induction S0 as [|x l' S1 IH H]; [constructor|]. inversion NB' as [|? ? N1 N2]; subst. constructor; [apply IH; exact N2|].
    rewrite Forall_forall in *. intros y Hy. apply rle_before; [exact N1|apply N2; exact Hy|apply H; exact Hy].
  Qed.
  Lemma sorted_unique (R : hit -> hit -> Prop) l : forall l', StronglySorted R l -> StronglySorted R l' -> Permutation l l' ->
    (forall x y, In x l -> In y l -> R x y -> R y x -> x = y) -> l = l'.
  Proof using.
    induction l as [|x l IH]; intros l' S1 S2 P AS; [apply Permutation_nil in P; congruence|].
    destruct l' as [|y l']; [symmetry in P; apply Permutation_nil in P; discriminate|].
    inversion S1 as [|? ? S1' F1]; subst. inversion S2 as [|? ? S2' F2]; subst. rewrite Forall_forall in F1, F2.
    assert (E : x = y).
    { assert (Hx : In x (y :: l')) by (eapply Permutation_in; [exact P|left; reflexivity]).
      assert (Hy : In y (x :: l)) by (eapply Permutation_in; [symmetry; exact P|left; reflexivity]).
      destruct Hx as [Hx|Hx]; [congruence|]. destruct Hy as [Hy|Hy]; [congruence|].
      apply AS; [left; reflexivity|right; exact Hy|apply F1; exact Hy|apply F2; exact Hx]. }
    subst y. f_equal. apply IH; [exact S1'|exact S2'|apply Permutation_cons_inv with x; exact P|].
    intros a b Ha Hb. apply AS; right; assumption.
  Qed.
  Lemma before_antisym l x y : NoDup (map file_of l) -> In x l -> In y l -> before A path_cmp x y -> before A path_cmp y x ->
    is_number A (score_of x) -> is_number A (score_of y) -> x = y.
  Proof using GO GP.
    intros ND Hx Hy H K Nx Ny.
    assert (LT : forall a b, is_number A (score_of a) -> is_number A (score_of b) -> before A path_cmp a b -> f_cmp A (score_of a) (score_of b) = Some Lt -> False).
    { intros a b Na Nb L G. apply before_score in L. apply (go_opp A GO) in G; [|assumption|assumption]. unfold not_above in L. rewrite G in L. destruct L; discriminate. }
    assert (F : file_of x = file_of y).
    { destruct H as [H|(H0 & H)]; [exfalso; exact (LT y x Ny Nx K H)|]. destruct K as [K|(K0 & K)].
      - exfalso. apply (LT x y Nx Ny); [right; auto|exact K].
      - destruct H as [H|(H & _)]; [|apply (gp_eq _ GP); exact H]. destruct K as [K|(K & _)]; [|symmetry; apply (gp_eq _ GP); exact K].
        rewrite (gp_opp _ GP), K in H. discriminate. }
    clear -ND Hx Hy F. induction l as [|z l IH]; [destruct Hx|]. inversion ND as [|? ? N1 N2]; subst.
    destruct Hx as [<-|Hx], Hy as [<-|Hy]; [reflexivity| | |apply IH; assumption].
    - exfalso. apply N1. rewrite F. apply in_map. exact Hy.
    - exfalso. apply N1. rewrite <- F. apply in_map. exact Hx.
  Qed.
  (** The order of the hash map does not matter. *)
  Theorem merged_order_irrelevant o1 o2 l : (forall m, Permutation (o1 m) m) -> (forall m, Permutation (o2 m) m) ->
    Forall (fun h => is_number A (score_of h)) l -> isort rle (merged A o1 l) = isort rle (merged A o2 l).
  Proof using GO GP.
    intros P1 P2 NB.
    pose proof (merged_each o1 l P1 NB) as E1.
    assert (N : forall o, (forall m, Permutation (o m) m) -> Forall (fun h => is_number A (score_of h)) (merged A o l)).
    { intros o P. rewrite Forall_forall. intros h Hh. destruct (ef_shown A _ _ (merged_each o l P NB) h Hh) as (_ & b & Hb & Sh & _).
      rewrite (shown_score A _ _ Sh). rewrite Forall_forall in NB. apply NB. exact Hb. }
    pose proof (sort_before _ (N o1 P1)) as S1. pose proof (sort_before _ (N o2 P2)) as S2.
    apply (sorted_unique (before A path_cmp)); [exact S1|exact S2| |].
    - eapply Permutation_trans; [apply isort_perm|]. eapply Permutation_trans; [|symmetry; apply isort_perm].
      unfold merged. eapply Permutation_trans; [apply P1|symmetry; apply P2].
    - intros x y Hx Hy. apply isort_In in Hx, Hy. pose proof (N o1 P1) as NN. rewrite Forall_forall in NN.
      intros H K. apply (before_antisym (merged A o1 l)); auto. apply (ef_distinct A _ _ E1).
  Qed.
End MERGE.
