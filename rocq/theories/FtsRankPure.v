(** Reciprocal-rank fusion with all the weight on one list; filtered search. *)
From Verif Require Import Base FtsRank FtsRankSpec FtsRankProofs FtsRankOps.
Open Scope nat_scope.

Section PURE.
  Variable A : arith.
  Variable n : nat.
  Hypothesis GO : good_order A.
  Hypothesis RA : rrf_arith A n.
  Variable iter : list (Z * num A) -> list (Z * num A).
  Hypothesis IT : forall l, Permutation (iter l) l.

  Lemma ranks_lt id l r : In r (ranks id l) -> r < length l.
  Proof using.
    unfold ranks. intro H. apply in_map_iff in H. destruct H as ([a b] & <- & H). apply filter_In in H.
    destruct H as [H _]. apply in_combine_r in H. apply in_seq in H. cbn [snd]. lia.
  Qed.
  Lemma ranks_from k l id : NoDup l -> forall i, nth_error l i = Some id ->
    map snd (filter (fun p => (fst p =? id)%Z) (combine l (seq k (length l)))) = [k + i].
  Proof using.
    intro N. revert k. induction l as [|x l IH]; intros k i H; [destruct i; discriminate|].
    inversion N as [|? ? Nx Nl]; subst. cbn [length seq combine filter fst]. destruct i as [|i]; cbn [nth_error] in H.
    - injection H as ->. rewrite Z.eqb_refl. cbn [map snd].
      assert (E : filter (fun p => (fst p =? id)%Z) (combine l (seq (S k) (length l))) = []).
      { destruct (filter _ _) as [|q f] eqn:Eq; [reflexivity|exfalso].
        assert (Hq : In q (filter (fun p => (fst p =? id)%Z) (combine l (seq (S k) (length l))))) by (rewrite Eq; left; reflexivity).
        apply filter_In in Hq. destruct Hq as [Hq1 Hq2]. apply Z.eqb_eq in Hq2. destruct q as [a b]. cbn [fst] in Hq2. subst a.
        apply in_combine_l in Hq1. contradiction. }
      rewrite E. cbn [map]. f_equal. lia.
    - destruct (x =? id)%Z eqn:E.
      + apply Z.eqb_eq in E. subst x. exfalso. apply Nx. eapply nth_error_In. exact H.
      + rewrite (IH Nl (S k) i H). f_equal. lia.
  Qed.
  Lemma ranks_unique l id i : NoDup l -> nth_error l i = Some id -> ranks id l = [i].
  Proof using. intros N H. exact (ranks_from 0 l id N i H). Qed.
  Lemma ranks_absent l id : ~ In id l -> ranks id l = [].
  Proof using.
    intro N. unfold ranks. destruct (filter _ _) as [|q f] eqn:Eq; [reflexivity|exfalso].
    assert (Hq : In q (filter (fun p => (fst p =? id)%Z) (combine l (seq 0 (length l))))) by (rewrite Eq; left; reflexivity).
    apply filter_In in Hq. destruct Hq as [Hq1 Hq2]. apply Z.eqb_eq in Hq2. destruct q as [a b]. cbn [fst] in Hq2. subst a.
    apply in_combine_l in Hq1. contradiction.
  Qed.

  Lemma zeros_after l x : f_add A x (f_0 A) = x -> Forall (fun y => y = f_0 A) l -> fold_left (f_add A) l x = x.
  Proof using.
    intros Hx. induction l as [|y l IH]; intro F; [reflexivity|]. inversion F; subst. cbn [fold_left]. rewrite Hx. auto.
  Qed.
  Lemma zero_terms l : length l <= n -> forall id, Forall (fun y => y = f_0 A)
    (map (fun r => f_div A (f_0 A) (f_add A (f_add A (f_of A 60) (f_of A r)) (f_1 A))) (ranks id l)).
  Proof using RA.
    intros L id. rewrite Forall_map, Forall_forall. intros r Hr. apply ranks_lt in Hr. apply (ra_0 A n RA). lia.
  Qed.
  Notation rec1 r := (f_div A (f_1 A) (f_add A (f_add A (f_of A 60) (f_of A r)) (f_1 A))).

  Lemma score_sem sem kw id i : NoDup sem -> length sem <= n -> length kw <= n -> nth_error sem i = Some id ->
    rrf_score A sem kw (f_1 A) id = rec1 i.
  Proof using RA.
    intros N L1 L2 H. unfold rrf_score. cbv zeta. rewrite (ra_11 A n RA), (ranks_unique sem id i N H). cbn [map app].
    unfold sum. cbn [fold_left].
    assert (Li : i < n) by (apply Nat.lt_le_trans with (length sem); [apply nth_error_Some; congruence|exact L1]).
    destruct (ra_0x A n RA i Li) as (E1 & E2 & _). rewrite E1.
    apply zeros_after; [exact E2|]. apply zero_terms. exact L2.
  Qed.
  Lemma score_sem_none sem kw id : length kw <= n -> ~ In id sem -> rrf_score A sem kw (f_1 A) id = f_0 A.
  Proof using RA.
    intros L2 H. unfold rrf_score. cbv zeta. rewrite (ra_11 A n RA), (ranks_absent sem id H). cbn [map app].
    apply zeros_after; [apply (ra_00 A n RA)|]. apply zero_terms. exact L2.
  Qed.
  Lemma score_kw sem kw id i : NoDup kw -> length sem <= n -> length kw <= n -> nth_error kw i = Some id ->
    rrf_score A sem kw (f_0 A) id = rec1 i.
  Proof using RA.
    intros N L1 L2 H. unfold rrf_score. cbv zeta. rewrite (ra_10 A n RA), (ranks_unique kw id i N H). cbn [map].
    unfold sum. rewrite fold_left_app. cbn [fold_left].
    rewrite zeros_after; [|apply (ra_00 A n RA)|apply zero_terms; exact L1].
    assert (Li : i < n) by (apply Nat.lt_le_trans with (length kw); [apply nth_error_Some; congruence|exact L2]).
    destruct (ra_0x A n RA i Li) as (E1 & _). exact E1.
  Qed.
  Lemma score_kw_none sem kw id : length sem <= n -> ~ In id kw -> rrf_score A sem kw (f_0 A) id = f_0 A.
  Proof using RA.
    intros L2 H. unfold rrf_score. cbv zeta. rewrite (ra_10 A n RA), (ranks_absent kw id H). cbn [map]. rewrite app_nil_r.
    apply zeros_after; [apply (ra_00 A n RA)|]. apply zero_terms. exact L2.
  Qed.

  Lemma fuse_firstn sem kw alpha k K : length (nodup Z.eq_dec (sem ++ kw)) <= K ->
    fst (fuse_rrf A iter sem kw alpha k) = firstn k (fst (fuse_rrf A iter sem kw alpha K)).
  Proof using IT.
    intros HK. pose proof (se_count _ _ _ _ _ _ (fuse_rrf_selects A iter IT sem kw alpha (S K))) as Q.
    unfold fuse_rrf, ranked in *. cbn [fst] in *. rewrite <- !firstn_map. rewrite <- firstn_map in Q.
    rewrite firstn_length in Q. rewrite firstn_firstn.
    set (l := map fst _) in *. assert (Ll : length l <= K) by lia.
    destruct (le_lt_dec k K) as [C|C].
    - rewrite Nat.min_l by exact C. reflexivity.
    - rewrite Nat.min_r by lia. rewrite !firstn_all2 by lia. reflexivity.
  Qed.

  Lemma pure_list main all (score : Z -> num A) L :
    NoDup main -> length main <= n -> incl main all -> NoDup L -> (forall z, In z L <-> In z all) ->
    (forall i id, nth_error main i = Some id -> score id = rec1 i) ->
    (forall id, ~ In id main -> score id = f_0 A) ->
    StronglySorted (fun x y => not_above A (score y) (score x)) L ->
    exists R, L = main ++ R /\ forall z, In z R <-> In z all /\ ~ In z main.
  Proof using RA GO.
    intros Nm Lm Im NL SL S1 S0 Srt.
    set (R := filter (fun z => negb (existsb (Z.eqb z) main)) L).
    assert (HR : forall z, In z R <-> In z all /\ ~ In z main).
    { intro z. unfold R. rewrite filter_In, SL, negb_true_iff.
      split; intros [Q1 Q2]; (split; [exact Q1|]).
      - intro B. assert (E : existsb (Z.eqb z) main = true) by (apply existsb_exists; exists z; split; [exact B|apply Z.eqb_refl]). congruence.
      - apply not_true_is_false. intro E. apply existsb_exists in E. destruct E as (w & Hw & E). apply Z.eqb_eq in E. subst w. contradiction. }
    assert (NR : NoDup R) by (apply NoDup_filter; exact NL).
    assert (P : Permutation L (main ++ R)).
    { apply NoDup_Permutation; [exact NL| |].
      - clear - Nm NR HR. assert (D : forall z, In z main -> ~ In z R) by (intros z B1 B2; apply HR in B2; tauto).
        clear HR. clearbody R. induction main as [|a l IH]; cbn [app]; [exact NR|]. inversion Nm; subst. constructor.
        + rewrite in_app_iff. intros [B|B]; [contradiction|]. apply (D a); [left; reflexivity|exact B].
        + apply IH; [assumption|]. intros z Hz. apply D. right. exact Hz.
      - intro z. rewrite in_app_iff, HR, SL. split; [|intros [B|B]; [apply Im; exact B|tauto]].
        intro B. destruct (in_dec Z.eq_dec z main); tauto. }
    assert (NB : forall x, is_number A (score x)).
    { intro x. destruct (in_dec Z.eq_dec x main) as [B|B].
      - apply In_nth_error in B. destruct B as [i B]. rewrite (S1 i x B).
        apply (ra_0x A n RA). apply Nat.lt_le_trans with (length main); [apply nth_error_Some; congruence|exact Lm].
      - rewrite (S0 x B). apply (ra_num A n RA). }
    assert (St : StronglySorted (fun x y => f_cmp A (score y) (score x) = Some Lt) main).
    { assert (G : forall l k, (forall i id, nth_error l i = Some id -> score id = rec1 (k + i)) -> k + length l <= n ->
        StronglySorted (fun x y => f_cmp A (score y) (score x) = Some Lt) l).
      { induction l as [|a l IH]; intros k Hk Lk; constructor.
        - apply (IH (S k)); [|cbn [length] in Lk; lia]. intros i id H. replace (S k + i) with (k + S i) by lia. apply (Hk (S i)). exact H.
        - rewrite Forall_forall. intros y Hy. apply In_nth_error in Hy. destruct Hy as [i Hy].
          rewrite (Hk 0 a eq_refl), (Hk (S i) y Hy). apply (ra_dec A n RA).
          assert (i < length l) by (apply nth_error_Some; congruence). cbn [length] in Lk. lia. }
      apply (G main 0); [exact S1|lia]. }
    destruct (strict_prefix A GO score main L R (fun x _ => NB x) P Srt St) as (R' & E & PR).
    - intros x y Hx Hy. apply HR in Hy. destruct Hy as [_ Hy]. rewrite (S0 y Hy).
      apply In_nth_error in Hx. destruct Hx as [i Hx]. rewrite (S1 i x Hx).
      apply (ra_0x A n RA). apply Nat.lt_le_trans with (length main); [apply nth_error_Some; congruence|exact Lm].
    - exists R'. split; [exact E|]. intro z. rewrite <- HR. split; apply Permutation_in; [|symmetry]; exact PR.
  Qed.

  Lemma best_full k l score ids scores : best_by A k l score ids scores -> length (nodup Z.eq_dec l) <= k ->
    NoDup ids /\ (forall z, In z ids <-> In z l) /\ StronglySorted (fun x y => not_above A (score y) (score x)) ids.
  Proof using.
    intros [[N I Cn Sc] Srt _] Hk. split; [exact N|]. split.
    - intro z. split; [apply I|]. intro Hz. rewrite Nat.min_r in Cn by exact Hk.
      assert (I2 : incl (nodup Z.eq_dec l) ids).
      { apply NoDup_length_incl; [exact N|lia|]. intros w Hw. apply nodup_In. apply I. exact Hw. }
      apply I2. apply nodup_In. exact Hz.
    - subst scores. apply sorted_map in Srt. exact Srt.
  Qed.

  Theorem pure_semantic sem kw k : NoDup sem -> length sem <= n -> length kw <= n ->
    exists R, fst (fuse_rrf A iter sem kw (f_1 A) k) = firstn k (sem ++ R) /\ forall z, In z R <-> In z kw /\ ~ In z sem.
  Proof using GO RA IT.
    intros N L1 L2. set (K := length (nodup Z.eq_dec (sem ++ kw))).
    rewrite (fuse_firstn sem kw (f_1 A) k K (le_n _)).
    pose proof (fuse_rrf_best A iter IT sem kw (f_1 A) K GO) as B.
    destruct (best_full _ _ _ _ _ (B ltac:(intros id Hid;
      destruct (in_dec Z.eq_dec id sem) as [C|C];
      [apply In_nth_error in C; destruct C as [i C]; rewrite (score_sem sem kw id i N L1 L2 C); apply (ra_0x A n RA);
         apply Nat.lt_le_trans with (length sem); [apply nth_error_Some; congruence|exact L1]
      |rewrite (score_sem_none sem kw id L2 C); apply (ra_num A n RA)])) (le_n _)) as (B1 & B2 & B3).
    destruct (pure_list sem (sem ++ kw) _ _ N L1 (incl_appl _ (incl_refl _)) B1 B2
      (fun i id H => score_sem sem kw id i N L1 L2 H) (fun id H => score_sem_none sem kw id L2 H) B3) as (R & E & HR).
    exists R. split; [rewrite E; reflexivity|]. intro z. rewrite HR, in_app_iff. tauto.
  Qed.
  Theorem pure_keyword sem kw k : NoDup kw -> length sem <= n -> length kw <= n ->
    exists R, fst (fuse_rrf A iter sem kw (f_0 A) k) = firstn k (kw ++ R) /\ forall z, In z R <-> In z sem /\ ~ In z kw.
  Proof using GO RA IT.
    intros N L1 L2. set (K := length (nodup Z.eq_dec (sem ++ kw))).
    rewrite (fuse_firstn sem kw (f_0 A) k K (le_n _)).
    pose proof (fuse_rrf_best A iter IT sem kw (f_0 A) K GO) as B.
    destruct (best_full _ _ _ _ _ (B ltac:(intros id Hid;
      destruct (in_dec Z.eq_dec id kw) as [C|C];
      [apply In_nth_error in C; destruct C as [i C]; rewrite (score_kw sem kw id i N L1 L2 C); apply (ra_0x A n RA);
         apply Nat.lt_le_trans with (length kw); [apply nth_error_Some; congruence|exact L2]
      |rewrite (score_kw_none sem kw id L1 C); apply (ra_num A n RA)])) (le_n _)) as (B1 & B2 & B3).
    destruct (pure_list kw (sem ++ kw) _ _ N L2 (incl_appr _ (incl_refl _)) B1 B2
      (fun i id H => score_kw sem kw id i N L1 L2 H) (fun id H => score_kw_none sem kw id L1 H) B3) as (R & E & HR).
    exists R. split; [rewrite E; reflexivity|]. intro z. rewrite HR, in_app_iff. tauto.
  Qed.
End PURE.
