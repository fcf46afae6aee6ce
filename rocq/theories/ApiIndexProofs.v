From Verif Require Import Base F32 CodecModel IndexModel IndexSpec SearchModel SearchSpec SearchProofs SearchOps.
From Verif Require Import Text FtsRank ApiEmbed ApiRead ApiReadSpec ApiIndex.
Open Scope nat_scope.

Lemma index_is_good A read V K D docs0 g0 ops outs d h x p G order conv hits :
  good_kernel K -> reached V D docs0 g0 ops outs d h -> load d = Ok x -> 1 <= p_n_ivf_probe p ->
  (Z.of_nat (length (documents docs0 ops)) <= 2 ^ 63)%Z ->
  (forall l, Permutation (order l) l) -> (forall t l, hits t = Ok l -> Forall (fun r => i64 (fst r)) l) ->
  good_searcher (index_searcher A read V K x p D G order conv hits).
Proof.
  intros HK R Hx Hp HN OP HI. split; cbn [i_dim i_search i_keyword index_searcher].
  - intros m k sub r Hd H. apply bind_Ok in H. destruct H as (r0 & H & E). injection E as <-.
    destruct (search_returns V K D docs0 g0 ops outs d h x (query_of m) (with_top_k p k) sub HK R Hx) as (r1 & H1 & B1); [cbn [q_dim query_of]; rewrite Hd; apply Nat2Z.id|exact Hp|].
    assert (r1 = r0) by congruence. subst r1. destruct (search_well_formed _ _ _ _ _ _ _ H) as (L & Kk & _ & _ & In1). cbn [fst snd]. unfold good_result. cbn [fst snd].
    rewrite map_length. split; [exact L|]. split; [exact Kk|]. split.
    + apply Forall_forall. intros i Hi. specialize (B1 i Hi). unfold i64. lia.
    + destruct sub; [|exact Logic.I]. intros i Hi. exact (proj2 (proj2 (In1 i Hi))).
  - intros t k sub r H. apply bind_Ok in H. destruct H as (l & Hl & E). injection E as <-. specialize (HI t l Hl).
    assert (OI : forall z l0, In z (firstn k (order l0)) -> In z l0) by (intros z l0 Hz; apply firstn_In in Hz; eapply Permutation_in; [apply OP|exact Hz]).
    destruct sub as [ids|].
    + unfold search_filtered. destruct ids as [|i0 ids0]; [split; [reflexivity|split; [cbn; lia|split; [constructor|intros ? []]]]|]. set (ids := i0 :: ids0) in *. cbv zeta.
      unfold split_pairs, good_result. cbn [fst snd]. rewrite !map_length. split; [reflexivity|]. split; [apply firstn_le_length|].
      assert (Q : forall i, In i (map fst (firstn k (isort (desc A) (flat_map (fun chunk => collect A G conv (firstn k (order (filter (fun p => zin (fst p) chunk) l)))) (chunks fts_param_limit ids))))) -> i64 i /\ In i ids).
      { intros i Hi. apply in_map_iff in Hi. destruct Hi as (z & <- & Hz). apply firstn_In in Hz. apply isort_In in Hz. apply in_flat_map in Hz. destruct Hz as (ch & Hch & Hz).
        unfold collect in Hz. apply in_map_iff in Hz. destruct Hz as (w & <- & Hw). apply OI in Hw. apply filter_In in Hw. destruct Hw as (Hw & Hin). cbn [fst].
        split; [rewrite Forall_forall in HI; exact (HI w Hw)|]. unfold zin in Hin. apply existsb_exists in Hin. destruct Hin as (y & Hy & E). apply Z.eqb_eq in E. rewrite E.
        rewrite <- (concat_chunks fts_param_limit ids) by (unfold fts_param_limit; lia). apply in_concat. exists ch. split; assumption. }
      split; [apply Forall_forall; intros i Hi; exact (proj1 (Q i Hi))|intros i Hi; exact (proj2 (Q i Hi))].
    + unfold fts_search, split_pairs, collect, good_result. cbn [fst snd]. rewrite !map_length. split; [reflexivity|]. split; [apply firstn_le_length|]. split; [|exact Logic.I].
      apply Forall_forall. intros i Hi. apply in_map_iff in Hi. destruct Hi as (z & <- & Hz). apply in_map_iff in Hz. destruct Hz as (w & <- & Hw). apply OI in Hw. cbn [fst].
      rewrite Forall_forall in HI. exact (HI w Hw).
Qed.
