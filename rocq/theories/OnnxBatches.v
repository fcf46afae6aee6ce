(** Tokenized batches, static and dynamic, and their embeddings. *)
From Verif Require Import Base Onnx OnnxSpec OnnxPrepare OnnxEncode OnnxPaths OnnxShapes.
Open Scope nat_scope.

Lemma combine_firstn2 {A B} k (l : list A) (r : list B) : combine (firstn k l) (firstn k r) = firstn k (combine l r).
Proof. revert l r. induction k as [|k IH]; intros [|x l] [|y r]; cbn; auto. now rewrite IH. Qed.
Lemma tokenize_one_spec {T} (HT : steady T) (t : text T) d : tokenize_one t = Ok d ->
  exists e, encode T t = Ok e /\ pairs d = visible e /\ proper_tokenized d.
Proof.
  intros H. unfold tokenize_one in H. apply bind_Ok in H. destruct H as (e & E & H). exists e. split; auto.
  pose proof (proj1 HT t e E) as (L1 & L2 & O & L). rewrite (Nat.max_l _ 1 L) in H. pose proof (leading_le (e_masks e)) as LL.
  destruct ((_ <=? _) && _); [|discriminate]. injection H as <-. split; [reflexivity|]. unfold proper_tokenized. cbn [fst snd]. split.
  - intros Z. apply (f_equal (@length _)) in Z. rewrite firstn_length in Z. cbn in Z. lia.
  - rewrite !firstn_length. lia.
Qed.
Lemma tokenize_one_total {T} (HT : steady T) (t : text T) e : encode T t = Ok e -> exists d, tokenize_one t = Ok d.
Proof.
  intros E. unfold tokenize_one. rewrite E. cbn [bind]. pose proof (proj1 HT t e E) as (L1 & L2 & O & L). pose proof (leading_le (e_masks e)) as LL.
  replace ((_ <=? _) && _) with true by (symmetry; apply Bool.andb_true_iff; split; apply Nat.leb_le; lia). eauto.
Qed.

Lemma pairs_nonempty d : proper_tokenized d -> nonempty (pairs d).
Proof.
  destruct d as (l & r). intros (A & B). cbn in A, B. unfold pairs. cbn. destruct l; [congruence|]. destruct r; [discriminate|]. discriminate.
Qed.

Section Batched.
  Context {T : tokenizer} (N : network) (M : model T) (dim : nat) (f : list nat -> option (list nat) -> list (list (value N))).
  Notation c := (m_config M).
  Context (HT : steady T) (HN : ignores_padding N dim f) (prefix : nat) (M3 : 3 <= document_length c) (HP : prefix_token c false = Ok prefix).
  Notation g := (own N c f false true prefix).
  Notation shapes cap := (dynamic_shapes cap (Nat.max (m_batch_size M) 1) (document_length c)).
  (** A dynamic piece: its planned length covers its documents. *)
  Definition planned_piece cap (p : piece) : Prop := exists n planned, In (n, planned) (shapes cap) /\ snd p = Some planned /\
    length (fst p) <= Nat.max n 1 /\ Forall (fun x => effective_len (document_length c) (length (fst (snd x))) <= planned) (fst p).
  Definition mode_piece cap (p : piece) : Prop :=
    if m_dynamic M && negb (m_cpu M) then planned_piece cap p else length (fst p) <= Nat.max (m_batch_size M) 1 /\ snd p = None.
  Definition tokens_of (t : text T) (d : tokenized) : Prop := exists e, encode T (cleaned c t) = Ok e /\ pairs d = visible e /\ proper_tokenized d.
  Lemma prepared_le m (d : tokenized) : 1 <= m -> prepared_len m d <= m.
  Proof. intros. unfold prepared_len. lia. Qed.
  Lemma mode_batches cap docs : Forall proper_tokenized docs ->
    exists ps, (if m_dynamic M && negb (m_cpu M) then dynamic_batches cap M docs else static_batches M docs) = Ok (map (piece_batch M prefix) ps) /\
      covers docs ps /\ Forall (mode_piece cap) ps.
  Proof.
    intros F. unfold mode_piece. destruct (m_dynamic M && negb (m_cpu M)).
    - destruct (dynamic_spec M prefix M3 HP cap docs F) as (ps & E & C & D).
      + intros d _. destruct (bucket_found cap (Nat.max (m_batch_size M) 1) (document_length c) (prepared_len (document_length c) d) ltac:(lia) (prepared_le (document_length c) d ltac:(lia))) as (n & pl & E & _).
        apply nth_error_Some. congruence.
      + exists ps. split; auto. split; auto. eapply Forall_impl; [|exact D]. intros p (i & n & pl & E1 & E2 & E3 & E4). exists n, pl. split; [now apply nth_error_In in E1|].
        split; auto. split; auto. eapply Forall_impl; [|exact E4]. intros x EX. cbn beta in EX.
        destruct (bucket_found cap (Nat.max (m_batch_size M) 1) (document_length c) (prepared_len (document_length c) (snd x)) ltac:(lia) (prepared_le (document_length c) (snd x) ltac:(lia))) as (n' & pl' & EB & L).
        rewrite EX, E1 in EB. injection EB as <- <-. now rewrite <- prepared_effective by lia.
    - exact (static_spec M prefix M3 HP docs F).
  Qed.
  Lemma tokenize_batches_spec cap ts bs : tokenize_batches cap M ts = Ok bs ->
    exists docs ps, Forall2 tokens_of ts docs /\ bs = map (piece_batch M prefix) ps /\ covers docs ps /\ Forall (mode_piece cap) ps.
  Proof.
    intros H. destruct ts as [|t ts].
    - cbn in H. injection H as <-. exists [], []. repeat split; constructor.
    - unfold tokenize_batches in H. apply bind_Ok in H. destruct H as (docs & HD & H). apply join_all_ok in HD. apply Forall2_map_l in HD.
      rewrite preprocess_map in HD. apply Forall2_map_l in HD.
      assert (F2 : Forall2 tokens_of (t :: ts) docs) by (eapply Forall2_impl_in; [|exact HD]; cbn beta; intros x d _ E; now apply (tokenize_one_spec HT)).
      assert (F : Forall proper_tokenized docs) by (clear -F2; induction F2 as [|x d l r (e & _ & _ & P) _ IH]; constructor; auto).
      destruct (mode_batches cap docs F) as (ps & E & C & D). exists docs, ps. split; auto. split; [|split; auto]. rewrite E in H. congruence.
  Qed.
  (** One piece. *)
  Lemma piece_answers p out : Forall (fun x => proper_tokenized (snd x)) (fst p) -> encode_prepared N c (piece_batch M prefix p) = Ok out ->
    out = map (fun x => g (pairs (snd x))) (fst p).
  Proof.
    intros F H. unfold piece_batch in H. apply (batch_answers N c dim f HN false true prefix (snd p)) in H; [|exact M3|].
    - now rewrite !map_map in H.
    - rewrite map_map. apply Forall_map. eapply Forall_impl; [|exact F]. intros x A. now apply pairs_nonempty.
  Qed.
  Lemma piece_total p : Forall (fun x => proper_tokenized (snd x)) (fst p) -> answers N dim ->
    encode_prepared N c (piece_batch M prefix p) = Ok (map (fun x => g (pairs (snd x))) (fst p)).
  Proof.
    intros F AN. unfold piece_batch. rewrite (batch_total N c dim f HN false true prefix (snd p)); auto; [now rewrite !map_map|].
    rewrite map_map. apply Forall_map. eapply Forall_impl; [|exact F]. intros x A. now apply pairs_nonempty.
  Qed.
  Lemma parts_concat (ps : list piece) parts : Forall2 (fun p out => out = map (fun x => g (pairs (snd x))) (fst p)) ps parts ->
    concat parts = map (fun x => g (pairs (snd x))) (concat (map fst ps)).
  Proof. induction 1 as [|p out ps parts E _ IH]; cbn; auto. now rewrite E, IH, map_app. Qed.
  Lemma origins ps : flat_map b_origin (map (piece_batch M prefix) ps) = map fst (concat (map fst ps)).
  Proof. induction ps as [|p ps IH]; cbn; auto. now rewrite IH, map_app. Qed.
  Lemma covers_proper docs ps : Forall proper_tokenized docs -> covers docs ps -> Forall (fun p => Forall (fun x => proper_tokenized (snd x)) (fst p)) ps.
  Proof.
    intros F (P & _). apply Forall_map with (f := fst). apply Forall_concat_inv. eapply Permutation_Forall; [symmetry; exact P|]. now apply numbered_proper.
  Qed.
  (** What every batch gives is put back in the order of the input. *)
  Lemma restored docs ps (parts : list (list (list (list (value N))))) : covers docs ps -> ps <> [] ->
    Forall2 (fun p out => out = map (fun x => g (pairs (snd x))) (fst p)) ps parts ->
    (if negb (existsb (fun b => negb (length (b_origin b) =? 0)) (map (piece_batch M prefix) ps)) || negb (length (flat_map b_origin (map (piece_batch M prefix) ps)) =? length (concat parts))
     then Ok (concat parts) else restore (flat_map b_origin (map (piece_batch M prefix) ps)) (concat parts)) = Ok (map (fun d => g (pairs d)) docs).
  Proof.
    intros (P & NE) NP F. rewrite (parts_concat ps parts F), origins, !map_length, Nat.eqb_refl.
    assert (EX : existsb (fun b => negb (length (b_origin b) =? 0)) (map (piece_batch M prefix) ps) = true).
    { destruct ps as [|p ps]; [congruence|]. inversion NE; subst. cbn [map existsb]. apply Bool.orb_true_iff. left. unfold piece_batch. cbn [batch b_origin]. rewrite map_length.
      destruct (fst p); [congruence|reflexivity]. }
    rewrite EX. cbn [negb orb]. apply (restore_spec (fun d => g (pairs d)) docs). exact P.
  Qed.
  Definition encoded_parts (cancelled : nat -> bool) (bs : list prepared) :=
    let one '(i, b) := if cancelled i then Err else encode_prepared N c b in
    if (m_sessions M <=? 1) || (length bs =? 1) then mapM one (numbered bs) else join_all (map one (numbered bs)).
  Lemma encoded_parts_ok cancelled bs parts : encoded_parts cancelled bs = Ok parts -> Forall2 (fun b out => encode_prepared N c b = Ok out) bs parts.
  Proof.
    intros H. assert (H2 : Forall2 (fun x out => (if cancelled (fst x) then Err else encode_prepared N c (snd x)) = Ok out) (numbered bs) parts).
    { unfold encoded_parts in H. destruct ((_ <=? _) || _).
      - apply mapM_Ok_inv in H. eapply Forall2_impl_in; [|exact H]. intros (i & b) out _ E. exact E.
      - apply join_all_ok, Forall2_map_l in H. eapply Forall2_impl_in; [|exact H]. intros (i & b) out _ E. exact E. }
    rewrite <- (numbered_snd bs). apply Forall2_map_l. eapply Forall2_impl_in; [|exact H2]. cbn beta. intros x out _ E. destruct (cancelled (fst x)); [discriminate|exact E].
  Qed.
  Lemma batches_in_order cap cancelled ts bs out : tokenize_batches cap M ts = Ok bs -> encode_batches N M cancelled bs = Ok out ->
    Forall2 (embeds c g) ts out.
  Proof.
    intros HB HE. destruct (tokenize_batches_spec cap ts bs HB) as (docs & ps & F2 & -> & C & _).
    assert (F : Forall proper_tokenized docs) by (clear -F2; induction F2 as [|x d l r (e & _ & _ & P) _ IH]; constructor; auto).
    assert (EO : out = map (fun d => g (pairs d)) docs).
    { destruct ps as [|p ps].
      - destruct C as (P & _). cbn in P. apply Permutation_nil in P. assert (docs = []) by (destruct docs; [auto|discriminate]). subst. cbn in HE. injection HE as <-. reflexivity.
      - remember (p :: ps) as qs eqn:EQ. assert (NQ : qs <> []) by (subst; discriminate).
        assert (HE2 : bind (encoded_parts cancelled (map (piece_batch M prefix) qs)) (fun parts =>
          if negb (existsb (fun b => negb (length (b_origin b) =? 0)) (map (piece_batch M prefix) qs)) || negb (length (flat_map b_origin (map (piece_batch M prefix) qs)) =? length (concat parts))
          then Ok (concat parts) else restore (flat_map b_origin (map (piece_batch M prefix) qs)) (concat parts)) = Ok out) by (subst qs; exact HE).
        apply bind_Ok in HE2. destruct HE2 as (parts & H1 & H2). apply encoded_parts_ok in H1. apply Forall2_map_l in H1.
        pose proof (covers_proper docs qs F C) as CP.
        assert (F3 : Forall2 (fun p out => out = map (fun x => g (pairs (snd x))) (fst p)) qs parts).
        { rewrite Forall_forall in CP. eapply Forall2_impl_in; [|exact H1]. cbn beta. intros q o I E. apply piece_answers; auto. }
        rewrite (restored docs qs parts C NQ F3) in H2. congruence. }
    subst out. clear -F2. induction F2 as [|x d l r (e & E & V & _) _ IH]; cbn; constructor; auto. exists e. split; auto. now rewrite V.
  Qed.
  Lemma in_order_total cap ts : answers N dim -> Forall (fun t => exists e, encode T (cleaned c t) = Ok e) ts ->
    exists bs out, tokenize_batches cap M ts = Ok bs /\ encode_batches N M (fun _ => false) bs = Ok out.
  Proof.
    intros AN FE. destruct ts as [|t ts]; [exists [], []; split; reflexivity|].
    assert (TD : exists docs, Forall2 (fun t d => tokenize_one (cleaned c t) = Ok d) (t :: ts) docs).
    { clear -FE HT. induction FE as [|x l (e & E) _ (docs & IH)]; [exists []; constructor|]. destruct (tokenize_one_total HT _ e E) as (d & D). exists (d :: docs). now constructor. }
    destruct TD as (docs & TD).
    assert (F2 : Forall2 tokens_of (t :: ts) docs) by (eapply Forall2_impl_in; [|exact TD]; cbn beta; intros x d _ E; now apply (tokenize_one_spec HT)).
    assert (F : Forall proper_tokenized docs) by (clear -F2; induction F2 as [|x d l r (e & _ & _ & P) _ IH]; constructor; auto).
    destruct (mode_batches cap docs F) as (ps & E & C & _). exists (map (piece_batch M prefix) ps).
    assert (JA : join_all (map tokenize_one (preprocess c (t :: ts))) = Ok docs).
    { rewrite preprocess_map, map_map. unfold join_all.
      assert (NP : existsb panicked (map (fun x => tokenize_one (cleaned c x)) (t :: ts)) = false).
      { clear -TD. induction TD as [|x d l r E _ IH]; cbn [map existsb]; auto. rewrite E. exact IH. }
      rewrite NP. apply mapM_Forall2. apply Forall2_map_l. exact TD. }
    assert (EB : tokenize_batches cap M (t :: ts) = Ok (map (piece_batch M prefix) ps)).
    { unfold tokenize_batches. rewrite JA. exact E. }
    assert (NP : ps <> []).
    { intros ->. destruct C as (P & _). cbn in P. apply Permutation_nil in P. destruct docs; [inversion TD|discriminate]. }
    pose proof (covers_proper docs ps F C) as CP.
    set (parts := map (fun p : piece => map (fun x => g (pairs (snd x))) (fst p)) ps).
    assert (EP : encoded_parts (fun _ => false) (map (piece_batch M prefix) ps) = Ok parts).
    { assert (FP : Forall2 (fun x out => encode_prepared N c (snd x) = Ok out) (numbered (map (piece_batch M prefix) ps)) parts).
      { apply (Forall2_map_l snd (fun b out => encode_prepared N c b = Ok out)). rewrite numbered_snd. apply Forall2_map_l. unfold parts. clear -CP AN HN M3.
        induction CP as [|p ps H _ IH]; cbn; constructor; auto. now apply piece_total. }
      unfold encoded_parts. destruct ((_ <=? _) || _).
      - apply mapM_Forall2. eapply Forall2_impl_in; [|exact FP]. intros (i & b) o _ Q. exact Q.
      - unfold join_all.
        assert (NPA : existsb panicked (map (fun '(i, b) => if false then Err else encode_prepared N c b) (numbered (map (piece_batch M prefix) ps))) = false).
        { clear -FP. induction FP as [|(i & b) o l r Q _ IH]; cbn [map existsb]; auto. cbn [snd] in Q. rewrite Q. exact IH. }
        rewrite NPA. apply mapM_Forall2. apply Forall2_map_l. eapply Forall2_impl_in; [|exact FP]. intros (i & b) o _ Q. exact Q. }
    exists (map (fun d => g (pairs d)) docs). split; auto.
    assert (F3 : Forall2 (fun p out => out = map (fun x => g (pairs (snd x))) (fst p)) ps parts) by (unfold parts; clear; induction ps; cbn; constructor; auto).
    destruct ps as [|p ps]; [congruence|]. remember (p :: ps) as qs eqn:EQ.
    change (match map (piece_batch M prefix) qs with [] => Ok [] | _ => bind (encoded_parts (fun _ => false) (map (piece_batch M prefix) qs)) (fun parts =>
          if negb (existsb (fun b => negb (length (b_origin b) =? 0)) (map (piece_batch M prefix) qs)) || negb (length (flat_map b_origin (map (piece_batch M prefix) qs)) =? length (concat parts))
          then Ok (concat parts) else restore (flat_map b_origin (map (piece_batch M prefix) qs)) (concat parts)) end = Ok (map (fun d => g (pairs d)) docs)).
    rewrite EP. cbn [bind]. rewrite (restored docs qs parts C NP F3). subst qs. reflexivity.
  Qed.
  (** Sizes of batches. *)
  Lemma batch_sizes cap ts bs : tokenize_batches cap M ts = Ok bs ->
    Forall (fun b => 1 <= b_size b /\ b_len b <= document_length c /\ b_size b * b_len b <= Nat.max (m_batch_size M) 1 * document_length c) bs.
  Proof.
    intros H. destruct (tokenize_batches_spec cap ts bs H) as (docs & ps & _ & -> & (_ & NE) & MP). apply Forall_map. rewrite Forall_forall in *. intros p I.
    unfold piece_batch. cbn [batch b_size b_len]. rewrite !map_length. pose proof (batch_len_le c false (snd p) (map pairs (map snd (fst p))) ltac:(cbn [max_length]; lia)) as BL. cbn [max_length] in BL.
    assert (1 <= length (fst p)) by (specialize (NE p I); destruct (fst p); [congruence|cbn; lia]).
    split; auto. split; auto. specialize (MP p I). unfold mode_piece in MP. destruct (m_dynamic M && negb (m_cpu M)).
    - destruct MP as (n & pl & IS & EP & LP & FP). pose proof (shapes_budget cap (Nat.max (m_batch_size M) 1) (document_length c) _ IS) as (A1 & A2 & A3). cbn [fst snd] in *.
      assert (EL : batch_len c false (snd p) (map pairs (map snd (fst p))) <= pl).
      { unfold batch_len. cbn [andb max_length]. rewrite EP.
        pose proof (fold_max_le (fun v : list (nat * nat) => effective_len (document_length c) (length v)) pl (map pairs (map snd (fst p))) 0 ltac:(lia)) as B.
        assert (FB : Forall (fun v : list (nat * nat) => effective_len (document_length c) (length v) <= pl) (map pairs (map snd (fst p)))).
        { rewrite map_map. apply Forall_map. eapply Forall_impl; [|exact FP]. intros x L. etransitivity; [|exact L]. unfold effective_len, pairs. rewrite combine_length.
          destruct (_ <? Nat.min _ _) eqn:Q1, (_ <? length _) eqn:Q2; rewrite ?Nat.ltb_lt, ?Nat.ltb_ge in *; lia. }
        specialize (B FB). lia. }
      etransitivity; [apply Nat.mul_le_mono; [|exact EL]; etransitivity; [exact LP|rewrite Nat.max_l by lia; reflexivity]|].
      etransitivity; [exact A3|]. apply Nat.mul_le_mono; lia.
    - destruct MP as (LP & _). now apply Nat.mul_le_mono.
  Qed.
  Lemma batch_shapes cap ts bs : m_dynamic M = true -> m_cpu M = false -> tokenize_batches cap M ts = Ok bs ->
    Forall (fun b => b_len b = document_length c \/ exists k, b_len b = 32 * k) bs.
  Proof.
    intros D CP H. destruct (tokenize_batches_spec cap ts bs H) as (docs & ps & F2 & -> & CV & MP). apply Forall_map.
    assert (F : Forall proper_tokenized docs) by (clear -F2; induction F2 as [|x d l r (e & _ & _ & P) _ IH]; constructor; auto).
    pose proof (covers_proper docs ps F CV) as PR. rewrite Forall_forall in *. intros p I.
    specialize (MP p I). unfold mode_piece in MP. rewrite D, CP in MP. cbn [negb andb] in MP. destruct MP as (n & pl & IS & EP & LP & FP).
    pose proof (shapes_budget cap (Nat.max (m_batch_size M) 1) (document_length c) _ IS) as (A1 & A2 & A3). cbn [fst snd] in *.
    unfold piece_batch. cbn [batch b_len].
    assert (EL : batch_len c false (snd p) (map pairs (map snd (fst p))) = pl).
    { unfold batch_len. cbn [andb max_length]. rewrite EP.
      pose proof (fold_max_le (fun v : list (nat * nat) => effective_len (document_length c) (length v)) pl (map pairs (map snd (fst p))) 0 ltac:(lia)) as B.
      assert (FB : Forall (fun v : list (nat * nat) => effective_len (document_length c) (length v) <= pl) (map pairs (map snd (fst p)))).
      { rewrite map_map. apply Forall_map. eapply Forall_impl; [|exact FP]. intros x L. etransitivity; [|exact L]. unfold effective_len, pairs. rewrite combine_length.
        destruct (_ <? Nat.min _ _) eqn:Q1, (_ <? length _) eqn:Q2; rewrite ?Nat.ltb_lt, ?Nat.ltb_ge in *; lia. }
      specialize (B FB). rewrite (Nat.min_l pl) by lia. lia. }
    rewrite EL. destruct (shapes_multiple cap _ _ _ IS) as [E|E]; cbn [snd] in E; [left; lia|now right].
  Qed.
End Batched.
