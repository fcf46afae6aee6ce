(** Proofs about the encoding requests of the HTTP API. *)
From Verif Require Import Base ApiEncode ApiEncodeSpec.
Open Scope nat_scope.

Section BATCH.
  Variables Txt Emb : Type.
  Variable M : encoder Txt Emb.
  Notation item := (eitem Txt).

  Definition from {A} (n : nat) (l : list A) : list (nat * A) := combine (seq n (length l)) l.
  Lemma from_app A n (l l' : list A) : from n (l ++ l') = from n l ++ from (n + length l) l'.
  Proof.
    revert n; induction l as [|a l IH]; intros n.
    - cbn [app length]. unfold from at 2. cbn [length seq combine app]. f_equal; lia.
    - cbn [app]. unfold from in *. cbn [length seq combine app]. f_equal. rewrite IH. f_equal. f_equal. f_equal. lia.
  Qed.
  Lemma from_cons A n (a : A) l : from n (a :: l) = (n, a) :: from (S n) l.
  Proof. reflexivity. Qed.
  Lemma from_length A n (l : list A) : length (from n l) = length l.
  Proof. unfold from. rewrite combine_length, seq_length. lia. Qed.
  Lemma from_In A n (l : list A) i a : In (i, a) (from n l) -> n <= i < n + length l /\ nth_error l (i - n) = Some a.
  Proof.
    revert n; induction l as [|b l IH]; intros n H; [destruct H|].
    rewrite from_cons in H. destruct H as [H|H].
    - injection H as <- <-. rewrite Nat.sub_diag. cbn [length nth_error]. split; [lia|reflexivity].
    - apply IH in H as [H1 H2]. split; [cbn [length]; lia|]. replace (i - n) with (S (i - S n)) by lia. exact H2.
  Qed.
  Lemma from_unique A n (l : list A) i a b : In (i, a) (from n l) -> In (i, b) (from n l) -> a = b.
  Proof. intros H1 H2. apply from_In in H1, H2. destruct H1 as [_ H1], H2 as [_ H2]. congruence. Qed.
  Lemma from_fst A n (l : list A) : map fst (from n l) = seq n (length l).
  Proof. revert n; induction l as [|a l IH]; intros n; [reflexivity|]. rewrite from_cons. cbn. f_equal. apply IH. Qed.
  Lemma from_NoDup A n (l : list A) : NoDup (map fst (from n l)).
  Proof. rewrite from_fst. apply seq_NoDup. Qed.
  Lemma filter_NoDup A (f : nat * A -> bool) l : NoDup (map fst l) -> NoDup (map fst (filter f l)).
  Proof.
    induction l as [|x l IH]; intros H; [constructor|]. inversion H as [|? ? H1 H2]; subst. cbn [filter].
    destruct (f x); [|auto]. cbn [map]. constructor; [|auto].
    intros K. apply H1. apply in_map_iff in K as (y & E & K). apply filter_In in K. rewrite <- E. apply in_map. tauto.
  Qed.
  Lemma from_filter_texts n (f : item -> bool) l :
    flat_map (fun x => it_texts (snd x)) (filter (fun x => f (snd x)) (from n l)) = flat_map it_texts (filter f l).
  Proof.
    revert n; induction l as [|a l IH]; intros n; [reflexivity|]. rewrite from_cons. cbn [filter snd].
    destruct (f a); cbn [flat_map snd]; rewrite IH; reflexivity.
  Qed.

  (** *** Grouping *)
  Definition is_query (x : nat * item) : bool := match it_type (snd x) with Query => true | Document => false end.
  Definition is_doc (p : option nat) (x : nat * item) : bool :=
    match it_type (snd x) with Query => false | Document => same_pool p (it_pool (snd x)) end.
  Lemma same_pool_spec a b : same_pool a b = true <-> a = b.
  Proof.
    destruct a, b; cbn; try (split; congruence). rewrite Nat.eqb_eq. split; congruence.
  Qed.
  Definition gs_ok (gs : list (option nat * list (nat * item))) (l : list (nat * item)) : Prop :=
    NoDup (map fst gs) /\
    (forall p k, In (p, k) gs -> k = filter (is_doc p) l) /\
    (forall x, In x l -> it_type (snd x) = Document -> In (it_pool (snd x)) (map fst gs)).
  Lemma push_group_keys gs p (x : nat * item) :
    map fst (push_group gs p x) = if existsb (fun q => same_pool q p) (map fst gs) then map fst gs else map fst gs ++ [p].
  Proof.
    induction gs as [|[q k] gs IH]; [reflexivity|]. cbn [push_group map fst existsb].
    destruct (same_pool q p) eqn:E; cbn [orb map fst]; [reflexivity|]. rewrite IH.
    destruct (existsb _ _); reflexivity.
  Qed.
  Lemma push_group_In gs p (x : nat * item) q k :
    NoDup (map fst gs) ->
    In (q, k) (push_group gs p x) ->
    (q <> p /\ In (q, k) gs) \/ (q = p /\ exists k0, k = k0 ++ [x] /\ (In (p, k0) gs \/ (~ In p (map fst gs) /\ k0 = []))).
  Proof.
    induction gs as [|[q' k'] gs IH]; intros N H.
    - destruct H as [H|[]]. injection H as <- <-. right. split; [reflexivity|]. exists []. split; [reflexivity|]. right. split; [intros []|reflexivity].
    - cbn [push_group] in H. inversion N as [|? ? N1 N2]; subst. destruct (same_pool q' p) eqn:E.
      + apply same_pool_spec in E as ->. destruct H as [H|H].
        * injection H as <- <-. right. split; [reflexivity|]. exists k'. split; [reflexivity|]. left. left. reflexivity.
        * left. split; [|right; exact H]. intros ->. apply N1. change p with (fst (p, k)). apply in_map. exact H.
      + assert (q' <> p) as D by (intros ->; rewrite (proj2 (same_pool_spec p p) eq_refl) in E; discriminate).
        destruct H as [H|H].
        * injection H as <- <-. left. split; [exact D|left; reflexivity].
        * apply IH in H; [|exact N2]. destruct H as [[H1 H2]|[-> (k0 & -> & H)]].
          -- left. split; [exact H1|right; exact H2].
          -- right. split; [reflexivity|]. exists k0. split; [reflexivity|]. destruct H as [H|[H ->]].
             ++ left. right. exact H.
             ++ right. split; [|reflexivity]. intros [K|K]; [cbn in K; congruence|contradiction].
  Qed.
  Lemma gs_push gs l x : it_type (snd x) = Document -> gs_ok gs l -> gs_ok (push_group gs (it_pool (snd x)) x) (l ++ [x]).
  Proof.
    intros Ex (N & P & Q). set (p := it_pool (snd x)).
    assert (existsb (fun q => same_pool q p) (map fst gs) = true <-> In p (map fst gs)) as X.
    { rewrite existsb_exists. split.
      - intros (q & K & E). apply same_pool_spec in E as ->. exact K.
      - intros K. exists p. split; [exact K|]. apply same_pool_spec. reflexivity. }
    assert (In p (map fst (push_group gs p x))) as Ip.
    { rewrite push_group_keys. destruct (existsb _ _) eqn:E; [apply X; reflexivity|]. apply in_or_app. right. left. reflexivity. }
    split; [|split].
    - rewrite push_group_keys. destruct (existsb _ _) eqn:E; [exact N|].
      apply (Permutation_NoDup (Permutation_cons_append _ _)). constructor; [|exact N]. intros K. apply X in K. discriminate.
    - intros q k H. apply push_group_In in H; [|exact N]. rewrite filter_app. cbn [filter]. unfold is_doc at 2. rewrite Ex. fold p.
      destruct H as [[D H]|[-> (k0 & -> & H)]].
      + assert (same_pool q p = false) as ->.
        { destruct (same_pool q p) eqn:E; [|reflexivity]. apply same_pool_spec in E. contradiction. }
        rewrite app_nil_r. apply P. exact H.
      + rewrite (proj2 (same_pool_spec p p) eq_refl). f_equal. destruct H as [H|[H ->]]; [apply P; exact H|].
        symmetry. destruct (filter (is_doc p) l) as [|y r] eqn:E; [reflexivity|]. exfalso.
        assert (In y (filter (is_doc p) l)) as K by (rewrite E; left; reflexivity). apply filter_In in K as [K1 K2].
        unfold is_doc in K2. destruct (it_type (snd y)) eqn:Ey; [discriminate|]. apply same_pool_spec in K2. subst p.
        rewrite K2 in *. apply H. apply Q; assumption.
    - intros y H Ey. apply in_app_or in H as [H|[<-|[]]]; [|exact Ip].
      specialize (Q y H Ey). rewrite push_group_keys. destruct (existsb _ _); [exact Q|]. apply in_or_app. left. exact Q.
  Qed.
  Lemma group_ok l : forall d qs gs, qs = filter is_query d -> gs_ok gs d ->
    fst (group l qs gs) = filter is_query (d ++ l) /\ gs_ok (snd (group l qs gs)) (d ++ l).
  Proof.
    induction l as [|x l IH]; intros d qs gs H G.
    - rewrite app_nil_r. split; assumption.
    - replace (d ++ x :: l) with ((d ++ [x]) ++ l) by (rewrite <- app_assoc; reflexivity).
      cbn [group]. destruct (it_type (snd x)) eqn:E.
      + apply IH.
        * rewrite filter_app, H. cbn [filter]. unfold is_query at 3. rewrite E. reflexivity.
        * destruct G as (N & P & Q). split; [exact N|split].
          -- intros p k K. rewrite filter_app. cbn [filter]. unfold is_doc at 2. rewrite E, app_nil_r. apply P. exact K.
          -- intros y K Ey. apply in_app_or in K as [K|[<-|[]]]; [apply Q; assumption|congruence].
      + apply IH.
        * rewrite filter_app, H. cbn [filter]. unfold is_query at 3. rewrite E, app_nil_r. reflexivity.
        * apply gs_push; assumption.
  Qed.
  Lemma group_all items :
    fst (group (enumerate items) [] []) = filter is_query (from 0 items) /\
    gs_ok (snd (group (enumerate items) [] [])) (from 0 items).
  Proof.
    apply (group_ok (from 0 items) [] [] []); [reflexivity|]. split; [constructor|split].
    - intros p k [].
    - intros x [].
  Qed.

  (** *** Distributing *)
  Definition texts_of (l : list (nat * item)) : list Txt := flat_map (fun x => it_texts (snd x)) l.
  (** The answers of a group in the map *)
  Definition answered (r : res (list Emb)) (l : list (nat * item)) (m : results Emb) : Prop :=
    match r with
    | Ok e => forall pre i it post, l = pre ++ (i, it) :: post ->
        length (texts_of pre) + length (it_texts it) <= length e /\
        m i = Some (Ok (firstn (length (it_texts it)) (skipn (length (texts_of pre)) e)))
    | Err => forall x, In x l -> m (fst x) = Some Err
    | Panic => False
    end.
  Lemma distribute_spec (e : list Emb) (l : list (nat * item)) : forall off (m m' : results Emb), distribute e off l m = Ok m' -> NoDup (map fst l) ->
    (forall k, ~ In k (map fst l) -> m' k = m k) /\
    (forall pre i it post, l = pre ++ (i, it) :: post ->
       off + length (texts_of pre) + length (it_texts it) <= length e /\
       m' i = Some (Ok (firstn (length (it_texts it)) (skipn (off + length (texts_of pre)) e)))).
  Proof.
    induction l as [|[i it] l IH]; intros off m m' H N.
    - cbn in H. injection H as <-. split; [reflexivity|]. intros pre j jt post K. destruct pre; discriminate.
    - cbn [distribute] in H. inversion N as [|? ? N1 N2]; subst. unfold slice in H.
      destruct (off + length (it_texts it) <=? length e) eqn:B; [|discriminate]. cbn [bind] in H. apply Nat.leb_le in B.
      apply IH in H as [H1 H2]; [|exact N2]. split.
      + intros k K. rewrite H1 by (intros Q; apply K; right; exact Q). unfold insert.
        destruct (k =? i) eqn:E; [|reflexivity]. apply Nat.eqb_eq in E as ->. exfalso. apply K. left. reflexivity.
      + intros pre j jt post K. destruct pre as [|[i0 it0] pre]; cbn [app] in K.
        * injection K as <- <- _. cbn [texts_of flat_map length]. rewrite Nat.add_0_r. split; [exact B|].
          rewrite H1 by exact N1. unfold insert. rewrite Nat.eqb_refl. reflexivity.
        * injection K as <- <- K. destruct (H2 _ _ _ _ K) as [H3 H4].
          unfold texts_of in *. cbn [flat_map snd]. rewrite app_length.
          rewrite Nat.add_assoc. split; [exact H3|exact H4].
  Qed.
  Lemma errors_spec l : forall (m : results Emb),
    (forall k, ~ In k (map fst l) -> fold_left (fun m (x : nat * item) => insert (fst x) Err m) l m k = m k) /\
    (forall x, In x l -> fold_left (fun m (x : nat * item) => insert (fst x) Err m) l m (fst x) = Some Err).
  Proof.
    induction l as [|y l IH]; intros m; cbn [fold_left map In].
    - split; [reflexivity|intros x []].
    - destruct (IH (insert (fst y) Err m)) as [H1 H2]. split.
      + intros k K. rewrite H1 by tauto. unfold insert. destruct (k =? fst y) eqn:E; [|reflexivity].
        apply Nat.eqb_eq in E. exfalso. apply K. left. congruence.
      + intros x [->|K]; [|auto]. destruct (in_dec Nat.eq_dec (fst x) (map fst l)) as [I|I].
        * apply in_map_iff in I as (z & E & I). specialize (H2 z I). rewrite E in H2. exact H2.
        * rewrite H1 by exact I. unfold insert. rewrite Nat.eqb_refl. reflexivity.
  Qed.
  Lemma encode_group_spec t p l m m' : encode_group M t p l m = Ok m' -> NoDup (map fst l) ->
    answered (encode_texts M (texts_of l) t p) l m' /\ (forall k, ~ In k (map fst l) -> m' k = m k).
  Proof.
    unfold encode_group. intros H N. fold (texts_of l) in H. destruct (encode_texts M (texts_of l) t p) as [e| |]; [| |discriminate].
    - apply distribute_spec in H as [H1 H2]; [|exact N]. split; [exact H2|exact H1].
    - injection H as <-. destruct (errors_spec l m) as [H1 H2]. split; [exact H2|exact H1].
  Qed.
  Lemma answered_ext r l (m m' : results Emb) : (forall x, In x l -> m' (fst x) = m (fst x)) -> answered r l m -> answered r l m'.
  Proof.
    intros E H. destruct r as [e| |]; [| |exact H].
    - intros pre i it post K. destruct (H _ _ _ _ K) as [H1 H2]. split; [exact H1|].
      change i with (fst (i, it)). rewrite E; [exact H2|]. rewrite K. apply in_or_app. right. left. reflexivity.
    - intros x K. rewrite E by exact K. apply H. exact K.
  Qed.
  Definition apart (gs : list (option nat * list (nat * item))) : Prop :=
    ForallOrdPairs (fun a b => forall k, In k (map fst (snd a)) -> ~ In k (map fst (snd b))) gs.
  Lemma encode_groups_spec gs : forall m m', encode_groups M gs m = Ok m' -> apart gs ->
    Forall (fun g => NoDup (map fst (snd g))) gs ->
    Forall (fun g => answered (encode_texts M (texts_of (snd g)) Document (fst g)) (snd g) m') gs /\
    (forall k, (forall g, In g gs -> ~ In k (map fst (snd g))) -> m' k = m k).
  Proof.
    induction gs as [|[p l] gs IH]; intros m m' H A N.
    - cbn in H. injection H as <-. split; [constructor|reflexivity].
    - cbn [encode_groups] in H. inversion A as [|? ? A1 A2]; subst. inversion N as [|? ? N1 N2]; subst. cbn [snd] in N1, A1.
      destruct (encode_group M Document p l m) as [m1| |] eqn:E; [|discriminate|discriminate]. cbn [bind] in H.
      apply encode_group_spec in E as [E1 E2]; [|exact N1].
      apply IH in H as [H1 H2]; [|exact A2|exact N2]. split.
      + constructor; [|exact H1]. cbn [fst snd]. apply (answered_ext _ _ m1); [|exact E1].
        intros x K. apply H2. intros g G. rewrite Forall_forall in A1. apply (A1 g G). apply in_map. exact K.
      + intros k K. rewrite H2 by (intros g G; apply K; right; exact G). apply E2. apply (K (p, l)). left. reflexivity.
  Qed.

  Variable order : list (option nat * list (nat * item)) -> list (option nat * list (nat * item)).
  Hypothesis order_perm : forall gs, Permutation gs (order gs).

  Lemma gs_apart gs items : gs_ok gs (from 0 items) -> apart gs.
  Proof.
    intros (N & P & _). unfold apart. revert N P. generalize gs. clear gs. intros gs.
    induction gs as [|[p k] gs IH]; intros N P; [constructor|]. inversion N as [|? ? N1 N2]; subst. constructor.
    - apply Forall_forall. intros [q k'] H i K K'. cbn [snd] in *.
      rewrite (P p k) in K by (left; reflexivity). rewrite (P q k') in K' by (right; exact H).
      apply in_map_iff in K as ([j x] & E1 & K), K' as ([j' x'] & E2 & K'). cbn [fst] in *. subst j j'.
      apply filter_In in K as [K1 K2], K' as [K1' K2']. pose proof (from_unique _ _ _ _ _ _ K1 K1') as <-.
      unfold is_doc in *. cbn [snd] in *. destruct (it_type x); [discriminate|].
      apply same_pool_spec in K2, K2'. apply N1. cbn [fst]. rewrite K2, <- K2'. change q with (fst (q, k')). apply in_map. exact H.
    - apply IH; [exact N2|]. intros q k' H. apply P. right. exact H.
  Qed.
  Lemma gs_ok_perm gs gs' l : Permutation gs gs' -> gs_ok gs l -> gs_ok gs' l.
  Proof.
    intros H (N & P & Q). split; [|split].
    - apply (Permutation_NoDup (Permutation_map fst H) N).
    - intros p k K. apply P. apply (Permutation_in _ (Permutation_sym H) K).
    - intros x K E. apply (Permutation_in _ (Permutation_map fst H)). apply Q; assumption.
  Qed.
  Lemma gs_NoDup gs items : gs_ok gs (from 0 items) -> Forall (fun g => NoDup (map fst (snd g))) gs.
  Proof.
    intros (_ & P & _). apply Forall_forall. intros [p k] H. cbn [snd]. rewrite (P p k H). apply filter_NoDup, from_NoDup.
  Qed.

  (** The requests of a batch that are like [it] *)
  Lemma alike_query it x : it_type it = Query -> is_query x = alike it (snd x).
  Proof. intros E. unfold is_query, alike. rewrite E. destruct (it_type (snd x)); reflexivity. Qed.
  Lemma alike_doc it x : it_type it = Document -> is_doc (it_pool it) x = alike it (snd x).
  Proof.
    intros E. unfold is_doc, alike. rewrite E. destruct (it_type (snd x)); [reflexivity|].
    unfold same_pool. destruct (it_pool it), (it_pool (snd x)); reflexivity.
  Qed.
  Lemma alike_refl (it : item) : alike it it = true.
  Proof. unfold alike. destruct (it_type it); [reflexivity|]. destruct (it_pool it); [apply Nat.eqb_refl|reflexivity]. Qed.
  Definition like (it : item) (items : list item) := filter (fun x => alike it (snd x)) (from 0 items).
  Lemma like_split pre it post :
    like it (pre ++ it :: post) =
    filter (fun x => alike it (snd x)) (from 0 pre) ++ (length pre, it) :: filter (fun x => alike it (snd x)) (from (S (length pre)) post).
  Proof.
    unfold like. rewrite from_app, filter_app. cbn [Nat.add]. rewrite from_cons. cbn [filter snd]. rewrite alike_refl. reflexivity.
  Qed.
  Lemma like_texts it items : texts_of (like it items) = texts_like it items.
  Proof. apply from_filter_texts. Qed.

  Lemma map_from (m : results Emb) items k : nth_error (map (fun x : nat * item => match m (fst x) with Some r => r | None => Err end) (from 0 items)) k =
    match nth_error items k with Some _ => Some (match m k with Some r => r | None => Err end) | None => None end.
  Proof.
    rewrite nth_error_map. enough (nth_error (from 0 items) k = option_map (fun a => (k, a)) (nth_error items k)) as ->.
    { destruct (nth_error items k); reflexivity. }
    enough (forall n, nth_error (from n items) k = option_map (fun a => (n + k, a)) (nth_error items k)) as H by apply H.
    revert k. induction items as [|a items IH]; intros k n; [destruct k; reflexivity|].
    rewrite from_cons. destruct k; cbn [nth_error option_map]; [rewrite Nat.add_0_r; reflexivity|]. rewrite IH.
    destruct (nth_error items k); [|reflexivity]. cbn. repeat f_equal. lia.
  Qed.

  Lemma process_inv items rs : process_batch M order items = Ok rs ->
    exists m, rs = map (fun x => match m (fst x) with Some r => r | None => Err end) (from 0 items) /\
      forall it, In it items -> answered (asks M it (texts_like it items)) (like it items) m.
  Proof using order_perm.
    unfold process_batch. intros H. pose proof (group_all items) as [Gq Gs].
    destruct (group (enumerate items) [] []) as [qs gs]. cbn [fst snd] in *.
    assert (exists m, match qs with [] => Ok (fun _ => None) | _ => encode_group M Query None qs (fun _ => None) end = Ok m) as (m0 & E0).
    { destruct (match qs with [] => Ok (fun _ => None) | _ => encode_group M Query None qs (fun _ => None) end) as [m0| |]; [|discriminate|discriminate].
      exists m0. reflexivity. }
    rewrite E0 in H. cbn [bind] in H. destruct (encode_groups M (order gs) m0) as [m| |] eqn:E; [|discriminate|discriminate].
    cbn [bind] in H. injection H as <-. exists m. split; [reflexivity|].
    apply (gs_ok_perm _ _ _ (order_perm gs)) in Gs.
    apply encode_groups_spec in E as [E1 E2]; [|apply (gs_apart _ items); exact Gs|apply (gs_NoDup _ items); exact Gs].
    intros it Hit. destruct (it_type it) eqn:T.
    - assert (like it items = qs) as L.
      { rewrite Gq. apply filter_ext. intros x. symmetry. apply alike_query. exact T. }
      assert (In it (map snd qs)) as I.
      { rewrite <- L. unfold like. apply in_split in Hit as (pre & post & ->).
        fold (like it (pre ++ it :: post)). rewrite like_split, map_app. apply in_or_app. right. left. reflexivity. }
      destruct qs as [|q qs]; [destruct I|]. apply encode_group_spec in E0 as [E0 _].
      2: { rewrite Gq. apply filter_NoDup, from_NoDup. }
      rewrite L. unfold asks. rewrite T, <- like_texts, L.
      apply (answered_ext _ _ m0); [|exact E0].
      intros x K. apply E2. intros [p k] G. cbn [snd]. rewrite (proj1 (proj2 Gs) p k G).
      intros K'. apply in_map_iff in K' as ([j y] & Ey & K'). apply filter_In in K' as [K1 K2].
      rewrite Gq in K. destruct x as [i x]. apply filter_In in K as [K3 K4]. cbn [fst] in Ey. subst j.
      pose proof (from_unique _ _ _ _ _ _ K1 K3) as ->. unfold is_query, is_doc in *. cbn [snd] in *. destruct (it_type x); discriminate.
    - pose proof (proj2 (proj2 Gs)) as Q. apply in_split in Hit as (pre & post & Ei).
      assert (In (it_pool it) (map fst (order gs))) as I.
      { apply (Q (length pre, it)); [|exact T]. rewrite Ei, from_app. apply in_or_app. right. cbn. left. reflexivity. }
      apply in_map_iff in I as ([p k] & Ep & I). cbn [fst] in Ep. subst p.
      rewrite Forall_forall in E1. specialize (E1 _ I). cbn [fst snd] in E1.
      pose proof (proj1 (proj2 Gs) _ _ I) as ->.
      assert (like it items = filter (is_doc (it_pool it)) (from 0 items)) as L.
      { apply filter_ext. intros x. symmetry. apply alike_doc. exact T. }
      unfold asks. rewrite T, <- like_texts, L. exact E1.
  Qed.

  Lemma process_length items rs : process_batch M order items = Ok rs -> length rs = length items.
  Proof using order_perm.
    intros H. apply process_inv in H as (m & -> & _). rewrite map_length. apply from_length.
  Qed.
  (** The answer of one request *)
  Lemma process_answer items rs pre it post a :
    process_batch M order items = Ok rs -> items = pre ++ it :: post -> nth_error rs (length pre) = Some a ->
    match asks M it (texts_like it items) with
    | Ok e => length (texts_like it pre) + length (it_texts it) <= length e /\
              a = Ok (firstn (length (it_texts it)) (skipn (length (texts_like it pre)) e))
    | Err => a = Err
    | Panic => False
    end.
  Proof using order_perm.
    intros H E Ha. apply process_inv in H as (m & -> & H). specialize (H it). rewrite map_from in Ha.
    assert (nth_error items (length pre) = Some it) as K.
    { rewrite E, nth_error_app2, Nat.sub_diag by lia. reflexivity. }
    rewrite K in Ha. injection Ha as <-.
    specialize (H (nth_error_In _ _ K)). unfold answered in H.
    pose proof (like_split pre it post) as L. rewrite <- E in L.
    destruct (asks M it (texts_like it items)) as [e| |]; [| |exact H].
    - destruct (H _ _ _ _ L) as [H1 H2]. rewrite H2. unfold texts_of in *. rewrite from_filter_texts in *. split; [exact H1|reflexivity].
    - specialize (H (length pre, it)). cbn [fst] in H. rewrite H; [reflexivity|]. rewrite L. apply in_or_app. right. left. reflexivity.
  Qed.

  Lemma distribute_total (e : list Emb) (l : list (nat * item)) : forall off (m : results Emb), off + length (texts_of l) <= length e -> exists m', distribute e off l m = Ok m'.
  Proof.
    induction l as [|[i it] l IH]; intros off m H; [eexists; reflexivity|].
    cbn [distribute]. unfold texts_of in H. cbn [flat_map snd] in H. rewrite app_length in H.
    unfold slice. replace (off + length (it_texts it) <=? length e) with true by (symmetry; apply Nat.leb_le; lia).
    cbn [bind]. apply IH. unfold texts_of. lia.
  Qed.
  Definition enough (r : res (list Emb)) (n : nat) : Prop :=
    match r with Ok e => n <= length e | Err => True | Panic => False end.
  Lemma encode_group_total t p l m : enough (encode_texts M (texts_of l) t p) (length (texts_of l)) ->
    exists m', encode_group M t p l m = Ok m'.
  Proof.
    unfold encode_group. fold (texts_of l). destruct (encode_texts M (texts_of l) t p) as [e| |]; cbn; intros H; [|eexists; reflexivity|destruct H].
    apply distribute_total. lia.
  Qed.
  Lemma encode_groups_total gs : forall m,
    Forall (fun g => enough (encode_texts M (texts_of (snd g)) Document (fst g)) (length (texts_of (snd g)))) gs ->
    exists m', encode_groups M gs m = Ok m'.
  Proof.
    induction gs as [|[p l] gs IH]; intros m H; [eexists; reflexivity|]. inversion H as [|? ? H1 H2]; subst. cbn [encode_groups].
    cbn [fst snd] in H1. destruct (encode_group_total Document p l m H1) as (m1 & ->). cbn [bind]. apply IH. exact H2.
  Qed.
  (** The model answers at least one embedding per text, or refuses: no panic *)
  Lemma process_total items :
    (forall ts, enough (encode_queries M ts) (length ts)) ->
    (forall ts p, enough (encode_documents M ts p) (length ts)) ->
    exists rs, process_batch M order items = Ok rs.
  Proof using.
    intros HQ HD. unfold process_batch.
    destruct (group (enumerate items) [] []) as [qs gs].
    assert (exists m, match qs with [] => Ok (fun _ => None) | _ => encode_group M Query None qs (fun _ => None) end = Ok m) as (m & ->).
    { destruct qs as [|q qs]; [eexists; reflexivity|]. apply encode_group_total. apply HQ. }
    cbn [bind]. destruct (encode_groups_total (order gs) m) as (m' & ->).
    { apply Forall_forall. intros [p l] _. apply HD. }
    eexists. reflexivity.
  Qed.

  (** *** A model that embeds every text by itself *)
  Variable fq : Txt -> Emb.
  Variable fd : option nat -> Txt -> Emb.
  Hypothesis T : text_by_text M fq fd.
  Lemma asks_own it ts e : asks M it ts = Ok e -> e = map (match it_type it with Query => fq | Document => fd (it_pool it) end) ts.
  Proof using T.
    destruct T as [T1 T2]. unfold asks. destruct (it_type it); [apply T1|apply T2].
  Qed.
  Lemma own_map it : own fq fd it = map (match it_type it with Query => fq | Document => fd (it_pool it) end) (it_texts it).
  Proof. unfold own. destruct (it_type it); reflexivity. Qed.
  Lemma process_own items rs : process_batch M order items = Ok rs ->
    Forall2 (fun it a => a = Ok (own fq fd it) \/ (a = Err /\ asks M it (texts_like it items) = Err)) items rs.
  Proof using T order_perm.
    intros H. pose proof (process_length _ _ H) as L.
    assert (forall pre it post a, items = pre ++ it :: post -> nth_error rs (length pre) = Some a ->
              a = Ok (own fq fd it) \/ (a = Err /\ asks M it (texts_like it items) = Err)) as K.
    { intros pre it post a E Ha. pose proof (process_answer _ _ _ _ _ _ H E Ha) as P.
      destruct (asks M it (texts_like it items)) as [e| |] eqn:A; [|right; split; [exact P|reflexivity]|destruct P].
      left. destruct P as [_ ->]. f_equal. apply asks_own in A as ->. rewrite own_map.
      rewrite E. unfold texts_like. rewrite filter_app, flat_map_app. cbn [filter]. rewrite alike_refl. cbn [flat_map].
      rewrite !map_app, skipn_app, skipn_all2, map_length by (rewrite map_length; lia).
      rewrite Nat.sub_diag. cbn [skipn app]. rewrite firstn_app, map_length, Nat.sub_diag, firstn_O, app_nil_r.
      rewrite <- (map_length (match it_type it with Query => fq | Document => fd (it_pool it) end) (it_texts it)).
      apply firstn_all. }
    clear H.
    enough (forall done l rs, length rs = length l ->
      (forall pre it post a, l = pre ++ it :: post -> nth_error rs (length pre) = Some a ->
         a = Ok (own fq fd it) \/ (a = Err /\ asks M it (texts_like it done) = Err)) ->
      Forall2 (fun it a => a = Ok (own fq fd it) \/ (a = Err /\ asks M it (texts_like it done) = Err)) l rs) as X.
    { apply (X items items rs L). exact K. }
    clear. intros done l. induction l as [|it l IH]; intros rs L K; destruct rs as [|a rs]; try discriminate; [constructor|].
    constructor.
    - apply (K [] it l a); reflexivity.
    - apply IH; [cbn in L; lia|]. intros pre it' post b -> Hb. apply (K (it :: pre) it' post b); [reflexivity|exact Hb].
  Qed.
End BATCH.

Section POOL.
  Variables Txt Emb : Type.
  Variable M : encoder Txt Emb.
  Notation item := (eitem Txt).
  Variable order : list (option nat * list (nat * item)) -> list (option nat * list (nat * item)).
  Hypothesis order_perm : forall gs, Permutation gs (order gs).
  Variable fq : Txt -> Emb.
  Variable fd : option nat -> Txt -> Emb.
  Hypothesis T : text_by_text M fq fd.
  Variables workers max : nat.
  Notation pool := (pool Txt Emb).

  (** Requests that are not answered yet *)
  Definition open_requests (s : pool) : list (nat * item) :=
    flat_map snd (p_busy s) ++ match p_holder s with Some (_, b) => b | None => [] end ++ p_queue s.
  Definition pinv (all : list item) (s : pool) : Prop :=
    p_sent s = length all /\
    Permutation (map fst (p_answers s) ++ map fst (open_requests s)) (seq 0 (length all)) /\
    Forall (fun x => nth_error all (fst x) = Some (snd x)) (open_requests s) /\
    Forall (fun x => exists it, nth_error all (fst x) = Some it /\ (snd x = Ok (own fq fd it) \/ snd x = Err)) (p_answers s).

  Lemma take_busy_perm w (l : list (nat * list (nat * item))) b rest : take_busy w l = Some (b, rest) ->
    Permutation (flat_map snd l) (b ++ flat_map snd rest) /\ In (w, b) l /\ length l = S (length rest).
  Proof.
    revert b rest; induction l as [|[v c] l IH]; intros b rest H; [discriminate|]. cbn [take_busy] in H.
    destruct (v =? w) eqn:E.
    - apply Nat.eqb_eq in E as ->. injection H as <- <-. split; [reflexivity|]. split; [left; reflexivity|reflexivity].
    - destruct (take_busy w l) as [[d l']|]; [|discriminate]. injection H as <- <-.
      destruct (IH _ _ eq_refl) as (H1 & H2 & H3). split; [|split; [right; exact H2|cbn; lia]].
      cbn [flat_map snd]. rewrite H1. rewrite !app_assoc. apply Permutation_app_tail. apply Permutation_app_comm.
  Qed.
  Lemma pinv_open all s s' : p_sent s' = p_sent s -> p_answers s' = p_answers s ->
    Permutation (open_requests s) (open_requests s') -> pinv all s -> pinv all s'.
  Proof.
    intros E1 E2 P (H1 & H2 & H3 & H4). split; [congruence|]. split; [|split].
    - rewrite E2. rewrite <- (Permutation_map fst P). exact H2.
    - rewrite Forall_forall in *. intros x K. apply H3. apply (Permutation_in _ (Permutation_sym P) K).
    - rewrite E2. exact H4.
  Qed.
  Lemma release_open (s : pool) w b : p_holder s = Some (w, b) -> Permutation (open_requests s) (open_requests (release s w b)).
  Proof.
    intros E. unfold open_requests, release. cbn. rewrite E, flat_map_app. cbn [flat_map snd app]. rewrite app_nil_r, <- app_assoc. reflexivity.
  Qed.
  Lemma hold_open (s : pool) w b x q : p_holder s = Some (w, b) -> p_queue s = x :: q ->
    open_requests s = open_requests (hold s q w (b ++ [x])).
  Proof.
    intros E1 E2. unfold open_requests, hold. cbn. rewrite E1, E2, <- app_assoc. reflexivity.
  Qed.
  Lemma Forall2_nth A B (R : A -> B -> Prop) l l' : Forall2 R l l' -> forall k b, nth_error l' k = Some b -> exists a, nth_error l k = Some a /\ R a b.
  Proof.
    induction 1 as [|a b l l' H _ IH]; intros k c K; [destruct k; discriminate|].
    destruct k; [injection K as <-; exists a; split; [reflexivity|exact H]|]. apply IH. exact K.
  Qed.

  Lemma pstep_inv all s e s' : pstep M order workers max s e = Some s' -> pinv all s ->
    pinv (all ++ match e with Send it => [it] | _ => [] end) s'.
  Proof using order_perm T.
    intros H I. destruct e as [it| |w| | |w].
    - cbn [pstep] in H. destruct (p_closed s); [discriminate|]. injection H as <-.
      destruct I as (H1 & H2 & H3 & H4). unfold pinv, open_requests in *. cbn. rewrite app_length. cbn [length].
      split; [lia|]. split; [|split].
      + rewrite !app_assoc, map_app. cbn [map fst]. rewrite app_assoc. rewrite Nat.add_1_r, seq_S. cbn [Nat.add]. rewrite H1.
        apply Permutation_app_tail. rewrite <- !app_assoc. exact H2.
      + rewrite !app_assoc. apply Forall_app. split.
        * rewrite <- !app_assoc. eapply Forall_impl; [|exact H3]. intros x K. cbn beta in K. rewrite nth_error_app1; [exact K|].
          apply nth_error_Some. congruence.
        * constructor; [|constructor]. cbn [fst snd]. rewrite H1, nth_error_app2, Nat.sub_diag by lia. reflexivity.
      + eapply Forall_impl; [|exact H4]. intros x (it' & K & R). exists it'. split; [|exact R].
        rewrite nth_error_app1; [exact K|]. apply nth_error_Some. congruence.
    - rewrite app_nil_r. cbn [pstep] in H. injection H as <-. exact I.
    - rewrite app_nil_r. cbn [pstep] in H. destruct (p_holder s) as [[v b]|] eqn:E; [discriminate|].
      destruct (_ && _); [|discriminate]. injection H as <-. revert I. apply pinv_open; [reflexivity|reflexivity|].
      unfold open_requests, hold. cbn. rewrite E. reflexivity.
    - rewrite app_nil_r. cbn [pstep] in H. destruct (p_holder s) as [[v b]|] eqn:E; [|discriminate].
      destruct b as [|y b].
      + destruct (p_queue s) as [|x q] eqn:Q.
        * destruct (p_closed s); [|discriminate]. injection H as <-. revert I. apply pinv_open; [reflexivity|reflexivity|].
          unfold open_requests. cbn. rewrite E, Q. reflexivity.
        * injection H as <-. revert I. apply pinv_open; [reflexivity|reflexivity|]. rewrite (hold_open s v [] x q E Q). reflexivity.
      + remember (y :: b) as b' eqn:Eb. clear Eb. destruct (texts_in b' <? max).
        * destruct (p_queue s) as [|x q] eqn:Q.
          -- destruct (p_closed s); [|discriminate]. injection H as <-. revert I. apply pinv_open; [reflexivity|reflexivity|].
             apply release_open. exact E.
          -- injection H as <-. revert I. apply pinv_open; [reflexivity|reflexivity|]. rewrite (hold_open s v b' x q E Q). reflexivity.
        * injection H as <-. revert I. apply pinv_open; [reflexivity|reflexivity|]. apply release_open. exact E.
    - rewrite app_nil_r. cbn [pstep] in H. destruct (p_holder s) as [[v [|y b]]|] eqn:E; try discriminate.
      destruct (texts_in (y :: b) <? max); [|discriminate]. injection H as <-. revert I. apply pinv_open; [reflexivity|reflexivity|].
      apply release_open. exact E.
    - rewrite app_nil_r. cbn [pstep] in H. destruct (take_busy w (p_busy s)) as [[b rest]|] eqn:E; [|discriminate].
      apply take_busy_perm in E as (E1 & E2 & _).
      assert (exists ended answers, s' =
        {| p_queue := p_queue s; p_sent := p_sent s; p_closed := p_closed s; p_holder := p_holder s;
           p_busy := rest; p_ended := ended; p_answers := p_answers s ++ answers |} /\
        map fst answers = map fst b /\
        Forall (fun x => exists it, In (fst x, it) b /\ (snd x = Ok (own fq fd it) \/ snd x = Err)) answers) as (ended & answers & -> & A1 & A2).
      { destruct (process_batch M order (map snd b)) as [rs| |] eqn:P; injection H as <-; eexists; eexists; (split; [reflexivity|]).
        - pose proof (process_length _ _ _ _ order_perm _ _ P) as L. rewrite map_length in L.
          pose proof (process_own _ _ _ _ order_perm fq fd T _ _ P) as F. split.
          + clear - L. revert b L. induction rs as [|r rs IH]; intros [|x b] L; try discriminate; [reflexivity|]. cbn. f_equal. apply IH. cbn in L. lia.
          + apply Forall_forall. intros [i a] K. cbn [fst snd].
            revert F. generalize (map snd b) at 1. intros al F.
            assert (exists it, In (i, it) b /\ (a = Ok (own fq fd it) \/ a = Err /\ asks M it (texts_like it al) = Err)) as (it & K1 & K2).
            { clear - K F L. revert rs L K F. induction b as [|[j x] b IH]; intros [|r rs] L K F; try discriminate; [destruct K|].
              cbn [map combine fst snd] in *. inversion F as [|? ? ? ? F1 F2]; subst. destruct K as [K|K].
              - injection K as <- <-. exists x. split; [left; reflexivity|exact F1].
              - destruct (IH rs) as (it & K1 & K2); [cbn in L; lia|exact K|exact F2|]. exists it. split; [right; exact K1|exact K2]. }
            exists it. split; [exact K1|]. tauto.
        - split; [rewrite map_map; reflexivity|]. apply Forall_forall. intros x K. apply in_map_iff in K as ([i it] & <- & K).
          exists it. split; [exact K|right; reflexivity].
        - split; [rewrite map_map; reflexivity|]. apply Forall_forall. intros x K. apply in_map_iff in K as ([i it] & <- & K).
          exists it. split; [exact K|right; reflexivity]. }
      destruct I as (H1 & H2 & H3 & H4). unfold pinv, open_requests in *. cbn.
      split; [exact H1|]. split; [|split].
      + rewrite map_app, A1. rewrite <- H2. rewrite <- !app_assoc. apply Permutation_app_head. rewrite !map_app.
        rewrite !app_assoc. apply Permutation_app_tail. apply Permutation_app_tail.
        rewrite <- map_app. apply Permutation_map. apply Permutation_sym. exact E1.
      + apply Forall_app in H3 as [H3 H3']. apply Forall_app. split; [|exact H3'].
        rewrite Forall_forall in *. intros x K. apply H3. apply (Permutation_in _ (Permutation_sym E1)). apply in_or_app. right. exact K.
      + apply Forall_app. split; [exact H4|]. apply Forall_app in H3 as [H3 _]. rewrite Forall_forall in *. intros x K.
        destruct (A2 x K) as (it & K1 & K2). exists it. split; [|exact K2].
        apply (H3 (fst x, it)). apply in_flat_map. exists (w, b). split; [exact E2|exact K1].
  Qed.
  Lemma prun_inv es : forall all s s', prun M order workers max s es = Some s' -> pinv all s -> pinv (all ++ sent es) s'.
  Proof using order_perm T.
    induction es as [|e es IH]; intros all s s' H I.
    - cbn in H. injection H as <-. cbn. rewrite app_nil_r. exact I.
    - cbn [prun] in H. destruct (pstep M order workers max s e) as [s1|] eqn:E; [|discriminate].
      apply (pstep_inv all) in E; [|exact I]. apply (IH _ _ _ H) in E. rewrite <- app_assoc in E. exact E.
  Qed.
  Lemma pstart_inv : pinv [] pstart.
  Proof. split; [reflexivity|]. split; [apply Permutation_refl|]. split; constructor. Qed.
  Lemma pool_inv es s : prun M order workers max pstart es = Some s -> pinv (sent es) s.
  Proof using order_perm T. intros H. apply (prun_inv es [] _ _ H pstart_inv). Qed.

  (** Answers are given once, and to the request they belong to *)
  Lemma pool_answers es s : prun M order workers max pstart es = Some s ->
    NoDup (map fst (p_answers s)) /\
    forall i a, In (i, a) (p_answers s) -> exists it, nth_error (sent es) i = Some it /\ (a = Ok (own fq fd it) \/ a = Err).
  Proof using order_perm T.
    intros H. apply pool_inv in H as (_ & H2 & _ & H4). split.
    - assert (NoDup (map fst (p_answers s) ++ map fst (open_requests s))) as N
        by (apply (Permutation_NoDup (Permutation_sym H2)); apply seq_NoDup).
      clear - N. induction (map fst (p_answers s)) as [|x l IH]; [constructor|]. cbn [app] in N. inversion N as [|? ? N1 N2]; subst.
      constructor; [|auto]. intros K. apply N1. apply in_or_app. left. exact K.
    - intros i a K. rewrite Forall_forall in H4. apply (H4 (i, a) K).
  Qed.

  (** *** Every request can be answered *)
  Lemma prun_app es : forall es' s s', prun M order workers max s es = Some s' ->
    prun M order workers max s (es ++ es') = prun M order workers max s' es'.
  Proof.
    induction es as [|e es IH]; intros es' s s' H; [injection H as <-; reflexivity|].
    cbn [prun app] in *. destruct (pstep M order workers max s e); [|discriminate]. apply IH. exact H.
  Qed.
  Hypothesis NP : forall items, process_batch M order items <> Panic.
  Hypothesis W : 0 < workers.
  Lemma process_not_err items : process_batch M order items <> Err.
  Proof.
    unfold process_batch. destruct (group _ _ _) as [qs gs].
    assert (forall e (l : list (nat * item)) off (m : results Emb), distribute e off l m <> Err) as D.
    { intros e l. induction l as [|[i it] l IH]; intros off m; [discriminate|]. cbn [distribute]. unfold slice.
      destruct (_ <=? _); [cbn [bind]; apply IH|discriminate]. }
    assert (forall t p l m, encode_group M t p l m <> Err) as G.
    { intros t p l m. unfold encode_group. destruct (encode_texts _ _ _ _); [apply D|discriminate|discriminate]. }
    assert (forall gs m, encode_groups M gs m <> Err) as GG.
    { clear gs. intros gs. induction gs as [|[p l] gs IH]; intros m; [discriminate|]. cbn [encode_groups].
      pose proof (G Document p l m) as Q. destruct (encode_group M Document p l m); [apply IH|congruence|discriminate]. }
    assert (match qs with [] => Ok (fun _ => None) | _ => encode_group M Query None qs (fun _ => None) end <> Err) as Q.
    { destruct qs; [discriminate|apply G]. }
    destruct (match qs with [] => Ok (fun _ => None) | _ => encode_group M Query None qs (fun _ => None) end) as [m| |]; [|congruence|discriminate].
    cbn [bind]. pose proof (GG (order gs) m) as Q'. destruct (encode_groups M (order gs) m); [discriminate|congruence|discriminate].
  Qed.
  (** Workers only end when all is closed and drained *)
  Definition alive (s : pool) : Prop := p_ended s <> [] -> p_closed s = true /\ p_queue s = [].
  Lemma pstep_alive s e s' : pstep M order workers max s e = Some s' -> alive s -> alive s'.
  Proof using NP.
    intros H A. destruct e as [it| |w| | |w]; cbn [pstep] in H.
    - destruct (p_closed s) eqn:C; [discriminate|]. injection H as <-. intros K. apply A in K as [K _]. congruence.
    - injection H as <-. intros K. apply A in K as [_ K]. split; [reflexivity|exact K].
    - destruct (p_holder s); [discriminate|]. destruct (_ && _); [|discriminate]. injection H as <-. exact A.
    - destruct (p_holder s) as [[v b]|]; [|discriminate].
      assert (forall x q, p_queue s = x :: q -> p_ended s <> [] -> False) as X.
      { intros x q Q K. apply A in K as [_ K]. congruence. }
      destruct b as [|y b].
      + destruct (p_queue s) as [|x q] eqn:Q.
        * destruct (p_closed s) eqn:C; [|discriminate]. injection H as <-. intros _. split; reflexivity.
        * injection H as <-. intros K. exfalso. apply (X x q eq_refl K).
      + destruct (_ <? _).
        * destruct (p_queue s) as [|x q] eqn:Q.
          -- destruct (p_closed s) eqn:C; [|discriminate]. injection H as <-. intros K. cbn. rewrite Q. split; [exact C|reflexivity].
          -- injection H as <-. intros K. exfalso. apply (X x q eq_refl K).
        * injection H as <-. exact A.
    - destruct (p_holder s) as [[v [|y b]]|]; try discriminate. destruct (_ <? _); [|discriminate]. injection H as <-. exact A.
    - destruct (take_busy w (p_busy s)) as [[b rest]|]; [|discriminate]. pose proof (NP (map snd b)) as N1. pose proof (process_not_err (map snd b)) as N2.
      destruct (process_batch M order (map snd b)) as [rs| |]; [|congruence|congruence]. injection H as <-. exact A.
  Qed.
  Lemma prun_alive es : forall s s', prun M order workers max s es = Some s' -> alive s -> alive s'.
  Proof using NP.
    induction es as [|e es IH]; intros s s' H A; [injection H as <-; exact A|]. cbn [prun] in H.
    destruct (pstep M order workers max s e) as [s1|] eqn:E; [|discriminate]. apply (IH s1); [exact H|]. apply (pstep_alive s e); assumption.
  Qed.
  Lemma take_busy_first w b l : take_busy w ((w, b) :: l) = Some (b, l) :> option (list (nat * item) * _).
  Proof. cbn. rewrite Nat.eqb_refl. reflexivity. Qed.
  Lemma finish_all n : forall s, length (p_busy s) = n -> exists es s',
    prun M order workers max s es = Some s' /\ sent es = [] /\ p_busy s' = [] /\ p_holder s' = p_holder s /\ p_queue s' = p_queue s.
  Proof.
    induction n as [|n IH]; intros s L.
    - exists [], s. destruct (p_busy s); [|discriminate]. repeat split; reflexivity.
    - destruct (p_busy s) as [|[w b] l] eqn:B; [discriminate|].
      assert (exists s1, pstep M order workers max s (Finish w) = Some s1 /\ p_busy s1 = l /\ p_holder s1 = p_holder s /\ p_queue s1 = p_queue s) as (s1 & E & E1 & E2 & E3).
      { cbn [pstep]. rewrite B, take_busy_first. destruct (process_batch M order (map snd b)); eexists; repeat split; reflexivity. }
      destruct (IH s1) as (es & s' & H & S' & H1 & H2 & H3); [rewrite E1; cbn in L; lia|].
      exists (Finish w :: es), s'. split; [cbn [prun]; rewrite E; exact H|]. split; [exact S'|]. split; [exact H1|]. split; congruence.
  Qed.
  Lemma release_all s v y b : p_holder s = Some (v, y :: b) -> exists es s',
    prun M order workers max s es = Some s' /\ sent es = [] /\ p_busy s' = [] /\ p_holder s' = None /\ p_queue s' = p_queue s.
  Proof.
    intros H. set (s1 := release s v (y :: b)).
    assert (exists e, pstep M order workers max s e = Some s1 /\ sent [e] = []) as (e & E & Se).
    { destruct (texts_in (y :: b) <? max) eqn:F.
      - exists Timeout. cbn [pstep]. rewrite H, F. split; reflexivity.
      - exists Receive. cbn [pstep]. rewrite H, F. split; reflexivity. }
    destruct (finish_all _ s1 eq_refl) as (es & s' & R & S' & H1 & H2 & H3).
    exists (e :: es), s'. split; [cbn [prun]; rewrite E; exact R|]. split; [|split; [exact H1|split; [exact H2|exact H3]]].
    change (sent (e :: es)) with (sent [e] ++ sent es) || idtac. unfold sent in *. cbn [flat_map] in *. rewrite app_nil_r in Se. rewrite Se. exact S'.
  Qed.
  Lemma sent_app (es es' : list (pevent Txt)) : sent (es ++ es') = sent es ++ sent es'.
  Proof. apply flat_map_app. Qed.
  Lemma drain_all n : forall s, length (p_queue s) = n -> alive s -> p_busy s = [] ->
    (p_holder s = None \/ exists v, p_holder s = Some (v, [])) -> exists es s',
    prun M order workers max s es = Some s' /\ sent es = [] /\ open_requests s' = [].
  Proof using NP W.
    induction n as [|n IH]; intros s L A B HO.
    - exists [], s. split; [reflexivity|]. split; [reflexivity|]. unfold open_requests. rewrite B.
      destruct (p_queue s); [|discriminate]. destruct HO as [-> | [v ->]]; reflexivity.
    - destruct (p_queue s) as [|x q] eqn:Q; [discriminate|].
      assert (p_ended s = []) as E0.
      { destruct (p_ended s) eqn:E; [reflexivity|]. exfalso. destruct A as [_ A]; [rewrite E; discriminate|]. congruence. }
      assert (exists es s1, prun M order workers max s es = Some s1 /\ sent es = [] /\ (exists v, p_holder s1 = Some (v, [x])) /\ p_queue s1 = q)
        as (es1 & s1 & R1 & S1 & (v & V1) & Q1).
      { destruct HO as [HO|[v HO]].
        - exists [Take 0; Receive], (hold (hold s (p_queue s) 0 []) q 0 [x]). cbn [prun pstep]. rewrite HO, B, E0.
          replace (0 <? workers) with true by (symmetry; apply Nat.ltb_lt; exact W). cbn. rewrite Q.
          split; [reflexivity|]. split; [reflexivity|]. split; [exists 0; reflexivity|reflexivity].
        - exists [Receive], (hold s q v [x]). cbn [prun pstep]. rewrite HO, Q.
          split; [reflexivity|]. split; [reflexivity|]. split; [exists v; reflexivity|reflexivity]. }
      destruct (release_all s1 v x [] V1) as (es2 & s2 & R2 & S2 & B2 & H2 & Q2).
      destruct (IH s2) as (es3 & s3 & R3 & S3 & H3).
      { rewrite Q2, Q1. cbn in L. lia. }
      { apply (prun_alive es2 s1); [exact R2|]. apply (prun_alive es1 s); assumption. }
      { exact B2. }
      { left. exact H2. }
      exists (es1 ++ es2 ++ es3), s3. split; [|split; [|exact H3]].
      + rewrite (prun_app es1 _ _ _ R1), (prun_app es2 _ _ _ R2). exact R3.
      + rewrite !sent_app, S1, S2, S3. reflexivity.
  Qed.
  Lemma pool_drains es s : prun M order workers max pstart es = Some s -> exists es' s',
    prun M order workers max s es' = Some s' /\ sent es' = [] /\
    forall i it, nth_error (sent es) i = Some it -> exists a, In (i, a) (p_answers s') /\ (a = Ok (own fq fd it) \/ a = Err).
  Proof using order_perm T NP W.
    intros H. assert (alive s) as A by (apply (prun_alive es pstart _ H); intros K; destruct K; reflexivity).
    assert (exists es1 s1, prun M order workers max s es1 = Some s1 /\ sent es1 = [] /\ open_requests s1 = []) as (es1 & s1 & R & S1 & O).
    { destruct (p_holder s) as [[v [|y b]]|] eqn:E.
      - destruct (finish_all _ s eq_refl) as (es1 & s1 & R1 & S1 & B1 & H1 & Q1).
        destruct (drain_all _ s1 eq_refl) as (es2 & s2 & R2 & S2 & O2).
        { apply (prun_alive es1 s); assumption. } { exact B1. } { right. exists v. congruence. }
        exists (es1 ++ es2), s2. split; [rewrite (prun_app es1 _ _ _ R1); exact R2|]. split; [rewrite sent_app, S1, S2; reflexivity|exact O2].
      - destruct (release_all s v y b E) as (es1 & s1 & R1 & S1 & B1 & H1 & Q1).
        destruct (drain_all _ s1 eq_refl) as (es2 & s2 & R2 & S2 & O2).
        { apply (prun_alive es1 s); assumption. } { exact B1. } { left. exact H1. }
        exists (es1 ++ es2), s2. split; [rewrite (prun_app es1 _ _ _ R1); exact R2|]. split; [rewrite sent_app, S1, S2; reflexivity|exact O2].
      - destruct (finish_all _ s eq_refl) as (es1 & s1 & R1 & S1 & B1 & H1 & Q1).
        destruct (drain_all _ s1 eq_refl) as (es2 & s2 & R2 & S2 & O2).
        { apply (prun_alive es1 s); assumption. } { exact B1. } { left. congruence. }
        exists (es1 ++ es2), s2. split; [rewrite (prun_app es1 _ _ _ R1); exact R2|]. split; [rewrite sent_app, S1, S2; reflexivity|exact O2]. }
    exists es1, s1. split; [exact R|]. split; [exact S1|]. intros i it K.
    assert (prun M order workers max pstart (es ++ es1) = Some s1) as R' by (rewrite (prun_app es _ _ _ H); exact R).
    pose proof (pool_inv _ _ R') as (_ & P & _ & _). rewrite O in P. cbn [map] in P. rewrite app_nil_r in P.
    rewrite sent_app, S1, app_nil_r in P.
    assert (In i (map fst (p_answers s1))) as I.
    { apply (Permutation_in _ (Permutation_sym P)). apply in_seq. split; [lia|]. apply nth_error_Some. congruence. }
    apply in_map_iff in I as ([j a] & Ej & I). cbn [fst] in Ej. subst j. exists a. split; [exact I|].
    destruct (pool_answers _ _ R') as [_ Q]. destruct (Q i a I) as (it' & K' & Q'). rewrite sent_app, S1, app_nil_r in K'. congruence.
  Qed.
End POOL.
