(** Proofs about fusion and filtered search. *)
From Verif Require Import Base FtsRank FtsRankSpec.
Open Scope nat_scope.

Section ISORT_ON.
  Context {T : Type} (leb : T -> T -> bool) (P : T -> Prop).
  Hypothesis total : forall x y, P x -> P y -> leb x y = true \/ leb y x = true.
  Hypothesis trans : forall x y z, P x -> P y -> P z -> leb x y = true -> leb y z = true -> leb x z = true.

  Lemma insert_sorted_on x l : P x -> Forall P l ->
    StronglySorted (fun a b => leb a b = true) l ->
    StronglySorted (fun a b => leb a b = true) (insert leb x l).
  Proof using total trans.
    intro Px. induction l as [|y ys IH]; simpl; intros Pl H.
    - constructor; constructor.
    - inversion H as [|? ? Hs Hf]; subst. inversion Pl as [|? ? Py Pys]; subst.
      destruct (leb x y) eqn:E.
      + constructor; [assumption|]. constructor; [assumption|].
        rewrite Forall_forall in Hf, Pys |- *; intros z Hz; eapply trans; [| | |exact E|]; auto.
      + constructor; [auto|].
        rewrite Forall_forall in Hf |- *; intros z Hz.
        apply (Permutation_in _ (insert_perm leb x ys)) in Hz.
        destruct Hz as [<-|Hz]; [|auto].
        destruct (total x y Px Py) as [W|W]; congruence.
  Qed.

  Lemma isort_sorted_on l : Forall P l -> StronglySorted (fun a b => leb a b = true) (isort leb l).
  Proof using total trans.
    induction l as [|x l IH]; simpl; intro Pl; [constructor|].
    inversion Pl; subst. apply insert_sorted_on; auto.
    rewrite Forall_forall in *. intros z Hz. apply isort_In in Hz. auto.
  Qed.
End ISORT_ON.

Lemma sorted_app_inv {T} (R : T -> T -> Prop) l1 l2 : StronglySorted R (l1 ++ l2) ->
  StronglySorted R l1 /\ StronglySorted R l2 /\ (forall x y, In x l1 -> In y l2 -> R x y).
Proof.
  induction l1 as [|a l1 IH]; cbn [app]; intro H.
  - split; [constructor|]. split; [exact H|]. intros x y [].
  - inversion H as [|? ? Hs Hf]; subst. destruct (IH Hs) as (A & B & D).
    rewrite Forall_app in Hf. destruct Hf as [Hf1 Hf2].
    split; [constructor; auto|]. split; [exact B|].
    intros x y [<-|Hx] Hy; [rewrite Forall_forall in Hf2; auto|auto].
Qed.

Lemma sorted_map {S' T} (R : T -> T -> Prop) (f : S' -> T) l :
  StronglySorted R (map f l) <-> StronglySorted (fun x y => R (f x) (f y)) l.
Proof.
  induction l as [|a l IH]; cbn [map]; split; intro H; try constructor;
    inversion H; subst; try (apply IH; assumption).
  - rewrite Forall_map in *. assumption.
  - rewrite Forall_map in *. assumption.
Qed.

Lemma nodup_app_l {T} (a b : list T) : NoDup (a ++ b) -> NoDup a.
Proof.
  induction a as [|x a IH]; cbn [app]; intro N; [constructor|].
  inversion N as [|? ? N1 N2]; subst. constructor; [|auto]. intro B. apply N1, in_or_app. auto.
Qed.

Section ORDER.
  Variable A : arith.
  Hypothesis GO : good_order A.
  Notation nb p := (is_number A (snd p)).
  Notation le p q := (not_above A (snd q) (snd p)).   (* p before q *)

  Lemma desc_le (x y : Z * num A) : nb x -> nb y -> desc A x y = true <-> le x y.
  Proof using GO.
    intros Hx Hy. unfold desc, not_above. split.
    - intro D. destruct (go_total A GO _ _ Hy Hx) as [T|[T|T]].
      + exact T.
      + apply (go_opp A GO) in T; [|assumption..]. rewrite T in D. discriminate.
      + apply (go_sym A GO) in T. auto.
    - intros [E|E]; rewrite E; reflexivity.
  Qed.

  Lemma isort_desc_sorted l : Forall (fun p => nb p) l -> StronglySorted (fun x y => le x y) (isort (desc A) l).
  Proof using GO.
    intro N.
    assert (NS : Forall (fun p : Z * num A => nb p) (isort (desc A) l)).
    { rewrite Forall_forall in *. intros z Hz. apply isort_In in Hz. auto. }
    assert (SS : StronglySorted (fun x y => desc A x y = true) (isort (desc A) l)).
    { apply (isort_sorted_on (desc A) (fun p => nb p)); [| |exact N].
      - intros x y Hx Hy. destruct (go_total A GO _ _ Hy Hx) as [T|T];
          [left|right]; apply desc_le; auto.
      - intros x y z Hx Hy Hz H1 H2. apply desc_le in H1; [|assumption..]. apply desc_le in H2; [|assumption..].
        apply desc_le; [assumption..|]. eapply (go_trans A GO); [..|exact H2|exact H1]; assumption. }
    clear N. induction SS as [|a s SS IH Hf]; constructor.
    - inversion NS; auto.
    - inversion NS as [|? ? Ha Hs]; subst. rewrite Forall_forall in *. intros z Hz. apply desc_le; auto.
  Qed.

  Lemma top_firstn k cand l : Permutation l cand -> StronglySorted (fun x y => le x y) l -> top_of A k cand (firstn k l).
  Proof using.
    intros P Srt. exists (skipn k l). rewrite firstn_skipn.
    split; [symmetry; exact P|].
    split; [rewrite firstn_length, (Permutation_length P); reflexivity|].
    rewrite <- (firstn_skipn k l) in Srt. apply sorted_app_inv in Srt.
    destruct Srt as (S1 & _ & S3). auto.
  Qed.

  (** *** hash-map accumulation *)
  Definition of_id (id : Z) (ts : list (Z * num A)) : list (num A) :=
    map snd (filter (fun p => (fst p =? id)%Z) ts).
  Definition acc_inv (m ts : list (Z * num A)) : Prop :=
    NoDup (map fst m) /\ (forall id, In id (map fst m) <-> In id (map fst ts))
    /\ forall id x, In (id, x) m -> x = sum A (of_id id ts).

  Lemma of_id_app id a b : of_id id (a ++ b) = of_id id a ++ of_id id b.
  Proof using. unfold of_id. rewrite filter_app, map_app. reflexivity. Qed.
  Lemma sum_snoc l x : sum A (l ++ [x]) = f_add A (sum A l) x.
  Proof using. unfold sum. rewrite fold_left_app. reflexivity. Qed.

  Lemma bump_keys m c id : In id (map fst (bump A m c)) <-> In id (map fst m) \/ id = fst c.
  Proof using.
    induction m as [|p m IH]; cbn [bump map In fst].
    - intuition.
    - destruct (fst p =? fst c)%Z eqn:E; cbn [map In fst].
      + apply Z.eqb_eq in E. rewrite E. intuition.
      + rewrite IH. intuition.
  Qed.
  Lemma bump_nodup m c : NoDup (map fst m) -> NoDup (map fst (bump A m c)).
  Proof using.
    induction m as [|p m IH]; cbn [bump map fst]; intro N.
    - constructor; [intros []|constructor].
    - inversion N as [|? ? Np Nm]; subst. destruct (fst p =? fst c)%Z eqn:E; cbn [map fst].
      + constructor; assumption.
      + apply Z.eqb_neq in E. constructor; [|auto]. rewrite bump_keys. intuition.
  Qed.
  Lemma bump_value m c id x : NoDup (map fst m) -> In (id, x) (bump A m c) ->
    (id <> fst c /\ In (id, x) m)
    \/ (id = fst c /\ ((exists y, In (id, y) m /\ x = f_add A y (snd c)) \/ (~ In id (map fst m) /\ x = f_add A (f_0 A) (snd c)))).
  Proof using.
    induction m as [|p m IH]; cbn [bump map fst]; intros N H.
    - destruct H as [E|[]]. inversion E; subst. right. split; [reflexivity|]. right. split; [intros []|reflexivity].
    - inversion N as [|? ? Np Nm]; subst. destruct (fst p =? fst c)%Z eqn:E.
      + apply Z.eqb_eq in E. destruct H as [H|H].
        * inversion H; subst. right. split; [exact E|]. left. exists (snd p). split; [left; destruct p; reflexivity|reflexivity].
        * left. split; [|right; exact H]. intro B. apply Np. rewrite E, <- B. apply (in_map fst _ _ H).
      + apply Z.eqb_neq in E. destruct H as [H|H].
        * subst p. left. split; [exact E|left; reflexivity].
        * destruct (IH Nm H) as [[B1 B2]|[B1 [(y & B2 & B3)|[B2 B3]]]].
          -- left. split; [exact B1|right; exact B2].
          -- right. split; [exact B1|]. left. exists y. split; [right; exact B2|exact B3].
          -- right. split; [exact B1|]. right. split; [|exact B3]. cbn [map In fst]. intros [B|B]; [congruence|auto].
  Qed.
  Lemma of_id_none id ts : ~ In id (map fst ts) -> of_id id ts = [].
  Proof using.
    unfold of_id. induction ts as [|p ts IH]; cbn [filter map In fst]; intro H; [reflexivity|].
    destruct (fst p =? id)%Z eqn:E; [apply Z.eqb_eq in E; intuition|auto].
  Qed.
  Lemma bump_inv m ts c : acc_inv m ts -> acc_inv (bump A m c) (ts ++ [c]).
  Proof using.
    intros (N & K & V). split; [|split].
    - apply bump_nodup; assumption.
    - intro id. rewrite bump_keys, map_app, in_app_iff, K. cbn [map In]. intuition.
    - intros id x H. rewrite of_id_app. apply bump_value in H; [|assumption].
      destruct H as [[B1 B2]|[B1 B2]].
      + unfold of_id at 2. cbn [filter map]. destruct (fst c =? id)%Z eqn:E; [apply Z.eqb_eq in E; congruence|].
        cbn [map]. rewrite app_nil_r. auto.
      + subst id. unfold of_id at 2. cbn [filter map]. rewrite Z.eqb_refl. cbn [map]. rewrite sum_snoc.
        destruct B2 as [(y & B2 & B3)|[B2 B3]].
        * rewrite B3, (V _ _ B2). reflexivity.
        * rewrite K in B2. rewrite of_id_none by assumption. exact B3.
  Qed.
  Lemma accumulate_inv ts : acc_inv (fold_left (bump A) ts []) ts.
  Proof using.
    assert (G : forall ts m0 t0, acc_inv m0 t0 -> acc_inv (fold_left (bump A) ts m0) (t0 ++ ts)).
    { clear ts. induction ts as [|c ts IH]; cbn [fold_left]; intros m0 t0 H; [rewrite app_nil_r; exact H|].
      replace (t0 ++ c :: ts) with ((t0 ++ [c]) ++ ts) by (rewrite <- app_assoc; reflexivity).
      apply IH, bump_inv, H. }
    apply (G ts [] []). split; [constructor|]. split; [reflexivity|intros id x []].
  Qed.

  Lemma nodup_same_length (l l' : list Z) : NoDup l' -> (forall z, In z l' <-> In z l) -> length l' = length (nodup Z.eq_dec l).
  Proof using.
    intros N H. apply Permutation_length. apply NoDup_Permutation; [exact N|apply NoDup_nodup|].
    intro z. rewrite nodup_In. apply H.
  Qed.

  Section RANKED.
    Variable iter : list (Z * num A) -> list (Z * num A).
    Hypothesis IT : forall l, Permutation (iter l) l.
    Variable ts : list (Z * num A).
    Variable k : nat.
    Let m := fold_left (bump A) ts [].
    Let score id := sum A (of_id id ts).

    Lemma ranked_selects : selects A k (map fst ts) score (fst (ranked A iter m k)) (snd (ranked A iter m k)).
    Proof using IT.
      destruct (accumulate_inv ts) as (N & K & V). fold m in N, K, V.
      pose proof (Permutation_trans (isort_perm (desc A) (iter m)) (IT m)) as P.
      assert (NL : NoDup (map fst (isort (desc A) (iter m)))).
      { eapply Permutation_NoDup; [apply Permutation_map; symmetry; exact P|exact N]. }
      unfold ranked. cbn [fst snd]. split.
      - rewrite <- firstn_map. rewrite <- (firstn_skipn k (map fst _)) in NL. apply nodup_app_l in NL. exact NL.
      - intros z Hz. apply K. eapply Permutation_in; [apply Permutation_map, P|].
        rewrite <- firstn_map in Hz. rewrite <- (firstn_skipn k (map fst _)), in_app_iff. auto.
      - rewrite map_length, firstn_length. f_equal. rewrite (Permutation_length P), <- (map_length fst).
        apply nodup_same_length; [exact N|exact K].
      - rewrite map_map. apply map_ext_in. intros [id x] Hx. cbn [fst snd].
        apply V. eapply Permutation_in; [exact P|]. rewrite <- (firstn_skipn k (isort _ _)), in_app_iff. auto.
    Qed.

    Lemma ranked_best : (forall id, In id (map fst ts) -> is_number A (score id)) ->
      best_by A k (map fst ts) score (fst (ranked A iter m k)) (snd (ranked A iter m k)).
    Proof using IT GO.
      intro NB. pose proof ranked_selects as SE.
      destruct (accumulate_inv ts) as (N & K & V). fold m in N, K, V.
      pose proof (Permutation_trans (isort_perm (desc A) (iter m)) (IT m)) as P.
      assert (NM : Forall (fun p : Z * num A => nb p) (iter m)).
      { rewrite Forall_forall. intros [id x] Hx. cbn [snd]. apply (Permutation_in _ (IT m)) in Hx.
        rewrite (V _ _ Hx). apply NB. apply K. apply (in_map fst _ _ Hx). }
      pose proof (top_firstn k m _ P (isort_desc_sorted _ NM)) as (rest & T1 & T2 & T3 & T4).
      split; [exact SE| |].
      - unfold ranked. cbn [snd]. apply sorted_map. exact T3.
      - unfold ranked. cbn [fst]. intros i j Hi Hj Nj. apply in_map_iff in Hi. destruct Hi as ([i' x] & Ei & Hi).
        cbn [fst] in Ei. subst i'. apply K in Hj. apply in_map_iff in Hj. destruct Hj as ([j' y] & Ej & Hj).
        cbn [fst] in Ej. subst j'. pose proof (V _ _ Hj) as Vj.
        assert (Hi' : In (i, x) m) by (eapply Permutation_in; [symmetry; exact T1|apply in_or_app; auto]).
        pose proof (V _ _ Hi') as Vi. fold (score i) in Vi. fold (score j) in Vj. rewrite <- Vi, <- Vj.
        apply (Permutation_in _ T1) in Hj. apply in_app_or in Hj. destruct Hj as [Hj|Hj].
        + exfalso. apply Nj. apply (in_map fst _ _ Hj).
        + exact (T4 _ _ Hi Hj).
    Qed.
  End RANKED.
End ORDER.
