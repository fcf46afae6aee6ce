(** One result per file; where the results come from. *)
From Verif Require Import Base Text FtsRank FtsRankSpec FtsRankProofs FtsRankOps FtsText Results ResultsSpec.
Open Scope nat_scope.

Section COLLAPSE.
  Variable A : arith.
  Hypothesis GO : good_order A.
  Notation hit := (hit A).
  Notation file_of := (file_of A).
  Notation score_of := (score_of A).

  Lemma same_file_iff (a b : hit) : same_file A a b = true <-> file_of a = file_of b.
  Proof using. apply text_eqb_eq. Qed.
  Lemma same_file_false (a b : hit) : same_file A a b = false <-> file_of a <> file_of b.
  Proof using. apply text_eqb_neq. Qed.
  Lemma merge_into_some out r out' : merge_into A out r = Some out' ->
    exists a h b, out = a ++ h :: b /\ file_of h = file_of r /\ out' = a ++ merge_lines A h r :: b.
  Proof using.
    revert out'. induction out as [|h out IH]; intros out' H; cbn [merge_into] in H; [discriminate|].
    destruct (same_file A h r) eqn:E.
    - injection H as <-. exists [], h, out. split; [reflexivity|]. split; [apply same_file_iff; exact E|reflexivity].
    - destruct (merge_into A out r) as [o|] eqn:M; [|discriminate]. injection H as <-.
      destruct (IH o eq_refl) as (a & h' & b & -> & F & ->). exists (h :: a), h', b. split; [reflexivity|]. split; [exact F|reflexivity].
  Qed.
  Lemma merge_into_none out r : merge_into A out r = None -> ~ In (file_of r) (map file_of out).
  Proof using.
    induction out as [|h out IH]; intros H; cbn [merge_into] in H; [intros []|].
    destruct (same_file A h r) eqn:E; [discriminate|]. destruct (merge_into A out r); [discriminate|].
    apply same_file_false in E. intros [K|K]; [congruence|]. apply IH; [reflexivity|exact K].
  Qed.
  Definition nfiles (l : list hit) := length (nodup text_dec (map file_of l)).
  Lemma nfiles_seen l r : In (file_of r) (map file_of l) -> nfiles (l ++ [r]) = nfiles l.
  Proof using.
    intro H. unfold nfiles. rewrite map_app. cbn [map]. apply Permutation_length, NoDup_Permutation; try apply NoDup_nodup.
    intro x. rewrite !nodup_In, in_app_iff. cbn [In]. intuition (subst; auto).
  Qed.
  Lemma nfiles_new l r : ~ In (file_of r) (map file_of l) -> nfiles (l ++ [r]) = Datatypes.S (nfiles l).
  Proof using.
    intro H. unfold nfiles. rewrite map_app. cbn [map].
    change (Datatypes.S (length (nodup text_dec (map file_of l)))) with (length (file_of r :: nodup text_dec (map file_of l))).
    apply Permutation_length, NoDup_Permutation.
    - apply NoDup_nodup.
    - constructor; [rewrite nodup_In; exact H|apply NoDup_nodup].
    - intro x. cbn [In]. rewrite !nodup_In, in_app_iff. cbn [In]. tauto.
  Qed.
  Lemma nfiles_le l r : nfiles l <= nfiles (l ++ [r]).
  Proof using. destruct (in_dec text_dec (file_of r) (map file_of l)); [rewrite nfiles_seen by assumption|rewrite nfiles_new by assumption]; lia. Qed.

  Notation le x y := (not_above A (score_of x) (score_of y)).
  (** The same without the order of the results. *)
  Record inv (k : nat) (pool out : list hit) : Prop := {
    iv_count : length out = Nat.min k (nfiles pool);
    iv_distinct : NoDup (map file_of out);
    iv_shown : forall h, In h out -> spans A pool h /\ exists b, In b pool /\ shows A h b
      /\ forall c, In c pool -> file_of c = file_of b -> le c b;
    iv_best : forall h c, In h out -> In c pool -> ~ In (file_of c) (map file_of out) -> le c h;
    iv_sorted : StronglySorted (fun x y => le y x) out }.
  Lemma inv_files k pool out : inv k pool out -> incl (map file_of out) (map file_of pool).
  Proof using.
    intros I f H. apply in_map_iff in H. destruct H as (h & <- & H). destruct (iv_shown _ _ _ I h H) as (_ & b & Hb & (S1 & _) & _).
    rewrite S1. apply in_map. exact Hb.
  Qed.
  Lemma inv_complete k pool out : inv k pool out -> length out < k -> incl (map file_of pool) (map file_of out).
  Proof using.
    intros I L. pose proof (iv_count _ _ _ I) as K. intros f H.
    apply (NoDup_length_incl (l := map file_of out) (l' := nodup text_dec (map file_of pool))).
    - apply iv_distinct with (1 := I).
    - rewrite map_length. unfold nfiles in K. lia.
    - intros g Hg. apply nodup_In. apply (inv_files _ _ _ I). exact Hg.
    - apply nodup_In. exact H.
  Qed.
  Lemma spans_other pool h r : file_of r <> file_of h -> spans A pool h -> spans A (pool ++ [r]) h.
  Proof using.
    intros D ((b1 & B1 & B2 & B3) & (b2 & C1 & C2 & C3) & Q). split; [|split].
    - exists b1. split; [apply in_or_app; auto|auto].
    - exists b2. split; [apply in_or_app; auto|auto].
    - intros b Hb E. apply in_app_iff in Hb. destruct Hb as [Hb|[<-|[]]]; [auto|contradiction].
  Qed.
  Lemma spans_merge pool h r : file_of r = file_of h -> spans A pool h -> spans A (pool ++ [r]) (merge_lines A h r).
  Proof using.
    intros E ((b1 & B1 & B2 & B3) & (b2 & C1 & C2 & C3) & Q). split; [|split].
    - destruct (Nat.le_ge_cases (u_line (h_unit A h)) (u_line (h_unit A r))) as [L|L].
      + exists b1. split; [apply in_or_app; auto|]. split; [exact B2|]. cbn. lia.
      + exists r. split; [apply in_or_app; right; left; reflexivity|]. split; [exact E|]. cbn. lia.
    - destruct (Nat.le_ge_cases (u_end (h_unit A r)) (u_end (h_unit A h))) as [L|L].
      + exists b2. split; [apply in_or_app; auto|]. split; [exact C2|]. cbn. lia.
      + exists r. split; [apply in_or_app; right; left; reflexivity|]. split; [exact E|]. cbn. lia.
    - intros b Hb E'. change (file_of (merge_lines A h r)) with (file_of h) in E'. cbn.
      apply in_app_iff in Hb. destruct Hb as [Hb|[<-|[]]]; [specialize (Q b Hb E')|]; lia.
  Qed.
  Lemma sorted_replace a (h h' : hit) b : score_of h' = score_of h ->
    StronglySorted (fun x y => le y x) (a ++ h :: b) -> StronglySorted (fun x y => le y x) (a ++ h' :: b).
  Proof using.
    intros E. induction a as [|x a IH]; cbn [app]; intro H; inversion H as [|? ? H1 H2]; subst.
    - constructor; [exact H1|]. rewrite Forall_forall in *. intros y Hy. rewrite E. apply H2. exact Hy.
    - constructor; [apply IH; exact H1|]. rewrite Forall_forall in *. intros y Hy. apply in_app_iff in Hy. destruct Hy as [Hy|[<-|Hy]].
      + apply H2. apply in_or_app. auto.
      + rewrite E. apply H2. apply in_or_app. right. left. reflexivity.
      + apply H2. apply in_or_app. right. right. exact Hy.
  Qed.
  Lemma sorted_snoc (l : list hit) r : StronglySorted (fun x y => le y x) l -> (forall h, In h l -> le r h) -> StronglySorted (fun x y => le y x) (l ++ [r]).
  Proof using.
    induction l as [|x l IH]; intros H K; cbn [app]; [constructor; [constructor|constructor]|].
    inversion H as [|? ? H1 H2]; subst. constructor.
    - apply IH; [exact H1|]. intros h Hh. apply K. right. exact Hh.
    - rewrite Forall_forall in *. intros y Hy. apply in_app_iff in Hy. destruct Hy as [Hy|[<-|[]]]; [auto|]. apply K. left. reflexivity.
  Qed.
  Lemma shown_score h b : shows A h b -> score_of h = score_of b.
  Proof using. intros (_ & _ & _ & _ & _ & E). exact E. Qed.
  Lemma inv_step k pool out r : inv k pool out -> is_number A (score_of r) -> (forall c, In c pool -> le r c) ->
    inv k (pool ++ [r]) (match merge_into A out r with Some o => o | None => if k <=? length out then out else out ++ [r] end).
  Proof using.
    intros I NR LE. pose proof (iv_count _ _ _ I) as K.
    assert (LO : forall h, In h out -> le r h).
    { intros h H. destruct (iv_shown _ _ _ I h H) as (_ & b & Hb & Sh & _). rewrite (shown_score _ _ Sh). apply LE. exact Hb. }
    destruct (merge_into A out r) as [out'|] eqn:M.
    - apply merge_into_some in M. destruct M as (a & h0 & b & Eo & E & Eo').
      assert (F : map file_of out' = map file_of out) by (subst out out'; rewrite !map_app; reflexivity).
      assert (Hin : In (file_of r) (map file_of out)) by (subst out; rewrite map_app; apply in_or_app; right; left; exact E).
      assert (Hp : In (file_of r) (map file_of pool)) by (apply (inv_files _ _ _ I); exact Hin).
      assert (Q : forall h, In h out' -> exists h1, In h1 out /\ score_of h = score_of h1 /\ file_of h = file_of h1
                /\ ((h = h1 /\ (file_of h <> file_of r)) \/ (h = merge_lines A h1 r /\ file_of h1 = file_of r))).
      { intros h H. pose proof (iv_distinct _ _ _ I) as ND. subst out out'. rewrite map_app in ND. cbn [map] in ND.
        apply NoDup_remove_2 in ND. apply in_app_iff in H. destruct H as [H|[<-|H]].
        - exists h. split; [apply in_or_app; auto|]. split; [reflexivity|]. split; [reflexivity|]. left. split; [reflexivity|].
          intro X. apply ND. rewrite E, <- X. apply in_or_app. left. apply in_map. exact H.
        - exists h0. split; [apply in_or_app; right; left; reflexivity|]. split; [reflexivity|]. split; [reflexivity|]. right. auto.
        - exists h. split; [apply in_or_app; right; right; exact H|]. split; [reflexivity|]. split; [reflexivity|]. left. split; [reflexivity|].
          intro X. apply ND. rewrite E, <- X. apply in_or_app. right. apply in_map. exact H. }
      split.
      + subst out'. rewrite nfiles_seen by exact Hp. rewrite <- K, Eo, !app_length. reflexivity.
      + rewrite F. apply iv_distinct with (1 := I).
      + intros h H. destruct (Q h H) as (h1 & H1 & SC & FL & D). destruct (iv_shown _ _ _ I h1 H1) as (SP & c & Hc & Sh & Bst).
        assert (Bst' : forall d, In d (pool ++ [r]) -> file_of d = file_of c -> le d c).
        { intros d Hd Ed. apply in_app_iff in Hd. destruct Hd as [Hd|[<-|[]]]; [apply Bst; assumption|apply LE; exact Hc]. }
        destruct D as [(-> & D)|(-> & D)].
        * split; [apply spans_other; [congruence|exact SP]|]. exists c. split; [apply in_or_app; auto|]. split; [exact Sh|exact Bst'].
        * split; [apply spans_merge; [congruence|exact SP]|]. exists c. split; [apply in_or_app; auto|]. split; [exact Sh|exact Bst'].
      + intros h c Hh Hc NI. rewrite F in NI. destruct (Q h Hh) as (h1 & H1 & SC & _). rewrite SC.
        apply in_app_iff in Hc. destruct Hc as [Hc|[<-|[]]]; [apply (iv_best _ _ _ I); assumption|contradiction].
      + subst out'. apply sorted_replace with (h := h0); [reflexivity|]. rewrite <- Eo. apply iv_sorted with (1 := I).
    - apply merge_into_none in M. destruct (k <=? length out) eqn:L; [apply Nat.leb_le in L|apply Nat.leb_gt in L].
      + split.
        * pose proof (nfiles_le pool r). lia.
        * apply iv_distinct with (1 := I).
        * intros h H. destruct (iv_shown _ _ _ I h H) as (SP & c & Hc & Sh & Bst).
          assert (D : file_of r <> file_of h) by (intro X; apply M; rewrite X; apply in_map; exact H).
          split; [apply spans_other; assumption|]. exists c. split; [apply in_or_app; auto|]. split; [exact Sh|].
          intros d Hd Ed. apply in_app_iff in Hd. destruct Hd as [Hd|[<-|[]]]; [apply Bst; assumption|]. apply LE. exact Hc.
        * intros h c Hh Hc NI. apply in_app_iff in Hc. destruct Hc as [Hc|[<-|[]]]; [apply (iv_best _ _ _ I); assumption|]. apply LO. exact Hh.
        * apply iv_sorted with (1 := I).
      + assert (NP : ~ In (file_of r) (map file_of pool)) by (intro X; apply M; apply (inv_complete _ _ _ I L); exact X).
        split.
        * rewrite nfiles_new by exact NP. rewrite app_length. cbn [length]. lia.
        * rewrite map_app. cbn [map].
          eapply Permutation_NoDup; [apply Permutation_cons_append|]. constructor; [exact M|apply iv_distinct with (1 := I)].
        * intros h H. apply in_app_iff in H. destruct H as [H|[<-|[]]].
          -- destruct (iv_shown _ _ _ I h H) as (SP & c & Hc & Sh & Bst).
             assert (D : file_of r <> file_of h) by (intro X; apply M; rewrite X; apply in_map; exact H).
             split; [apply spans_other; assumption|]. exists c. split; [apply in_or_app; auto|]. split; [exact Sh|].
             intros d Hd Ed. apply in_app_iff in Hd. destruct Hd as [Hd|[<-|[]]]; [apply Bst; assumption|]. apply LE. exact Hc.
          -- assert (Hr : In r (pool ++ [r])) by (apply in_or_app; right; left; reflexivity).
             assert (Only : forall d, In d (pool ++ [r]) -> file_of d = file_of r -> d = r).
             { intros d Hd Ed. apply in_app_iff in Hd. destruct Hd as [Hd|[<-|[]]]; [|reflexivity]. exfalso. apply NP. rewrite <- Ed. apply in_map. exact Hd. }
             split.
             ++ split; [exists r; auto|]. split; [exists r; auto|]. intros d Hd Ed. rewrite (Only d Hd Ed). lia.
             ++ exists r. split; [exact Hr|]. split; [repeat split|]. intros d Hd Ed. rewrite (Only d Hd Ed). right. exact NR.
        * intros h c Hh Hc NI. exfalso. apply NI. rewrite map_app. apply in_or_app.
          apply in_app_iff in Hc. destruct Hc as [Hc|[<-|[]]]; [left; apply (inv_complete _ _ _ I L); apply in_map; exact Hc|right; left; reflexivity].
        * apply sorted_snoc; [apply iv_sorted with (1 := I)|exact LO].
  Qed.
  Lemma collapse_inv l k : forall pool out, inv k pool out ->
    Forall (fun h => is_number A (score_of h)) l -> StronglySorted (fun x y => le y x) l ->
    (forall c h, In c pool -> In h l -> le h c) -> inv k (pool ++ l) (collapse_from A out l k).
  Proof using.
    induction l as [|r l IH]; intros pool out I NB SS C; cbn [collapse_from]; [rewrite app_nil_r; exact I|].
    inversion NB as [|? ? N1 N2]; subst. inversion SS as [|? ? S1 S2]; subst.
    assert (C' : forall c, In c pool -> le r c) by (intros c Hc; apply C; [exact Hc|left; reflexivity]).
    pose proof (inv_step k pool out r I N1 C') as I'.
    replace (pool ++ r :: l) with ((pool ++ [r]) ++ l) by (rewrite <- app_assoc; reflexivity).
    assert (C2 : forall c h, In c (pool ++ [r]) -> In h l -> le h c).
    { intros c h Hc Hh. apply in_app_iff in Hc. destruct Hc as [Hc|[<-|[]]]; [apply C; [exact Hc|right; exact Hh]|].
      rewrite Forall_forall in S2. apply S2. exact Hh. }
    destruct (merge_into A out r); [apply IH; assumption|]. destruct (k <=? length out); apply IH; assumption.
  Qed.
  Lemma inv_empty k : inv k [] [].
  Proof using. split; [cbn; lia|constructor|intros h []|intros h c []|constructor]. Qed.
  Lemma best_of_inv k pool out : inv k pool out -> best_files A k pool out.
  Proof using. intro I. split; apply I. Qed.
  Lemma inv_perm k pool pool' out : Permutation pool pool' -> inv k pool out -> inv k pool' out.
  Proof using.
    intros P I. assert (IN : forall x, In x pool <-> In x pool') by (intro x; split; apply Permutation_in; [exact P|symmetry; exact P]).
    split.
    - rewrite (iv_count _ _ _ I). f_equal. unfold nfiles. apply Permutation_length, NoDup_Permutation; try apply NoDup_nodup.
      intro f. rewrite !nodup_In. split; apply Permutation_in, Permutation_map; [exact P|symmetry; exact P].
    - apply I.
    - intros h H. destruct (iv_shown _ _ _ I h H) as (((b1 & B1 & B2) & (b2 & C1 & C2) & Q) & b & Hb & Sh & Bst). split.
      + split; [exists b1; split; [apply IN; exact B1|exact B2]|]. split; [exists b2; split; [apply IN; exact C1|exact C2]|].
        intros c Hc. apply Q. apply IN. exact Hc.
      + exists b. split; [apply IN; exact Hb|]. split; [exact Sh|]. intros c Hc. apply Bst. apply IN. exact Hc.
    - intros h c Hh Hc. apply (iv_best _ _ _ I); [exact Hh|apply IN; exact Hc].
    - apply I.
  Qed.
  Lemma by_score_le (x y : hit) : is_number A (score_of x) -> is_number A (score_of y) -> by_score A x y = true <-> le y x.
  Proof using GO.
    intros Nx Ny. unfold by_score. change (h_score A y) with (score_of y). change (h_score A x) with (score_of x).
    destruct (go_total A GO _ _ Ny Nx) as [H|H]; unfold not_above in *.
    - destruct H as [H|H]; rewrite H; split; auto.
    - destruct H as [H|H].
      + assert (G : f_cmp A (score_of y) (score_of x) = Some Gt) by (apply (go_opp A GO); auto). rewrite G. split; [discriminate|intros [X|X]; discriminate].
      + apply (go_sym A GO) in H. rewrite H. split; auto.
  Qed.
  Lemma sorted_by_score l : Forall (fun h => is_number A (score_of h)) l -> StronglySorted (fun x y => le y x) (isort (by_score A) l).
  Proof using GO.
    intro NB. assert (S0 : StronglySorted (fun a b => by_score A a b = true) (isort (by_score A) l)).
    { apply isort_sorted_on with (P := fun h => is_number A (score_of h)); [| |exact NB].
      - intros x y Nx Ny. rewrite !by_score_le by assumption. apply (go_total A GO); assumption.
      - intros x y z Nx Ny Nz. rewrite !by_score_le by assumption. intros H1 H2. apply (go_trans A GO) with (score_of y); assumption. }
    assert (NB' : Forall (fun h => is_number A (score_of h)) (isort (by_score A) l)).
    { eapply Permutation_Forall; [symmetry; apply isort_perm|exact NB]. }
    clear NB. induction S0 as [|x l' S1 IH H]; [constructor|]. inversion NB' as [|? ? N1 N2]; subst. constructor; [apply IH; exact N2|].
    rewrite Forall_forall in *. intros y Hy. apply by_score_le; [exact N1|apply N2; exact Hy|apply H; exact Hy].
  Qed.
  Theorem collapse_best k pool : Forall (fun h => is_number A (score_of h)) pool ->
    best_files A k pool (collapse_by_file A (isort (by_score A) pool) k).
  Proof using GO.
    intro NB. apply best_of_inv. apply inv_perm with (pool := isort (by_score A) pool); [apply isort_perm|].
    unfold collapse_by_file. apply (collapse_inv _ k [] []); [apply inv_empty| | |intros c h []].
    - eapply Permutation_Forall; [symmetry; apply isort_perm|exact NB].
    - apply sorted_by_score. exact NB.
  Qed.
End COLLAPSE.

(** ** The pool of candidates *)
Section POOL.
  Variable A : arith.
  Notation F := (num A).
  Variable T : tuning A.
  Variable B : backend A.
  Variable iter : list (Z * F) -> list (Z * F).
  Hypothesis GB : good_backend A B.
  Hypothesis IT : forall l, Permutation (iter l) l.

  Lemma zmem_in i l : existsb (Z.eqb i) l = true <-> In i l.
  Proof using.
    rewrite existsb_exists. split.
    - intros (x & Hx & E). apply Z.eqb_eq in E. subst. exact Hx.
    - intro H. exists i. split; [exact H|apply Z.eqb_refl].
  Qed.
  Lemma zmem_out i l : existsb (Z.eqb i) l = false <-> ~ In i l.
  Proof using. rewrite <- zmem_in. destruct (existsb (Z.eqb i) l); split; congruence. Qed.
  Lemma fused_ids si ss ki ks alpha k : length si = length ss -> length ki = length ks ->
    let r := fuse_relative_score A iter si ss ki ks alpha k in
    NoDup (fst r) /\ length (fst r) = length (snd r) /\ length (fst r) <= k /\ incl (fst r) (si ++ ki).
  Proof using IT.
    intros L1 L2 r. unfold r, fuse_relative_score.
    destruct (ranked_selects A iter IT (weighted A alpha (min_max_normalize A si ss) ++ weighted A (f_sub A (f_1 A) alpha) (min_max_normalize A ki ks)) k) as [S1 S2 S3 S4].
    split; [exact S1|]. split; [rewrite S4, map_length; reflexivity|]. split; [rewrite S3; lia|].
    assert (MM : forall l s, length l = length s -> map fst (min_max_normalize A l s) = l).
    { intros l s L. unfold min_max_normalize. destruct s as [|x s]; [destruct l; [reflexivity|discriminate]|].
      destruct (f_cmp A _ _) as [[]|]; rewrite ?map_map; cbn [fst]; try (rewrite map_id; reflexivity); apply map_fst_combine; exact L. }
    intros i Hi. apply S2 in Hi. rewrite map_app in Hi. unfold weighted in Hi. rewrite !map_map in Hi. cbn [fst] in Hi.
    fold (map fst (min_max_normalize A si ss)) in Hi. rewrite !(MM _ _) in Hi by assumption. exact Hi.
  Qed.
  Lemma fused_count si ss ki ks alpha k : length si = length ss -> length ki = length ks ->
    length (fst (fuse_relative_score A iter si ss ki ks alpha k)) = Nat.min k (length (nodup Z.eq_dec (si ++ ki))).
  Proof using IT.
    intros L1 L2. unfold fuse_relative_score.
    destruct (ranked_selects A iter IT (weighted A alpha (min_max_normalize A si ss) ++ weighted A (f_sub A (f_1 A) alpha) (min_max_normalize A ki ks)) k) as [_ _ S3 _].
    rewrite S3. do 3 f_equal.
    assert (MM : forall l s, length l = length s -> map fst (min_max_normalize A l s) = l).
    { intros l s L. unfold min_max_normalize. destruct s as [|x s]; [destruct l; [reflexivity|discriminate]|].
      destruct (f_cmp A _ _) as [[]|]; rewrite ?map_map; cbn [fst]; try (rewrite map_id; reflexivity); apply map_fst_combine; exact L. }
    rewrite map_app. unfold weighted. rewrite !map_map. cbn [fst]. f_equal; apply MM; assumption.
  Qed.
  (** A text search handed over: as many scores as ids, ids once. *)
  Definition good_cached (cached : option (list Z * list F)) : Prop :=
    match cached with Some r => length (fst r) = length (snd r) /\ NoDup (fst r) | None => True end.
  Lemma combine_filter_ids (f : Z -> bool) ids (scores : list F) : NoDup ids ->
    let l := filter (fun p => f (fst p)) (combine ids scores) in NoDup (map fst l) /\ forall i, In i (map fst l) -> In i ids /\ f i = true.
  Proof using.
    intros N l. unfold l. clear l. revert scores. induction N as [|i ids Hi N IH]; intro scores; [split; [constructor|intros x []]|].
    destruct scores as [|s scores]; [split; [constructor|intros x []]|]. cbn [combine filter fst].
    destruct (IH scores) as (I1 & I2). destruct (f i) eqn:E; cbn [map fst].
    - split.
      + constructor; [|exact I1]. intro H. apply Hi. apply (I2 i H).
      + intros x [<-|H]; [split; [left; reflexivity|exact E]|]. destruct (I2 x H). split; [right; assumption|assumption].
    - split; [exact I1|]. intros x H. destruct (I2 x H). split; [right; assumption|assumption].
  Qed.
  Lemma keyword_ok q k sub cached r : good_cached cached -> keyword_side A B q k sub cached = Ok (Some r) ->
    length (fst r) = length (snd r) /\ NoDup (fst r) /\ (forall i, In i (fst r) -> in_subset sub i)
    /\ forall i, In i (fst r) -> match cached with
       | Some c => In i (fst c) /\ in_subset sub i
       | None => exists r, b_keyword A B (sanitize_fts5_query_or q) k sub = Ok r /\ In i (fst r)
       end.
  Proof using GB.
    intros GC H. unfold keyword_side in H. destruct cached as [[ids scores]|].
    - destruct GC as (G1 & G2). cbn [fst snd] in G1, G2. injection H as <-. destruct sub as [s|]; cbn [fst snd].
      + destruct (combine_filter_ids (fun i => existsb (Z.eqb i) s) ids scores G2) as (C1 & C2).
        split; [rewrite !map_length; reflexivity|]. split; [exact C1|].
        assert (Q : forall i, In i (map fst (filter (fun p => existsb (Z.eqb (fst p)) s) (combine ids scores))) -> In i ids /\ In i s).
        { intros i Hi. destruct (C2 i Hi) as (D1 & D2). apply zmem_in in D2. auto. }
        split; [intros i Hi; apply (Q i Hi)|exact Q].
      + split; [exact G1|]. split; [exact G2|]. split; [intros i _; exact Logic.I|]. intros i Hi. split; [exact Hi|exact Logic.I].
    - unfold fts5_search in H.
      assert (K : exists r0, b_keyword A B (sanitize_fts5_query_or q) k sub = Ok r0 /\ r = r0).
      { destruct (sanitize_fts5_query_or q) as [|c t]; [discriminate|].
        destruct (b_keyword A B (c :: t) k sub) as [[ids scores]| |] eqn:EB; cbn [bind] in H; try discriminate.
        exists (ids, scores). split; [reflexivity|]. destruct ids; [discriminate|]. injection H as <-. reflexivity. }
      destruct K as (r0 & E0 & ->). destruct (gb_keyword A B GB _ _ _ _ E0) as (G1 & G2 & G3 & G4).
      split; [exact G1|]. split; [exact G2|]. split.
      + intros i Hi. destruct sub; [apply G4; exact Hi|exact Logic.I].
      + intros i Hi. exists r0. auto.
  Qed.
  Lemma fused_ok q k sub alpha cached r : good_cached cached -> fused A B iter q k sub alpha cached = Ok r ->
    length (fst r) = length (snd r) /\ NoDup (fst r) /\ length (fst r) <= fetch_k A B k
    /\ (forall i, In i (fst r) -> in_subset sub i /\ found A B q (fetch_k A B k) sub cached i).
  Proof using GB IT.
    intros GC H. unfold fused in H. destruct (b_search A B q (fetch_k A B k) sub) as [sem| |] eqn:ES; cbn [bind] in H; try discriminate.
    destruct (gb_search A B GB _ _ _ _ ES) as (G1 & G2 & G3 & G4).
    assert (QS : forall i, In i (fst sem) -> in_subset sub i /\ found A B q (fetch_k A B k) sub cached i).
    { intros i Hi. split; [destruct sub; [apply G4; exact Hi|exact Logic.I]|]. left. exists sem. auto. }
    destruct (keyword_side A B q (fetch_k A B k) sub cached) as [kw| |] eqn:EK; cbn [bind] in H; try discriminate.
    injection H as <-. destruct kw as [[ids scores]|]; [|auto].
    destruct (keyword_ok _ _ _ _ _ GC EK) as (K1 & K2 & K3 & K4). cbn [fst snd] in K1, K2, K3, K4.
    destruct ids as [|i0 ids]; [auto|].
    destruct (fused_ids (fst sem) (snd sem) (i0 :: ids) scores alpha (fetch_k A B k) G1 K1) as (F1 & F2 & F3 & F4).
    split; [exact F2|]. split; [exact F1|]. split; [exact F3|]. intros i Hi. apply F4 in Hi. apply in_app_iff in Hi.
    destruct Hi as [Hi|Hi]; [apply QS; exact Hi|]. split; [apply K3; exact Hi|]. right.
    specialize (K4 i Hi). exact K4.
  Qed.
  Lemma take_rows_units used ids scores : NoDup ids -> (forall i, In i ids -> ~ In i used) ->
    map snd (take_rows A B used (combine ids scores)) = units A B (ids, scores).
  Proof using.
    intro N. revert used scores. induction N as [|i ids Hi N IH]; intros used scores D; [reflexivity|].
    destruct scores as [|s scores]; [reflexivity|]. unfold units. cbn [combine take_rows fst snd flat_map].
    assert (E : existsb (Z.eqb i) used = false) by (apply zmem_out, D; left; reflexivity). rewrite E.
    assert (D' : forall j, In j ids -> ~ In j (i :: used)).
    { intros j Hj [<-|K]; [contradiction|]. apply (D j); [right; exact Hj|exact K]. }
    specialize (IH (i :: used) scores D'). unfold units in IH. cbn [fst snd] in IH.
    destruct (b_row A B i) as [[u|]|]; cbn [map snd app]; rewrite IH; reflexivity.
  Qed.
  (** The results of a search are the best files of its candidates. *)
  Theorem hybrid_ok q k sub alpha cached out : good_order A -> good_cached cached ->
    search_hybrid_with_embedding A T B iter q k sub alpha cached = Ok out ->
    exists r, length (fst r) = length (snd r) /\ NoDup (fst r) /\ length (fst r) <= fetch_k A B k
      /\ (forall i, In i (fst r) -> in_subset sub i /\ found A B q (fetch_k A B k) sub cached i)
      /\ let pool := boosted A T q (map (penalised A T q) (units A B r)) in
         Forall (fun h => is_number A (score_of A h)) pool -> best_files A k pool out.
  Proof using GB IT.
    intros GO GC H. unfold search_hybrid_with_embedding in H. destruct (fused A B iter q k sub alpha cached) as [r| |] eqn:EF; cbn [bind] in H; try discriminate.
    injection H as <-. destruct (fused_ok _ _ _ _ _ _ GC EF) as (F1 & F2 & F3 & F4). exists r. split; [exact F1|]. split; [exact F2|]. split; [exact F3|].
    split; [exact F4|]. intros pool NB. unfold ranked_hits. rewrite (take_rows_units [] (fst r) (snd r) F2) by (intros i _ []).
    rewrite <- surjective_pairing. apply collapse_best; assumption.
  Qed.
  Theorem hybrid_total q k sub alpha cached : (forall t n s, b_keyword A B t n s <> Panic) ->
    (exists out, search_hybrid_with_embedding A T B iter q k sub alpha cached = Ok out) <-> exists r, b_search A B q (fetch_k A B k) sub = Ok r.
  Proof using.
    intro NP. unfold search_hybrid_with_embedding, fused.
    destruct (b_search A B q (fetch_k A B k) sub) as [sem| |]; cbn [bind].
    2-3: split; intros (x & H); discriminate.
    assert (K : exists kw, keyword_side A B q (fetch_k A B k) sub cached = Ok kw).
    { unfold keyword_side. destruct cached as [[ids scores]|]; [eexists; reflexivity|]. unfold fts5_search.
      destruct (sanitize_fts5_query_or q) as [|c t]; [eexists; reflexivity|].
      pose proof (NP (c :: t) (fetch_k A B k) sub) as P.
      destruct (b_keyword A B (c :: t) (fetch_k A B k) sub); [eexists; reflexivity|eexists; reflexivity|contradiction]. }
    destruct K as (kw & ->). cbn [bind]. split; intros _; eexists; reflexivity.
  Qed.
End POOL.
