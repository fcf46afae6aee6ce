(** Proofs about results by file. *)
From Verif Require Import Base Text FtsRank Regex Pattern Results Display DisplaySpec DisplayProofs.
Open Scope nat_scope.

Section Groups.
  Variable A : arith.
  Lemma seen_In f seen : existsb (text_eqb f) seen = true <-> In f seen.
  Proof using Type.
    rewrite existsb_exists. split; [intros (g & K & E); apply text_eqb_eq in E; subst; exact K|].
    intros K. exists f. split; [exact K|]. apply text_eqb_eq. reflexivity.
  Qed.
  Lemma files_In l : forall seen f, In f (files_of A seen l) <-> (exists h, In h l /\ file_of h = f) /\ ~ In f seen.
  Proof using Type.
    induction l as [|h l IH]; intros seen f; cbn [files_of]; [split; [intros []|intros ((k & [] & _) & _)]|].
    destruct (existsb (text_eqb (u_file (h_unit A h))) seen) eqn:E.
    - apply seen_In in E. rewrite IH. split; intros ((k & K & F) & N); (split; [|exact N]).
      + exists k. split; [right; exact K|exact F].
      + destruct K as [<-|K]; [|exists k; auto]. unfold file_of in F. subst f. contradiction.
    - assert (E' : ~ In (u_file (h_unit A h)) seen) by (rewrite <- seen_In, E; discriminate). cbn [In]. rewrite IH. split.
      + intros [<-|((k & K & F) & N)].
        * split; [exists h; split; [left; reflexivity|reflexivity]|exact E'].
        * split; [exists k; split; [right; exact K|exact F]|]. intros S1. apply N. right. exact S1.
      + intros ((k & [<-|K] & F) & N); [left; exact F|]. destruct (text_dec (u_file (h_unit A h)) f) as [Q|Q]; [left; exact Q|]. right.
        split; [exists k; auto|]. intros [S1|S1]; contradiction.
  Qed.
  Lemma files_once l : forall seen, NoDup (files_of A seen l).
  Proof using Type.
    induction l as [|h l IH]; intros seen; cbn [files_of]; [constructor|]. destruct (existsb _ seen); [apply IH|]. constructor; [|apply IH].
    intros K. apply files_In in K. destruct K as (_ & N). apply N. left. reflexivity.
  Qed.
  Lemma before_cons {X} (x y z : X) l : before x y (z :: l) -> (z = x /\ In y l) \/ before x y l.
  Proof using Type.
    intros (a & b & c & E). destruct a as [|w a]; cbn in E; injection E as -> E.
    - left. split; [reflexivity|]. rewrite E. apply in_or_app. right. left. reflexivity.
    - right. exists a, b, c. exact E.
  Qed.
  Lemma files_order l : forall seen, by_first (files_of A seen l) l.
  Proof using Type.
    induction l as [|h l IH]; intros seen f g B; cbn [files_of] in B.
    - destruct B as (a & b & c & E). destruct a; discriminate.
    - destruct (existsb (text_eqb (u_file (h_unit A h))) seen) eqn:E.
      + assert (NS : forall x, In x (files_of A seen l) -> file_of h <> x).
        { intros x K <-. apply files_In in K. destruct K as (_ & N). apply N. apply seen_In. exact E. }
        assert (FG : In f (files_of A seen l) /\ In g (files_of A seen l)).
        { destruct B as (a & b & c & ->). split; apply in_or_app; right; [left; reflexivity|]. right. apply in_or_app. right. left. reflexivity. }
        destruct FG as (F & G). destruct (IH seen f g B) as (a & k & b & -> & K1 & K2). exists (h :: a), k, b. split; [reflexivity|]. split; [exact K1|].
        intros x [<-|X]; [split; apply NS; assumption|exact (K2 x X)].
      + apply before_cons in B. destruct B as [(F & G)|B].
        * exists [], h, l. split; [reflexivity|]. split; [exact F|]. intros k [].
        * assert (NS : forall x, In x (files_of A (u_file (h_unit A h) :: seen) l) -> file_of h <> x).
          { intros x K <-. apply files_In in K. destruct K as (_ & N). apply N. left. reflexivity. }
          assert (FG : In f (files_of A (u_file (h_unit A h) :: seen) l) /\ In g (files_of A (u_file (h_unit A h) :: seen) l)).
          { destruct B as (a & b & c & ->). split; apply in_or_app; right; [left; reflexivity|]. right. apply in_or_app. right. left. reflexivity. }
          destruct FG as (F & G). destruct (IH _ f g B) as (a & k & b & -> & K1 & K2). exists (h :: a), k, b. split; [reflexivity|]. split; [exact K1|].
          intros x [<-|X]; [split; apply NS; assumption|exact (K2 x X)].
  Qed.
  Definition of_file (f : text) (h : hit A) : bool := text_eqb (u_file (h_unit A h)) f.
  Lemma filter_split (p : hit A -> bool) l : Permutation l (filter p l ++ filter (fun h => negb (p h)) l).
  Proof using Type.
    induction l as [|h l IH]; cbn [filter]; [constructor|]. destruct (p h); cbn [negb app]; [constructor; exact IH|].
    apply Permutation_cons_app. exact IH.
  Qed.
  Lemma parts_perm fs : forall l, NoDup fs -> (forall h, In h l -> In (file_of h) fs) -> Permutation (flat_map (fun f => filter (of_file f) l) fs) l.
  Proof using Type.
    induction fs as [|f fs IH]; intros l N C.
    - destruct l as [|h l]; [constructor|]. destruct (C h (or_introl eq_refl)).
    - inversion N as [|? ? N1 N2]; subst. cbn [flat_map]. apply (fun K => Permutation_trans K (Permutation_sym (filter_split (of_file f) l))). apply Permutation_app_head.
      set (l' := filter (fun h => negb (of_file f h)) l).
      assert (E : flat_map (fun g => filter (of_file g) l) fs = flat_map (fun g => filter (of_file g) l') fs).
      { clear IH C N N2. induction fs as [|g fs I]; [reflexivity|]. cbn [flat_map]. f_equal; [|apply I; intros K; apply N1; right; exact K].
        unfold l'. assert (FG : f <> g) by (intros <-; apply N1; left; reflexivity). clear - FG. induction l as [|h l IH]; [reflexivity|]. cbn [filter].
        unfold of_file in *. destruct (text_eqb (u_file (h_unit A h)) f) eqn:E1; cbn [negb].
        - apply text_eqb_eq in E1. destruct (text_eqb (u_file (h_unit A h)) g) eqn:E2; [|exact IH]. apply text_eqb_eq in E2. congruence.
        - cbn [filter]. destruct (text_eqb (u_file (h_unit A h)) g); [f_equal|]; exact IH. }
      rewrite E. apply IH; [exact N2|]. intros h K. apply filter_In in K. destruct K as (K & Q). destruct (C h K) as [F|F]; [|exact F].
      unfold of_file in Q. subst f. unfold file_of in Q. rewrite (proj2 (text_eqb_eq _ _) eq_refl) in Q. discriminate.
  Qed.
  Lemma groups_perm l : Permutation (flat_map snd (group_results_by_file A l)) l.
  Proof using Type.
    transitivity (flat_map (fun f => filter (of_file f) l) (files_of A [] l)).
    - unfold group_results_by_file. induction (files_of A [] l) as [|f fs IH]; [constructor|]. cbn [map flat_map snd].
      apply Permutation_app; [apply isort_perm|exact IH].
    - apply parts_perm; [apply files_once|]. intros h K. apply files_In. split; [exists h; auto|intros []].
  Qed.
End Groups.
