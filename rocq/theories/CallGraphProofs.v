(** The call graph lists the callers of each unit. *)
From Verif Require Import Base Text Units CallGraph CallGraphSpec.
From Verif Require ApiProgress.
From Coq Require Import Sorting.Sorted.
Open Scope nat_scope.

Lemma text_leb_total : forall a b, ApiProgress.text_leb a b = true \/ ApiProgress.text_leb b a = true.
Proof.
  induction a as [|x a IH]; intros [|y b]; cbn [ApiProgress.text_leb]; auto. rewrite (Z.eqb_sym y x). destruct (x =? y)%Z eqn:E; [apply IH|].
  apply Z.eqb_neq in E. rewrite !Z.ltb_lt. lia.
Qed.
Lemma text_leb_trans : forall a b c, ApiProgress.text_leb a b = true -> ApiProgress.text_leb b c = true -> ApiProgress.text_leb a c = true.
Proof.
  induction a as [|x a IH]; intros [|y b] [|z c]; cbn [ApiProgress.text_leb]; auto; try discriminate.
  destruct (x =? y)%Z eqn:E1; destruct (y =? z)%Z eqn:E2; destruct (x =? z)%Z eqn:E3; rewrite ?Z.eqb_eq, ?Z.eqb_neq, ?Z.ltb_lt in *; try lia. apply IH.
Qed.
Lemma text_leb_before : forall a b, ApiProgress.text_leb a b = true -> a <> b -> comes_before a b.
Proof.
  induction a as [|x a IH]; intros [|y b]; cbn [ApiProgress.text_leb]; intros H N; try discriminate; try congruence.
  - exists [], [], (y :: b). auto.
  - destruct (x =? y)%Z eqn:E.
    + apply Z.eqb_eq in E. subst y. destruct (IH b H ltac:(congruence)) as (p & u & v & -> & -> & K). exists (x :: p), u, v. auto.
    + apply Z.ltb_lt in H. exists [], (x :: a), (y :: b). auto.
Qed.
Lemma dedup_same (l : list text) x : In x (dedup text_eqb l) <-> In x l.
Proof.
  induction l as [|a l IH]; [reflexivity|]. cbn [dedup]. destruct l as [|b l]; [reflexivity|]. destruct (text_eqb a b) eqn:E.
  - rewrite IH. apply text_eqb_eq in E. subst b. cbn [In]. tauto.
  - cbn [In] in *. rewrite IH. tauto.
Qed.
Lemma dedup_before (l : list text) : StronglySorted (fun a b => ApiProgress.text_leb a b = true) l -> StronglySorted comes_before (dedup text_eqb l).
Proof.
  assert (AS : forall a b, ApiProgress.text_leb a b = true -> ApiProgress.text_leb b a = true -> a = b).
  { induction a as [|x a IH]; intros [|y b]; cbn [ApiProgress.text_leb]; try congruence; auto. rewrite (Z.eqb_sym y x). destruct (x =? y)%Z eqn:E; [|rewrite !Z.ltb_lt; lia].
    apply Z.eqb_eq in E. intros H1 H2. f_equal; auto. }
  induction l as [|a l IH]; intro S; [constructor|]. inversion S as [|? ? Sl Fa]; subst. cbn [dedup]. destruct l as [|b l]; [repeat constructor|].
  destruct (text_eqb a b) eqn:E; [apply IH; exact Sl|]. apply text_eqb_neq in E. constructor; [apply IH; exact Sl|]. apply Forall_forall. intros x Hx. apply -> dedup_same in Hx.
  rewrite Forall_forall in Fa. apply text_leb_before; [apply Fa; exact Hx|]. intros ->. destruct Hx as [->|Hx]; [congruence|]. inversion Sl as [|? ? _ Fb]; subst. rewrite Forall_forall in Fb.
  apply E. apply AS; [apply Fa; left; reflexivity|apply Fb; exact Hx].
Qed.

Lemma in_combine_seq {A} (l : list A) : forall k i x, In (i, x) (combine (seq k (length l)) l) <-> k <= i /\ nth_error l (i - k) = Some x.
Proof.
  induction l as [|a l IH]; intros k i x; cbn [length seq combine In].
  - split; [tauto|]. intros (_ & H). destruct (i - k); discriminate.
  - rewrite IH. split.
    + intros [E|(L & N)]; [injection E as <- <-; split; [lia|]; replace (k - k) with 0 by lia; reflexivity|]. split; [lia|]. replace (i - k) with (S (i - S k)) by lia. exact N.
    + intros (L & N). destruct (Nat.eq_dec i k) as [->|Ne]; [left; replace (k - k) with 0 in N by lia; injection N as ->; reflexivity|]. right. split; [lia|].
      replace (i - k) with (S (i - S k)) in N by lia. exact N.
Qed.
Lemma indices_in units name i : In i (indices_of units name) <-> exists u, nth_error units i = Some u /\ cu_name u = name.
Proof.
  unfold indices_of. rewrite in_map_iff. split.
  - intros ((j & u) & <- & H). apply filter_In in H. destruct H as (H & E). apply in_combine_seq in H. destruct H as (_ & N). rewrite Nat.sub_0_r in N. cbn [fst snd] in *. apply text_eqb_eq in E. eauto.
  - intros (u & N & E). exists (i, u). split; [reflexivity|]. apply filter_In. split; [apply in_combine_seq; rewrite Nat.sub_0_r; split; [lia|exact N]|]. cbn [snd]. apply text_eqb_eq. exact E.
Qed.
Lemma edges_in units i name : In (i, name) (edges units) <-> exists u caller, nth_error units i = Some u /\ In caller units /\ calls_it caller u /\ cu_name caller = name.
Proof.
  unfold edges. rewrite in_flat_map. split.
  - intros (c & Hc & H). apply in_flat_map in H. destruct H as (callee & Hcal & H). apply in_map_iff in H. destruct H as (j & E & H). injection E as -> <-.
    apply indices_in in H. destruct H as (u & N & <-). exists u, c. auto.
  - intros (u & c & N & Hc & K & <-). exists c. split; [exact Hc|]. apply in_flat_map. exists (cu_name u). split; [exact K|]. apply in_map_iff. exists i. split; [reflexivity|]. apply indices_in. eauto.
Qed.
Lemma callers_in_in es i name : In name (callers_in es i) <-> In (i, name) es.
Proof.
  unfold callers_in. rewrite in_map_iff. split.
  - intros ((j & n) & <- & H). apply filter_In in H. destruct H as (H & E). cbn in E. apply Nat.eqb_eq in E. subst j. exact H.
  - intro H. exists (i, name). split; [reflexivity|]. apply filter_In. split; [exact H|]. apply Nat.eqb_refl.
Qed.
Lemma called_by_listed units i u : nth_error units i = Some u -> callers_listed units u (called_by_of (edges units) i).
Proof.
  intro N. split.
  - apply dedup_before. apply isort_sorted; [apply text_leb_total|apply text_leb_trans].
  - intro name. unfold called_by_of. rewrite dedup_same, isort_In, callers_in_in, edges_in. split.
    + intros (u' & c & N' & H). rewrite N in N'. injection N' as <-. eauto.
    + intros (c & H). exists u, c. tauto.
Qed.

Lemma write_at_ok {A} (f : A -> A) l : forall i, i < length l -> exists l', write_at i f l = Ok l' /\ forall j, nth_error l' j = if j =? i then option_map f (nth_error l j) else nth_error l j.
Proof.
  induction l as [|x l IH]; intros [|i] H; cbn [length write_at] in *; try lia.
  - eexists. split; [reflexivity|]. intros [|j]; reflexivity.
  - destruct (IH i ltac:(lia)) as (l' & -> & K). cbn [bind]. eexists. split; [reflexivity|]. intros [|j]; [reflexivity|]. cbn [nth_error]. rewrite K. reflexivity.
Qed.
Lemma writes_ok {A} (f : nat -> A -> A) order : forall l, NoDup order -> (forall i, In i order -> i < length l) ->
  exists l', foldM (fun us i => write_at i (f i) us) order l = Ok l' /\ forall j, nth_error l' j = if existsb (Nat.eqb j) order then option_map (f j) (nth_error l j) else nth_error l j.
Proof.
  induction order as [|i order IH]; intros l ND H; cbn [foldM].
  - exists l. split; reflexivity.
  - inversion ND as [|? ? Ni ND']; subst. destruct (write_at_ok (f i) l i (H i (or_introl eq_refl))) as (l1 & -> & K1). cbn [bind].
    assert (L1 : length l1 = length l).
    { assert (Q : forall j, nth_error l1 j = None <-> nth_error l j = None). { intro j. rewrite K1. destruct (j =? i); [|tauto]. destruct (nth_error l j); cbn; split; congruence. }
      apply Nat.le_antisymm; [apply nth_error_None, Q, nth_error_None; lia|apply nth_error_None, Q, nth_error_None; lia]. }
    destruct (IH l1 ND') as (l2 & -> & K2). { intros j Hj. rewrite L1. apply H. right. exact Hj. }
    exists l2. split; [reflexivity|]. intro j. rewrite K2, K1. cbn [existsb]. destruct (j =? i) eqn:E; cbn [orb].
    + apply Nat.eqb_eq in E. subst j. destruct (existsb (Nat.eqb i) order) eqn:Ex; [|reflexivity]. apply existsb_exists in Ex. destruct Ex as (k & Hk & Ek). apply Nat.eqb_eq in Ek. subst k. contradiction.
    + reflexivity.
Qed.
Lemma graph_ok order units : map_order order units ->
  exists units', build_call_graph order units = Ok units'
    /\ forall j, nth_error units' j = if existsb (Nat.eqb j) (map fst (edges units)) then option_map (set_called_by (called_by_of (edges units) j)) (nth_error units j) else nth_error units j.
Proof.
  intros (ND & K). unfold build_call_graph. destruct (writes_ok (fun i => set_called_by (called_by_of (edges units) i)) order units ND) as (l' & E & H).
  - intros i Hi. apply K in Hi. apply in_map_iff in Hi. destruct Hi as ((i' & name) & <- & H). apply edges_in in H. destruct H as (u & c & N & _). apply nth_error_Some. cbn [fst]. congruence.
  - exists l'. split; [exact E|]. intro j. rewrite H. replace (existsb (Nat.eqb j) order) with (existsb (Nat.eqb j) (map fst (edges units))); [reflexivity|].
    apply Bool.eq_iff_eq_true. rewrite !existsb_exists. setoid_rewrite K. reflexivity.
Qed.
Lemma edge_exists units j u : nth_error units j = Some u -> existsb (Nat.eqb j) (map fst (edges units)) = true <-> exists caller, In caller units /\ calls_it caller u.
Proof.
  intro N. rewrite existsb_exists. split.
  - intros (k & Hk & E). apply Nat.eqb_eq in E. subst k. apply in_map_iff in Hk. destruct Hk as ((j' & name) & E & H). cbn in E. subst j'. apply edges_in in H.
    destruct H as (u' & c & N' & H1 & H2 & _). rewrite N in N'. injection N' as <-. eauto.
  - intros (c & H1 & H2). exists j. split; [|apply Nat.eqb_refl]. apply in_map_iff. exists (j, cu_name c). split; [reflexivity|]. apply edges_in. eauto 6.
Qed.
Lemma forall2_nth {A B} (R : A -> B -> Prop) : forall l l', (forall j, match nth_error l j, nth_error l' j with Some a, Some b => R a b | None, None => True | _, _ => False end) -> Forall2 R l l'.
Proof.
  induction l as [|a l IH]; intros [|b l'] H.
  - constructor.
  - specialize (H 0). destruct H.
  - specialize (H 0). destruct H.
  - constructor; [exact (H 0)|]. apply IH. intro j. exact (H (S j)).
Qed.
