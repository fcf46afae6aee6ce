(** Lemmas about the merged unit and the names of languages. *)
From Verif Require Import Base Text FtsText FtsTextSpec SqlModel MetaModel Units Embed EmbedSpec EmbedProofs Colgrep Walk Sdk SdkSpec.
Open Scope nat_scope.

Lemma seen_spec x l : existsb (text_eqb x) l = true <-> In x l.
Proof.
  rewrite existsb_exists. split.
  - intros (y & Hy & E). apply text_eqb_eq in E. subst y. exact Hy.
  - intros H. exists x. split; [exact H|]. apply text_eqb_eq. reflexivity.
Qed.

Lemma dedup_in : forall items seen x, In x (dedup_ordered seen items) <-> In x items /\ ~ In x seen.
Proof.
  induction items as [|y r IH]; intros seen x; cbn [dedup_ordered]; [simpl; tauto|].
  destruct (existsb (text_eqb y) seen) eqn:E.
  - apply seen_spec in E. rewrite IH. simpl. split; [tauto|]. intros ([->|H] & N); [contradiction|tauto].
  - assert (N : ~ In y seen) by (rewrite <- seen_spec, E; discriminate). cbn [In]. rewrite IH. simpl. split.
    + intros [->|(H & K)]; [tauto|]. split; [tauto|]. intro Q. apply K. right. exact Q.
    + intros ([->|H] & K); [tauto|]. destruct (text_eqb y x) eqn:E2; [apply text_eqb_eq in E2; left; exact E2|].
      right. split; [exact H|]. intros [Q|Q]; [subst y; rewrite (proj2 (text_eqb_eq x x) eq_refl) in E2; discriminate|contradiction].
Qed.

Lemma fresh_first pre y r : ~ In y pre -> first_at (pre ++ y :: r) (length pre) y.
Proof.
  intros N. split.
  - rewrite nth_error_app2 by lia. rewrite Nat.sub_diag. reflexivity.
  - intros j L E. rewrite nth_error_app1 in E by exact L. apply nth_error_In in E. contradiction.
Qed.
Lemma dedup_order : forall items seen pre, (forall x, In x seen <-> In x pre) ->
  StronglySorted (fun x y => exists i j, first_at (pre ++ items) i x /\ first_at (pre ++ items) j y /\ i < j) (dedup_ordered seen items)
  /\ forall x, In x (dedup_ordered seen items) -> exists i, length pre <= i /\ first_at (pre ++ items) i x.
Proof.
  induction items as [|y r IH]; intros seen pre H; cbn [dedup_ordered]; [split; [constructor|simpl; tauto]|].
  destruct (existsb (text_eqb y) seen) eqn:E.
  - apply seen_spec in E. destruct (IH seen (pre ++ [y])) as (A & B).
    { intros x. rewrite in_app_iff, H. simpl. split; [tauto|]. intros [K|[->|[]]]; [exact K|apply H; exact E]. }
    rewrite <- app_assoc in A, B. cbn [app] in A, B. split; [exact A|]. intros x K. destruct (B x K) as (i & L & F). exists i. split; [|exact F].
    rewrite app_length in L. lia.
  - assert (N : ~ In y pre) by (rewrite <- H, <- seen_spec, E; discriminate).
    destruct (IH (y :: seen) (pre ++ [y])) as (A & B).
    { intros x. rewrite in_app_iff. simpl. rewrite H. tauto. }
    rewrite <- app_assoc in A, B. cbn [app] in A, B. pose proof (fresh_first pre y r N) as F0. split.
    + constructor; [exact A|]. apply Forall_forall. intros x K. destruct (B x K) as (i & L & F). exists (length pre), i.
      split; [exact F0|]. split; [exact F|]. rewrite app_length in L. simpl in L. lia.
    + intros x [->|K]; [exists (length pre); split; [lia|exact F0]|]. destruct (B x K) as (i & L & F). exists i. split; [|exact F].
      rewrite app_length in L. lia.
Qed.
Lemma dedup_once l : once_each l (dedup_ordered [] l).
Proof.
  split.
  - intros x. rewrite dedup_in. simpl. tauto.
  - apply (dedup_order l [] []). tauto.
Qed.

Lemma join_glued : forall l, l <> [] -> glued l (join blank_line l).
Proof.
  induction l as [|x l IH]; intros N; [congruence|]. destruct l as [|y l]; [constructor|].
  change (join blank_line (x :: y :: l)) with (x ++ blank_line ++ join blank_line (y :: l)). apply glued_more; [discriminate|]. apply IH. discriminate.
Qed.
Lemma glued_has : forall l t x, glued l t -> In x l -> exists a b, t = a ++ x ++ b.
Proof.
  intros l t x G. induction G as [y|y l t N G IH]; intros K.
  - destruct K as [->|[]]. exists [], []. rewrite app_nil_r. reflexivity.
  - destruct K as [->|K]; [exists [], ([10%Z; 10%Z] ++ t); reflexivity|]. destruct (IH K) as (a & b & ->).
    exists (y ++ [10%Z; 10%Z] ++ a), b. rewrite <- !app_assoc. reflexivity.
Qed.

Lemma fold_or (f : py_unit -> bool) : forall l b, fold_left (fun b u => b || f u) l b = b || existsb f l.
Proof. induction l as [|u l IH]; intros b; cbn [fold_left existsb]; [rewrite orb_false_r; reflexivity|]. rewrite IH, orb_assoc. reflexivity. Qed.
Lemma or_spec (f : py_unit -> bool) l : fold_left (fun b u => b || f u) l false = true <-> exists u, In u l /\ f u = true.
Proof. rewrite fold_or. cbn [orb]. apply existsb_exists. Qed.
Lemma fold_sum : forall l n, fold_left (fun n u => n + py_complexity u) l n = n + list_sum (map py_complexity l).
Proof. induction l as [|u l IH]; intros n; cbn [fold_left map]; [simpl; lia|]. rewrite IH. change (list_sum (py_complexity u :: map py_complexity l)) with (py_complexity u + list_sum (map py_complexity l)). lia. Qed.

Lemma merge_sorted_stands order filename : order <> [] -> stands_for filename order (merge_sorted order filename).
Proof.
  intros N. assert (M : forall f : py_unit -> text, map f order <> []) by (intros f; destruct order; [congruence|discriminate]).
  constructor; cbn [merge_sorted py_name py_qualified_name py_file py_line py_end_line py_language py_unit_type py_signature py_docstring py_parameters
    py_return_type py_extends py_parent_class py_calls py_called_by py_complexity py_has_loops py_has_branches py_has_error_handling py_variables py_imports
    py_code py_embedding_text]; try reflexivity.
  - destruct order as [|u r]; [congruence|]. exists u. repeat split; reflexivity.
  - destruct (exists_last N) as (l & u & ->). exists u, l. split; [reflexivity|]. rewrite last_last. reflexivity.
  - apply join_glued, M.
  - apply join_glued, M.
  - unfold gathered. rewrite flat_map_concat_map. apply dedup_once.
  - unfold gathered. rewrite flat_map_concat_map. apply dedup_once.
  - unfold gathered. rewrite flat_map_concat_map. apply dedup_once.
  - unfold gathered. rewrite flat_map_concat_map. apply dedup_once.
  - unfold gathered. rewrite flat_map_concat_map. apply dedup_once.
  - rewrite fold_sum. reflexivity.
  - apply or_spec.
  - apply or_spec.
  - apply or_spec.
  - replace (flat_map (fun u => match py_docstring u with Some d => if text_eqb d [] then [] else [d] | None => [] end) order) with (flat_map docs_of order).
    2:{ apply flat_map_ext. intros u. unfold docs_of. destruct (py_docstring u) as [[|c r]|]; reflexivity. }
    exists (dedup_ordered [] (flat_map docs_of order)). split; [apply dedup_once|].
    destruct (flat_map docs_of order) as [|d ds]; [reflexivity|]. apply join_glued. cbn [dedup_ordered existsb]. discriminate.
  - repeat split.
Qed.

Lemma line_order_ok units : in_line_order units (isort (fun a b => py_line a <=? py_line b) units).
Proof.
  assert (T : forall x y : py_unit, (py_line x <=? py_line y) = true \/ (py_line y <=? py_line x) = true) by (intros x y; rewrite !Nat.leb_le; lia).
  assert (R : forall x y z : py_unit, (py_line x <=? py_line y) = true -> (py_line y <=? py_line z) = true -> (py_line x <=? py_line z) = true)
    by (intros x y z; rewrite !Nat.leb_le; lia).
  split; [symmetry; apply isort_perm|]. split.
  - pose proof (isort_sorted (fun a b => py_line a <=? py_line b) T R units) as S.
    induction S as [|a l S IH F]; constructor; [exact IH|]. eapply Forall_impl; [|exact F]. intros b L. cbn beta in L. apply Nat.leb_le. exact L.
  - intros n. set (z := {| py_name := []; py_qualified_name := []; py_file := []; py_line := n; py_end_line := 0; py_language := []; py_unit_type := []; py_signature := [];
     py_docstring := None; py_parameters := []; py_return_type := None; py_extends := None; py_parent_class := None; py_calls := []; py_called_by := [];
     py_complexity := 0; py_has_loops := false; py_has_branches := false; py_has_error_handling := false; py_variables := []; py_imports := [];
     py_code := []; py_embedding_text := [] |}).
    pose proof (isort_stable (fun a b => py_line a <=? py_line b) T R z units) as S.
    assert (E : forall l, filter (eqv (fun a b => py_line a <=? py_line b) z) l = filter (fun u => py_line u =? n) l).
    { intros l. apply filter_ext. intros u. unfold eqv. unfold z. cbn [py_line]. destruct (py_line u =? n) eqn:Q.
      - apply Nat.eqb_eq in Q. rewrite Q, Nat.leb_refl. reflexivity.
      - apply Nat.eqb_neq in Q. apply not_true_is_false. rewrite andb_true_iff, !Nat.leb_le. lia. }
    rewrite !E in S. exact S.
Qed.

Lemma merged_many a b r filename :
  merge_units (a :: b :: r) filename = merge_sorted (isort (fun a b => py_line a <=? py_line b) (a :: b :: r)) filename.
Proof. reflexivity. Qed.

(** Names of languages *)
Lemma assoc_in {A} (l : list (text * A)) p a : assoc l p = Some a -> In (p, a) l.
Proof.
  induction l as [|(q, b) l IH]; cbn [assoc]; [discriminate|]. destruct (text_eqb p q) eqn:E; intros H.
  - apply text_eqb_eq in E. injection H as ->. subst q. left. reflexivity.
  - right. apply IH. exact H.
Qed.
Lemma detected_known U path l : detect_language U path = Some l -> In l languages.
Proof.
  unfold detect_language. destruct (assoc special_names (u_lower U (last path []))) as [x|] eqn:E.
  - intros [= ->]. apply assoc_in in E.
    assert (A : forallb (fun p => existsb (text_eqb (snd p)) languages) special_names = true) by (vm_compute; reflexivity).
    rewrite forallb_forall in A. specialize (A _ E). apply seen_spec in A. exact A.
  - destruct (extension (last path [])) as [a|]; [|discriminate]. intros H. apply assoc_in in H.
    assert (A : forallb (fun p => existsb (text_eqb (snd p)) languages) extensions = true) by (vm_compute; reflexivity).
    rewrite forallb_forall in A. specialize (A _ H). apply seen_spec in A. exact A.
Qed.
Definition is_word (w l : text) : bool := match assoc words w with Some l' => text_eqb l' l | None => false end.
Lemma is_word_eq w l : is_word w l = true -> assoc words w = Some l.
Proof. unfold is_word. destruct (assoc words w) as [l'|]; [|discriminate]. intros E. apply text_eqb_eq in E. subst l'. reflexivity. Qed.
Lemma debug_reads_back U l : good_unicode U -> In l languages -> from_str U (debug_name l) = Some l.
Proof.
  intros G K. unfold from_str.
  assert (A : forallb (fun l => forallb is_ascii (debug_name l) && is_word (map to_lower1 (debug_name l)) l) languages = true) by (vm_compute; reflexivity).
  rewrite forallb_forall in A. specialize (A _ K). apply andb_true_iff in A. destruct A as (A1 & A2). apply is_word_eq in A2.
  rewrite (gu_lower U G); [exact A2|]. rewrite forallb_forall in A1. exact A1.
Qed.
