(** Lists, maps and numbered rows used by the proofs about [Colgrep]. *)
From Verif Require Import Base Text Colgrep ColgrepSpec.
Open Scope nat_scope.

Lemma mem_In p l : mem p l = true <-> In p l.
Proof.
  unfold mem. rewrite existsb_exists. split.
  - intros (x & Hx & He). apply text_eqb_eq in He. now subst.
  - intros H. exists p. split; [exact H|apply text_eqb_refl].
Qed.
Lemma mem_false p l : mem p l = false <-> ~ In p l.
Proof. rewrite <- mem_In. destruct (mem p l); split; congruence. Qed.
Lemma mem_nat_In i l : mem_nat i l = true <-> In i l.
Proof.
  unfold mem_nat. rewrite existsb_exists. split.
  - intros (x & Hx & He). apply Nat.eqb_eq in He. now subst.
  - intros H. exists i. split; [exact H|apply Nat.eqb_refl].
Qed.
Lemma mem_nat_false i l : mem_nat i l = false <-> ~ In i l.
Proof. rewrite <- mem_nat_In. destruct (mem_nat i l); split; congruence. Qed.

Lemma eqb_sym a b : text_eqb a b = text_eqb b a.
Proof.
  destruct (text_eqb a b) eqn:E; destruct (text_eqb b a) eqn:F; auto.
  - apply text_eqb_eq in E. subst. now rewrite text_eqb_refl in F.
  - apply text_eqb_eq in F. subst. now rewrite text_eqb_refl in E.
Qed.

(** ** Association lists *)
Section ASSOC.
  Context {A : Type}.
  Implicit Types l : list (path * A).
  Lemma assoc_In l p a : assoc l p = Some a -> In (p, a) l.
  Proof.
    induction l as [|(q, b) l IH]; cbn; [discriminate|].
    destruct (text_eqb p q) eqn:E; intros H.
    - apply text_eqb_eq in E. injection H as <-. subst. now left.
    - right. now apply IH.
  Qed.
  Lemma assoc_None l p : assoc l p = None <-> ~ In p (map fst l).
  Proof.
    induction l as [|(q, b) l IH]; cbn; [tauto|].
    destruct (text_eqb p q) eqn:E.
    - apply text_eqb_eq in E. subst. split; [discriminate|tauto].
    - apply text_eqb_neq in E. rewrite IH. intuition congruence.
  Qed.
  Lemma assoc_Some_key l p : assoc l p <> None <-> In p (map fst l).
  Proof.
    rewrite assoc_None. split; [|tauto]. intros H.
    destruct (in_dec text_dec p (map fst l)); tauto.
  Qed.
  Lemma In_assoc l p a : NoDup (map fst l) -> In (p, a) l -> assoc l p = Some a.
  Proof.
    induction l as [|(q, b) l IH]; cbn; intros N H; [contradiction|].
    inversion N as [|? ? N1 N2]; subst. destruct H as [H|H].
    - injection H as <- <-. now rewrite text_eqb_refl.
    - destruct (text_eqb p q) eqn:E; [|now apply IH].
      apply text_eqb_eq in E. subst. destruct N1. change q with (fst (q, a)). now apply in_map.
  Qed.
  Lemma assoc_iff l p a : NoDup (map fst l) -> assoc l p = Some a <-> In (p, a) l.
  Proof. intros N. split; [apply assoc_In|now apply In_assoc]. Qed.
  Lemma assoc_remove l p q : assoc (remove_key l p) q = if text_eqb q p then None else assoc l q.
  Proof.
    unfold remove_key. induction l as [|(r, b) l IH]; cbn; [now destruct (text_eqb q p)|].
    destruct (text_eqb p r) eqn:E; cbn.
    - apply text_eqb_eq in E. subst r. rewrite IH. now destruct (text_eqb q p).
    - rewrite IH. destruct (text_eqb q r) eqn:F; auto.
      apply text_eqb_eq in F. subst r. rewrite (eqb_sym q p), E. reflexivity.
  Qed.
  Lemma assoc_put l p a q : assoc (put l p a) q = if text_eqb q p then Some a else assoc l q.
  Proof. unfold put. cbn [assoc]. destruct (text_eqb q p) eqn:E; auto. now rewrite assoc_remove, E. Qed.
  Lemma assoc_filter_key (P : path -> bool) l q :
    assoc (filter (fun e => P (fst e)) l) q = if P q then assoc l q else None.
  Proof.
    induction l as [|(r, b) l IH]; cbn; [now destruct (P q)|].
    destruct (P r) eqn:E; cbn.
    - destruct (text_eqb q r) eqn:F; auto. apply text_eqb_eq in F. subst. now rewrite E.
    - rewrite IH. destruct (text_eqb q r) eqn:F; auto. apply text_eqb_eq in F. subst. now rewrite E.
  Qed.
  Lemma NoDup_filter_fst (P : path * A -> bool) l : NoDup (map fst l) -> NoDup (map fst (filter P l)).
  Proof.
    induction l as [|e l IH]; cbn; intros N; [constructor|].
    inversion N as [|? ? N1 N2]; subst. destruct (P e); cbn; [|auto].
    constructor; [|auto]. intros H. apply N1. apply in_map_iff in H. destruct H as (x & Hx & Hi).
    apply filter_In in Hi. apply in_map_iff. exists x. tauto.
  Qed.
  Lemma assoc_app l l' p : assoc (l ++ l') p = match assoc l p with Some a => Some a | None => assoc l' p end.
  Proof. induction l as [|(q, b) l IH]; cbn; auto. destruct (text_eqb p q); auto. Qed.

  Lemma fold_remove (ps : list path) l q :
    assoc (fold_left remove_key ps l) q = if mem q ps then None else assoc l q.
  Proof.
    revert l. induction ps as [|p ps IH]; intros l; cbn; auto.
    rewrite IH, assoc_remove. unfold mem. destruct (text_eqb q p); cbn; [|reflexivity].
    now destruct (existsb (text_eqb q) ps).
  Qed.
  Lemma fold_put {B} (g : B -> path) (h : B -> A) (es : list B) l q :
    (forall e e', In e es -> In e' es -> g e = g e' -> h e = h e') ->
    assoc (fold_left (fun m e => put m (g e) (h e)) es l) q
    = match find (fun e => text_eqb q (g e)) es with Some e => Some (h e) | None => assoc l q end.
  Proof.
    revert l. induction es as [|e es IH]; intros l Hc; cbn; auto.
    rewrite IH by (intros; apply Hc; auto; now right).
    destruct (text_eqb q (g e)) eqn:E.
    - destruct (find _ es) as [e'|] eqn:F.
      + apply find_some in F. destruct F as (F1 & F2). apply text_eqb_eq in E. apply text_eqb_eq in F2.
        f_equal. apply Hc; [now right|now left|congruence].
      + rewrite assoc_put, E. reflexivity.
    - destruct (find _ es); auto. now rewrite assoc_put, E.
  Qed.
End ASSOC.

(** ** Numbered rows *)
Lemma number_length k rows : length (number k rows) = length rows.
Proof. revert k. induction rows; cbn; auto. Qed.
Lemma number_app k a b : number k (a ++ b) = number k a ++ number (k + length a) b.
Proof.
  revert k. induction a as [|r a IH]; intros k; cbn; [now rewrite Nat.add_0_r|].
  rewrite IH. do 3 f_equal. lia.
Qed.
Lemma number_snd k rows : map snd (number k rows) = rows.
Proof. revert k. induction rows as [|r rows IH]; intros k; cbn; auto. now rewrite IH. Qed.
Lemma number_fst k rows : map fst (number k rows) = seq k (length rows).
Proof. revert k. induction rows as [|r rows IH]; intros k; cbn; auto. now rewrite IH. Qed.
Lemma number_In k rows i r : In (i, r) (number k rows) <-> k <= i /\ nth_error rows (i - k) = Some r.
Proof.
  revert k. induction rows as [|x rows IH]; intros k; cbn.
  - split; [tauto|]. intros (_ & H). destruct (i - k); discriminate.
  - rewrite IH. split.
    + intros [H|(H1 & H2)].
      * injection H as <- <-. split; [lia|]. now rewrite Nat.sub_diag.
      * split; [lia|]. now replace (i - k) with (S (i - S k)) by lia.
    + intros (H1 & H2). destruct (Nat.eq_dec i k) as [->|N].
      * left. rewrite Nat.sub_diag in H2. cbn in H2. congruence.
      * right. split; [lia|]. replace (i - k) with (S (i - S k)) in H2 by lia. exact H2.
Qed.
Lemma number_filter_snd (P : row -> bool) k rows :
  map snd (filter (fun e => P (snd e)) (number k rows)) = filter P rows.
Proof.
  revert k. induction rows as [|r rows IH]; intros k; cbn; auto.
  destruct (P r); cbn; now rewrite IH.
Qed.
Lemma number_paired rows : paired rows (number 0 rows).
Proof.
  split; [apply number_length|]. intros i r H r'. rewrite number_In, Nat.sub_0_r, H.
  split; [intros (_ & E); congruence|intros ->; split; [lia|auto]].
Qed.
(** Rows numbered in order. *)
Fixpoint climbing (l : list (nat * row)) : Prop :=
  match l with
  | e :: ((e' :: _) as l') => fst e <= fst e' /\ climbing l'
  | _ => True
  end.
Lemma climbing_isort l : climbing l -> isort id_leb l = l.
Proof.
  induction l as [|e l IH]; cbn; auto. intros H.
  destruct l as [|e' l].
  - reflexivity.
  - destruct H as (H1 & H2). rewrite IH by exact H2. cbn [insert].
    unfold id_leb at 1. apply Nat.leb_le in H1. now rewrite H1.
Qed.
Lemma climbing_cons e l : (forall x, In x l -> fst e <= fst x) -> climbing l -> climbing (e :: l).
Proof. destruct l as [|e' l]; cbn; [auto|]. intros H Hc. split; [apply H; now left|exact Hc]. Qed.
Lemma climbing_filter_number (P : nat * row -> bool) k rows : climbing (filter P (number k rows)).
Proof.
  revert k. induction rows as [|r rows IH]; intros k; cbn; auto.
  destruct (P (k, r)); [|apply IH].
  apply climbing_cons; [|apply IH]. intros (i, x) Hx. apply filter_In in Hx. destruct Hx as (Hx & _).
  apply number_In in Hx. cbn. lia.
Qed.
Lemma filter_ext_in' {A} (P Q : A -> bool) l : (forall a, In a l -> P a = Q a) -> filter P l = filter Q l.
Proof. apply filter_ext_in. Qed.

(** Removing rows by a predicate that depends on the row only. *)
Lemma drop_both (P : row -> bool) ids rows :
  (forall i r, nth_error rows i = Some r -> mem_nat i ids = negb (P r)) ->
  drop_docs ids rows = filter P rows /\ drop_rows ids (number 0 rows) = number 0 (filter P rows).
Proof.
  intros H.
  assert (E : filter (fun e => negb (mem_nat (fst e) ids)) (number 0 rows) = filter (fun e => P (snd e)) (number 0 rows)).
  { apply filter_ext_in. intros (i, r) Hi. apply number_In in Hi. rewrite Nat.sub_0_r in Hi. cbn.
    rewrite (H i r) by tauto. now rewrite negb_involutive. }
  unfold drop_docs, drop_rows. rewrite E. split.
  - apply number_filter_snd.
  - rewrite climbing_isort by apply climbing_filter_number. now rewrite number_filter_snd.
Qed.
Lemma drop_docs_tail rows extra : drop_docs (seq (length rows) (length extra)) (rows ++ extra) = rows.
Proof.
  unfold drop_docs. rewrite number_app. cbn [Nat.add]. rewrite filter_app, map_app.
  rewrite (filter_ext_in _ (fun _ => true) (number 0 rows)).
  - rewrite (filter_ext_in _ (fun _ => false) (number (length rows) extra)).
    + assert (F : forall A (l : list A), filter (fun _ => false) l = []) by (induction l; auto).
      assert (G : forall A (l : list A), filter (fun _ => true) l = l) by (induction l as [|? ? IH]; cbn; congruence).
      rewrite F, G. cbn. rewrite app_nil_r. apply number_snd.
    + intros (i, r) Hi. apply number_In in Hi. cbn. apply negb_false_iff, mem_nat_In, in_seq.
      split; [lia|]. assert (i - length rows < length extra) by (apply nth_error_Some; destruct Hi as (_ & ->); discriminate). lia.
  - intros (i, r) Hi. apply number_In in Hi. cbn. apply negb_true_iff, mem_nat_false. rewrite in_seq. rewrite Nat.sub_0_r in Hi.
    assert (i < length rows) by (apply nth_error_Some; destruct Hi as (_ & ->); discriminate). lia.
Qed.

(** ** Rows of one file *)
Definition frows (p : path) (l : list row) : list row := filter (fun r => text_eqb p (r_file r)) l.
Definition keep (files : list path) (l : list row) : list row := filter (fun r => negb (mem (r_file r) files)) l.
Arguments frows : simpl never.
Arguments keep : simpl never.
Lemma frows_app p a b : frows p (a ++ b) = frows p a ++ frows p b.
Proof. apply filter_app. Qed.
Lemma frows_In p l r : In r (frows p l) <-> In r l /\ r_file r = p.
Proof.
  unfold frows. rewrite filter_In. split; intros (H1 & H2); split; auto.
  - symmetry. now apply text_eqb_eq.
  - subst. apply text_eqb_refl.
Qed.
Lemma frows_keep p files l : frows p (keep files l) = if mem p files then [] else frows p l.
Proof.
  unfold frows, keep. induction l as [|r l IH]; cbn; [now destruct (mem p files)|].
  destruct (mem (r_file r) files) eqn:E; cbn; destruct (text_eqb p (r_file r)) eqn:F.
  - apply text_eqb_eq in F. subst p. rewrite IH, E. reflexivity.
  - exact IH.
  - apply text_eqb_eq in F. subst p. rewrite IH, E. reflexivity.
  - exact IH.
Qed.
Lemma frows_perm p a b : Permutation a b -> Permutation (frows p a) (frows p b).
Proof.
  unfold frows. induction 1 as [|x a b H IH|x y a|a b c H1 IH1 H2 IH2]; cbn; auto.
  - destruct (text_eqb p (r_file x)); auto.
  - destruct (text_eqb p (r_file y)), (text_eqb p (r_file x)); auto. constructor.
  - now transitivity (frows p b).
Qed.
Lemma frows_nil p l : (forall r, In r l -> r_file r <> p) -> frows p l = [].
Proof.
  intros H. unfold frows. induction l as [|r l IH]; cbn; auto.
  destruct (text_eqb p (r_file r)) eqn:E.
  - apply text_eqb_eq in E. destruct (H r); [now left|auto].
  - apply IH. intros x Hx. apply H. now right.
Qed.
Lemma frows_all p l : (forall r, In r l -> r_file r = p) -> frows p l = l.
Proof.
  intros H. unfold frows. induction l as [|r l IH]; cbn; auto.
  rewrite (H r) by now left. rewrite text_eqb_refl. f_equal. apply IH. intros x Hx. apply H. now right.
Qed.
Definition row_dec (a b : row) : {a = b} + {a <> b}.
Proof. decide equality; [apply text_dec|apply Z.eq_dec|apply text_dec]. Defined.
Lemma perm_by_file a b : (forall p, Permutation (frows p a) (frows p b)) -> Permutation a b.
Proof.
  intros H. apply (Permutation_count_occ row_dec). intros r.
  assert (C : forall l, count_occ row_dec l r = count_occ row_dec (frows (r_file r) l) r).
  { induction l as [|x l IH]; cbn; auto. destruct (row_dec x r) as [->|N].
    - unfold frows in *. cbn. rewrite text_eqb_refl. cbn. destruct (row_dec r r); congruence.
    - unfold frows in *. cbn. destruct (text_eqb (r_file r) (r_file x)); cbn; [|exact IH].
      destruct (row_dec x r); [congruence|exact IH]. }
  rewrite (C a), (C b). apply (Permutation_count_occ row_dec). apply H.
Qed.
Lemma frows_flat {A} (g : path * A -> list row) (l : list (path * A)) p :
  NoDup (map fst l) -> (forall e r, In e l -> In r (g e) -> r_file r = fst e) ->
  frows p (flat_map g l) = match assoc l p with Some a => g (p, a) | None => [] end.
Proof.
  induction l as [|(q, a) l IH]; cbn; intros N H; auto.
  inversion N as [|? ? N1 N2]; subst. rewrite frows_app.
  rewrite IH by (auto; intros e r He; apply H; now right).
  destruct (text_eqb p q) eqn:E.
  - apply text_eqb_eq in E. subst q.
    assert (X : assoc l p = None) by now apply assoc_None. rewrite X, app_nil_r.
    apply frows_all. intros r Hr. now rewrite (H (p, a) r) by auto.
  - rewrite frows_nil; [reflexivity|]. intros r Hr. rewrite (H (q, a) r) by auto. cbn.
    apply text_eqb_neq in E. congruence.
Qed.
Lemma rows_of_file T p c r : In r (rows_of T p c) -> r_file r = p.
Proof. unfold rows_of. rewrite in_map_iff. now intros (u & <- & _). Qed.

(** ** Projects *)
Lemma scan_In T pj p f : In (p, f) (scan T pj) <-> candidate T pj p f.
Proof.
  unfold scan, candidate. rewrite filter_In. cbn. rewrite !andb_true_iff, Z.leb_le. tauto.
Qed.
Lemma scan_NoDup T pj : listed_once pj -> NoDup (map fst (scan T pj)).
Proof. apply NoDup_filter_fst. Qed.
Lemma candidate_fun T pj p f f' : listed_once pj -> candidate T pj p f -> candidate T pj p f' -> f = f'.
Proof.
  intros N (H & _) (H' & _). apply In_assoc in H, H'; auto. congruence.
Qed.
Lemma wanted_frows T pj p : listed_once pj ->
  (forall f, indexable T pj p f -> frows p (wanted T pj) = rows_of T p (f_content f)) /\
  ((forall f, ~ indexable T pj p f) -> frows p (wanted T pj) = []).
Proof.
  intros N. unfold wanted. rewrite frows_flat; auto.
  - split.
    + intros f ((H1 & H2 & H3 & H4) & H5). rewrite (In_assoc _ _ _ N H1). cbn.
      apply Z.leb_le in H4. now rewrite H2, H3, H4, H5.
    + intros H. destruct (assoc (p_files pj) p) as [f|] eqn:E; auto. cbn.
      destruct (p_visible pj p) eqn:E1; auto. destruct (t_language T p) eqn:E2; auto.
      destruct (f_size f <=? t_max_size T)%Z eqn:E3; auto. destruct (t_utf8 T (f_content f)) eqn:E4; auto.
      destruct (H f). apply Z.leb_le in E3. repeat split; auto. now apply assoc_In.
  - intros (q, f) r _ Hr. cbn in Hr |- *. destruct (_ && _); [|contradiction]. now apply rows_of_file in Hr.
Qed.
Lemma parsed_frows T l p : NoDup (map fst l) ->
  frows p (parsed_rows T l)
  = match assoc l p with Some f => if t_utf8 T (f_content f) then rows_of T p (f_content f) else [] | None => [] end.
Proof.
  intros N. unfold parsed_rows. rewrite frows_flat; auto.
  - destruct (assoc l p) as [f|]; auto. unfold parse. cbn. now destruct (t_utf8 T (f_content f)).
  - intros (q, f) r _ Hr. unfold parse in Hr. cbn in Hr |- *. destruct (t_utf8 T _); [|contradiction].
    now apply rows_of_file in Hr.
Qed.
Lemma parsed_skips_In T l p : In p (parsed_skips T l) <-> exists f, In (p, f) l /\ t_utf8 T (f_content f) = false.
Proof.
  unfold parsed_skips. rewrite in_flat_map. split.
  - intros ((q, f) & Hi & Hp). unfold parse in Hp. cbn in Hp. destruct (t_utf8 T (f_content f)) eqn:E; [contradiction|].
    cbn in Hp. destruct Hp as [<-|[]]. exists f. auto.
  - intros (f & Hi & He). exists (p, f). split; auto. unfold parse. cbn. rewrite He. now left.
Qed.
Lemma perm_nil_frows a : (forall p, frows p a = []) -> a = [].
Proof.
  intros H. destruct a as [|r a]; auto. specialize (H (r_file r)). cbn in H. unfold frows in H. cbn in H.
  now rewrite text_eqb_refl in H.
Qed.

(** ** Sampling and batching *)
Lemma filter_partition_perm {A} (P : A -> bool) l :
  Permutation (filter P l ++ filter (fun a => negb (P a)) l) l.
Proof.
  induction l as [|a l IH]; cbn; auto. destruct (P a); cbn.
  - now constructor.
  - transitivity (a :: filter P l ++ filter (fun a => negb (P a)) l); [|now constructor].
    symmetry. apply Permutation_middle.
Qed.
Lemma prepare_perm T units : Permutation (prepare T units) units.
Proof.
  unfold prepare. match goal with |- context [if ?b then _ else _] => destruct b end; [|apply isort_perm].
  rewrite <- map_app. transitivity (isort (row_leb T) units); [|apply isort_perm].
  set (items := isort (row_leb T) units). set (sampled := map _ _).
  transitivity (map snd (number 0 items)); [|rewrite number_snd; reflexivity].
  apply Permutation_map. apply (filter_partition_perm (fun e => mem_nat (fst e) _)).
Qed.
Lemma group_concat flush pending cs : concat (group flush pending cs) = pending ++ concat cs.
Proof.
  revert pending. induction cs as [|c cs IH]; intros pending; cbn.
  - destruct pending; cbn; now rewrite ?app_nil_r.
  - destruct ((flush <=? length (pending ++ c)) && nonempty (pending ++ c)); cbn; rewrite IH; cbn; now rewrite app_assoc.
Qed.

(** ** Applying effects *)
Lemma apply_all_app d a b : apply_all d (a ++ b) = apply_all (apply_all d a) b.
Proof. apply fold_left_app. Qed.
