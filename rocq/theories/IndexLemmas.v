(** Lemmas on effects, lists and posting lists used by the index proofs. *)
From Verif Require Import Base F32 CodecModel CodecSpec CodecProofs IndexModel IndexSpec.
Open Scope nat_scope.

(** ** Effects *)

Definition steps {A} (m : eff A) (d : disk) (a : A) (d' : disk) : Prop :=
  exists ws, m d = (ws, Ok a) /\ d' = final d ws.

Lemma final_app d ws1 ws2 : final d (ws1 ++ ws2) = final (final d ws1) ws2.
Proof. apply fold_left_app. Qed.

Lemma steps_bind {A B} (m : eff A) (k : A -> eff B) d b d' :
  steps (bindE m k) d b d' <-> exists a d1, steps m d a d1 /\ steps (k a) d1 b d'.
Proof.
  unfold steps, bindE; split.
  - intros (ws & H & ->). destruct (m d) as [ws1 r] eqn:E. destruct r as [a| |]; try discriminate.
    destruct (k a (final d ws1)) as [ws2 r2] eqn:E2.
    assert (ws = ws1 ++ ws2) by congruence. assert (r2 = Ok b) by congruence. subst.
    exists a, (final d ws1). split; [eauto|]. exists ws2; split; auto. apply final_app.
  - intros (a & d1 & (ws1 & H1 & ->) & (ws2 & H2 & ->)).
    rewrite H1, H2. exists (ws1 ++ ws2). split; auto. symmetry; apply final_app.
Qed.
Lemma steps_lift {A} (r : res A) d a d' : steps (lift r) d a d' <-> r = Ok a /\ d' = d.
Proof.
  unfold steps, lift; split.
  - intros (ws & H & ->). assert (ws = []) by congruence. subst; split; [congruence|reflexivity].
  - intros (-> & ->). exists []; auto.
Qed.
Lemma steps_ret {A} (v : A) d a d' : steps (ret v) d a d' <-> a = v /\ d' = d.
Proof. unfold ret; rewrite steps_lift; split; intros (H & ->); split; auto; congruence. Qed.
Lemma steps_ask {A} (f : disk -> res A) d a d' : steps (ask f) d a d' <-> f d = Ok a /\ d' = d.
Proof.
  unfold steps, ask; split.
  - intros (ws & H & ->). assert (ws = []) by congruence. subst; split; [congruence|reflexivity].
  - intros (H & ->). exists []; rewrite H; auto.
Qed.
Lemma steps_emit w d a d' : steps (emit w) d a d' <-> d' = apply_write d w.
Proof.
  unfold steps, emit; split.
  - intros (ws & H & ->). assert (ws = [w]) by congruence. subst; reflexivity.
  - intros ->. exists [w]; destruct a; auto.
Qed.
Lemma steps_when b m d d' u :
  steps (whenE b m) d u d' <-> (b = true /\ steps m d u d') \/ (b = false /\ d' = d).
Proof.
  unfold whenE; destruct b.
  - split; [auto|intros [(_ & H)|(H & _)]; [exact H|discriminate]].
  - rewrite steps_ret; split.
    + intros (_ & ->); auto.
    + intros [(H & _)|(_ & ->)]; [discriminate|destruct u; auto].
Qed.
Lemma steps_for_nil {X S} (f : S -> X -> eff S) s d a d' : steps (forE f [] s) d a d' <-> a = s /\ d' = d.
Proof. apply steps_ret. Qed.
Lemma steps_for_cons {X S} (f : S -> X -> eff S) x xs s d a d' :
  steps (forE f (x :: xs) s) d a d' <-> exists s1 d1, steps (f s x) d s1 d1 /\ steps (forE f xs s1) d1 a d'.
Proof. apply steps_bind. Qed.

(** Loop over [seq a n]: invariant rule. *)
Lemma steps_for_seq {T} (f : T -> nat -> eff T) (P : nat -> T -> disk -> Prop) n : forall a s d s' d',
  steps (forE f (seq a n) s) d s' d' ->
  P a s d ->
  (forall i s d s1 d1, a <= i < a + n -> P i s d -> steps (f s i) d s1 d1 -> P (S i) s1 d1) ->
  P (a + n) s' d'.
Proof.
  induction n as [|n IH]; intros a s d s' d' H HP Hstep; cbn [seq] in H.
  - apply steps_for_nil in H; destruct H as (-> & ->). rewrite Nat.add_0_r; auto.
  - apply steps_for_cons in H; destruct H as (s1 & d1 & H1 & H2).
    replace (a + S n) with (S a + n) by lia.
    eapply IH; eauto.
    + eapply Hstep; eauto; lia.
    + intros; eapply Hstep; eauto; lia.
Qed.

Ltac mono H :=
  repeat first
    [ apply steps_bind in H; let a := fresh "a" in let d1 := fresh "d1" in
      let H1 := fresh "H" in destruct H as (a & d1 & H1 & H)
    ].

(** ** Field access after a write *)
Lemma ap_meta d w : f_meta (apply_write d w) = match w with WMeta v => v | _ => f_meta d end.
Proof. destruct d, w; reflexivity. Qed.
Lemma ap_centroids d w : f_centroids (apply_write d w) = match w with WCentroids v => v | _ => f_centroids d end.
Proof. destruct d, w; reflexivity. Qed.
Lemma ap_cutoffs d w : f_cutoffs (apply_write d w) = match w with WCutoffs v => v | _ => f_cutoffs d end.
Proof. destruct d, w; reflexivity. Qed.
Lemma ap_weights d w : f_weights (apply_write d w) = match w with WWeights v => v | _ => f_weights d end.
Proof. destruct d, w; reflexivity. Qed.
Lemma ap_threshold d w : f_threshold (apply_write d w) = match w with WThreshold v => v | _ => f_threshold d end.
Proof. destruct d, w; reflexivity. Qed.
Lemma ap_ivf d w : f_ivf (apply_write d w) = match w with WIvf v => v | _ => f_ivf d end.
Proof. destruct d, w; reflexivity. Qed.
Lemma ap_ivf_lengths d w : f_ivf_lengths (apply_write d w) = match w with WIvfLengths v => v | _ => f_ivf_lengths d end.
Proof. destruct d, w; reflexivity. Qed.
Lemma ap_doclens d w : f_doclens (apply_write d w) = match w with WDoclens i v => put (f_doclens d) i v | _ => f_doclens d end.
Proof. destruct d, w; reflexivity. Qed.
Lemma ap_codes d w : f_codes (apply_write d w) = match w with WCodes i v => put (f_codes d) i v | _ => f_codes d end.
Proof. destruct d, w; reflexivity. Qed.
Lemma ap_residuals d w : f_residuals (apply_write d w) = match w with WResiduals i v => put (f_residuals d) i v | _ => f_residuals d end.
Proof. destruct d, w; reflexivity. Qed.
Lemma ap_cmeta d w : f_cmeta (apply_write d w) = match w with WCMeta i v => put (f_cmeta d) i v | _ => f_cmeta d end.
Proof. destruct d, w; reflexivity. Qed.
Lemma ap_buffer d w : f_buffer (apply_write d w) = match w with WBuffer v => v | _ => f_buffer d end.
Proof. destruct d, w; reflexivity. Qed.
Lemma ap_buffer_lengths d w : f_buffer_lengths (apply_write d w) = match w with WBufferLengths v => v | _ => f_buffer_lengths d end.
Proof. destruct d, w; reflexivity. Qed.
Lemma ap_buffer_info d w : f_buffer_info (apply_write d w) = match w with WBufferInfo v => v | _ => f_buffer_info d end.
Proof. destruct d, w; reflexivity. Qed.
Lemma ap_emb d w : f_emb (apply_write d w) = match w with WEmb v => v | _ => f_emb d end.
Proof. destruct d, w; reflexivity. Qed.
Lemma ap_emb_lengths d w : f_emb_lengths (apply_write d w) = match w with WEmbLengths v => v | _ => f_emb_lengths d end.
Proof. destruct d, w; reflexivity. Qed.
Global Hint Rewrite ap_meta ap_centroids ap_cutoffs ap_weights ap_threshold ap_ivf ap_ivf_lengths
  ap_doclens ap_codes ap_residuals ap_cmeta ap_buffer ap_buffer_lengths ap_buffer_info ap_emb
  ap_emb_lengths : disk.
Ltac dsk := autorewrite with disk in *; cbv beta iota in *.

Lemma put_same {A} (m : nat -> option A) i v : put m i v i = v.
Proof. unfold put; rewrite Nat.eqb_refl; reflexivity. Qed.
Lemma put_other {A} (m : nat -> option A) i j v : j <> i -> put m i v j = m j.
Proof. intro H; unfold put. destruct (Nat.eqb_spec j i); [contradiction|reflexivity]. Qed.
Lemma put_put {A} (m : nat -> option A) i u v j : put (put m i u) i v j = put m i v j.
Proof. unfold put. destruct (j =? i); reflexivity. Qed.

(** ** Lists *)

Lemma sum_app a b : sum (a ++ b) = sum a + sum b.
Proof. induction a; cbn; lia. Qed.
Lemma sum_map_length {A} (l : list (list A)) : sum (map (@length A) l) = length (concat l).
Proof. induction l; cbn; auto. rewrite app_length; lia. Qed.
Lemma sum_repeat0 n : sum (repeat 0 n) = 0.
Proof. induction n; cbn; auto. Qed.

Lemma firstn_add {A} a b (l : list A) : firstn (a + b) l = firstn a l ++ firstn b (skipn a l).
Proof.
  revert l; induction a as [|a IH]; intros [|x l]; cbn; auto.
  - rewrite firstn_nil; reflexivity.
  - rewrite IH; reflexivity.
Qed.
Lemma firstn_app_exact {A} (a b : list A) : firstn (length a) (a ++ b) = a.
Proof. rewrite firstn_app, Nat.sub_diag, firstn_all; cbn; apply app_nil_r. Qed.
Lemma skipn_app_exact {A} (a b : list A) : skipn (length a) (a ++ b) = b.
Proof. rewrite skipn_app, Nat.sub_diag, skipn_all; reflexivity. Qed.
Lemma firstn_app_le {A} n (a b : list A) : n <= length a -> firstn n (a ++ b) = firstn n a.
Proof. intro H; rewrite firstn_app. replace (n - length a) with 0 by lia. cbn; apply app_nil_r. Qed.

Lemma slice_Ok {A} (l : list A) a b r :
  slice l a b = Ok r <-> a <= b <= length l /\ r = firstn (b - a) (skipn a l).
Proof.
  unfold slice; destruct (Nat.leb_spec a b), (Nat.leb_spec b (length l)); cbn; split; intro H1;
    try discriminate; try lia.
  - inversion H1; subst; split; auto; lia.
  - destruct H1 as (_ & ->); reflexivity.
Qed.

Lemma concat_map_app {A B} (f : A -> list B) l1 l2 :
  concat (map f (l1 ++ l2)) = concat (map f l1) ++ concat (map f l2).
Proof. rewrite map_app, concat_app; reflexivity. Qed.

Lemma Forall2_app_inv_l' {A B} (R : A -> B -> Prop) l1 l2 l :
  Forall2 R (l1 ++ l2) l -> exists a b, l = a ++ b /\ Forall2 R l1 a /\ Forall2 R l2 b.
Proof.
  intro H; apply Forall2_app_inv_l in H. destruct H as (a & b & H1 & H2 & ->). eauto.
Qed.

Lemma Forall2_concat_split {A B} (R : A -> B -> Prop) : forall (ls : list (list A)) l,
  Forall2 R (concat ls) l -> exists ms, l = concat ms /\ Forall2 (Forall2 R) ls ms.
Proof.
  induction ls as [|a ls IH]; cbn; intros l H.
  - inversion H; subst. exists []; auto.
  - apply Forall2_app_inv_l' in H; destruct H as (x & y & -> & H1 & H2).
    apply IH in H2; destruct H2 as (ms & -> & H2). exists (x :: ms); auto.
Qed.
Lemma Forall2_concat {A B} (R : A -> B -> Prop) ls ms :
  Forall2 (Forall2 R) ls ms -> Forall2 R (concat ls) (concat ms).
Proof. induction 1; cbn; auto. apply Forall2_app; auto. Qed.
Lemma Forall2_length {A B} (R : A -> B -> Prop) l m : Forall2 R l m -> length l = length m.
Proof. induction 1; cbn; auto. Qed.
Lemma Forall2_lengths {A B} (R : A -> B -> Prop) ls ms :
  Forall2 (Forall2 R) ls ms -> map (@length A) ls = map (@length B) ms.
Proof. induction 1; cbn; auto. f_equal; auto. eapply Forall2_length; eauto. Qed.
Lemma Forall2_impl' {A B} (R S : A -> B -> Prop) l m :
  (forall a b, R a b -> S a b) -> Forall2 R l m -> Forall2 S l m.
Proof. intros H; induction 1; auto. Qed.

(** splitting codes and rows by document lengths gives the documents back *)
Lemma split_codes_concat ls : split_codes (map (@length nat) ls) (concat ls) = ls.
Proof.
  induction ls as [|a ls IH]; cbn; auto. rewrite firstn_app_exact, skipn_app_exact, IH; auto.
Qed.
Lemma split_docs_concat ls : split_docs (concat ls) (map (@length row) ls) = ls.
Proof.
  induction ls as [|a ls IH]; cbn; auto.
  rewrite app_length. destruct (Nat.leb_spec (length a) (length a + length (concat ls))); [|lia].
  rewrite firstn_app_exact, skipn_app_exact, IH; auto.
Qed.

(** slice of a concatenation *)
Lemma nth_prefix_sums acc l : forall i, i <= length l ->
  nth_error (prefix_sums acc l) i = Some (acc + sum (firstn i l)).
Proof.
  revert acc; induction l as [|x l IH]; intros acc [|i] H; cbn in *; try lia;
    try (f_equal; lia).
  rewrite IH by lia. f_equal; lia.
Qed.
Lemma prefix_sums_length acc l : length (prefix_sums acc l) = S (length l).
Proof. revert acc; induction l; intros; cbn; auto. Qed.

Lemma slice_concat {A} (ls : list (list A)) i l :
  nth_error ls i = Some l ->
  firstn (length l) (skipn (sum (firstn i (map (@length A) ls))) (concat ls)) = l.
Proof.
  revert ls; induction i as [|i IH]; intros [|a ls] H; cbn in *; try discriminate.
  - inversion H; subst. apply firstn_app_exact.
  - rewrite skipn_app. rewrite skipn_all2 by lia. cbn [app].
    replace (length a + sum (firstn i (map (@length A) ls)) - length a)
      with (sum (firstn i (map (@length A) ls))) by lia.
    apply IH; auto.
Qed.
Lemma sum_firstn_le l i : sum (firstn i l) <= sum l.
Proof. revert i; induction l; intros [|i]; cbn; try lia. specialize (IHl i); lia. Qed.
Lemma sum_firstn_S l i x : nth_error l i = Some x -> sum (firstn (S i) l) = sum (firstn i l) + x.
Proof.
  revert i; induction l as [|a l IH]; intros [|i] H; cbn in *; try discriminate.
  - inversion H; subst; lia.
  - specialize (IH i H). cbn in IH. lia.
Qed.

(** ** sort + dedup *)
Definition sinc (l : list Z) : Prop := StronglySorted Z.lt l.

Lemma dedup_cons2 (a b : Z) l :
  dedup Z.eqb (a :: b :: l) = if Z.eqb a b then dedup Z.eqb (b :: l) else a :: dedup Z.eqb (b :: l).
Proof. reflexivity. Qed.
Lemma dedup_In (l : list Z) x : In x (dedup Z.eqb l) <-> In x l.
Proof.
  induction l as [|a l IH]; [cbn; tauto|].
  destruct l as [|b l]; [cbn; tauto|].
  rewrite dedup_cons2. destruct (Z.eqb_spec a b).
  - subst. rewrite IH; cbn; tauto.
  - cbn [In]. rewrite IH; cbn; tauto.
Qed.
Lemma dedup_sinc (l : list Z) : StronglySorted Z.le l -> sinc (dedup Z.eqb l).
Proof.
  unfold sinc; induction 1 as [|a l H IH F]; [constructor|].
  destruct l as [|b l]; [repeat constructor|].
  rewrite dedup_cons2. destruct (Z.eqb_spec a b); auto.
  constructor; auto. apply Forall_forall. intros x Hx. apply (proj1 (dedup_In _ _)) in Hx.
  assert (a <= b)%Z by (inversion F; auto).
  destruct Hx as [<-|Hx]; [lia|].
  assert (b <= x)%Z by (inversion H; subst; rewrite Forall_forall in *; auto). lia.
Qed.
Lemma isort_le (l : list Z) : StronglySorted Z.le (isort Z.leb l).
Proof.
  assert (H : StronglySorted (fun a b => Z.leb a b = true) (isort Z.leb l)).
  { apply isort_sorted; intros; lia. }
  induction H; constructor; auto.
  eapply Forall_impl; [|eauto]. intros; cbn in *; lia.
Qed.
Lemma sort_dedup_sinc l : sinc (sort_dedup l).
Proof. apply dedup_sinc, isort_le. Qed.
Lemma sort_dedup_In l x : In x (sort_dedup l) <-> In x l.
Proof. unfold sort_dedup; rewrite dedup_In, isort_In; tauto. Qed.
Lemma sinc_unique l1 : forall l2, sinc l1 -> sinc l2 -> (forall x, In x l1 <-> In x l2) -> l1 = l2.
Proof.
  unfold sinc; induction l1 as [|a l1 IH]; intros [|b l2] H1 H2 H; auto.
  - exfalso; apply (H b); left; auto.
  - exfalso; apply (H a); left; auto.
  - apply StronglySorted_inv in H1; destruct H1 as (S1 & F1).
    apply StronglySorted_inv in H2; destruct H2 as (S2 & F2). rewrite Forall_forall in *.
    assert (a = b).
    { destruct (proj1 (H a) (or_introl eq_refl)) as [E|E]; auto.
      destruct (proj2 (H b) (or_introl eq_refl)) as [E'|E']; auto.
      specialize (F2 _ E); specialize (F1 _ E'); lia. }
    subst; f_equal. apply IH; auto. intro x; split; intro Hx.
    + destruct (proj1 (H x) (or_intror Hx)) as [E|E]; auto. subst.
      specialize (F1 _ Hx); lia.
    + destruct (proj2 (H x) (or_intror Hx)) as [E|E]; auto. subst.
      specialize (F2 _ Hx); lia.
Qed.
Lemma sort_dedup_eq l m : sinc m -> (forall x, In x l <-> In x m) -> sort_dedup l = m.
Proof.
  intros Hm H; apply sinc_unique; auto using sort_dedup_sinc.
  intro x; rewrite sort_dedup_In; auto.
Qed.

(** ** Posting lists *)
Lemma seq_sinc a n : sinc (map Z.of_nat (seq a n)).
Proof.
  unfold sinc; revert a; induction n as [|n IH]; intro a; cbn [seq map]; constructor; auto.
  apply Forall_forall; intros x Hx. apply in_map_iff in Hx. destruct Hx as (y & <- & Hy).
  apply in_seq in Hy; lia.
Qed.
Lemma filter_sinc P l : sinc l -> sinc (filter P l).
Proof.
  unfold sinc; induction 1; cbn; [constructor|]. destruct (P a); auto.
  constructor; auto. rewrite Forall_forall in *. intros x Hx; apply filter_In in Hx; apply H0; tauto.
Qed.
Lemma map_filter_swap {A B} (f : A -> B) (P : B -> bool) l :
  map f (filter (fun x => P (f x)) l) = filter P (map f l).
Proof. induction l; cbn; auto. destruct (P (f a)); cbn; rewrite IHl; auto. Qed.

Lemma postings_sinc docs c : sinc (postings docs c).
Proof.
  unfold postings.
  assert (E : map Z.of_nat (filter (fun i => has_code c (nth i docs [])) (seq 0 (length docs)))
    = filter (fun z => has_code c (nth (Z.to_nat z) docs [])) (map Z.of_nat (seq 0 (length docs)))).
  { rewrite <- map_filter_swap. f_equal. apply filter_ext. intro i; rewrite Nat2Z.id; auto. }
  rewrite E. apply filter_sinc, seq_sinc.
Qed.
Lemma postings_In docs c x :
  In x (postings docs c) <-> exists i sd, x = Z.of_nat i /\ nth_error docs i = Some sd /\ has_code c sd = true.
Proof.
  unfold postings; rewrite in_map_iff; split.
  - intros (i & <- & H). apply filter_In in H; destruct H as (H1 & H2). apply in_seq in H1.
    exists i, (nth i docs []). repeat split; auto. apply nth_error_nth'; lia.
  - intros (i & sd & -> & H1 & H2). exists i; split; auto. apply filter_In; split.
    + apply in_seq. assert (nth_error docs i <> None) by congruence. apply nth_error_Some in H; lia.
    + rewrite (nth_error_nth docs i [] H1); auto.
Qed.
Lemma postings_app docs new c :
  postings (docs ++ new) c
  = postings docs c ++ map (fun z => z + Z.of_nat (length docs))%Z (postings new c).
Proof.
  apply sinc_unique.
  - apply postings_sinc.
  - unfold sinc.
    assert (forall l1 l2, StronglySorted Z.lt l1 -> StronglySorted Z.lt l2 ->
      (forall a b, In a l1 -> In b l2 -> a < b)%Z -> StronglySorted Z.lt (l1 ++ l2)) as Happ.
    { induction l1; cbn; intros l2 S1 S2 H; auto. inversion S1; subst. constructor.
      - apply IHl1; auto; intros; apply H; auto.
      - apply Forall_app; split; auto. apply Forall_forall; intros; apply H; auto. }
    apply Happ.
    + apply postings_sinc.
    + pose proof (postings_sinc new c) as S; unfold sinc in S.
      induction S; cbn; constructor; auto.
      rewrite Forall_forall in *. intros x Hx; apply in_map_iff in Hx; destruct Hx as (y & <- & Hy).
      specialize (H y Hy); lia.
    + intros a b Ha Hb. apply postings_In in Ha; destruct Ha as (i & sd & -> & Hi & _).
      apply in_map_iff in Hb; destruct Hb as (y & <- & Hy).
      apply postings_In in Hy; destruct Hy as (j & sd' & -> & _).
      assert (nth_error docs i <> None) by congruence. apply nth_error_Some in H; lia.
  - intro x; rewrite in_app_iff, in_map_iff, !postings_In; split.
    + intros (i & sd & -> & Hi & Hc). destruct (Nat.lt_ge_cases i (length docs)).
      * left. exists i, sd. rewrite nth_error_app1 in Hi by lia. auto.
      * right. exists (Z.of_nat (i - length docs)); split; [lia|].
        apply postings_In. exists (i - length docs), sd. rewrite nth_error_app2 in Hi by lia; auto.
    + intros [(i & sd & -> & Hi & Hc)|(y & <- & Hy)].
      * exists i, sd. rewrite nth_error_app1; auto.
        assert (nth_error docs i <> None) by congruence. apply nth_error_Some in H; lia.
      * apply postings_In in Hy; destruct Hy as (j & sd & -> & Hj & Hc).
        exists (length docs + j), sd. split; [lia|]. split; auto.
        rewrite nth_error_app2 by lia. rewrite <- Hj. f_equal; lia.
Qed.

(** ** Posting maps *)
Lemma push_codes_In m id codes c x :
  In x (push_codes m (id, codes) c) <-> In x (m c) \/ (x = id /\ In c codes).
Proof.
  unfold push_codes; cbn [fst snd]. revert m; induction codes as [|k codes IH]; intro m; cbn.
  - tauto.
  - rewrite IH. unfold push. destruct (Nat.eqb_spec c k).
    + subst. rewrite in_app_iff; cbn. firstorder congruence.
    + firstorder congruence.
Qed.
Lemma has_code_In c (sd : stored_doc) : has_code c sd = true <-> In c (map fst sd).
Proof.
  unfold has_code; rewrite existsb_exists, in_map_iff; split.
  - intros (t & H & E). exists t; split; auto. apply Nat.eqb_eq; auto.
  - intros (t & E & H). exists t; split; auto. apply Nat.eqb_eq; auto.
Qed.

Lemma fold_push_In (docs : list stored_doc) : forall m start c x,
  In x (fold_left push_codes
          (combine (map Z.of_nat (seq start (length docs))) (map (map fst) docs)) m c)
  <-> In x (m c) \/ exists i sd, x = Z.of_nat (start + i) /\ nth_error docs i = Some sd /\ has_code c sd = true.
Proof.
  induction docs as [|sd docs IH]; intros m start c x; cbn [length seq map combine fold_left].
  - split; [auto|]. intros [H|(i & sd & _ & H & _)]; auto. destruct i; discriminate.
  - rewrite IH, push_codes_In, <- has_code_In. split.
    + intros [[H|(-> & H)]|(i & sd' & -> & H1 & H2)]; auto.
      * right; exists 0, sd. rewrite Nat.add_0_r; auto.
      * right; exists (S i), sd'. split; [f_equal; lia|auto].
    + intros [H|([|i] & sd' & -> & H1 & H2)]; auto.
      * cbn in H1; inversion H1; subst. left; right. split; [f_equal; lia|auto].
      * right; exists i, sd'. split; [f_equal; lia|auto].
Qed.
