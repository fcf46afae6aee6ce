(** Proofs about directories and locks. *)
From Verif Require Import Base Text ApiPath ApiPathSpec.
Open Scope Z_scope.

Lemma pieces_from_plain cur p : ~ In slash p -> pieces_from cur p = [rev cur ++ p].
Proof.
  revert cur; induction p as [|c p IH]; intros cur H; cbn [pieces_from].
  - rewrite app_nil_r. reflexivity.
  - destruct (c =? slash) eqn:E; [apply Z.eqb_eq in E as ->; exfalso; apply H; left; reflexivity|].
    rewrite IH by (intros K; apply H; right; exact K). cbn [rev]. rewrite <- app_assoc. reflexivity.
Qed.
Lemma pieces_from_nonempty p : forall cur, pieces_from cur p <> [].
Proof. induction p as [|c p IH]; intros cur; cbn [pieces_from]; [discriminate|]. destruct (c =? slash); [discriminate|apply IH]. Qed.
Lemma pieces_from_slash a b : forall cur, pieces_from cur (a ++ slash :: b) = pieces_from cur a ++ pieces b.
Proof.
  induction a as [|c a IH]; intros cur; cbn [app pieces_from].
  - reflexivity.
  - destruct (c =? slash); [cbn [app]; f_equal; apply IH|apply IH].
Qed.
Lemma pieces_slash a b : pieces (a ++ slash :: b) = pieces a ++ pieces b.
Proof. apply pieces_from_slash. Qed.

Lemma fold_walk_app a b at_ : fold_left walk (a ++ b) at_ = fold_left walk b (fold_left walk a at_).
Proof. apply fold_left_app. Qed.
Lemma walk_empty at_ : walk at_ [] = at_.
Proof. reflexivity. Qed.

(** The resolution of a joined relative path *)
Lemma resolve_join cwd dir p : dir <> [] -> is_absolute p = false ->
  resolve cwd (join dir p) = fold_left walk (pieces p) (resolve cwd dir).
Proof.
  intros D A. unfold join. rewrite A. destruct (rev dir) as [|c r] eqn:E.
  - exfalso. apply D. rewrite <- (rev_involutive dir), E. reflexivity.
  - assert (dir = rev r ++ [c]) as Ed by (rewrite <- (rev_involutive dir), E; reflexivity).
    destruct (c =? slash) eqn:S.
    + apply Z.eqb_eq in S as ->. unfold resolve.
      assert (is_absolute (dir ++ p) = is_absolute dir) as -> by (rewrite Ed; destruct (rev r); reflexivity).
      replace (dir ++ p) with (rev r ++ slash :: p) by (rewrite Ed, <- app_assoc; reflexivity).
      rewrite pieces_slash, fold_walk_app. f_equal. rewrite Ed, pieces_slash, fold_walk_app. reflexivity.
    + unfold resolve. assert (is_absolute (dir ++ slash :: p) = is_absolute dir) as -> by (rewrite Ed; destruct (rev r); reflexivity).
      rewrite pieces_slash, fold_walk_app. reflexivity.
Qed.
Lemma walk_descend l : forall at_, ~ In (txt "..") l ->
  fold_left walk l at_ = at_ ++ filter (fun c => negb (text_eqb c [] || text_eqb c (txt "."))) l.
Proof.
  induction l as [|c l IH]; intros at_ H; cbn [fold_left filter]; [rewrite app_nil_r; reflexivity|].
  rewrite IH by (intros K; apply H; right; exact K). unfold walk at 1.
  destruct (text_eqb c [] || text_eqb c (txt ".")) eqn:E; cbn [negb]; [reflexivity|].
  destruct (text_eqb c (txt "..")) eqn:E'.
  - apply text_eqb_eq in E' as ->. exfalso. apply H. left. reflexivity.
  - rewrite <- app_assoc. reflexivity.
Qed.
Lemma descending_inside cwd dir name : dir <> [] -> descending name -> inside cwd dir (index_path dir name).
Proof.
  intros D [A N]. unfold inside, index_path. rewrite resolve_join by assumption. rewrite walk_descend by exact N. eexists. reflexivity.
Qed.
Lemma plain_relative name : plain name -> is_absolute name = false.
Proof.
  intros (N & S & _). destruct name as [|c name]; [contradiction|]. cbn. apply Z.eqb_neq. intros ->. apply S. left. reflexivity.
Qed.
Lemma plain_pieces name : plain name -> pieces name = [name].
Proof. intros (_ & S & _). apply (pieces_from_plain [] name S). Qed.
Lemma walk_plain at_ name : plain name -> walk at_ name = at_ ++ [name].
Proof.
  intros (N & _ & D1 & D2). unfold walk. apply text_eqb_neq in N, D1, D2. rewrite N, D1, D2. reflexivity.
Qed.
Lemma plain_resolve cwd dir name : dir <> [] -> plain name -> resolve cwd (index_path dir name) = resolve cwd dir ++ [name].
Proof.
  intros D P. unfold index_path. rewrite resolve_join; [|exact D|apply plain_relative; exact P].
  rewrite plain_pieces by exact P. cbn [fold_left]. apply walk_plain. exact P.
Qed.
Lemma join_nonempty dir name : dir <> [] -> join dir name <> [].
Proof.
  intros D. unfold join. destruct (is_absolute name) eqn:A; [destruct name; [discriminate|discriminate]|].
  destruct (rev dir) as [|c r] eqn:E.
  - exfalso. apply D. rewrite <- (rev_involutive dir), E. reflexivity.
  - destruct dir; [contradiction|]. destruct (c =? slash); discriminate.
Qed.
(** Every file below an index directory *)
Lemma plain_file cwd dir name file : dir <> [] -> plain name -> plain file ->
  resolve cwd (join (index_path dir name) file) = resolve cwd dir ++ [name; file].
Proof.
  intros D P F. rewrite resolve_join; [|apply join_nonempty; exact D|apply plain_relative; exact F].
  rewrite plain_pieces by exact F. cbn [fold_left]. rewrite walk_plain by exact F. rewrite plain_resolve by assumption.
  rewrite <- app_assoc. reflexivity.
Qed.
Lemma plain_distinct cwd dir n1 n2 : dir <> [] -> plain n1 -> plain n2 -> n1 <> n2 ->
  ~ inside cwd (index_path dir n1) (index_path dir n2).
Proof.
  intros D P1 P2 N (rest & H). rewrite !plain_resolve in H by assumption. rewrite <- app_assoc in H. apply app_inv_head in H.
  cbn in H. injection H as E _. congruence.
Qed.
Lemma parent_outside cwd dir : dir <> [] -> resolve cwd dir <> [] -> ~ inside cwd dir (index_path dir (txt "..")).
Proof.
  intros D R (rest & H). unfold index_path in H. rewrite resolve_join in H by (try exact D; reflexivity).
  change (pieces (txt "..")) with [txt ".."] in H. cbn [fold_left] in H. unfold walk in H.
  change (text_eqb (txt "..") [] || text_eqb (txt "..") (txt ".")) with false in H. rewrite text_eqb_refl in H.
  revert R H. generalize (resolve cwd dir). intros l R H. destruct (exists_last R) as (l' & x & ->).
  rewrite removelast_last in H. apply (f_equal (@length text)) in H. rewrite !app_length in H. cbn [length] in H. lia.
Qed.
Lemma absolute_replaces dir name : is_absolute name = true -> index_path dir name = name.
Proof. unfold index_path, join. intros ->. reflexivity. Qed.
Lemma dot_is_directory cwd dir : dir <> [] -> resolve cwd (index_path dir (txt ".")) = resolve cwd dir.
Proof. intros D. unfold index_path. rewrite resolve_join by (try exact D; reflexivity). reflexivity. Qed.

(** ** Locks *)
Definition locked_unique (dir : text) (ts : list task) : Prop :=
  forall i j a b k, i <> j -> nth_error ts i = Some a -> nth_error ts j = Some b ->
    lock_key dir (t_kind a) (t_name a) = Some k -> lock_key dir (t_kind b) (t_name b) = Some k ->
    t_phase a = Locked -> t_phase b = Locked -> False.
Lemma upd_nth {A} (l : list A) : forall i x j, nth_error (upd l i x) j = if (j =? i)%nat then match nth_error l i with Some _ => Some x | None => None end else nth_error l j.
Proof.
  induction l as [|y l IH]; intros i x j; cbn [upd].
  - destruct i, j; cbn; try reflexivity. destruct (j =? i)%nat; reflexivity.
  - destruct i as [|i]; destruct j as [|j]; cbn [nth_error upd Nat.eqb]; try reflexivity. apply IH.
Qed.
Lemma held_spec dir ts k : held dir ts k = false -> forall i t, nth_error ts i = Some t -> t_phase t = Locked ->
  lock_key dir (t_kind t) (t_name t) <> Some k.
Proof.
  intros H i t N P E. assert (held dir ts k = true) as T; [|congruence]. apply existsb_exists. exists t.
  split; [apply nth_error_In with (n := i); exact N|]. rewrite P, E. apply text_eqb_refl.
Qed.
Lemma lstep_unique dir ts s ts' : lstep dir ts s = Some ts' -> locked_unique dir ts -> locked_unique dir ts'.
Proof.
  intros H U. destruct s as [w name|n]; cbn [lstep] in H.
  - injection H as <-. intros i j a b k D A B K1 K2 P1 P2.
    assert (forall i a, nth_error (ts ++ [{| t_kind := w; t_name := name; t_phase := Idle |}]) i = Some a -> t_phase a = Locked -> nth_error ts i = Some a) as X.
    { clear. intros i a N P. destruct (lt_dec i (length ts)) as [L|L]; [rewrite nth_error_app1 in N by exact L; exact N|].
      rewrite nth_error_app2 in N by lia. destruct (i - length ts)%nat as [|m]; cbn in N; [injection N as <-; discriminate|].
      destruct m; discriminate. }
    apply (U i j a b k D); auto.
  - destruct (nth_error ts n) as [t|] eqn:N; [|discriminate]. destruct (advance dir ts t) as [t'|] eqn:E; [|discriminate].
    injection H as <-.
    assert (t_kind t' = t_kind t /\ t_name t' = t_name t /\
            (t_phase t' = Locked -> forall k, lock_key dir (t_kind t) (t_name t) = Some k -> held dir ts k = false)) as (Ek & En & El).
    { unfold advance in E. destruct (t_phase t) eqn:P.
      - destruct (lock_key dir (t_kind t) (t_name t)) as [k|] eqn:K.
        + destruct (held dir ts k) eqn:Hd; [discriminate|]. injection E as <-. split; [reflexivity|]. split; [reflexivity|].
          intros _ k' K'. injection K' as <-. exact Hd.
        + injection E as <-. split; [reflexivity|]. split; [reflexivity|]. discriminate.
      - injection E as <-. split; [reflexivity|]. split; [reflexivity|]. cbn. destruct (t_kind t); discriminate.
      - injection E as <-. split; [reflexivity|]. split; [reflexivity|]. discriminate.
      - discriminate. }
    intros i j a b k D A B K1 K2 P1 P2. rewrite upd_nth in A, B. rewrite N in A, B.
    destruct (i =? n)%nat eqn:Ei, (j =? n)%nat eqn:Ej.
    + apply Nat.eqb_eq in Ei, Ej. congruence.
    + injection A as <-. rewrite Ek, En in K1. apply (held_spec dir ts k (El P1 k K1) j b B P2 K2).
    + injection B as <-. rewrite Ek, En in K2. apply (held_spec dir ts k (El P2 k K2) i a A P1 K1).
    + apply (U i j a b k D A B K1 K2 P1 P2).
Qed.
Lemma lrun_unique dir ss : forall ts ts', lrun dir ts ss = Some ts' -> locked_unique dir ts -> locked_unique dir ts'.
Proof.
  induction ss as [|s ss IH]; intros ts ts' H U; [injection H as <-; exact U|]. cbn [lrun] in H.
  destruct (lstep dir ts s) as [t1|] eqn:E; [|discriminate]. apply (IH _ _ H). apply (lstep_unique _ _ _ _ E U).
Qed.
Lemma lrun_locked dir ss ts : lrun dir [] ss = Some ts -> locked_unique dir ts.
Proof. intros H. apply (lrun_unique _ _ _ _ H). intros i j a b k _ A. destruct i; discriminate. Qed.
(** Only [delete_index] and [update_metadata] write without a lock *)
Definition unlocked_kind (dir : text) (ts : list task) : Prop :=
  forall i t, nth_error ts i = Some t -> t_phase t = Unlocked -> t_kind t = WDrop \/ t_kind t = WMetadata.
Lemma lrun_unlocked dir ss : forall ts ts', lrun dir ts ss = Some ts' -> unlocked_kind dir ts -> unlocked_kind dir ts'.
Proof.
  induction ss as [|s ss IH]; intros ts ts' H U; [injection H as <-; exact U|]. cbn [lrun] in H.
  destruct (lstep dir ts s) as [t1|] eqn:E; [|discriminate]. apply (IH _ _ H). clear H IH ts'.
  destruct s as [w name|n]; cbn [lstep] in E.
  - injection E as <-. intros i a N P. destruct (lt_dec i (length ts)) as [L|L].
    + rewrite nth_error_app1 in N by exact L. apply (U i a N P).
    + rewrite nth_error_app2 in N by lia. destruct (i - length ts)%nat as [|m]; cbn in N; [injection N as <-; discriminate|]. destruct m; discriminate.
  - destruct (nth_error ts n) as [t|] eqn:N; [|discriminate]. destruct (advance dir ts t) as [t'|] eqn:A; [|discriminate].
    injection E as <-. intros i a Na Pa. rewrite upd_nth, N in Na. destruct (i =? n)%nat; [|apply (U i a Na Pa)]. injection Na as <-.
    unfold advance in A. destruct (t_phase t) eqn:P.
    + destruct (lock_key dir (t_kind t) (t_name t)) as [k|] eqn:K.
      * destruct (held dir ts k); [discriminate|]. injection A as <-. discriminate.
      * injection A as <-. cbn. destruct (t_kind t); try discriminate. right. reflexivity.
    + injection A as <-. cbn in *. destruct (t_kind t); try discriminate. left. reflexivity.
    + injection A as <-. discriminate.
    + discriminate.
Qed.
Lemma exclusive_family dir ss ts i j a b : lrun dir [] ss = Some ts -> i <> j ->
  nth_error ts i = Some a -> nth_error ts j = Some b ->
  (exists k, lock_key dir (t_kind a) (t_name a) = Some k /\ lock_key dir (t_kind b) (t_name b) = Some k) ->
  t_kind a <> WDrop -> t_kind b <> WDrop -> writing a -> writing b -> False.
Proof.
  intros H D A B (k & K1 & K2) NA NB WA WB. pose proof (lrun_locked _ _ _ H) as U.
  assert (unlocked_kind dir ts) as V by (apply (lrun_unlocked _ _ _ _ H); intros n t N; destruct n; discriminate).
  apply (U i j a b k D A B K1 K2).
  - destruct WA as [W|W]; [exact W|]. apply (V i a A) in W as [W|W]; [contradiction|]. rewrite W in K1. discriminate.
  - destruct WB as [W|W]; [exact W|]. apply (V j b B) in W as [W|W]; [contradiction|]. rewrite W in K2. discriminate.
Qed.
