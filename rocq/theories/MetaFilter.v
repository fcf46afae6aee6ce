(** Proofs about the metadata queries: a filter selects exactly the rows satisfying it. *)
From Verif Require Import Base IndexSpec IndexLemmas Text SqlModel SqlSpec SqlProofs SqlValid MetaModel MetaQuery MetaAst MetaSpec MetaProofs MetaCreate MetaContent.
From Coq Require Import Permutation.
Open Scope nat_scope.
Set Default Proof Using "Type".

(** ** Truth *)
Lemma arity_placeholders a : arity a = placeholders a.
Proof. induction a; cbn; auto. Qed.
Lemma or3_or x y : or3 x y = sql_or x y.
Proof. destruct x as [[]|], y as [[]|]; reflexivity. Qed.
Lemma and3_and x y : and3 x y = sql_and x y.
Proof. destruct x as [[]|], y as [[]|]; reflexivity. Qed.
Lemma neg3_not n x : neg3 n x = sql_not n x.
Proof. destruct n; reflexivity. Qed.
Lemma fold_or eq ps : fold_right or3 (Some false) (map eq ps) = one_of eq ps.
Proof.
  unfold one_of. induction ps as [|p ps IH]; cbn; auto. rewrite IH.
  destruct (eq p) as [[]|]; cbn; auto; destruct (existsb _ ps); auto; destruct (existsb _ ps); auto.
Qed.
Lemma truth_ext E v w a : (forall c, In c (mentioned a) -> v c = w c) -> forall ps, truth E v a ps = truth E w a ps.
Proof.
  induction a; intros H ps; cbn [truth mentioned] in *.
  - rewrite IHa1 by (intros; apply H, in_or_app; auto). destruct (truth E w a1 ps) as (x, q).
    rewrite IHa2 by (intros; apply H, in_or_app; auto). reflexivity.
  - rewrite IHa1 by (intros; apply H, in_or_app; auto). destruct (truth E w a1 ps) as (x, q).
    rewrite IHa2 by (intros; apply H, in_or_app; auto). reflexivity.
  - rewrite IHa by auto. reflexivity.
  - rewrite H by (left; auto). reflexivity.
  - rewrite H by (left; auto). reflexivity.
  - rewrite H by (left; auto). reflexivity.
  - rewrite H by (left; auto). reflexivity.
  - rewrite H by (left; auto). reflexivity.
  - rewrite H by (left; auto). reflexivity.
Qed.
Lemma eval_truth E reg val a : forall ps rest b, length ps = placeholders a ->
  (forall p, In p (patterns a ps) -> exists t re, p = SText t /\ reg = Some re /\ e_regex E t = Some re) ->
  eval E reg val ps a = Ok b -> truth E val a (ps ++ rest) = (b, rest).
Proof.
  assert (ONE : forall (ps rest : list sqlv), length ps = 1 -> hd SNull (ps ++ rest) = nth 0 ps SNull /\ tl (ps ++ rest) = rest).
  { intros [|p [|q ps]] rest H; try discriminate. auto. }
  induction a; intros ps rest b L P H; cbn [eval truth placeholders patterns] in *.
  - apply bind_Ok in H. destruct H as (x & H1 & H). apply bind_Ok in H. destruct H as (y & H2 & H). injection H as <-.
    rewrite arity_placeholders in P.
    rewrite <- (firstn_skipn (placeholders a1) ps), <- app_assoc.
    rewrite (IHa1 _ (skipn (placeholders a1) ps ++ rest) x); auto; [|rewrite firstn_length; lia|intros; apply P, in_or_app; auto].
    rewrite (IHa2 _ rest y); auto; [|rewrite skipn_length; lia|intros; apply P, in_or_app; auto]. rewrite or3_or. reflexivity.
  - apply bind_Ok in H. destruct H as (x & H1 & H). apply bind_Ok in H. destruct H as (y & H2 & H). injection H as <-.
    rewrite arity_placeholders in P.
    rewrite <- (firstn_skipn (placeholders a1) ps), <- app_assoc.
    rewrite (IHa1 _ (skipn (placeholders a1) ps ++ rest) x); auto; [|rewrite firstn_length; lia|intros; apply P, in_or_app; auto].
    rewrite (IHa2 _ rest y); auto; [|rewrite skipn_length; lia|intros; apply P, in_or_app; auto]. rewrite and3_and. reflexivity.
  - apply bind_Ok in H. destruct H as (x & H1 & H). injection H as <-. rewrite (IHa _ rest x); auto.
  - destruct (ONE ps rest L) as (-> & ->). injection H as <-. auto.
  - destruct (ONE ps rest L) as (-> & ->). injection H as <-. auto.
  - destruct (ONE ps rest L) as (-> & ->). destruct ps as [|p [|q ps]]; try discriminate. cbn [nth firstn] in *.
    destruct (P p) as (t & re & -> & -> & Er); [left; auto|]. destruct (snd (val col)) eqn:V; try discriminate. injection H as <-.
    cbn [regexp_matches]. rewrite Er. auto.
  - destruct ps; [|discriminate]. injection H as <-. auto.
  - destruct ps as [|p [|q [|]]]; try discriminate. injection H as <-. cbn [app hd tl nth]. rewrite and3_and. auto.
  - injection H as <-. rewrite fold_or. subst n.
    rewrite firstn_all, firstn_app, firstn_all, Nat.sub_diag, firstn_O, app_nil_r, skipn_app, skipn_all, Nat.sub_diag. reflexivity.
Qed.
Lemma no_regexp a : has_regexp a = false <-> ~ uses_regexp a.
Proof.
  induction a; cbn [has_regexp uses_regexp]; try tauto; try (split; [intros; auto|reflexivity]); try (split; [discriminate|tauto]).
  - rewrite orb_false_iff. tauto.
  - rewrite orb_false_iff. tauto.
Qed.
Lemma no_patterns a : ~ uses_regexp a -> forall ps, patterns a ps = [].
Proof.
  induction a; cbn [uses_regexp patterns]; intros N ps; auto; try tauto.
  - rewrite IHa1, IHa2 by tauto. auto.
  - rewrite IHa1, IHa2 by tauto. auto.
Qed.
Lemma eval_total E reg val a : ~ uses_regexp a -> forall ps, exists b, eval E reg val ps a = Ok b.
Proof.
  induction a; cbn [uses_regexp eval]; intros N ps; eauto; try tauto.
  - destruct (IHa1 ltac:(tauto) (firstn (placeholders a1) ps)) as (x & ->). cbn [bind].
    destruct (IHa2 ltac:(tauto) (skipn (placeholders a1) ps)) as (y & ->). cbn [bind]. eauto.
  - destruct (IHa1 ltac:(tauto) (firstn (placeholders a1) ps)) as (x & ->). cbn [bind].
    destruct (IHa2 ltac:(tauto) (skipn (placeholders a1) ps)) as (y & ->). cbn [bind]. eauto.
  - destruct (IHa N ps) as (x & ->). cbn [bind]. eauto.
Qed.

(** ** Columns seen by a query *)
Lemma NoDup_remove_app {A} (l m : list A) : NoDup (l ++ m) -> NoDup l.
Proof.
  induction l as [|x l IH]; cbn; intro H; [constructor|]. inversion H as [|? ? N1 N2]; subst.
  constructor; auto. intro. apply N1, in_or_app; auto.
Qed.
Lemma ci_map k : ci k = map to_lower1 k. Proof. reflexivity. Qed.
Definition vis (d : db) (r : thin_row * fat_row) : list (text * (ctype * sqlv)) :=
  combine (map c_name (thin_cols d)) (combine (map c_type (thin_cols d)) (t_vals (fst r))).
Definition vis_fat (d : db) (r : thin_row * fat_row) : list (text * (ctype * sqlv)) :=
  combine (map c_name (fat_cols d)) (combine (map c_type (fat_cols d)) (f_vals (snd r))).
Lemma find_cells d i : wf_db d -> cells (Db d) i =
  option_map (fun r => (subset_column, (CInt, SInt i)) :: vis d r ++ vis_fat d r) (lookup (rows d) i).
Proof.
  intro W. pose proof (rows_length d W) as L. pose proof (w_same d W) as Hs. pose proof (w_cids d W) as Hc.
  unfold cells, lookup, rows, sub_of.
  destruct (find (fun t => (t_sub t =? i)%Z) (thin_rows d)) as [t|] eqn:F.
  - assert (exists f, find (fun r => (t_sub (fst r) =? i)%Z) (combine (thin_rows d) (fat_rows d)) = Some (t, f)
              /\ In (t, f) (combine (thin_rows d) (fat_rows d))) as (f & F2 & I2).
    { clear Hs Hc W. revert F L. generalize (thin_rows d) (fat_rows d). intros l. induction l as [|x l IH]; intros [|y m] F L; try discriminate.
      cbn in F, L |- *. destruct (t_sub x =? i)%Z; [injection F as ->; exists y; auto|].
      destruct (IH m F ltac:(lia)) as (f & F2 & I2). exists f; auto. }
    rewrite F2. cbn [option_map].
    assert (F3 : find (fun f0 => (f_cid f0 =? t_cid t)%Z) (fat_rows d) = Some f).
    { clear F F2 W. revert I2 L Hs Hc. generalize (thin_rows d) (fat_rows d). intros l. induction l as [|x l IH]; intros [|y m] I2 L Hs Hc; try contradiction.
      cbn in *. injection Hs as H1 Hs. inversion Hc as [|? ? N1 N2]; subst. destruct I2 as [E|I2].
      - injection E as -> ->. rewrite H1, Z.eqb_refl. auto.
      - destruct (f_cid y =? t_cid t)%Z eqn:Q; [|apply IH; auto; lia].
        exfalso. apply N1. apply Z.eqb_eq in Q. rewrite Q, <- Hs. apply in_map. eapply in_combine_l; eauto. }
    rewrite F3. reflexivity.
  - destruct (find _ (combine _ _)) as [(t, f)|] eqn:F2; auto. apply find_some in F2. destruct F2 as (I & E).
    cbn in E. pose proof (find_none _ _ F t (in_combine_l _ _ _ _ I)). cbn in H. congruence.
Qed.
Lemma has_row_iff d i : wf_db d -> has_row (Db d) i <-> In i (map sub_of (rows d)).
Proof.
  intro W. unfold has_row. rewrite find_cells by auto. destruct (lookup (rows d) i) as [r|] eqn:L; cbn.
  - split; intros; try discriminate. destruct (wf_parts d W) as (_ & R). apply lookup_spec in L; [|apply R].
    destruct L as (H1 & <-). apply in_map; auto.
  - apply lookup_none in L. split; [congruence|tauto].
Qed.
Lemma find_app {A} (p : A -> bool) l m : find p (l ++ m) = match find p l with Some x => Some x | None => find p m end.
Proof. induction l as [|x l IH]; cbn; auto. destruct (p x); auto. Qed.
Lemma find_names {B} c (ns : list text) (bs : list B) : length ns = length bs ->
  (find (fun p => text_eqb (ci (fst p)) (ci c)) (combine ns bs) = None <-> filter (fun k => text_eqb (ci k) (ci c)) ns = []).
Proof.
  revert bs. induction ns as [|n ns IH]; intros [|b bs] L; try discriminate; cbn [combine find fst filter]; [tauto|].
  destruct (text_eqb (ci n) (ci c)); [split; discriminate|]. apply IH. cbn in L. lia.
Qed.
Definition plain (d : db) (join : bool) : list (thin_row * fat_row) := if join then joined d else thin_only d.
Lemma value_agrees d join r c : wf_db d -> In r (plain d join) -> ci c <> ci content_column ->
  resolves (visible_names d join) c = true ->
  value_of (visible d join r) c = value (Db d) (sub_of r) c.
Proof.
  intros W Hr Nc R. destruct (wf_parts d W) as (CO & RO).
  assert (exists q, lookup (rows d) (sub_of r) = Some q /\ fst q = fst r /\ (join = true -> q = r)) as (q & Lq & Fq & Jq).
  { destruct join; cbn in Hr.
    - rewrite joined_combine in Hr by auto. exists r. split; auto. apply lookup_spec; [apply RO|]. auto.
    - unfold thin_only in Hr. apply in_map_iff in Hr. destruct Hr as (t & <- & Ht).
      assert (In (t_sub t) (map sub_of (rows d))) as Hi by (rewrite subs_rows by auto; apply in_map; auto).
      apply in_map_iff in Hi. destruct Hi as (q & Eq & Hq). exists q. split; [apply lookup_spec; [apply RO|]; auto|].
      split; [|discriminate]. cbn [fst].
      assert (In (fst q) (thin_rows d)) by (unfold rows in Hq; destruct q; eapply in_combine_l; eauto).
      pose proof (w_subs d W) as ND. clear - H Ht ND Eq. revert H Ht ND Eq. unfold sub_of. generalize (fst q). clear.
      intros u. generalize (thin_rows d). induction l as [|x l IH]; intros Hu Ht ND E; [contradiction|].
      cbn in ND. inversion ND as [|? ? N1 N2]; subst. destruct Hu as [->|Hu], Ht as [->|Ht]; auto.
      + exfalso. apply N1. rewrite E. apply in_map; auto.
      + exfalso. apply N1. rewrite <- E. apply in_map; auto. }
  unfold value. rewrite find_cells by auto. rewrite Lq. cbn [option_map]. unfold value_of, visible.
  assert (Ec : forall k, text_eqb (ci k) (ci c) = same_name k c) by reflexivity.
  assert (Nc' : text_eqb (ci content_column) (ci c) = false) by (apply text_eqb_neq; auto).
  cbn [find fst]. change (t_sub (fst r)) with (sub_of r).
  rewrite Ec. destruct (same_name subset_column c) eqn:Es; [reflexivity|].
  rewrite Nc'. fold (vis d r). replace (vis d q) with (vis d r) by (unfold vis; congruence).
  match goal with |- match ?x with _ => _ end = match ?y with _ => _ end => assert (x = y) as ->; [|reflexivity] end.
  change (fun p : text * (ctype * sqlv) => same_name (fst p) c) with (fun p : text * (ctype * sqlv) => text_eqb (ci (fst p)) (ci c)).
  rewrite !find_app. destruct (find _ (vis d r)) as [x|] eqn:Fv; auto. destruct join.
  - cbn [find fst]. rewrite Nc'. fold (vis_fat d r). rewrite (Jq eq_refl). reflexivity.
  - exfalso. unfold resolves, visible_names in R. cbn [filter] in R. rewrite Ec, Es, Nc', app_nil_r in R.
    apply find_names in Fv; [rewrite Fv in R; discriminate|].
    rewrite combine_length, !map_length. rewrite <- Fq.
    apply lookup_spec in Lq; [|apply RO]. destruct RO as (_ & _ & RO). rewrite Forall_forall in RO.
    destruct (RO q (proj1 Lq)) as (_ & _ & -> & _). lia.
Qed.

Lemma filterM_ok {A} (f : A -> res bool) l l' : filterM f l = Ok l' ->
  l' = filter (fun x => match f x with Ok b => b | _ => false end) l /\ forall x, In x l -> exists b, f x = Ok b.
Proof.
  revert l'. induction l as [|x l IH]; cbn; intros l' H.
  - injection H as <-. split; auto. intros ? [].
  - apply bind_Ok in H. destruct H as (b & Hb & H). apply bind_Ok in H. destruct H as (ys & Hy & H). injection H as <-.
    destruct (IH ys Hy) as (-> & A1). rewrite Hb. split; [destruct b; auto|]. intros y [<-|Hy']; eauto.
Qed.
Lemma filterM_total {A} (f : A -> res bool) l : (forall x, In x l -> exists b, f x = Ok b) -> exists l', filterM f l = Ok l'.
Proof.
  induction l as [|x l IH]; intro H; cbn; eauto. destruct (H x) as (b & ->); [left; auto|]. cbn [bind].
  destruct IH as (ys & ->); [intros; apply H; right; auto|]. cbn. eauto.
Qed.
(** whether a document is selected *)
Definition selected (E : engine) (s : store) (a : cond) (ps : list sqlv) (i : Z) : bool :=
  rank (fst (truth E (value s i) a ps)) =? 2.
Lemma selected_iff E s a ps i : selected E s a ps i = true <-> fst (truth E (value s i) a ps) = Some true.
Proof. unfold selected. destruct (fst _) as [[]|]; cbn; split; congruence. Qed.

(** ** Reading the condition *)
Lemma lexes_ident_in U s ts : lexes U s ts -> forall w, In (TIdent w) ts -> exists p q, s = p ++ w ++ q.
Proof.
  induction 1 as [|c s l Hc _ IH|w t s l Hw He _ IH]; intros v Hv.
  - destruct Hv.
  - destruct (IH v Hv) as (p & q & ->). exists (c :: p), q. auto.
  - destruct Hv as [E|Hv]; [|destruct (IH v Hv) as (p & q & ->); exists (w ++ p), q; rewrite <- app_assoc; auto].
    subst t. inversion Hw as [? ? Hs|? ? Hb Hk|? Hb Hk|w' Hq]; subst.
    + cbn in Hs. intuition discriminate.
    + unfold keyword in Hk. cbn in Hk. intuition discriminate.
    + exists [], s. auto.
    + exists [34%Z], ([34%Z] ++ s). cbn. rewrite <- app_assoc. auto.
Qed.
Lemma expr_start :
  forall col, (forall l a, expr col l a -> exists t r, l = t :: r /\ (t = TNot \/ t = TLParen \/ exists w, t = TIdent w))
  /\ (forall l a, and_expr col l a -> exists t r, l = t :: r /\ (t = TNot \/ t = TLParen \/ exists w, t = TIdent w))
  /\ (forall l a, unary col l a -> exists t r, l = t :: r /\ (t = TNot \/ t = TLParen \/ exists w, t = TIdent w))
  /\ (forall l a, primary col l a -> exists t r, l = t :: r /\ (t = TNot \/ t = TLParen \/ exists w, t = TIdent w)).
Proof.
  intro col. apply grammar_ind; auto.
  - intros l a m b _ (t & r & -> & H) _ _. exists t, (r ++ TOr :: m). auto.
  - intros l a m b _ (t & r & -> & H) _ _. exists t, (r ++ TAnd :: m). auto.
  - intros l a _ _. eauto 6.
  - intros c o _. eauto 8.
  - intros n c _. eauto 8.
  - intros n c _. eauto 8.
  - intros n c _. eauto 8.
  - intros n c _. eauto 8.
  - intros n c l k _ _. eauto 8.
  - intros l a _ _. eauto 8.
Qed.
Lemma lexes_first U : good_unicode U -> forall s ts, lexes U s ts -> forall w1 c r, s = w1 ++ c :: r -> (forall x, In x w1 -> u_ws U x = true) -> ascii_text s ->
  a_digit c = true -> forall t l, ts = t :: l -> t = TNot \/ t = TLParen \/ (exists w, t = TIdent w) -> False.
Proof.
  intros HU. induction 1 as [|c s l Hc _ IH|w t s l Hw He _ IH]; intros w1 d r E Hw1 A D t' l' Et Ht.
  - destruct w1; discriminate.
  - apply ascii_cons in A. destruct w1 as [|x w1]; cbn in E.
    + injection E as -> ->. rewrite (gu_ws _ HU) in Hc by tauto. clear - Hc D. unfold a_ws, a_digit in *. lia.
    + injection E as -> ->. eapply (IH w1 d r); eauto; [|tauto]. intros; apply Hw1; right; auto.
  - injection Et as -> ->.
    assert (F : exists c0 w0, w = c0 :: w0 /\ u_ws U c0 = false /\ (is_ascii c0 = true -> a_digit c0 = false)).
    { assert (BW : bare_word U w -> exists c0 w0, w = c0 :: w0 /\ u_ws U c0 = false /\ (is_ascii c0 = true -> a_digit c0 = false)).
      { intros (c0 & w0 & -> & Hc & _). exists c0, w0. split; auto. destruct Hc as [Hc| ->].
        - split; [apply (gu_alnum_ws _ HU), (gu_alpha_alnum _ HU); auto|]. intro Ha. rewrite (gu_alpha _ HU) in Hc by auto.
          clear - Hc. unfold a_alpha, a_upper, a_lower, a_digit in *. lia.
        - split; [rewrite (gu_ws _ HU) by reflexivity|]; reflexivity. }
      inversion Hw as [? ? Hs|? ? Hb Hk|? Hb Hk|w' Hq]; subst; auto.
      - cbn in Hs. destruct Ht as [->|[->|(v & ->)]]; repeat (destruct Hs as [Hs|Hs]; [first [discriminate Hs|injection Hs as <-; eexists _, _; split; [reflexivity|]; split; [rewrite (gu_ws _ HU) by reflexivity; reflexivity|reflexivity]]|]); destruct Hs.
      - eexists _, _. split; [reflexivity|]. split; [rewrite (gu_ws _ HU) by reflexivity; reflexivity|reflexivity]. }
    destruct F as (c0 & w0 & -> & F1 & F2). destruct w1 as [|x w1]; cbn in E.
    + injection E as -> _. cbn in A. apply ascii_cons in A. rewrite F2 in D by tauto. discriminate.
    + injection E as -> _. rewrite Hw1 in F1 by (left; auto). discriminate.
Qed.
Lemma means_not_numeric U s ts a col : good_unicode U -> ascii_text s -> lexes U s ts -> expr col ts a -> is_numeric_equality U s = false.
Proof.
  intros HU A L X. destruct (is_numeric_equality U s) eqn:N; auto. exfalso. apply numeric_sound in N.
  destruct N as (w1 & d1 & w2 & w3 & d2 & w4 & E & Hd & _ & D & Wsp & _).
  destruct (proj1 (expr_start col) ts a X) as (t & l & Et & Ht).
  destruct d1 as [|c d1]; [congruence|].
  eapply (lexes_first U HU s ts L w1 c (d1 ++ w2 ++ [ch "="] ++ w3 ++ d2 ++ w4)); eauto.
  - assert (Ac : is_ascii c = true) by (apply A; rewrite E; rewrite !in_app_iff; cbn; auto).
    rewrite <- (gu_digit _ HU) by auto. apply D. left; left; auto.
Qed.
Section RUN.
  Variable U : unicode.
  Hypothesis HU : good_unicode U.
  Variable E : engine.
  Hypothesis G : good_engine E.
  Variable d : db.
  Hypothesis W : wf_db d.
  Variable condition : text.
  Hypothesis Ascii : ascii_text condition.
  Variable a : cond.
  Hypothesis Means : means U condition a.

  Lemma read_condition : bind (tokenize U condition) ast_of = Ok a.
  Proof using HU Means.
    destruct Means as (ts & L & X). rewrite (proj2 (tokenize_iff U HU condition ts) L). cbn [bind]. eapply ast_of_expr; eauto.
  Qed.
  Lemma not_numeric : is_numeric_equality U condition = false.
  Proof using HU Ascii Means. destruct Means as (ts & L & X). eapply means_not_numeric; eauto. Qed.
  Lemma schema_valid k : In k (schema_columns d) -> valid_name k.
  Proof using W.
    unfold schema_columns. rewrite <- map_app. intros [<-|H]; [apply is_valid_column_name_iff; reflexivity|].
    apply in_map_iff in H. destruct H as (c & <- & H). apply is_valid_column_name_iff.
    pose proof (w_thin d W) as H1. pose proof (w_fat d W) as H2. rewrite Forall_forall in H1, H2.
    apply in_app_or in H. destruct H as [H|H]; [apply (H1 c H)|apply (H2 c H)].
  Qed.
  Lemma mentioned_columns : validate_condition U (schema_columns d) condition = Ok tt ->
    forall c, In c (mentioned a) -> exists k, In k (schema_columns d) /\ ci k = ci c.
  Proof using HU W Ascii Means.
    intros V c Hc. apply (validate_sound_full U _ _ HU schema_valid) in V. destruct V as [V|(_ & _ & V)].
    - exfalso. apply (numeric_complete U) in V; auto. rewrite not_numeric in V. discriminate.
    - destruct (V Ascii) as ((ts & b & L & X) & _). destruct Means as (ts' & L' & X').
      assert (ts' = ts) as ->.
      { apply (tokenize_iff U HU) in L, L'. rewrite L in L'. injection L' as L'. apply app_inj_tail in L'. destruct L'; auto. }
      assert (b = a) as -> by (apply ast_of_expr in X, X'; congruence).
      apply (proj1 (expr_mentioned _) _ _ X) in Hc. clear - X Hc.
      assert (M : (forall l a, expr (names_column (schema_columns d)) l a -> forall w, In (TIdent w) l -> names_column (schema_columns d) w)
        /\ (forall l a, and_expr (names_column (schema_columns d)) l a -> forall w, In (TIdent w) l -> names_column (schema_columns d) w)
        /\ (forall l a, unary (names_column (schema_columns d)) l a -> forall w, In (TIdent w) l -> names_column (schema_columns d) w)
        /\ (forall l a, primary (names_column (schema_columns d)) l a -> forall w, In (TIdent w) l -> names_column (schema_columns d) w)).
      { apply grammar_ind; auto.
        - intros l a0 m b _ H _ H2 w H3. apply in_app_iff in H3. destruct H3 as [H3|[H3|H3]]; auto; discriminate.
        - intros l a0 m b _ H _ H2 w H3. apply in_app_iff in H3. destruct H3 as [H3|[H3|H3]]; auto; discriminate.
        - intros l a0 _ H w [H2|H2]; auto; discriminate.
        - intros c0 o Hc0 w H. cbn in H. destruct H as [H|H]; [injection H as <-; auto|intuition discriminate].
        - intros n c0 Hc0 w H. destruct n; cbn in H; (destruct H as [H|H]; [injection H as <-; auto|intuition discriminate]).
        - intros n c0 Hc0 w H. destruct n; cbn in H; (destruct H as [H|H]; [injection H as <-; auto|intuition discriminate]).
        - intros n c0 Hc0 w H. destruct n; cbn in H; (destruct H as [H|H]; [injection H as <-; auto|intuition discriminate]).
        - intros n c0 Hc0 w H. destruct n; cbn in H; (destruct H as [H|H]; [injection H as <-; auto|intuition discriminate]).
        - intros n c0 l k Hc0 Hl w H. assert (HL : ~ In (TIdent w) l) by (clear H; induction Hl; cbn; intuition discriminate).
          destruct n; cbn in H; rewrite in_app_iff in H; cbn in H; (destruct H as [H|H]; [injection H as <-; auto|intuition discriminate]).
        - intros l a0 _ H w H2. cbn in H2. rewrite in_app_iff in H2. cbn in H2. destruct H2 as [H2|[H2|[H2|[]]]]; auto; discriminate. }
      exact (proj1 M _ _ X c Hc).
  Qed.
  Lemma mentioned_not_content : validate_condition U (schema_columns d) condition = Ok tt ->
    forall c, In c (mentioned a) -> ci c <> ci content_column.
  Proof using HU W Ascii Means.
    intros V c Hc E0. destruct (mentioned_columns V c Hc) as (k & Hk & Ek). rewrite E0 in Ek.
    pose proof (w_tcols d W) as H1. pose proof (w_fcols d W) as H2. cbn [map] in H1, H2.
    inversion H1 as [|? ? H3 H4]; subst. inversion H4 as [|? ? H5 _]; subst. inversion H2 as [|? ? H6 _]; subst.
    unfold schema_columns in Hk. destruct Hk as [<-|Hk]; [discriminate Ek|]. apply in_app_or in Hk.
    destruct Hk as [Hk|Hk]; apply (in_map ci) in Hk; rewrite Ek in Hk; [exact (H5 Hk)|exact (H6 Hk)].
  Qed.

  Lemma run_where_ok reg join ps rs :
    validate_condition U (schema_columns d) condition = Ok tt ->
    (forall p, In p (patterns a ps) -> exists t re, p = SText t /\ reg = Some re /\ e_regex E t = Some re) ->
    run_where U E reg d join condition ps (plain d join) = Ok rs ->
    rs = filter (fun r => selected E (Db d) a ps (sub_of r)) (plain d join).
  Proof using HU W Ascii Means.
    intros V P H. unfold run_where in H. rewrite not_numeric, read_condition in H. cbn [bind] in H.
    destruct (forallb _ _ && _ && _) eqn:C; [|discriminate].
    apply andb_true_iff in C. destruct C as (C & _). apply andb_true_iff in C. destruct C as (C1 & C2).
    apply Nat.eqb_eq in C2. rewrite forallb_forall in C1.
    apply filterM_ok in H. destruct H as (-> & H). apply filter_ext_in. intros r Hr.
    destruct (H r Hr) as (b & Hb). rewrite Hb. apply bind_Ok in Hb. destruct Hb as (x & Hx & Hb). injection Hb as <-.
    apply (eval_truth E reg _ a ps []) in Hx; auto. rewrite app_nil_r in Hx. unfold selected.
    rewrite (truth_ext E (value (Db d) (sub_of r)) (value_of (visible d join r)) a).
    - rewrite Hx. cbn [fst]. destruct x as [[]|]; reflexivity.
    - intros c Hc. symmetry. apply value_agrees; auto. apply mentioned_not_content; auto.
  Qed.
  (** every question without REGEXP is answered *)
  Lemma run_where_total reg join ps :
    length ps = placeholders a -> ~ uses_regexp a -> (forall c, In c (mentioned a) -> resolves (visible_names d join) c = true) ->
    exists rs, run_where U E reg d join condition ps (plain d join) = Ok rs.
  Proof using HU Ascii Means.
    intros L N R. unfold run_where. rewrite not_numeric, read_condition. cbn [bind].
    rewrite (proj2 (forallb_forall _ _) R), L, Nat.eqb_refl, (proj2 (no_regexp a) N). cbn [andb negb orb].
    apply filterM_total. intros r _. destruct (eval_total E reg (value_of (visible d join r)) a N ps) as (b & ->). cbn. eauto.
  Qed.

  Lemma thin_only_subs : map (fun r => t_sub (fst r)) (thin_only d) = map sub_of (rows d).
  Proof using W. unfold thin_only. rewrite map_map. cbn. rewrite subs_rows; auto. Qed.
  Lemma plain_subs join : map sub_of (plain d join) = map sub_of (rows d).
  Proof using W. destruct join; cbn; [rewrite joined_combine; auto|apply thin_only_subs]. Qed.
  Lemma filter_subs {A} (f : A -> Z) (p : Z -> bool) l : map f (filter (fun r => p (f r)) l) = filter p (map f l).
  Proof using Type. clear. induction l as [|x l IH]; cbn; auto. destruct (p (f x)); cbn; congruence. Qed.
  Lemma select_ids_ok reg ps ids :
    validate_condition U (schema_columns d) condition = Ok tt ->
    (forall p, In p (patterns a ps) -> exists t re, p = SText t /\ reg = Some re /\ e_regex E t = Some re) ->
    select_ids U E reg d condition ps = Ok ids ->
    Permutation ids (filter (selected E (Db d) a ps) (map sub_of (rows d))).
  Proof using HU W Ascii Means G.
    intros V P H. unfold select_ids in H. fold (plain d (references_fat U d condition)) in H.
    apply bind_Ok in H. destruct H as (rs & H & E0). injection E0 as <-.
    apply run_where_ok in H; auto. rewrite H. rewrite <- (plain_subs (references_fat U d condition)).
    rewrite <- (filter_subs sub_of). apply Permutation_map. apply (ge_scan _ G).
  Qed.
  Lemma references_fat_ok c k : In c (mentioned a) -> In k (fat_cols d) -> ci (c_name k) = ci c -> references_fat U d condition = true.
  Proof using HU W Ascii Means.
    intros Hc Hk Ek. unfold references_fat. apply existsb_exists. exists k. split; auto.
    destruct Means as (ts & L & X). apply (proj1 (expr_mentioned _) _ _ X) in Hc.
    destruct (lexes_ident_in _ _ _ L c Hc) as (p & q & E0).
    pose proof (w_fat d W) as H2. rewrite Forall_forall in H2. destruct (H2 k Hk) as (_ & Vk).
    apply is_valid_column_name_iff in Vk.
    rewrite (gu_upper _ HU (c_name k)) by (apply valid_name_ascii; auto). rewrite (gu_upper _ HU condition) by auto.
    apply contains_spec. exists (map to_upper1 p), (map to_upper1 q). rewrite E0, !map_app.
    rewrite (lower_eq_upper (c_name k) c); auto.
  Qed.
  Lemma resolves_ok : distinct_names (Db d) -> validate_condition U (schema_columns d) condition = Ok tt ->
    forall join c, join = true \/ references_fat U d condition = false -> In c (mentioned a) -> resolves (visible_names d join) c = true.
  Proof using HU W Ascii Means.
    intros D V join c J Hc. destruct (mentioned_columns V c Hc) as (k & Hk & Ek). pose proof (mentioned_not_content V c Hc) as Nc.
    unfold distinct_names, columns in D. rewrite map_app in D. change (map to_lower1) with ci in D.
    fold (schema_columns d) in D.
    assert (ONE : forall l, NoDup (map ci l) -> In k l -> filter (fun x => text_eqb (ci x) (ci c)) l = [k]).
    { clear - Ek. induction l as [|x l IH]; intros ND Hk; [contradiction|]. cbn in ND. inversion ND as [|? ? N1 N2]; subst. cbn.
      destruct Hk as [->|Hk].
      - rewrite Ek, text_eqb_refl. f_equal. apply filter_none. intros y Hy. apply text_eqb_neq. intro E0. apply N1. rewrite Ek, <- E0. apply in_map; auto.
      - destruct (text_eqb (ci x) (ci c)) eqn:T; [|auto]. apply text_eqb_eq in T. exfalso. apply N1. rewrite T, <- Ek. apply in_map; auto. }
    assert (Nc' : text_eqb (ci content_column) (ci c) = false) by (apply text_eqb_neq; auto).
    unfold resolves, visible_names. destruct join.
    - pose proof (ONE _ D Hk) as H. unfold schema_columns in H. cbn [filter] in H |- *. rewrite Nc'.
      rewrite !filter_app in *. cbn [filter]. rewrite Nc'. rewrite H. reflexivity.
    - destruct J as [J|J]; [discriminate|].
      assert (Hk' : In k (subset_column :: map c_name (thin_cols d))).
      { unfold schema_columns in Hk. destruct Hk as [->|Hk]; [left; auto|]. apply in_app_or in Hk. destruct Hk as [Hk|Hk]; [right; auto|].
        exfalso. apply in_map_iff in Hk. destruct Hk as (f & <- & Hf). rewrite (references_fat_ok c f Hc Hf Ek) in J. discriminate. }
      unfold schema_columns in D. rewrite app_nil_r. cbn [map] in D. rewrite map_app in D.
      assert (D' : NoDup (map ci (subset_column :: map c_name (thin_cols d)))).
      { cbn [map]. inversion D as [|? ? N1 N2]; subst. constructor; [intro; apply N1, in_or_app; auto|]. eapply NoDup_remove_app; eauto. }
      pose proof (ONE _ D' Hk') as H. cbn [filter] in H |- *. rewrite Nc'. rewrite H. reflexivity.
  Qed.
End RUN.
