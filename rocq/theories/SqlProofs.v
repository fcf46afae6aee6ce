(** Proofs about the filter-condition validator. *)
From Verif Require Import Base Text SqlModel SqlSpec.
Open Scope nat_scope.
Set Default Proof Using "Type".

Lemma op_eqb_eq a b : op_eqb a b = true <-> a = b.
Proof. destruct a, b; cbn; split; intro; congruence. Qed.
Lemma token_eqb_eq a b : token_eqb a b = true <-> a = b.
Proof.
  destruct a, b; cbn; split; intro H; try discriminate; try reflexivity; try congruence.
  - apply text_eqb_eq in H. congruence.
  - injection H as ->. apply text_eqb_refl.
  - apply op_eqb_eq in H. congruence.
  - injection H as ->. apply op_eqb_eq. reflexivity.
Qed.
Lemma token_eqb_refl a : token_eqb a a = true.
Proof. apply token_eqb_eq. reflexivity. Qed.
Lemma token_eqb_neq a b : a <> b -> token_eqb a b = false.
Proof. intro H. destruct (token_eqb a b) eqn:E; auto. apply token_eqb_eq in E. congruence. Qed.

(** ** Tokens *)
Lemma span_spec p s a b : span p s = (a, b) ->
  s = a ++ b /\ (forall c, In c a -> p c = true) /\ match b with [] => True | c :: _ => p c = false end.
Proof.
  revert a b. induction s as [|c s IH]; intros a b H; cbn in H.
  - injection H as <- <-. cbn. repeat split; auto; intros ? [].
  - destruct (p c) eqn:E.
    + destruct (span p s) as (a' & b') eqn:E2. injection H as <- <-. destruct (IH a' b' eq_refl) as (-> & A & B).
      cbn. repeat split; auto. intros d [<-|Hd]; auto.
    + injection H as <- <-. cbn. repeat split; auto; intros ? [].
Qed.
Lemma span_app p a s : (forall c, In c a -> p c = true) -> match s with [] => True | c :: _ => p c = false end -> span p (a ++ s) = (a, s).
Proof.
  induction a as [|c a IH]; intros Ha Hs; cbn.
  - destruct s as [|c s]; auto. cbn. rewrite Hs. reflexivity.
  - rewrite (Ha c) by (left; auto). rewrite IH; auto. intros; apply Ha; right; auto.
Qed.

Section LEX.
  Variable U : unicode.
  Hypothesis HU : good_unicode U.

  Lemma word_token_spec w : (forall t, keyword U w t -> word_token U w = t) /\ ((forall t, ~ keyword U w t) -> word_token U w = TIdent w)
    /\ (keyword U w (word_token U w) \/ (forall t, ~ keyword U w t) /\ word_token U w = TIdent w).
  Proof using Type.
    assert (D : (exists t, keyword U w t) \/ (forall t, ~ keyword U w t) /\ word_token U w = TIdent w).
    { unfold keyword, word_token. set (u := u_upper U w). clearbody u. cbn [In].
      repeat match goal with |- context [text_eqb u ?k] =>
        let E := fresh "E" in destruct (text_eqb u k) eqn:E; [apply text_eqb_eq in E; left; eexists; rewrite E; eauto 12|apply text_eqb_neq in E] end.
      right. split; auto. intros t Ht. repeat (destruct Ht as [Ht|Ht]; [congruence|]). destruct Ht. }
    assert (K : forall t, keyword U w t -> word_token U w = t).
    { intros t Ht. unfold keyword in Ht. unfold word_token. set (u := u_upper U w) in *. clearbody u. cbn [In] in Ht.
      repeat (destruct Ht as [Ht|Ht]; [injection Ht as <- <-; reflexivity|]). destruct Ht. }
    split; auto. split.
    - intro N. destruct D as [(t & H)|(_ & H)]; auto. destruct (N t H).
    - destruct D as [(t & H)|H]; auto. left. rewrite (K t H). auto.
  Qed.

  Lemma sym_facts c : In c [ch "?"; ch "("; ch ")"; ch ","; ch "="; ch "!"; ch "<"; ch ">"; 34%Z] ->
    u_ws U c = false /\ u_alpha U c = false /\ u_alnum U c = false /\ under c = false.
  Proof using HU.
    intro H. assert (A : is_ascii c = true) by (cbn in H; intuition (subst; reflexivity)).
    rewrite (gu_ws _ HU c A), (gu_alpha _ HU c A), (gu_alnum _ HU c A).
    cbn in H. intuition (subst; reflexivity).
  Qed.
  Lemma under_eq c : under c = true <-> c = ch "_".
  Proof using Type. unfold under. rewrite Z.eqb_eq. reflexivity. Qed.
  Lemma word_char_iff c : word_char U c = true <-> u_alnum U c = true \/ c = ch "_".
  Proof using Type. unfold word_char. rewrite orb_true_iff, under_eq. reflexivity. Qed.

  Lemma tokenize_from_sound fuel : forall s ts, tokenize_from U fuel s = Ok ts ->
    exists l, ts = l ++ [TEof] /\ lexes U s l.
  Proof using HU.
    induction fuel as [|f IH]; intros s ts H; cbn [tokenize_from] in H.
    - destruct s; [|discriminate]. injection H as <-. exists []. split; auto. constructor.
    - destruct s as [|c r]; [injection H as <-; exists []; split; auto; constructor|].
      assert (TOK : forall t w rest, bind (tokenize_from U f rest) (fun ts => Ok (t :: ts)) = Ok ts ->
                spelling U w t -> ends U w rest -> c :: r = w ++ rest -> exists l, ts = l ++ [TEof] /\ lexes U (c :: r) l).
      { intros t w rest E Hw He Hs. apply bind_Ok in E. destruct E as (ts' & E & E2). injection E2 as <-.
        apply IH in E. destruct E as (l & -> & Hl). exists (t :: l). split; auto. rewrite Hs. constructor; auto. }
      assert (SYM : forall w rest, In w [txt "?"; txt "("; txt ")"; txt ","; txt "="; txt "!="; txt "<>"; txt "<="; txt ">="] -> ends U w rest).
      { intros w rest Hw. unfold ends. destruct rest; auto. split; [|cbn in Hw; intuition (subst; discriminate)].
        intros (d & q & -> & Hd & _). exfalso. pose proof (sym_facts d) as F.
        assert (In d [ch "?"; ch "("; ch ")"; ch ","; ch "="; ch "!"; ch "<"; ch ">"; 34%Z]).
        { cbn [In] in Hw. repeat (destruct Hw as [Hw|Hw]; [injection Hw as <- _; cbn; auto 12|]). destruct Hw. }
        destruct (F H0) as (_ & F1 & _ & F2). destruct Hd as [Hd| ->]; [congruence|first [discriminate|vm_compute in *; discriminate]]. }
      destruct (u_ws U c) eqn:Ews.
      { apply IH in H. destruct H as (l & -> & Hl). exists l. split; auto. constructor; auto. }
      Ltac sym H TOK SYM := match type of H with (if ?x then _ else _) = _ => destruct x eqn:?Y end;
        [match goal with E : (_ =? _)%Z = true |- _ => apply Z.eqb_eq in E; subst end;
         eapply TOK; [exact H|apply sp_sym; cbn; tauto|apply SYM; cbn; tauto|reflexivity]|].
      do 5 (sym H TOK SYM).
      Ltac two H TOK SYM := match type of H with (if ?x then _ else _) = _ =>
        let E := fresh "Q" in let F := fresh "rest" in destruct x eqn:E;
        [apply starts_with_spec in E; destruct E as (F & E); rewrite E in H; cbn [txt skipn app] in H;
         eapply TOK; [exact H| | |exact E]; [apply sp_sym; cbn; tauto|apply SYM; cbn; tauto]|] end.
      do 4 (two H TOK SYM).
      assert (NB : forall d, In d [ch "<"; ch ">"] -> ~ bare_word U [d]).
      { intros d Hd (e & q & E & He & _). injection E as <- <-. destruct (sym_facts d) as (_ & F1 & _ & F2); [cbn in *; tauto|].
        destruct He as [He| ->]; [congruence|first [discriminate|vm_compute in *; discriminate]]. }
      destruct (c =? ch "<")%Z eqn:Elt.
      { apply Z.eqb_eq in Elt. subst c. eapply TOK; [exact H|apply sp_sym; cbn; tauto| |reflexivity].
        destruct r as [|d r]; cbn; auto. split; [intro B; exfalso; revert B; apply NB; cbn; auto|]. split; [|discriminate].
        intros _. split; intros ->; discriminate. }
      destruct (c =? ch ">")%Z eqn:Egt.
      { apply Z.eqb_eq in Egt. subst c. eapply TOK; [exact H|apply sp_sym; cbn; tauto| |reflexivity].
        destruct r as [|d r]; cbn; auto. split; [intro B; exfalso; revert B; apply NB; cbn; auto|]. split; [discriminate|].
        intros _ ->; discriminate. }
      destruct (u_alpha U c || under c) eqn:Eal.
      { destruct (span (word_char U) (c :: r)) as (w & rest) eqn:Es. destruct (span_spec _ _ _ _ Es) as (S1 & S2 & S3).
        assert (Hb : bare_word U w).
        { apply orb_true_iff in Eal. rewrite under_eq in Eal.
          assert (Hc : word_char U c = true) by (apply word_char_iff; destruct Eal; auto; left; apply (gu_alpha_alnum _ HU); auto).
          cbn [span] in Es. rewrite Hc in Es. destruct (span (word_char U) r) as (w' & rest') eqn:Es'. injection Es as <- <-.
          exists c, w'. split; auto. split; auto. intros d Hd. apply word_char_iff. apply S2. right; auto. }
        eapply TOK; [exact H| | |exact S1].
        - destruct (word_token_spec w) as (_ & _ & [K|(K & E)]); [apply sp_keyword; auto|rewrite E; apply sp_name; auto].
        - unfold ends. destruct rest as [|d rest]; auto. split.
          + intros _. split; [destruct (u_alnum U d) eqn:E; auto|intros ->]; exfalso.
            * assert (word_char U d = true) by (apply word_char_iff; auto). congruence.
            * assert (word_char U (ch "_") = true) by (apply word_char_iff; auto). congruence.
          + assert (NW : forall d, In d [ch "<"; ch ">"] -> w <> [d]) by (intros e He' ->; exact (NB e He' Hb)).
            split; intro E; exfalso; [apply (NW (ch "<"))|apply (NW (ch ">"))]; cbn; auto. }
      destruct (c =? 34)%Z eqn:Eq; [|discriminate]. apply Z.eqb_eq in Eq. subst c.
      destruct (span (fun c => negb (c =? 34)%Z) r) as (w & rest) eqn:Es. destruct (span_spec _ _ _ _ Es) as (S1 & S2 & S3).
      destruct rest as [|d rest]; [discriminate|]. apply negb_false_iff, Z.eqb_eq in S3. subst d.
      eapply TOK; [exact H|apply (sp_quoted U w)| |].
      + intro Hw. specialize (S2 _ Hw). discriminate.
      + unfold ends. destruct rest as [|d rest]; auto. split; [|split; discriminate].
        intros (e & q & E & He & _). exfalso. injection E as <- <-. destruct (sym_facts 34%Z) as (_ & F1 & _); [cbn; tauto|].
        destruct He as [He|He]; [congruence|first [discriminate|vm_compute in *; discriminate]].
      + rewrite S1. cbn. rewrite <- app_assoc. reflexivity.
  Qed.

  Lemma tokenize_from_complete s l : lexes U s l -> forall fuel, length s <= fuel -> tokenize_from U fuel s = Ok (l ++ [TEof]).
  Proof using HU.
    induction 1 as [|c s l Hc _ IH|w t s l Hw He _ IH]; intros fuel Hf.
    - destruct fuel; reflexivity.
    - destruct fuel as [|f]; [cbn in Hf; lia|]. cbn [tokenize_from]. rewrite Hc. apply IH. cbn in Hf. lia.
    - assert (G : forall f, length s <= f -> bind (tokenize_from U f s) (fun ts => Ok (t :: ts)) = Ok ((t :: l) ++ [TEof])).
      { intros f Hl. rewrite IH by auto. reflexivity. }
      assert (WORD : bare_word U w -> word_token U w = t -> tokenize_from U fuel (w ++ s) = Ok ((t :: l) ++ [TEof])).
      { intros Hb Ht. pose proof Hb as (c & r & -> & Hc & Hr). destruct fuel as [|f]; [cbn in Hf; lia|].
        change ((c :: r) ++ s) with (c :: (r ++ s)) in *. cbn [tokenize_from].
        assert (N : forall d, In d [ch "?"; ch "("; ch ")"; ch ","; ch "="; ch "!"; ch "<"; ch ">"; 34%Z] -> (c =? d)%Z = false).
        { intros d Hd. apply Z.eqb_neq. intros ->. destruct (sym_facts d Hd) as (_ & F1 & _ & F2). destruct Hc as [Hc| ->]; [congruence|first [discriminate|vm_compute in *; discriminate]]. }
        assert (Hws : u_ws U c = false).
        { destruct Hc as [Hc| ->]; [apply (gu_alnum_ws _ HU), (gu_alpha_alnum _ HU); auto|]. rewrite (gu_ws _ HU) by reflexivity. reflexivity. }
        rewrite Hws. rewrite !N by (cbn; tauto). cbn [txt starts_with].
        change (Z.of_nat (Ascii.nat_of_ascii "!")) with (ch "!"). change (Z.of_nat (Ascii.nat_of_ascii "<")) with (ch "<"). change (Z.of_nat (Ascii.nat_of_ascii ">")) with (ch ">").
        rewrite !(Z.eqb_sym _ c), !N by (cbn; tauto). cbn [andb].
        assert (Ha : u_alpha U c || under c = true) by (apply orb_true_iff; rewrite under_eq; auto). rewrite Ha.
        change (c :: r ++ s) with ((c :: r) ++ s). rewrite span_app.
        - rewrite Ht. apply G. cbn [length] in Hf. rewrite app_length in Hf. lia.
        - intros d [<-|Hd]; apply word_char_iff; auto. destruct Hc as [Hc|Hc]; auto. left. apply (gu_alpha_alnum _ HU); auto.
        - unfold ends in He. destruct s as [|d s]; auto. destruct He as (He & _). destruct (He Hb) as (E1 & E2).
          destruct (word_char U d) eqn:E; auto. apply word_char_iff in E. destruct E; congruence. }
      inversion Hw as [? ? Hs|? ? Hb Hk|? Hb Hk|w' Hq]; subst.
      + destruct fuel as [|f]; [exfalso; cbn in Hs; intuition (match goal with E : (_, _) = (_, _) |- _ => injection E as <- <- end; cbn in Hf; lia)|].
        assert (HS : forall d, In d [ch "?"; ch "("; ch ")"; ch ","; ch "="; ch "!"; ch "<"; ch ">"; 34%Z] -> u_ws U d = false) by (intros d Hd; apply sym_facts; auto).
        cbn [In] in Hs. 
        repeat (destruct Hs as [Hs|Hs]; [injection Hs as <- <-; cbn [txt app] in *;
           change (Z.of_nat (Ascii.nat_of_ascii "?")) with (ch "?") in *; change (Z.of_nat (Ascii.nat_of_ascii "(")) with (ch "(") in *;
           change (Z.of_nat (Ascii.nat_of_ascii ")")) with (ch ")") in *; change (Z.of_nat (Ascii.nat_of_ascii ",")) with (ch ",") in *;
           change (Z.of_nat (Ascii.nat_of_ascii "=")) with (ch "=") in *; change (Z.of_nat (Ascii.nat_of_ascii "!")) with (ch "!") in *;
           change (Z.of_nat (Ascii.nat_of_ascii "<")) with (ch "<") in *; change (Z.of_nat (Ascii.nat_of_ascii ">")) with (ch ">") in *;
           cbn [length] in Hf; cbn [tokenize_from]; rewrite HS by (cbn; tauto) |]).
        all: try destruct Hs.
        all: try (cbn - [tokenize_from]; apply G; lia).
        all: change (txt "!=") with [ch "!"; ch "="]; change (txt "<>") with [ch "<"; ch ">"]; change (txt "<=") with [ch "<"; ch "="]; change (txt ">=") with [ch ">"; ch "="].
        all: destruct s as [|d s]; [cbn - [tokenize_from]; apply G; cbn; lia|]; cbn [starts_with].
        all: repeat match goal with |- context [(ch ?a =? ch ?b)%Z] => let v := eval vm_compute in (ch a =? ch b)%Z in change (ch a =? ch b)%Z with v end; cbn [andb].
        * (* < *) destruct He as (_ & He & _). destruct (He eq_refl) as (E1 & E2).
          assert ((ch "=" =? d)%Z = false) as -> by (apply Z.eqb_neq; congruence). assert ((ch ">" =? d)%Z = false) as -> by (apply Z.eqb_neq; congruence).
          cbn [andb]. apply G. cbn in Hf |- *. lia.
        * (* > *) destruct He as (_ & _ & He). specialize (He eq_refl).
          assert ((ch "=" =? d)%Z = false) as -> by (apply Z.eqb_neq; congruence).
          cbn [andb]. apply G. cbn in Hf |- *. lia.
      + apply WORD; auto. apply word_token_spec. auto.
      + apply WORD; auto. apply word_token_spec. auto.
      + destruct fuel as [|f]; [cbn in Hf; lia|]. rewrite app_length in Hf. cbn [length] in Hf. rewrite app_length in Hf. cbn [length] in Hf.
        change ((34%Z :: w' ++ [34%Z]) ++ s) with (34%Z :: ((w' ++ [34%Z]) ++ s)). rewrite <- app_assoc. cbn [app]. cbn [tokenize_from].
        destruct (sym_facts 34%Z) as (F0 & F1 & F2 & F3); [cbn; tauto|]. rewrite F0, F1, F3. cbn - [tokenize_from].
        rewrite span_app; [|intros d Hd; apply negb_true_iff, Z.eqb_neq; congruence|reflexivity].
        apply G. lia.
  Qed.
  Lemma lexes_no_eof s l : lexes U s l -> ~ In TEof l.
  Proof using Type.
    clear HU. induction 1 as [|c s l Hc _ IH|w t s l Hw He _ IH]; auto. intros [->|H]; auto. inversion Hw as [? ? Hs|? ? Hb Hk| |]; subst.
    - cbn in Hs. intuition discriminate.
    - unfold keyword in Hk. cbn in Hk. intuition discriminate.
  Qed.
  Lemma tokenize_iff s l : tokenize U s = Ok (l ++ [TEof]) <-> lexes U s l.
  Proof using HU.
    split; [|intro H; apply tokenize_from_complete; auto]. intro H. apply tokenize_from_sound in H. destruct H as (l' & E & H).
    apply app_inj_tail in E. destruct E as (-> & _). auto.
  Qed.
  Lemma tokenize_ok s ts : tokenize U s = Ok ts -> exists l, ts = l ++ [TEof] /\ lexes U s l.
  Proof using HU. apply tokenize_from_sound. Qed.
End LEX.

(** ** Parser *)
Scheme expr_mut := Minimality for expr Sort Prop
  with and_mut := Minimality for and_expr Sort Prop
  with unary_mut := Minimality for unary Sort Prop
  with primary_mut := Minimality for primary Sort Prop.
Combined Scheme grammar_ind from expr_mut, and_mut, unary_mut, primary_mut.

Section PARSE.
  Variable U : unicode.
  Variable cols : list text.
  Notation col := (column_of U cols).
  Notation p_expr := (parse_expr U cols).
  Notation p_or := (or_loop U cols).
  Notation p_and := (parse_and U cols).
  Notation p_andl := (and_loop U cols).
  Notation p_un := (parse_unary U cols).
  Notation p_pr := (parse_primary U cols).

  Lemma pe_S f ts : p_expr (S f) ts = bind (p_and f ts) (p_or f).
  Proof. reflexivity. Qed.
  Lemma po_S f ts : p_or (S f) ts = if token_eqb (current ts) TOr then bind (p_and f (advance ts)) (p_or f) else Ok ts.
  Proof. reflexivity. Qed.
  Lemma pa_S f ts : p_and (S f) ts = bind (p_un f ts) (p_andl f).
  Proof. reflexivity. Qed.
  Lemma pl_S f ts : p_andl (S f) ts = if token_eqb (current ts) TAnd then bind (p_un f (advance ts)) (p_andl f) else Ok ts.
  Proof. reflexivity. Qed.
  Lemma pu_S f ts : p_un (S f) ts = p_pr f (if token_eqb (current ts) TNot then advance ts else ts).
  Proof. reflexivity. Qed.
  Lemma pp_S f ts : p_pr (S f) ts = if token_eqb (current ts) TLParen then bind (p_expr f (advance ts)) (expect TRParen)
      else match current ts with TIdent name => if known_column U cols name then parse_operator (advance ts) else Err | _ => Err end.
  Proof. reflexivity. Qed.
  Lemma known_column_iff c : known_column U cols c = true <-> col c.
  Proof.
    unfold known_column, column_of. rewrite existsb_exists. split; intros (k & H & E); exists k; split; auto;
      [apply text_eqb_eq in E; auto|apply text_eqb_eq; auto].
  Qed.
  Lemma expect_ok e ts r : e <> TEof -> expect e ts = Ok r <-> ts = e :: r.
  Proof.
    intro He. unfold expect, current, advance. destruct ts as [|t ts]; cbn [hd tl].
    - rewrite token_eqb_neq by congruence. split; discriminate.
    - destruct (token_eqb t e) eqn:E.
      + apply token_eqb_eq in E. subst. split; intro H; congruence.
      + split; [discriminate|]. intro H. injection H as -> ->. rewrite token_eqb_refl in E. discriminate.
  Qed.
  Lemma expect_app e r : expect e (e :: r) = Ok r.
  Proof. unfold expect. cbn. rewrite token_eqb_refl. reflexivity. Qed.
  Lemma expect_nopanic e ts : expect e ts <> Panic.
  Proof. unfold expect. destruct (token_eqb _ _); discriminate. Qed.
  Lemma current_eq ts t : token_eqb (current ts) t = true -> t <> TEof -> ts = t :: advance ts.
  Proof. intros H Ht. apply token_eqb_eq in H. destruct ts; cbn in *; congruence. Qed.

  Lemma in_tail_sound f : forall ts r, in_tail f ts = Ok r ->
    exists l n, ph_list (TPlaceholder :: l) (S n) /\ ts = l ++ TRParen :: r.
  Proof.
    induction f as [|f IH]; intros ts r H; cbn [in_tail] in H; [discriminate|].
    destruct (token_eqb (current ts) TComma) eqn:E.
    - apply current_eq in E; [|discriminate]. rewrite E. apply bind_Ok in H. destruct H as (x & H1 & H2).
      apply expect_ok in H1; [|discriminate]. rewrite H1. apply IH in H2. destruct H2 as (l & n & Hl & ->).
      exists (TComma :: TPlaceholder :: l), (S n). split; auto. constructor; auto.
    - apply expect_ok in H; [|discriminate]. subst. exists [], 0. split; auto. constructor.
  Qed.
  Lemma in_tail_complete l n : ph_list l n -> forall f r m, l = TPlaceholder :: m -> length m < f -> in_tail f (m ++ TRParen :: r) = Ok r.
  Proof.
    induction 1 as [|l n Hl IH]; intros f r m E Hf.
    - injection E as <-. destruct f; [cbn in Hf; lia|]. reflexivity.
    - injection E as <-. inversion Hl as [E|l' n' Hl' E]; subst.
      + destruct f as [|f]; [cbn in Hf; lia|]. cbn [app in_tail]. cbn [current hd token_eqb advance tl bind]. rewrite expect_app. cbn [bind].
        apply (IH f r []); auto. cbn in Hf |- *. lia.
      + destruct f as [|f]; [cbn in Hf; lia|]. cbn [app in_tail]. cbn [current hd token_eqb advance tl bind]. rewrite expect_app. cbn [bind].
        apply (IH f r (TComma :: l')); auto. cbn in Hf |- *. lia.
  Qed.
  Lemma in_tail_nopanic f : forall ts, length ts < f -> in_tail f ts <> Panic.
  Proof.
    induction f as [|f IH]; intros ts Hf; [lia|]. cbn [in_tail]. destruct (token_eqb (current ts) TComma) eqn:E; [|apply expect_nopanic].
    apply current_eq in E; [|discriminate]. rewrite E in Hf. cbn in Hf.
    destruct (expect TPlaceholder (advance ts)) as [x| |] eqn:Ex; cbn; try discriminate; [|destruct (expect_nopanic _ _ Ex)].
    apply expect_ok in Ex; [|discriminate]. apply IH. rewrite Ex in Hf. cbn in Hf. lia.
  Qed.
  Lemma in_list_ok ts r : parse_in_list ts = Ok r <-> exists l n, ph_list l n /\ ts = TLParen :: l ++ TRParen :: r.
  Proof.
    unfold parse_in_list. split.
    - intro H. apply bind_Ok in H. destruct H as (x & H1 & H). apply expect_ok in H1; [|discriminate]. subst.
      apply bind_Ok in H. destruct H as (y & H1 & H). apply expect_ok in H1; [|discriminate]. subst.
      apply in_tail_sound in H. destruct H as (l & n & Hl & ->). exists (TPlaceholder :: l), (S n). split; auto.
    - intros (l & n & Hl & ->). rewrite expect_app. cbn [bind].
      assert (exists m, l = TPlaceholder :: m) as (m & E) by (inversion Hl; eauto).
      rewrite E. cbn [app]. rewrite expect_app. cbn [bind]. apply (in_tail_complete l n Hl); auto. rewrite app_length. lia.
  Qed.
  Lemma between_ok ts r : between_tail ts = Ok r <-> ts = TPlaceholder :: TAnd :: TPlaceholder :: r.
  Proof.
    unfold between_tail. split.
    - intro H. apply bind_Ok in H. destruct H as (x & H1 & H). apply expect_ok in H1; [|discriminate]. subst.
      apply bind_Ok in H. destruct H as (y & H1 & H). apply expect_ok in H1; [|discriminate]. subst.
      apply expect_ok in H; [|discriminate]. subst. auto.
    - intros ->. rewrite expect_app. cbn [bind]. rewrite expect_app. cbn [bind]. apply expect_app.
  Qed.

  Lemma operator_ok c ts r : col c -> parse_operator ts = Ok r -> exists l a, primary col (TIdent c :: l) a /\ ts = l ++ r.
  Proof.
    intros Hc H. destruct ts as [|t ts]; [discriminate|]. unfold parse_operator in H. cbn [current hd advance tl] in H.
    assert (TK : forall e, e <> TEof -> expect e ts = Ok r -> ts = e :: r) by (intros e He; apply expect_ok; auto).
    destruct t; try discriminate H.
    - apply TK in H; [|discriminate]. subst. exists [TCmp o; TPlaceholder], (CCmp c o). split; auto. constructor; auto.
    - apply TK in H; [|discriminate]. subst. exists [TLike; TPlaceholder], (CLike false c). split; auto. apply (pr_like col false c); auto.
    - apply TK in H; [|discriminate]. subst. exists [TRegexp; TPlaceholder], (CRegexp false c). split; auto. apply (pr_regexp col false c); auto.
    - apply between_ok in H. subst. exists [TBetween; TPlaceholder; TAnd; TPlaceholder], (CBetween false c). split; auto. apply (pr_between col false c); auto.
    - apply in_list_ok in H. destruct H as (l & n & Hl & ->). exists (TIn :: TLParen :: l ++ [TRParen]), (CIn false c n).
      split; [apply (pr_in col false c); auto|]. cbn. rewrite <- app_assoc. reflexivity.
    - destruct ts as [|t ts]; [discriminate|]. cbn [hd tl current advance] in H.
      assert (TK2 : forall e, e <> TEof -> expect e ts = Ok r -> ts = e :: r) by (intros e He; apply expect_ok; auto).
      destruct t; cbn [advance tl] in H; try discriminate H.
      + apply TK2 in H; [|discriminate]. subst. exists [TNot; TLike; TPlaceholder], (CLike true c). split; auto. apply (pr_like col true c); auto.
      + apply TK2 in H; [|discriminate]. subst. exists [TNot; TRegexp; TPlaceholder], (CRegexp true c). split; auto. apply (pr_regexp col true c); auto.
      + apply between_ok in H. subst. exists [TNot; TBetween; TPlaceholder; TAnd; TPlaceholder], (CBetween true c). split; auto. apply (pr_between col true c); auto.
      + apply in_list_ok in H. destruct H as (l & n & Hl & ->). exists (TNot :: TIn :: TLParen :: l ++ [TRParen]), (CIn true c n).
        split; [apply (pr_in col true c); auto|]. cbn. rewrite <- app_assoc. reflexivity.
    - destruct (token_eqb (current ts) TNot) eqn:E.
      + apply current_eq in E; [|discriminate]. change (tl ts) with (advance ts) in H.
        apply expect_ok in H; [|discriminate]. rewrite H in E. rewrite E. exists [TIs; TNot; TNull], (CNull true c). split; auto. apply (pr_null col true c); auto.
      + apply TK in H; [|discriminate]. subst. exists [TIs; TNull], (CNull false c). split; auto. apply (pr_null col false c); auto.
  Qed.
  Lemma operator_nopanic ts : parse_operator ts <> Panic.
  Proof.
    unfold parse_operator.
    assert (B : forall l, between_tail l <> Panic).
    { intro l. unfold between_tail. destruct (expect TPlaceholder l) as [x| |] eqn:E1; cbn [bind]; try discriminate; [|destruct (expect_nopanic _ _ E1)].
      destruct (expect TAnd x) as [y| |] eqn:E2; cbn [bind]; try discriminate; [|destruct (expect_nopanic _ _ E2)]. apply expect_nopanic. }
    assert (I : forall l, parse_in_list l <> Panic).
    { intro l. unfold parse_in_list. destruct (expect TLParen l) as [x| |] eqn:E1; cbn [bind]; try discriminate; [|destruct (expect_nopanic _ _ E1)].
      destruct (expect TPlaceholder x) as [y| |] eqn:E2; cbn [bind]; try discriminate; [|destruct (expect_nopanic _ _ E2)]. apply in_tail_nopanic. lia. }
    destruct (current ts); try discriminate; auto using expect_nopanic.
    destruct (current (advance ts)); try discriminate; auto using expect_nopanic.
  Qed.

  (** soundness *)
  Lemma parse_sound f :
    (forall ts r, p_expr f ts = Ok r -> exists l a, ts = l ++ r /\ expr col l a)
    /\ (forall ts r l0 a0, p_or f ts = Ok r -> expr col l0 a0 -> exists l a, l0 ++ ts = l ++ r /\ expr col l a)
    /\ (forall ts r, p_and f ts = Ok r -> exists l a, ts = l ++ r /\ and_expr col l a)
    /\ (forall ts r l0 a0, p_andl f ts = Ok r -> and_expr col l0 a0 -> exists l a, l0 ++ ts = l ++ r /\ and_expr col l a)
    /\ (forall ts r, p_un f ts = Ok r -> exists l a, ts = l ++ r /\ unary col l a)
    /\ (forall ts r, p_pr f ts = Ok r -> exists l a, ts = l ++ r /\ primary col l a).
  Proof.
    induction f as [|f (IE & IO & IA & IL & IU & IP)].
    { repeat split; intros; discriminate. }
    repeat split.
    - intros ts r H. rewrite pe_S in H. apply bind_Ok in H. destruct H as (x & H1 & H2).
      apply IA in H1. destruct H1 as (l & a & -> & Hl). apply (IO x r l a H2). constructor; auto.
    - intros ts r l0 a0 H H0. rewrite po_S in H. destruct (token_eqb (current ts) TOr) eqn:E.
      + apply current_eq in E; [|discriminate]. apply bind_Ok in H. destruct H as (x & H1 & H2).
        apply IA in H1. destruct H1 as (l & a & E2 & Hl). rewrite E2 in E.
        destruct (IO x r (l0 ++ TOr :: l) (COr a0 a) H2) as (l' & a' & E3 & H3); [apply ex_or; auto|].
        exists l', a'. split; auto. rewrite <- E3, E, <- app_assoc. reflexivity.
      + injection H as <-. exists l0, a0. auto.
    - intros ts r H. rewrite pa_S in H. apply bind_Ok in H. destruct H as (x & H1 & H2).
      apply IU in H1. destruct H1 as (l & a & -> & Hl). apply (IL x r l a H2). constructor; auto.
    - intros ts r l0 a0 H H0. rewrite pl_S in H. destruct (token_eqb (current ts) TAnd) eqn:E.
      + apply current_eq in E; [|discriminate]. apply bind_Ok in H. destruct H as (x & H1 & H2).
        apply IU in H1. destruct H1 as (l & a & E2 & Hl). rewrite E2 in E.
        destruct (IL x r (l0 ++ TAnd :: l) (CAnd a0 a) H2) as (l' & a' & E3 & H3); [apply an_and; auto|].
        exists l', a'. split; auto. rewrite <- E3, E, <- app_assoc. reflexivity.
      + injection H as <-. exists l0, a0. auto.
    - intros ts r H. rewrite pu_S in H. destruct (token_eqb (current ts) TNot) eqn:E.
      + apply current_eq in E; [|discriminate]. apply IP in H. destruct H as (l & a & E2 & Hl). rewrite E2 in E.
        exists (TNot :: l), (CNot a). split; auto. apply un_neg; auto.
      + apply IP in H. destruct H as (l & a & -> & Hl). exists l, a. split; auto. constructor; auto.
    - intros ts r H. rewrite pp_S in H. destruct (token_eqb (current ts) TLParen) eqn:E.
      + apply current_eq in E; [|discriminate]. apply bind_Ok in H. destruct H as (x & H1 & H2).
        apply IE in H1. destruct H1 as (l & a & E2 & Hl). apply expect_ok in H2; [|discriminate]. subst x. rewrite E2 in E.
        exists (TLParen :: l ++ [TRParen]), a. split; [rewrite E; cbn; rewrite <- app_assoc; reflexivity|constructor; auto].
      + destruct ts as [|t ts]; [discriminate|]. cbn [current hd advance tl] in H. destruct t; try discriminate H.
        destruct (known_column U cols name) eqn:K; [|discriminate]. apply known_column_iff in K.
        destruct (operator_ok name ts r K H) as (l & a & Hl & ->). exists (TIdent name :: l), a. auto.
  Qed.

  (** enough fuel *)
  Lemma parse_len f ts r :
    (p_expr f ts = Ok r -> length r <= length ts) /\ (p_or f ts = Ok r -> length r <= length ts)
    /\ (p_and f ts = Ok r -> length r <= length ts) /\ (p_andl f ts = Ok r -> length r <= length ts)
    /\ (p_un f ts = Ok r -> length r <= length ts) /\ (p_pr f ts = Ok r -> length r <= length ts).
  Proof.
    revert ts r. induction f as [|f IH]; intros ts r; [repeat split; discriminate|].
    assert (AD : length (advance ts) <= length ts) by (destruct ts; cbn; lia).
    repeat split; intro H.
    1,3: first [rewrite pe_S in H|rewrite pa_S in H]; apply bind_Ok in H; destruct H as (x & H1 & H2); apply (IH ts x) in H1; apply (IH x r) in H2; lia.
    1,2: first [rewrite po_S in H|rewrite pl_S in H]; destruct (token_eqb _ _); [|injection H as <-; auto];
      apply bind_Ok in H; destruct H as (x & H1 & H2); apply (IH _ x) in H1; apply (IH x r) in H2; lia.
    - rewrite pu_S in H. destruct (token_eqb _ _); apply (IH _ r) in H; lia.
    - rewrite pp_S in H. destruct (token_eqb (current ts) TLParen).
      + apply bind_Ok in H. destruct H as (x & H1 & H2). apply (IH _ x) in H1. apply expect_ok in H2; [|discriminate]. subst. cbn in H1. lia.
      + destruct ts as [|t ts]; [discriminate|]. cbn [current hd advance tl] in H. destruct t; try discriminate H.
        destruct (known_column U cols name) eqn:K; [|discriminate]. apply known_column_iff in K.
        destruct (operator_ok name ts r K H) as (l & a & Hl & ->). cbn. rewrite app_length. lia.
  Qed.
  Lemma parse_total f :
    (forall ts, 4 * length ts + 4 <= f -> p_expr f ts <> Panic) /\ (forall ts, 4 * length ts + 1 <= f -> p_or f ts <> Panic)
    /\ (forall ts, 4 * length ts + 3 <= f -> p_and f ts <> Panic) /\ (forall ts, 4 * length ts + 1 <= f -> p_andl f ts <> Panic)
    /\ (forall ts, 4 * length ts + 2 <= f -> p_un f ts <> Panic) /\ (forall ts, 4 * length ts + 1 <= f -> p_pr f ts <> Panic).
  Proof.
    induction f as [|f (IE & IO & IA & IL & IU & IP)]; [repeat split; intros; lia|].
    assert (AD : forall ts t, token_eqb (current ts) t = true -> t <> TEof -> S (length (advance ts)) = length ts).
    { intros ts t H Ht. apply current_eq in H; auto. rewrite H at 2. reflexivity. }
    repeat split; intros ts Hf.
    - rewrite pe_S. destruct (p_and f ts) as [x| |] eqn:E; cbn [bind]; try discriminate.
      + apply IO. apply parse_len in E. lia.
      + apply IA in E; auto. lia.
    - rewrite po_S. destruct (token_eqb _ _) eqn:T; [|discriminate]. apply AD in T; [|discriminate].
      destruct (p_and f (advance ts)) as [x| |] eqn:E; cbn [bind]; try discriminate.
      + apply IO. apply parse_len in E. lia.
      + apply IA in E; auto. lia.
    - rewrite pa_S. destruct (p_un f ts) as [x| |] eqn:E; cbn [bind]; try discriminate.
      + apply IL. apply parse_len in E. lia.
      + apply IU in E; auto. lia.
    - rewrite pl_S. destruct (token_eqb _ _) eqn:T; [|discriminate]. apply AD in T; [|discriminate].
      destruct (p_un f (advance ts)) as [x| |] eqn:E; cbn [bind]; try discriminate.
      + apply IL. apply parse_len in E. lia.
      + apply IU in E; auto. lia.
    - rewrite pu_S. apply IP. destruct (token_eqb _ _) eqn:T; [|lia]. apply AD in T; [lia|discriminate].
    - rewrite pp_S. destruct (token_eqb (current ts) TLParen) eqn:T.
      + apply AD in T; [|discriminate]. destruct (p_expr f (advance ts)) as [x| |] eqn:E; cbn [bind]; try discriminate; [apply expect_nopanic|].
        apply IE in E; auto. lia.
      + destruct (current ts); try discriminate. destruct (known_column U cols name); [apply operator_nopanic|discriminate].
  Qed.
  (** more fuel does not change the answer *)
  Lemma parse_mono f : forall g, f <= g -> forall ts,
    (p_expr f ts <> Panic -> p_expr g ts = p_expr f ts) /\ (p_or f ts <> Panic -> p_or g ts = p_or f ts)
    /\ (p_and f ts <> Panic -> p_and g ts = p_and f ts) /\ (p_andl f ts <> Panic -> p_andl g ts = p_andl f ts)
    /\ (p_un f ts <> Panic -> p_un g ts = p_un f ts) /\ (p_pr f ts <> Panic -> p_pr g ts = p_pr f ts).
  Proof.
    induction f as [|f IH]; intros g Hg ts; [repeat split; intro H; exfalso; apply H; reflexivity|].
    destruct g as [|g]; [lia|]. assert (Hg' : f <= g) by lia. specialize (IH g Hg').
    assert (B : forall (p q : nat -> list token -> res (list token)) l,
       (forall l, (p f l <> Panic -> p g l = p f l)) -> (forall l, q f l <> Panic -> q g l = q f l) ->
       bind (p f l) (q f) <> Panic -> bind (p g l) (q g) = bind (p f l) (q f)).
    { intros p q l P Q N. specialize (P l). destruct (p f l) as [x| |]; cbn [bind] in *.
      - rewrite P by discriminate. cbn. apply Q. auto.
      - rewrite P by discriminate. reflexivity.
      - congruence. }
    repeat split; intro H.
    - rewrite !pe_S in *. apply (B p_and p_or); auto; intros l; apply IH.
    - rewrite !po_S in *. destruct (token_eqb _ _); auto. apply (B p_and p_or); auto; intros l; apply IH.
    - rewrite !pa_S in *. apply (B p_un p_andl); auto; intros l; apply IH.
    - rewrite !pl_S in *. destruct (token_eqb _ _); auto. apply (B p_un p_andl); auto; intros l; apply IH.
    - rewrite !pu_S in *. apply IH; auto.
    - rewrite !pp_S in *. destruct (token_eqb (current ts) TLParen); auto.
      apply (B p_expr (fun _ => expect TRParen)); auto. intros l. apply IH.
  Qed.

  (** completeness *)
  Lemma parse_complete :
    (forall l a, expr col l a -> forall rest r, current rest <> TAnd -> (exists f, p_or f rest = Ok r) -> exists f, p_expr f (l ++ rest) = Ok r)
    /\ (forall l a, and_expr col l a -> forall rest r, (exists f, p_andl f rest = Ok r) -> exists f, p_and f (l ++ rest) = Ok r)
    /\ (forall l a, unary col l a -> forall rest, exists f, p_un f (l ++ rest) = Ok rest)
    /\ (forall l a, primary col l a -> forall rest, exists f, p_pr f (l ++ rest) = Ok rest).
  Proof.
    assert (UP : forall f g (p : nat -> list token -> res (list token)) l r, (forall f g ts, f <= g -> p f ts <> Panic -> p g ts = p f ts) -> f <= g -> p f l = Ok r -> p g l = Ok r).
    { intros f g p l r Hp Hfg E. rewrite (Hp f g l Hfg); auto. rewrite E. discriminate. }
    assert (UE : forall f g l r, f <= g -> p_expr f l = Ok r -> p_expr g l = Ok r) by (intros f g l r; apply (UP f g p_expr); intros; apply parse_mono; auto).
    assert (UO : forall f g l r, f <= g -> p_or f l = Ok r -> p_or g l = Ok r) by (intros f g l r; apply (UP f g p_or); intros; apply parse_mono; auto).
    assert (UA : forall f g l r, f <= g -> p_and f l = Ok r -> p_and g l = Ok r) by (intros f g l r; apply (UP f g p_and); intros; apply parse_mono; auto).
    assert (UL : forall f g l r, f <= g -> p_andl f l = Ok r -> p_andl g l = Ok r) by (intros f g l r; apply (UP f g p_andl); intros; apply parse_mono; auto).
    assert (UU : forall f g l r, f <= g -> p_un f l = Ok r -> p_un g l = Ok r) by (intros f g l r; apply (UP f g p_un); intros; apply parse_mono; auto).
    assert (STOP : forall rest, current rest <> TAnd -> exists f, p_andl f rest = Ok rest).
    { intros rest N. exists 1. cbn. rewrite token_eqb_neq; auto. }
    apply grammar_ind.
    - intros l a _ IH rest r N (f & Hf). destruct (IH rest rest (STOP rest N)) as (g & Hg).
      exists (S (f + g)). rewrite pe_S. rewrite (UA g (f + g) _ _ (Nat.le_add_l g f) Hg). cbn [bind]. apply (UO f); auto. lia.
    - intros l a m b _ IH _ IHm rest r N (f & Hf). destruct (IHm rest rest (STOP rest N)) as (g & Hg).
      rewrite <- app_assoc. apply IH; [discriminate|]. exists (S (f + g)). cbn [app]. rewrite po_S. cbn [app current hd token_eqb advance tl].
      rewrite (UA g (f + g) _ _ (Nat.le_add_l g f) Hg). cbn [bind]. apply (UO f); auto. lia.
    - intros l a _ IH rest r (f & Hf). destruct (IH rest) as (g & Hg).
      exists (S (f + g)). rewrite pa_S. rewrite (UU g (f + g) _ _ (Nat.le_add_l g f) Hg). cbn [bind]. apply (UL f); auto. lia.
    - intros l a m b _ IH _ IHm rest r (f & Hf). destruct (IHm rest) as (g & Hg).
      rewrite <- app_assoc. apply IH. exists (S (f + g)). cbn [app]. rewrite pl_S. cbn [app current hd token_eqb advance tl].
      rewrite (UU g (f + g) _ _ (Nat.le_add_l g f) Hg). cbn [bind]. apply (UL f); auto. lia.
    - intros l a Hl IH rest. destruct (IH rest) as (f & Hf). exists (S f). rewrite pu_S.
      rewrite token_eqb_neq; auto. inversion Hl; discriminate.
    - intros l a Hl IH rest. destruct (IH rest) as (f & Hf). exists (S f). cbn [app]. rewrite pu_S. cbn [app current hd token_eqb advance tl]. auto.
    - intros c o Hc rest. exists 1. cbn. apply known_column_iff in Hc. rewrite Hc. first [reflexivity|apply expect_app].
    - intros n c Hc rest. exists 1. cbn. apply known_column_iff in Hc. rewrite Hc. destruct n; first [reflexivity|cbn; apply expect_app].
    - intros n c Hc rest. exists 1. cbn. apply known_column_iff in Hc. rewrite Hc. destruct n; first [reflexivity|cbn; apply expect_app].
    - intros n c Hc rest. exists 1. cbn. apply known_column_iff in Hc. rewrite Hc. destruct n; first [reflexivity|cbn; apply expect_app].
    - intros n c Hc rest. exists 1. cbn. apply known_column_iff in Hc. rewrite Hc. destruct n; reflexivity.
    - intros n c l k Hc Hl rest. exists 1. apply known_column_iff in Hc. cbn [app]. rewrite pp_S. cbn [current hd token_eqb]. rewrite Hc.
      destruct n; cbn [opt_not app advance tl]; unfold parse_operator; cbn [app advance tl current hd]; apply in_list_ok; exists l, k; split; auto; rewrite <- app_assoc; reflexivity.
    - intros l a _ IH rest. destruct (IH (TRParen :: rest) (TRParen :: rest)) as (f & Hf); [discriminate|exists 1; reflexivity|].
      exists (S f). cbn [app]. rewrite pp_S. cbn [app current hd token_eqb advance tl]. rewrite <- app_assoc. cbn [app]. rewrite Hf. cbn [bind]. apply expect_app.
  Qed.

  Lemma grammar_no_eof :
    (forall l a, expr col l a -> ~ In TEof l) /\ (forall l a, and_expr col l a -> ~ In TEof l)
    /\ (forall l a, unary col l a -> ~ In TEof l) /\ (forall l a, primary col l a -> ~ In TEof l).
  Proof.
    apply grammar_ind; auto.
    - intros l a m b _ H _ H2 H3. apply in_app_iff in H3. destruct H3 as [H3|[H3|H3]]; auto; discriminate.
    - intros l a m b _ H _ H2 H3. apply in_app_iff in H3. destruct H3 as [H3|[H3|H3]]; auto; discriminate.
    - intros l a _ H [H2|H2]; auto; discriminate.
    - intros c o _ H. cbn in H. intuition discriminate.
    - intros [] c _ H; cbn in H; intuition discriminate.
    - intros [] c _ H; cbn in H; intuition discriminate.
    - intros [] c _ H; cbn in H; intuition discriminate.
    - intros [] c _ H; cbn in H; intuition discriminate.
    - intros n c l k _ Hl H. assert (HL : ~ In TEof l) by (clear H; induction Hl; cbn; intuition discriminate).
      destruct n; cbn in H; rewrite in_app_iff in H; cbn in H; intuition discriminate.
    - intros l a _ H H2. cbn in H2. rewrite in_app_iff in H2. cbn in H2. intuition discriminate.
  Qed.

  Lemma validate_iff ts : ~ In TEof ts -> validate U cols (ts ++ [TEof]) = Ok tt <-> exists a, expr col ts a.
  Proof.
    intro Hn. unfold validate. split.
    - intro H. apply bind_Ok in H. destruct H as (rest & H1 & H2). apply parse_sound in H1. destruct H1 as (l & a & E & Hl).
      destruct (token_eqb (current rest) TEof) eqn:T; [|discriminate]. apply token_eqb_eq in T.
      pose proof (proj1 grammar_no_eof l a Hl) as Nl.
      destruct rest as [|t rest].
      + rewrite app_nil_r in E. exfalso. apply Nl. rewrite <- E. apply in_app_iff. right; left; auto.
      + cbn in T. subst t. exists a. replace ts with l; auto.
        destruct (exists_last (l:=TEof :: rest)) as (q & x & Eq); [discriminate|].
        rewrite Eq, app_assoc in E. apply app_inj_tail in E. destruct E as (E & <-).
        destruct q as [|y q]; [rewrite app_nil_r in E; auto|]. injection Eq as <- Eq. exfalso. apply Hn. rewrite E. apply in_app_iff. right; left; auto.
    - intros (a & Ha). destruct parse_complete as (PC & _). destruct (PC ts a Ha [TEof] [TEof]) as (f & Hf); [discriminate|exists 1; reflexivity|].
      assert (E : p_expr (5 * length (ts ++ [TEof]) + 5) (ts ++ [TEof]) = Ok [TEof]); [|rewrite E; reflexivity].
      destruct (Nat.le_ge_cases f (5 * length (ts ++ [TEof]) + 5)) as [Hle|Hle].
      + rewrite <- Hf. apply parse_mono; auto. rewrite Hf. discriminate.
      + rewrite <- Hf. symmetry. apply parse_mono; auto. apply parse_total. lia.
  Qed.
  Lemma validate_nopanic ts : validate U cols ts <> Panic.
  Proof.
    unfold validate. destruct (p_expr _ ts) as [x| |] eqn:E; cbn [bind]; try discriminate.
    - destruct (token_eqb _ _); discriminate.
    - apply parse_total in E; auto. lia.
  Qed.
End PARSE.
