(** Proofs about the filter-condition validator: characters, whole words, numbers. *)
From Verif Require Import Base Text SqlModel SqlSpec SqlProofs.
Open Scope nat_scope.
Set Default Proof Using "Type".

(** ** Characters *)
Lemma ascii_app a b : ascii_text (a ++ b) <-> ascii_text a /\ ascii_text b.
Proof. unfold ascii_text. split; [intro H; split; intros c Hc; apply H, in_app_iff; auto|]. intros (H1 & H2) c Hc. apply in_app_iff in Hc. destruct Hc; auto. Qed.
Lemma ascii_cons c b : ascii_text (c :: b) <-> is_ascii c = true /\ ascii_text b.
Proof. unfold ascii_text. cbn. split; [intro H; split; auto|]. intros (H1 & H2) d [<-|Hd]; auto. Qed.
Lemma a_range c : is_ascii c = true <-> (0 <= c < 128)%Z.
Proof. unfold is_ascii. lia. Qed.
Lemma alnum_ascii c : a_alnum c = true -> is_ascii c = true.
Proof. unfold a_alnum, a_alpha, a_upper, a_lower, a_digit, is_ascii. lia. Qed.
Lemma alpha_alnum c : a_alpha c = true -> a_alnum c = true.
Proof. unfold a_alnum. intros ->. reflexivity. Qed.
Lemma valid_name_ascii k : valid_name k -> ascii_text k.
Proof.
  intros (c & r & -> & Hc & Hr) d [<-|Hd].
  - destruct Hc as [Hc| ->]; [apply alnum_ascii, alpha_alnum; auto|reflexivity].
  - destruct (Hr d Hd) as [H| ->]; [apply alnum_ascii; auto|reflexivity].
Qed.
Lemma valid_name_chars k d : valid_name k -> In d k -> a_alnum d = true \/ d = ch "_".
Proof.
  intros (c & r & -> & Hc & Hr) [<-|Hd]; auto. destruct Hc; auto. left. apply alpha_alnum; auto.
Qed.
Lemma is_valid_column_name_iff k : is_valid_column_name k = true <-> valid_name k.
Proof.
  unfold is_valid_column_name, valid_name. destruct k as [|c r].
  - split; [discriminate|]. intros (c & r & H & _). discriminate.
  - rewrite andb_true_iff, orb_true_iff, forallb_forall. unfold under. rewrite Z.eqb_eq. split.
    + intros (H & H2). exists c, r. split; auto. split; auto. intros d Hd. apply H2 in Hd. apply orb_true_iff in Hd.
      rewrite Z.eqb_eq in Hd. auto.
    + intros (c' & r' & E & H & H2). injection E as <- <-. split; auto. intros d Hd. apply orb_true_iff. rewrite Z.eqb_eq. apply H2; auto.
Qed.
Lemma lower1_other c d : to_lower1 d = c -> a_alpha c = false -> d = c.
Proof. unfold to_lower1, a_alpha, a_upper, a_lower. destruct ((65 <=? d)%Z && (d <=? 90)%Z) eqn:E; lia. Qed.
Lemma lower1_chars c : (a_alnum (to_lower1 c) = true \/ to_lower1 c = ch "_") <-> (a_alnum c = true \/ c = ch "_").
Proof. change (ch "_") with 95%Z. unfold to_lower1, a_alnum, a_alpha, a_upper, a_lower, a_digit. destruct ((65 <=? c)%Z && (c <=? 90)%Z) eqn:E; lia. Qed.
Lemma upper_of_lower c : to_upper1 (to_lower1 c) = to_upper1 c.
Proof. unfold to_upper1, to_lower1, a_upper, a_lower. destruct ((65 <=? c)%Z && (c <=? 90)%Z) eqn:E; destruct ((97 <=? c)%Z && (c <=? 122)%Z) eqn:E2;
  [lia|destruct ((97 <=? c + 32)%Z && (c + 32 <=? 122)%Z) eqn:E3; lia|reflexivity|reflexivity]. Qed.
Lemma lower_eq_upper a b : map to_lower1 a = map to_lower1 b -> map to_upper1 a = map to_upper1 b.
Proof.
  assert (U : forall s, map to_upper1 s = map to_upper1 (map to_lower1 s)).
  { intro s. rewrite map_map. apply map_ext. intro c. symmetry. apply upper_of_lower. }
  intro H. rewrite (U a), (U b), H. reflexivity.
Qed.
Lemma word_class c : u_word ascii_unicode c = true <-> a_alnum c = true \/ c = ch "_".
Proof. cbn. rewrite orb_true_iff. unfold under. rewrite Z.eqb_eq. reflexivity. Qed.
Lemma upper1_word c : (a_alnum (to_upper1 c) || under (to_upper1 c)) = (a_alnum c || under c).
Proof. unfold to_upper1, under, a_alnum, a_alpha, a_upper, a_lower, a_digit. destruct ((97 <=? c)%Z && (c <=? 122)%Z) eqn:E; rewrite ?E; [|reflexivity].
  apply eq_true_iff_eq. rewrite !orb_true_iff. lia. Qed.
Lemma upper1_ascii c : is_ascii c = true -> is_ascii (to_upper1 c) = true.
Proof. unfold to_upper1, is_ascii, a_lower. destruct ((97 <=? c)%Z && (c <=? 122)%Z) eqn:E; lia. Qed.

Section CHARS.
  Variable U : unicode.
  Hypothesis HU : good_unicode U.
  Variable cols : list text.
  Hypothesis Hcols : forall k, In k cols -> valid_name k.

  Lemma column_chars w d : column_of U cols w -> In d w -> is_ascii d = true -> a_alnum d = true \/ d = ch "_".
  Proof using HU Hcols.
    intros (k & Hk & E) Hd Ha. pose proof (Hcols k Hk) as V. pose proof (valid_name_ascii k V) as A.
    rewrite (gu_lower _ HU k A) in E. destruct (a_alpha d) eqn:Al; [left; apply alpha_alnum; auto|].
    assert (Hi : In d (u_lower U w)) by (apply (gu_lower_keep _ HU); auto). rewrite <- E in Hi.
    apply in_map_iff in Hi. destruct Hi as (e & E2 & He). apply (lower1_other _ _ E2) in Al. subst e.
    apply (valid_name_chars k d V He).
  Qed.
  Lemma column_ascii w : ascii_text w -> column_of U cols w -> names_column cols w.
  Proof using HU Hcols.
    intros Hw (k & Hk & E). exists k. split; auto. rewrite (gu_lower _ HU k), (gu_lower _ HU w) in E; auto.
    apply valid_name_ascii, Hcols, Hk.
  Qed.
  (** identifiers of a lexed text are columns *)
  Lemma expr_idents : 
    (forall l a, expr (column_of U cols) l a -> forall w, In (TIdent w) l -> column_of U cols w)
    /\ (forall l a, and_expr (column_of U cols) l a -> forall w, In (TIdent w) l -> column_of U cols w)
    /\ (forall l a, unary (column_of U cols) l a -> forall w, In (TIdent w) l -> column_of U cols w)
    /\ (forall l a, primary (column_of U cols) l a -> forall w, In (TIdent w) l -> column_of U cols w).
  Proof using Type.
    clear HU Hcols. apply grammar_ind; auto.
    - intros l a m b _ H _ H2 w H3. apply in_app_iff in H3. destruct H3 as [H3|[H3|H3]]; auto; discriminate.
    - intros l a m b _ H _ H2 w H3. apply in_app_iff in H3. destruct H3 as [H3|[H3|H3]]; auto; discriminate.
    - intros l a _ H w [H2|H2]; auto; discriminate.
    - intros c o Hc w H. cbn in H. destruct H as [H|H]; [injection H as <-; auto|intuition discriminate].
    - intros n c Hc w H. destruct n; cbn in H; (destruct H as [H|H]; [injection H as <-; auto|intuition discriminate]).
    - intros n c Hc w H. destruct n; cbn in H; (destruct H as [H|H]; [injection H as <-; auto|intuition discriminate]).
    - intros n c Hc w H. destruct n; cbn in H; (destruct H as [H|H]; [injection H as <-; auto|intuition discriminate]).
    - intros n c Hc w H. destruct n; cbn in H; (destruct H as [H|H]; [injection H as <-; auto|intuition discriminate]).
    - intros n c l k Hc Hl w H. assert (HL : ~ In (TIdent w) l) by (clear H; induction Hl; cbn; intuition discriminate).
      destruct n; cbn in H; rewrite in_app_iff in H; cbn in H; (destruct H as [H|H]; [injection H as <-; auto|intuition discriminate]).
    - intros l a _ H w H2. cbn in H2. rewrite in_app_iff in H2. cbn in H2. destruct H2 as [H2|[H2|[H2|[]]]]; auto; discriminate.
  Qed.

  Lemma lexes_harmless s ts : lexes U s ts -> (forall w, In (TIdent w) ts -> column_of U cols w) ->
    forall c, In c s -> is_ascii c = true -> harmless c.
  Proof using HU Hcols.
    induction 1 as [|c s l Hc _ IH|w t s l Hw He _ IH]; intros Hid d Hd Ha.
    - destruct Hd.
    - destruct Hd as [<-|Hd]; [|apply IH; auto]. rewrite (gu_ws _ HU) in Hc by auto. right; right; left; auto.
    - apply in_app_iff in Hd. destruct Hd as [Hd|Hd]; [|apply IH; auto; intros; apply Hid; right; auto].
      assert (BW : bare_word U w -> harmless d).
      { intros (c & r & -> & Hc & Hr). destruct Hd as [<-|Hd].
        - destruct Hc as [Hc| ->]; [|right; left; auto]. left. rewrite (gu_alpha _ HU) in Hc by auto. apply alpha_alnum; auto.
        - destruct (Hr d Hd) as [H1| ->]; [|right; left; auto]. left. rewrite (gu_alnum _ HU) in H1 by auto. auto. }
      inversion Hw as [? ? Hs|? ? Hb Hk|? Hb Hk|w' Hq]; subst; auto.
      + right; right; right; left. cbn in Hs |- *.
        repeat (destruct Hs as [Hs|Hs]; [injection Hs as <- <-; cbn in Hd; intuition auto 12|]). destruct Hs.
      + destruct Hd as [<-|Hd]; [right; right; right; right; auto|]. apply in_app_iff in Hd. destruct Hd as [Hd|[<-|[]]]; [|right; right; right; right; auto].
        destruct (column_chars w' d) as [H1|H1]; auto; [apply Hid; left; auto|left; auto|right; left; auto].
  Qed.

  (** ** Whole words *)
  Definition wc (c : Z) : Prop := a_alnum c = true \/ c = ch "_".
  Lemma uword_wc c : is_ascii c = true -> (u_word U c = true <-> wc c).
  Proof using HU. intro H. rewrite (gu_word _ HU) by auto. unfold wc. rewrite orb_true_iff. unfold under. rewrite Z.eqb_eq. reflexivity. Qed.
  Lemma whole_word_mono k s : whole_word U k true s = true -> whole_word U k false s = true.
  Proof using Type. clear HU Hcols. destruct s as [|c s]; cbn - [skipn starts_with]; intro H; rewrite H, ?orb_true_r; auto. Qed.
  Lemma whole_word_skip k w s : (forall c, In c w -> u_word U c = true) -> whole_word U k true (w ++ s) = true -> whole_word U k true s = true.
  Proof using Type.
    clear HU Hcols. induction w as [|c w IH]; cbn - [skipn starts_with]; intros Hw H; auto.
    rewrite (Hw c) in H by auto. apply IH; auto.
  Qed.
  Lemma whole_word_run k w s : w <> [] -> (forall c, In c w -> u_word U c = true) -> (forall c, In c k -> u_word U c = true) ->
    match s with [] => True | c :: _ => u_word U c = false end -> k <> w ->
    whole_word U k false (w ++ s) = true -> whole_word U k false s = true.
  Proof using Type.
    clear HU Hcols. intros Hne Hw Hk Hs Hkw H. destruct w as [|c w]; [congruence|].
    cbn - [skipn starts_with] in H. apply orb_true_iff in H. destruct H as [H|H].
    - exfalso. apply andb_true_iff in H. destruct H as (H1 & H2). apply starts_with_spec in H1. destruct H1 as (t & E).
      change (c :: w ++ s) with ((c :: w) ++ s) in *. set (v := c :: w) in *. clearbody v. clear c w Hne.
      rewrite E, skipn_app, skipn_all, Nat.sub_diag in H2. cbn in H2.
      assert (Ht : match t with [] => True | c :: _ => u_word U c = false end) by (destruct t; auto; destruct (u_word U z); auto; discriminate).
      clear H2. revert k Hk Hkw E. induction v as [|x v IH]; intros k Hk Hkw E.
      + destruct k as [|y k]; [congruence|]. cbn in E. rewrite E in Hs. rewrite Hk in Hs by (left; auto). discriminate.
      + destruct k as [|y k].
        * cbn in E. rewrite <- E in Ht. rewrite Hw in Ht by (left; auto). discriminate.
        * cbn in E. injection E as <- E. apply (IH (fun c h => Hw c (or_intror h)) k); auto; [intros c h; apply Hk; right; auto|congruence].
    - rewrite (Hw c) in H by (left; auto). apply whole_word_skip in H; [|intros; apply Hw; right; auto]. apply whole_word_mono; auto.
  Qed.
  Lemma whole_word_sep k c s : u_word U c = false -> (exists x r, k = x :: r /\ u_word U x = true) -> whole_word U k false (c :: s) = true -> whole_word U k false s = true.
  Proof using Type.
    clear HU Hcols. intros Hc (x & r & -> & Hx) H. cbn - [skipn] in H. rewrite Hc in H. apply orb_true_iff in H. destruct H as [H|H]; auto.
    exfalso. apply andb_true_iff in H. destruct H as (H & _). apply andb_true_iff in H. destruct H as (H & _). apply Z.eqb_eq in H. congruence.
  Qed.
  Lemma whole_word_seps k w s : (forall c, In c w -> u_word U c = false) -> (exists x r, k = x :: r /\ u_word U x = true) -> whole_word U k false (w ++ s) = true -> whole_word U k false s = true.
  Proof using Type.
    clear HU Hcols. intros Hw Hk. induction w as [|c w IH]; cbn [app]; auto. intro H. apply whole_word_sep in H; auto; [apply IH; auto|]; intros; apply Hw; cbn; auto.
  Qed.
  Lemma dangerous_shape k : In k dangerous_keywords -> (exists x r, k = x :: r /\ u_word U x = true) /\ (forall c, In c k -> u_word U c = true)
     /\ (forall w t, keyword U w t -> u_upper U w <> k) /\ In k statement_words.
  Proof using HU.
    intro H. assert (A : forall c, In c k -> is_ascii c = true /\ (a_alnum c || under c) = true).
    { revert H. apply (proj1 (Forall_forall (fun k => forall c, In c k -> is_ascii c = true /\ (a_alnum c || under c) = true) dangerous_keywords)).
      rewrite Forall_forall. intros x Hx c Hc. revert c Hc. apply Forall_forall.
      cbn [In dangerous_keywords map] in Hx. repeat (destruct Hx as [<-|Hx]; [repeat constructor|]). destruct Hx. }
    assert (B : forall c, In c k -> u_word U c = true) by (intros c Hc; destruct (A c Hc); rewrite (gu_word _ HU); auto).
    split; [|split; [auto|split; [|auto]]].
    - cbn [In dangerous_keywords map] in H. repeat (destruct H as [<-|H]; [eexists; eexists; split; [reflexivity|apply B; left; reflexivity]|]). destruct H.
    - intros w t Ht E. unfold keyword in Ht. rewrite E in Ht. clear - H Ht. cbn [In dangerous_keywords map] in H.
      repeat (destruct H as [<-|H]; [cbn in Ht; intuition discriminate|]). destruct H.
  Qed.
  Hypothesis Hsafe : forall c k, In c cols -> In k statement_words -> map to_upper1 c <> k.

  Lemma lexes_no_statement k : In k dangerous_keywords -> forall s ts, lexes U s ts -> ascii_text s -> (forall w, In (TIdent w) ts -> column_of U cols w) ->
    whole_word U k false (map to_upper1 s) = false.
  Proof using HU Hcols Hsafe.
    intros Hk. destruct (dangerous_shape k Hk) as (K1 & K2 & K3 & K4). intros s ts H.
    induction H as [|c s l Hc _ IH|w t s l Hw He _ IH]; intros A Hid.
    - destruct K1 as (x & r & -> & _). reflexivity.
    - apply ascii_cons in A. destruct A as (A1 & A2). specialize (IH A2 Hid).
      destruct (whole_word U k false (map to_upper1 (c :: s))) eqn:E; auto. cbn [map] in E. apply whole_word_sep in E; auto; [congruence|].
      rewrite (gu_word _ HU) by (apply upper1_ascii; auto). rewrite upper1_word. rewrite (gu_ws _ HU) in Hc by auto.
      revert Hc. unfold a_ws, a_alnum, a_alpha, a_upper, a_lower, a_digit, under. lia.
    - apply ascii_app in A. destruct A as (A1 & A2). assert (Hid' : forall w, In (TIdent w) l -> column_of U cols w) by (intros; apply Hid; right; auto).
      specialize (IH A2 Hid'). destruct (whole_word U k false (map to_upper1 (w ++ s))) eqn:E; auto. exfalso. rewrite map_app in E.
      assert (UW : forall c, is_ascii c = true -> u_word U (to_upper1 c) = a_alnum c || under c).
      { intros c Hc. rewrite (gu_word _ HU) by (apply upper1_ascii; auto). apply upper1_word. }
      assert (BW : bare_word U w -> map to_upper1 w <> k -> False).
      { intros Hb Hn. apply whole_word_run in E; auto; [congruence| | |].
        - destruct Hb as (c & r & -> & _). discriminate.
        - intros c Hi. apply in_map_iff in Hi. destruct Hi as (d & <- & Hd). rewrite UW by (apply A1; auto).
          destruct Hb as (c & r & -> & Hc & Hr). apply orb_true_iff. unfold under. rewrite Z.eqb_eq. destruct Hd as [<-|Hd].
          + destruct Hc; auto. left. rewrite <- (gu_alnum _ HU) by (apply A1; left; auto). apply (gu_alpha_alnum _ HU); auto.
          + destruct (Hr d Hd); auto. left. rewrite <- (gu_alnum _ HU) by (apply A1; right; auto). auto.
        - destruct s as [|c s]; cbn [map]; auto. apply ascii_cons in A2. destruct A2 as (A2 & _). rewrite UW by auto.
          destruct He as (He & _). destruct (He Hb) as (H1 & H2). rewrite (gu_alnum _ HU) in H1 by auto. rewrite H1. apply Z.eqb_neq. auto. }
      inversion Hw as [? ? Hs|? ? Hb Hkw|? Hb Hkw|w' Hq]; subst.
      + apply whole_word_seps in E; auto; [congruence|]. intros c Hi. apply in_map_iff in Hi. destruct Hi as (d & <- & Hd). rewrite UW by (apply A1; auto).
        clear - Hs Hd. cbn [In] in Hs. repeat (destruct Hs as [Hs|Hs]; [injection Hs as <- <-; cbn in Hd; intuition (subst; reflexivity)|]). destruct Hs.
      + apply BW; auto. rewrite <- (gu_upper _ HU) by auto. apply (K3 w t Hkw).
      + apply BW; auto. destruct (Hid w) as (k' & Hk' & Ek); [left; auto|].
        rewrite (gu_lower _ HU k'), (gu_lower _ HU w) in Ek; auto; [|apply valid_name_ascii; auto].
        apply lower_eq_upper in Ek. rewrite <- Ek. apply Hsafe; auto.
      + destruct (Hid w') as (k' & Hk' & Ek); [left; auto|].
        assert (A1' : ascii_text w') by (intros c Hc; apply A1; right; apply in_app_iff; auto).
        rewrite (gu_lower _ HU k'), (gu_lower _ HU w') in Ek; auto; [|apply valid_name_ascii; auto].
        apply lower_eq_upper in Ek.
        assert (NQ : forall c, c = 34%Z -> u_word U c = false) by (intros c ->; rewrite (gu_word _ HU); reflexivity).
        cbn [map app] in E. apply whole_word_sep in E; auto. rewrite map_app, <- app_assoc in E. cbn [map app] in E.
        apply whole_word_run in E; auto.
        * apply whole_word_sep in E; auto. congruence.
        * rewrite <- Ek. destruct (Hcols k' Hk') as (c & r & -> & _). discriminate.
        * intros c Hi. apply in_map_iff in Hi. destruct Hi as (d & <- & Hd). rewrite UW by auto.
          apply orb_true_iff. unfold under. rewrite Z.eqb_eq. apply (column_chars w' d); auto. apply Hid. left; auto.
        * rewrite <- Ek. apply not_eq_sym, Hsafe; auto.
  Qed.
End CHARS.

(** ** Numbers *)
Lemma span_nil_r p s a : span p s = (a, []) -> s = a /\ forall c, In c s -> p c = true.
Proof. intro H. apply span_spec in H. destruct H as (-> & H & _). rewrite app_nil_r. auto. Qed.
Lemma trim_start_split ws s : exists a, s = a ++ trim_start ws s /\ forall c, In c a -> ws c = true.
Proof.
  induction s as [|c s (a & E & H)]; cbn [trim_start]; [exists []; repeat split; auto; intros ? []|]. destruct (ws c) eqn:W.
  - exists (c :: a). split; [cbn; congruence|]. intros d [<-|Hd]; auto.
  - exists []. repeat split; auto; intros ? [].
Qed.
Lemma trim_split ws s : exists a b, s = a ++ trim ws s ++ b /\ forall c, In c a \/ In c b -> ws c = true.
Proof.
  destruct (trim_start_split ws s) as (a & E & Ha). destruct (trim_start_split ws (rev (trim_start ws s))) as (b & E2 & Hb).
  exists a, (rev b). unfold trim. split.
  - rewrite E at 1. f_equal. rewrite <- (rev_involutive (trim_start ws s)) at 1. rewrite E2 at 1. rewrite rev_app_distr. reflexivity.
  - intros c [H|H]; auto. apply in_rev in H. auto.
Qed.
Lemma numeric_sound U s : is_numeric_equality U s = true -> numeric_equality U s.
Proof.
  unfold is_numeric_equality. destruct (trim_split (u_ws U) s) as (w1 & w4 & E & Hw). set (t := trim (u_ws U) s) in *. clearbody t.
  destruct (span (u_digit U) t) as (d1 & r1) eqn:S1. destruct (span (u_space U) r1) as (w2 & r2) eqn:S2. intro H.
  destruct d1 as [|x d1]; [discriminate|]. destruct r2 as [|c r3]; [discriminate|]. apply andb_true_iff in H. destruct H as (Hc & H). apply Z.eqb_eq in Hc. subst c.
  destruct (span (u_space U) r3) as (w3 & r4) eqn:S3. destruct (span (u_digit U) r4) as (d2 & r5) eqn:S4.
  destruct d2 as [|y d2]; [discriminate|]. destruct r5; [|discriminate].
  apply span_spec in S1, S2, S3, S4. destruct S1 as (-> & S1 & _), S2 as (-> & S2 & _), S3 as (-> & S3 & _), S4 as (-> & S4 & _).
  exists w1, (x :: d1), w2, w3, (y :: d2), w4. split; [|split; [discriminate|split; [discriminate|]]].
  - rewrite E. cbn. rewrite app_nil_r. rewrite <- !app_assoc. cbn. rewrite <- !app_assoc. reflexivity.
  - split; [|split]; auto; intros c [Hc|Hc]; auto.
Qed.
Lemma trim_start_app ws a s : (forall c, In c a -> ws c = true) -> match s with [] => True | c :: _ => ws c = false end -> trim_start ws (a ++ s) = s.
Proof.
  induction a as [|c a IH]; cbn; intros Ha Hs.
  - destruct s as [|c s]; cbn; auto. rewrite Hs. auto.
  - rewrite Ha by auto. apply IH; auto.
Qed.
Lemma trim_eq ws a s b : (forall c, In c a \/ In c b -> ws c = true) -> match s with [] => False | c :: _ => ws c = false end ->
  (exists l c, s = l ++ [c] /\ ws c = false) -> trim ws (a ++ s ++ b) = s.
Proof.
  intros H Hs (l & c & E & Hc). unfold trim. rewrite trim_start_app; auto; [|destruct s; [destruct Hs|auto]].
  rewrite rev_app_distr, trim_start_app; auto; [apply rev_involutive| |].
  - intros d Hd. apply H. right. apply in_rev. auto.
  - rewrite E, rev_app_distr. cbn. auto.
Qed.
Lemma numeric_complete U s : good_unicode U -> ascii_text s -> numeric_equality U s -> is_numeric_equality U s = true.
Proof.
  intros HU A (w1 & d1 & w2 & w3 & d2 & w4 & -> & N1 & N2 & Hd & Hw & Hs).
  assert (AS : forall c, In c w1 \/ In c d1 \/ In c w2 \/ In c w3 \/ In c d2 \/ In c w4 -> is_ascii c = true).
  { intros c Hc. apply A. rewrite !in_app_iff. tauto. }
  assert (DW : forall c, is_ascii c = true -> u_digit U c = true -> u_ws U c = false /\ u_space U c = false).
  { intros c Hc. rewrite (gu_digit _ HU), (gu_ws _ HU), (gu_space _ HU) by auto. unfold a_digit, a_ws. lia. }
  assert (WD : forall c, is_ascii c = true -> u_space U c = true -> u_digit U c = false).
  { intros c Hc. rewrite (gu_digit _ HU), (gu_space _ HU) by auto. unfold a_digit, a_ws. lia. }
  destruct d1 as [|x d1]; [congruence|].
  assert (T : trim (u_ws U) (w1 ++ (x :: d1) ++ w2 ++ [ch "="] ++ w3 ++ d2 ++ w4) = (x :: d1) ++ w2 ++ [ch "="] ++ w3 ++ d2).
  { replace (w1 ++ (x :: d1) ++ w2 ++ [ch "="] ++ w3 ++ d2 ++ w4) with (w1 ++ ((x :: d1) ++ w2 ++ [ch "="] ++ w3 ++ d2) ++ w4).
    2:{ cbn. rewrite <- !app_assoc. cbn. rewrite <- !app_assoc. reflexivity. }
    apply trim_eq; auto.
    - cbn. apply DW; [apply AS; cbn; auto|apply Hd; cbn; auto].
    - destruct (exists_last N2) as (l & c & E). exists ((x :: d1) ++ w2 ++ [ch "="] ++ w3 ++ l), c. split.
      + rewrite E. cbn. rewrite <- !app_assoc. cbn. rewrite <- !app_assoc. reflexivity.
      + apply DW; [apply AS|apply Hd]; rewrite E, in_app_iff; cbn; tauto. }
  unfold is_numeric_equality. rewrite T.
  assert (EQ : u_digit U (ch "=") = false /\ u_space U (ch "=") = false).
  { rewrite (gu_digit _ HU), (gu_space _ HU) by reflexivity. split; reflexivity. }
  rewrite span_app; [|intros; apply Hd; auto|].
  2:{ destruct w2 as [|c w2]; cbn; [apply EQ|]. apply WD; [apply AS; cbn; tauto|apply Hs; cbn; auto]. }
  rewrite span_app; [|intros; apply Hs; auto|cbn; apply EQ].
  cbn [app]. rewrite Z.eqb_refl. cbn [andb].
  rewrite span_app; [|intros; apply Hs; auto|].
  2:{ destruct d2 as [|c d2]; [congruence|]. apply DW; [apply AS; cbn; tauto|apply Hd; cbn; auto]. }
  rewrite <- (app_nil_r d2), span_app; auto. destruct d2; [congruence|auto].
Qed.

(** ** The whole validator *)
Lemma validate_sound U cols s : good_unicode U -> validate_condition U cols s = Ok tt ->
  numeric_equality U s \/ (exists ts a, lexes U s ts /\ expr (column_of U cols) ts a)
     /\ forall k, In k dangerous_keywords -> whole_word U k false (u_upper U s) = false.
Proof.
  intros HU H. unfold validate_condition in H. destruct (is_numeric_equality U s) eqn:N; [left; apply numeric_sound; auto|right].
  apply bind_Ok in H. destruct H as ([] & Q & H). apply bind_Ok in H. destruct H as (ts & T & V).
  apply tokenize_ok in T; auto. destruct T as (l & -> & L). apply validate_iff in V; [|apply (lexes_no_eof U s); auto].
  destruct V as (a & V). split; [exists l, a; auto|]. unfold quick_safety_check in Q.
  destruct (_ || _); [discriminate|]. destruct (contains _ _); [discriminate|]. destruct (existsb _ _) eqn:X; [discriminate|].
  intros k Hk. destruct (whole_word U k false (u_upper U s)) eqn:E; auto.
  assert (existsb (fun k => whole_word U k false (u_upper U s)) dangerous_keywords = true); [|congruence].
  apply existsb_exists. exists k. auto.
Qed.
Lemma tokenize_nopanic U (HU : good_unicode U) fuel : forall s, length s <= fuel -> tokenize_from U fuel s <> Panic.
Proof.
  induction fuel as [|f IH]; intros s Hs; [destruct s; cbn in *; [discriminate|lia]|].
  destruct s as [|c r]; [discriminate|]. cbn [tokenize_from]. cbn [length] in Hs.
  assert (TK : forall t rest, length rest <= f -> bind (tokenize_from U f rest) (fun ts => Ok (t :: ts)) <> Panic).
  { intros t rest Hr. destruct (tokenize_from U f rest) eqn:E; cbn; try discriminate. destruct (IH rest Hr E). }
  assert (SK : length (skipn 2 (c :: r)) <= f) by (rewrite skipn_length; cbn [length]; lia).
  destruct (u_ws U c); [apply IH; lia|].
  do 5 (destruct (_ =? _)%Z; [apply TK; lia|]). do 4 (destruct (starts_with _ _); [apply TK; auto|]). do 2 (destruct (_ =? _)%Z; [apply TK; lia|]).
  destruct (u_alpha U c || under c) eqn:Al.
  - destruct (span (word_char U) (c :: r)) as (w & rest) eqn:S. pose proof (span_spec _ _ _ _ S) as (S1 & _ & S3). 
    destruct w as [|x w].
    + cbn in S1. subst rest. assert (word_char U c = true); [|congruence]. apply word_char_iff. apply orb_true_iff in Al. rewrite under_eq in Al.
      destruct Al; auto. left. apply (gu_alpha_alnum _ HU); auto.
    + apply TK. apply (f_equal (@length Z)) in S1. rewrite app_length in S1. cbn in S1. lia.
  - destruct (c =? 34)%Z; [|discriminate]. destruct (span _ r) as (w & rest) eqn:S. pose proof (span_spec _ _ _ _ S) as (S1 & _ & _).
    destruct rest as [|d rest]; [discriminate|]. apply TK. apply (f_equal (@length Z)) in S1. rewrite app_length in S1. cbn in S1. lia.
Qed.
Lemma validate_condition_nopanic U cols s : good_unicode U -> validate_condition U cols s <> Panic.
Proof.
  intros HU H. unfold validate_condition in H. destruct (is_numeric_equality U s); [discriminate|].
  unfold quick_safety_check in H. destruct (_ || _); [discriminate|]. destruct (contains _ _); [discriminate|]. destruct (existsb _ _); [discriminate|].
  cbn [bind] in H. destruct (tokenize U s) as [ts| |] eqn:T; cbn [bind] in H; try discriminate.
  - apply validate_nopanic in H; auto.
  - apply tokenize_nopanic in T; auto.
Qed.
Lemma contains_harmless k s c : In c k -> (forall d, In d s -> d <> c) -> contains k s = false.
Proof.
  intros Hc H. destruct (contains k s) eqn:E; auto. apply contains_spec in E. destruct E as (a & b & ->).
  exfalso. apply (H c); auto. rewrite !in_app_iff. auto.
Qed.
Lemma not_harmless c : In c (txt "-/*;'") -> ~ harmless c.
Proof.
  intro H. cbn in H. unfold harmless. intros [A|[A|[A|[A|A]]]]; repeat (destruct H as [<-|H]; [revert A; cbn; intuition discriminate|]); destruct H.
Qed.
Lemma validate_complete U cols s ts a :
  good_unicode U -> (forall k, In k cols -> valid_name k) ->
  (forall c k, In c cols -> In k statement_words -> map to_upper1 c <> k) ->
  ascii_text s -> lexes U s ts -> expr (column_of U cols) ts a -> validate_condition U cols s = Ok tt.
Proof.
  intros HU Hc Hsafe A L V. unfold validate_condition. destruct (is_numeric_equality U s); auto.
  pose proof (proj1 (expr_idents U cols) ts a V) as ID.
  assert (HH : forall c, In c s -> harmless c) by (intros c Hi; apply (lexes_harmless U HU cols Hc s ts L ID c Hi); auto).
  assert (NC : forall c, In c (txt "-/*;'") -> forall d, In d s -> d <> c).
  { intros c Hi d Hd ->. apply (not_harmless c Hi). auto. }
  unfold quick_safety_check.
  rewrite (contains_harmless (txt "--") s (ch "-")) by (cbn; auto; apply NC; cbn; auto).
  rewrite (contains_harmless (txt "/*") s (ch "/")) by (cbn; auto; apply NC; cbn; auto).
  rewrite (contains_harmless (txt "*/") s (ch "/")) by (cbn; auto; apply NC; cbn; auto).
  rewrite (contains_harmless (txt ";") s (ch ";")) by (cbn; auto; apply NC; cbn; auto). cbn [orb].
  destruct (existsb _ _) eqn:X.
  - apply existsb_exists in X. destruct X as (k & Hk & X). rewrite (gu_upper _ HU s A) in X.
    rewrite (lexes_no_statement U HU cols Hc Hsafe k Hk s ts L A ID) in X. discriminate.
  - cbn [bind]. apply (tokenize_iff U HU) in L as T. rewrite T. cbn [bind].
    apply validate_iff; [apply (lexes_no_eof U s); auto|]. exists a; auto.
Qed.
Lemma numeric_accepted U cols s : good_unicode U -> ascii_text s -> numeric_equality U s -> validate_condition U cols s = Ok tt.
Proof. intros HU A N. unfold validate_condition. rewrite numeric_complete; auto. Qed.

Lemma whole_word_in_true U k s : good_unicode U -> ascii_text s -> whole_word_in k s -> whole_word U k false s = true.
Proof.
  intros HU A (p & q & -> & Hp & Hq).
  assert (W : forall c, is_ascii c = true -> a_alnum c = false /\ c <> ch "_" -> u_word U c = false).
  { intros c Hc (H1 & H2). rewrite (gu_word _ HU) by auto. rewrite H1. apply Z.eqb_neq. auto. }
  assert (G : forall b, (p = [] -> b = false) -> whole_word U k b (p ++ k ++ q) = true); [|apply G; auto].
  induction p as [|c p IH]; intros b Hb.
  - rewrite Hb by auto. cbn [app]. assert (E : starts_with k (k ++ q) = true) by (apply starts_with_spec; eauto).
    assert (E2 : match skipn (length k) (k ++ q) with [] => false | c :: _ => u_word U c end = false).
    { rewrite skipn_app, skipn_all, Nat.sub_diag. cbn. destruct q as [|c q]; auto. apply W; [apply A; cbn; rewrite in_app_iff; cbn; auto|apply (Hq c q); auto]. }
    destruct (k ++ q) as [|c r] eqn:F; cbn [whole_word]; rewrite E, E2; reflexivity.
  - cbn [app whole_word]. apply orb_true_iff. right. apply IH.
    + intros d Hd. apply A. right; auto.
    + intros d p' E. apply (Hp d (c :: p')). cbn. congruence.
    + intros ->. apply W; [apply A; left; auto|apply (Hp c []); auto].
Qed.
Lemma keywords_same : dangerous_keywords = statement_words.
Proof. reflexivity. Qed.
Lemma ascii_upper s : ascii_text s -> ascii_text (map to_upper1 s).
Proof. intros A c H. apply in_map_iff in H. destruct H as (d & <- & H). apply upper1_ascii; auto. Qed.

Lemma validate_sound_full U cols s : good_unicode U -> (forall k, In k cols -> valid_name k) -> validate_condition U cols s = Ok tt ->
  numeric_equality U s
  \/ (exists ts a, lexes U s ts /\ expr (column_of U cols) ts a)
     /\ (forall c, In c s -> is_ascii c = true -> harmless c)
     /\ (ascii_text s -> (exists ts a, lexes U s ts /\ expr (names_column cols) ts a)
           /\ forall k, In k statement_words -> ~ whole_word_in k (map to_upper1 s)).
Proof.
  intros HU Hc H. apply validate_sound in H; auto. destruct H as [H|((ts & a & L & V) & K)]; [left; auto|right].
  pose proof (proj1 (expr_idents U cols) ts a V) as ID.
  split; [exists ts, a; auto|]. split; [apply (lexes_harmless U HU cols Hc s ts L ID)|]. intro A. split.
  - exists ts, a. split; auto.
    assert (TA : forall w, In (TIdent w) ts -> ascii_text w).
    { clear - L A. induction L as [|c s l Hc _ IH|w t s l Hw He _ IH].
      - intros ? [].
      - apply ascii_cons in A. apply IH. tauto.
      - apply ascii_app in A. intros v [E|Hv]; [|apply IH; tauto]. subst t. inversion Hw as [? ? Hs|? ? Hb Hk|? Hb Hk|w' Hq]; subst.
        + cbn in Hs. intuition discriminate.
        + unfold keyword in Hk. cbn in Hk. intuition discriminate.
        + tauto.
        + destruct A as (A & _). intros c Hc. apply A. right. apply in_app_iff. auto. }
    assert (G : forall w, In (TIdent w) ts -> names_column cols w) by (intros w Hw; apply (column_ascii U HU cols Hc); auto).
    clear - V G. revert G. revert V. generalize a. clear a. revert ts.
    assert (M : (forall l a, expr (column_of U cols) l a -> (forall w, In (TIdent w) l -> names_column cols w) -> expr (names_column cols) l a)
      /\ (forall l a, and_expr (column_of U cols) l a -> (forall w, In (TIdent w) l -> names_column cols w) -> and_expr (names_column cols) l a)
      /\ (forall l a, unary (column_of U cols) l a -> (forall w, In (TIdent w) l -> names_column cols w) -> unary (names_column cols) l a)
      /\ (forall l a, primary (column_of U cols) l a -> (forall w, In (TIdent w) l -> names_column cols w) -> primary (names_column cols) l a)).
    { apply grammar_ind.
      - intros. apply ex_one. auto.
      - intros l a m b _ H _ H2 G. apply ex_or; [apply H|apply H2]; intros w Hw; apply G; apply in_app_iff; cbn; auto.
      - intros. apply an_one. auto.
      - intros l a m b _ H _ H2 G. apply an_and; [apply H|apply H2]; intros w Hw; apply G; apply in_app_iff; cbn; auto.
      - intros. apply un_pos. auto.
      - intros l a _ H G. apply un_neg. apply H. intros w Hw. apply G. right; auto.
      - intros c o _ G. apply pr_cmp. apply G. left; auto.
      - intros n c _ G. apply pr_like. apply G. left; auto.
      - intros n c _ G. apply pr_regexp. apply G. left; auto.
      - intros n c _ G. apply pr_null. apply G. left; auto.
      - intros n c _ G. apply pr_between. apply G. left; auto.
      - intros n c l k _ Hl G. apply pr_in; auto. apply G. left; auto.
      - intros l a _ H G. apply pr_paren. apply H. intros w Hw. apply G. right. apply in_app_iff. auto. }
    intros ts a V G. apply (proj1 M); auto.
  - intros k Hk HW. rewrite <- keywords_same in Hk. specialize (K k Hk). rewrite (gu_upper _ HU s A) in K.
    apply (whole_word_in_true U) in HW; auto; [congruence|]. apply ascii_upper; auto.
Qed.
