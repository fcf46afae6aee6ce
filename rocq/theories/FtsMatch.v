(** Proofs: tokens of a text, and what a query for them matches. *)
From Verif Require Import Base Text FtsText FtsTextSpec FtsTextProofs FtsWords.
Open Scope nat_scope.

(** ** snake_case *)
Lemma snake_ok : forall s, exists ws, snake_words s ws /\ filter nonempty (split_under (lower s)) = map lower ws.
Proof.
  assert (K : forall s, exists ps, (forall pre, none under pre -> exists ws, snake_words (pre ++ s) ws
      /\ map lower ws = filter nonempty (match ps with p :: r => (lower pre ++ p) :: r | [] => [] end)) /\ split_under (lower s) = ps /\ ps <> []).
  { induction s as [|c s (ps & IH & E & NE)].
    - exists [[]]. split; [|split; [auto|discriminate]]. intros pre N. rewrite app_nil_r. eexists. split; [apply sn_last; auto|]. rewrite app_nil_r. destruct pre; reflexivity.
    - cbn [lower map split_under]. rewrite lower_under. change (map to_lower1 s) with (lower s). rewrite E. destruct (under c) eqn:Uc.
      + exists ([] :: ps). split; [|split; [auto|discriminate]]. intros pre N. apply Z.eqb_eq in Uc. subst c.
        destruct (IH []) as (ws & W & Ew); [intros x []|]. cbn [app] in W. eexists. split; [apply sn_more; eauto|]. rewrite app_nil_r.
        assert (filter nonempty ps = map lower ws) as Q. { rewrite Ew. destruct ps; auto. }
        destruct pre as [|x pre]; cbn [filter nonempty lower map]; rewrite Q; auto.
      + destruct ps as [|p r]; [contradiction|]. exists ((to_lower1 c :: p) :: r). split; [|split; [auto|discriminate]].
        intros pre N. destruct (IH (pre ++ [c])) as (ws & W & Ew). { apply none_app. split; auto. intros x [<-|[]]; auto. }
        rewrite <- app_assoc in W. exists ws. split; auto. rewrite Ew. unfold lower. rewrite map_app, <- app_assoc. reflexivity. }
  intro s. destruct (K s) as (ps & H & E & NE). destruct (H []) as (ws & W & Ew); [intros x []|]. exists ws. split; auto.
  rewrite E, Ew. destruct ps; auto.
Qed.
Lemma existsb_under s : existsb under s = true <-> In 95%Z s.
Proof.
  rewrite existsb_exists. split; [intros (x & Hx & E); apply Z.eqb_eq in E; subst; auto|]. intro H. exists 95%Z. auto.
Qed.
Lemma snake_no_under s ws : snake_words s ws -> ~ In 95%Z s -> (forall w, In w ws -> w = s).
Proof.
  intros H N w Hw. destruct H as [s H|s r ws H1 H2]; [destruct s; [destruct Hw|destruct Hw as [<-|[]]; auto]|].
  exfalso. apply N, in_or_app. right; left; auto.
Qed.

(** ** Sub-words of an identifier and its tokens *)
Lemma parts_ok id : all word_char id -> exists ws, subwords id ws /\
  (if existsb under id then filter nonempty (split_under (lower id)) else camel_split id) = map lower ws.
Proof.
  intro A. destruct (existsb under id) eqn:E.
  - apply existsb_under in E. destruct (snake_ok id) as (ws & W & Q). exists ws. split; auto. left; auto.
  - assert (N : ~ In 95%Z id) by (rewrite <- existsb_under, E; discriminate).
    destruct (camel_ok (length id) id) as (ws & W & Q); auto.
    { intros c Hc. pose proof (A c Hc) as H. unfold word_char in H. apply orb_true_iff in H. destruct H as [H|H]; auto. apply Z.eqb_eq in H. subst. contradiction. }
    exists ws. split; auto. right; auto.
Qed.
Lemma app_eq_len (a b c d : text) : c ++ d = a ++ b -> length a = length c -> a = c.
Proof. revert c. induction a as [|x a IH]; intros [|y c] E L; try discriminate; auto. cbn in *. injection E as -> E. f_equal; eauto. Qed.
Lemma segments_determined : forall ws vs, camel_words (concat ws) ws -> camel_words (concat ws) vs -> ws = vs.
Proof.
  intros ws vs (_ & N1 & P1) (E & N2 & P2). revert vs E N2 P2.
  assert (K : forall ws vs : list text, Forall (fun w => w <> []) ws -> Forall (fun w => w <> []) vs -> concat vs = concat ws ->
    (forall p, 0 < p < length (concat ws) -> (exists u v, ws = u ++ v /\ length (concat u) = p) <-> (exists u v, vs = u ++ v /\ length (concat u) = p)) -> ws = vs).
  { clear. induction ws as [|w ws IH]; intros vs N1 N2 E P.
    - destruct vs as [|v vs]; auto. inversion N2; subst. cbn in E. apply app_eq_nil in E. destruct E; contradiction.
    - inversion N1 as [|? ? Nw N1']; subst. destruct vs as [|v vs]; [cbn in E; symmetry in E; apply app_eq_nil in E; destruct E; contradiction|].
      inversion N2 as [|? ? Nv N2']; subst. cbn [concat] in E, P. rewrite app_length in P.
      assert (Lw : length w <> 0) by (destruct w; [contradiction|discriminate]). assert (Lv : length v <> 0) by (destruct v; [contradiction|discriminate]).
      assert (LE : length v + length (concat vs) = length w + length (concat ws)) by (rewrite <- !app_length; congruence).
      assert (length w = length v) as Q.
      { destruct (Nat.lt_trichotomy (length w) (length v)) as [H|[H|H]]; auto; exfalso.
        - assert (X : exists u v0, v :: vs = u ++ v0 /\ length (concat u) = length w).
          { apply P; [lia|]. exists [w], ws. split; auto. cbn. rewrite app_nil_r. auto. }
          destruct X as (u & v0 & Eu & L). destruct u as [|x u]; [cbn in L; lia|]. injection Eu as <- _. cbn in L. rewrite app_length in L. lia.
        - assert (X : exists u v0, w :: ws = u ++ v0 /\ length (concat u) = length v).
          { apply P; [lia|]. exists [v], vs. split; auto. cbn. rewrite app_nil_r. auto. }
          destruct X as (u & v0 & Eu & L). destruct u as [|x u]; [cbn in L; lia|]. injection Eu as <- _. cbn in L. rewrite app_length in L. lia. }
      assert (w = v) as <-. { eapply app_eq_len; eauto. }
      apply app_inv_head in E. f_equal. apply IH; auto. intros p Hp. specialize (P (length w + p) ltac:(lia)). split; intros (u & v0 & Eu & L).
      + destruct P as (P & _). destruct P as (u' & v' & Eu' & L'); [exists (w :: u), v0; cbn; rewrite app_length; split; [congruence|lia]|].
        destruct u' as [|x u']; [cbn in L'; lia|]. injection Eu' as <- ->. exists u', v'. cbn in L'. rewrite app_length in L'. split; auto; lia.
      + destruct P as (_ & P). destruct P as (u' & v' & Eu' & L'); [exists (w :: u), v0; cbn; rewrite app_length; split; [congruence|lia]|].
        destruct u' as [|x u']; [cbn in L'; lia|]. injection Eu' as <- ->. exists u', v'. cbn in L'. rewrite app_length in L'. split; auto; lia. }
  intros vs E N2 P2. apply K; auto. intros p Hp. rewrite <- P1, <- P2 by auto. reflexivity.
Qed.
Lemma snake_app pre r vs : none under pre -> snake_words (pre ++ 95%Z :: r) vs ->
  exists ws, snake_words r ws /\ vs = match pre with [] => ws | _ => pre :: ws end.
Proof.
  intros N H. inversion H as [s0 N0 E0|s0 r0 ws0 N0 S0 E0]; subst.
  - exfalso. specialize (N0 95%Z). rewrite in_app_iff in N0. discriminate N0. right; left; auto.
  - assert (s0 = pre /\ r0 = r) as (-> & ->); [|eauto]. clear - N N0 E0. revert pre N E0. induction s0 as [|x s0 IH]; intros [|y pre] N E0; cbn in E0.
    + injection E0; auto.
    + injection E0 as E1 _. exfalso. specialize (N y (or_introl eq_refl)). subst y. discriminate.
    + injection E0 as E1 _. exfalso. specialize (N0 x (or_introl eq_refl)). subst x. discriminate.
    + injection E0 as -> E0. destruct (IH (fun c Hc => N0 c (or_intror Hc)) pre (fun c Hc => N c (or_intror Hc)) E0) as (-> & ->). auto.
Qed.
Lemma snake_determined s ws vs : snake_words s ws -> snake_words s vs -> ws = vs.
Proof.
  intros H. revert vs. induction H as [s N|s r ws N S0 IH]; intros vs H.
  - inversion H as [s0 N0 E0|s0 r0 ws0 N0 S1 E0]; subst; auto.
    exfalso. specialize (N 95%Z). rewrite in_app_iff in N. discriminate N. right; left; auto.
  - apply snake_app in H; auto. destruct H as (ws' & H & ->). rewrite (IH ws' H). reflexivity.
Qed.
Lemma subwords_determined id ws vs : subwords id ws -> subwords id vs -> ws = vs.
Proof.
  intros [(I1 & H1)|(I1 & H1)] [(I2 & H2)|(I2 & H2)]; try contradiction.
  - eapply snake_determined; eauto.
  - pose proof (proj1 H1) as E. rewrite <- E in H1, H2. eapply segments_determined; eauto.
Qed.
Lemma whole_token id : In (lower id) (split_identifier id).
Proof. unfold split_identifier. destruct (2 <=? _); left; auto. Qed.
Lemma subword_token id ws w : all word_char id -> subwords id ws -> In w ws -> 2 <= length ws -> In (lower w) (split_identifier id).
Proof.
  intros A S0 Hw L. destruct (parts_ok id A) as (ws' & S1 & E). rewrite (subwords_determined _ _ _ S1 S0) in E. unfold split_identifier. cbv zeta. rewrite E, map_length.
  apply Nat.leb_le in L. rewrite L. right. apply in_or_app. left. apply in_map; auto.
Qed.

(** ** Identifiers of a text *)
Lemma drop_length' p c r : length (drop_while p r) < length (c :: r).
Proof. pose proof (drop_length p r). cbn. lia. Qed.
Lemma tok_fuel : forall f s, length s <= f -> tokenize_fuel f s = tokenize_identifiers s.
Proof.
  assert (K : forall f g s, length s <= f -> length s <= g -> tokenize_fuel f s = tokenize_fuel g s).
  { induction f as [|f IH]; intros g s L1 L2; [destruct s; [|cbn in L1; lia]; destruct g; auto|].
    destruct g as [|g]; [destruct s; [auto|cbn in L2; lia]|]. destruct s as [|c r]; auto. cbn [tokenize_fuel]. pose proof (drop_length id_char r) as D. cbn [length] in L1, L2.
    destruct (id_head c); [f_equal|]; apply IH; lia. }
  intros. apply K; auto.
Qed.
Lemma tok_cons_id c r : id_head c = true -> tokenize_identifiers (c :: r) = split_identifier (c :: take_while id_char r) ++ tokenize_identifiers (drop_while id_char r).
Proof. intro H. unfold tokenize_identifiers at 1. cbn [length tokenize_fuel]. rewrite H. f_equal. apply tok_fuel. apply drop_length. Qed.
Lemma tok_cons_other c r : id_head c = false -> tokenize_identifiers (c :: r) = tokenize_identifiers r.
Proof. intro H. unfold tokenize_identifiers at 1. cbn [length tokenize_fuel]. rewrite H. reflexivity. Qed.
Lemma take_app_stop p a c b : p c = false -> take_while p (a ++ c :: b) = take_while p (a ++ [c]) /\ drop_while p (a ++ c :: b) = drop_while p (a ++ [c]) ++ b.
Proof.
  intro H. induction a as [|x a (IH1 & IH2)]; cbn [app take_while drop_while]; [rewrite H; auto|].
  destruct (p x); [rewrite IH1, IH2; auto|]. split; auto. cbn. rewrite <- app_assoc. reflexivity.
Qed.
Lemma drop_keeps_last p a c : p c = false -> exists a', drop_while p (a ++ [c]) = a' ++ [c] /\ length a' <= length a.
Proof.
  intro H. induction a as [|x a (a' & E & L)]; cbn [app drop_while]; [rewrite H; exists []; auto|].
  destruct (p x); [exists a'; split; auto; cbn; lia|]. exists (x :: a). auto.
Qed.
Lemma id_head_char c : id_head c = true -> id_char c = true.
Proof. classes. lia. Qed.
Lemma tok_prefix : forall n a c b, length a <= n -> word_char c = false -> tokenize_identifiers (a ++ c :: b) = tokenize_identifiers (a ++ [c]) ++ tokenize_identifiers b.
Proof.
  induction n as [|n IH]; intros a c b L H.
  - destruct a; [|cbn in L; lia]. assert (id_head c = false) by (clear - H; classes; lia). cbn [app]. rewrite !tok_cons_other by auto. reflexivity.
  - destruct a as [|x a].
    + assert (id_head c = false) by (clear - H; classes; lia). cbn [app]. rewrite !tok_cons_other by auto. reflexivity.
    + cbn [app length] in *. destruct (id_head x) eqn:Hx.
      * rewrite !tok_cons_id by auto. destruct (take_app_stop id_char a c b H) as (-> & ->). destruct (drop_keeps_last id_char a c H) as (a' & -> & La).
        rewrite <- !app_assoc. f_equal. cbn [app]. apply IH; auto; lia.
      * rewrite !tok_cons_other by auto. apply IH; auto; lia.
Qed.
Lemma tok_digits ds b : all a_digit ds -> tokenize_identifiers (ds ++ b) = tokenize_identifiers b.
Proof.
  induction ds as [|c ds IH]; intro H; auto. apply all_cons in H. destruct H as (Hc & H). cbn [app]. rewrite tok_cons_other; [auto|]. clear - Hc. classes; lia.
Qed.
Lemma tok_one id b : all word_char id -> (exists c r, id = c :: r /\ a_digit c = false) -> (b = [] \/ exists c b', b = c :: b' /\ word_char c = false) ->
  tokenize_identifiers (id ++ b) = split_identifier id ++ tokenize_identifiers b.
Proof.
  intros A (c & r & -> & D) B. apply all_cons in A. destruct A as (Ac & Ar). cbn [app]. rewrite tok_cons_id by (clear - Ac D; classes; lia).
  rewrite take_app_all, drop_app_all by auto. destruct (take_stop id_char b) as (-> & ->); [destruct B as [->|(x & b' & -> & N)]; [left; auto|right; exists x, b'; auto]|].
  rewrite app_nil_r. reflexivity.
Qed.
Lemma identifier_tokens t id : identifier_in t id -> forall x, In x (split_identifier id) -> In x (tokenize_identifiers t).
Proof.
  intros (a & ds & b & -> & D & A & H & Ha & Hb) x Hx. destruct Ha as [->|(a' & c & -> & N)].
  - cbn [app]. rewrite tok_digits, tok_one by auto. apply in_or_app; auto.
  - rewrite <- app_assoc. cbn [app]. rewrite (tok_prefix (length a') a' c); [|lia|auto]. rewrite (tok_digits ds), (tok_one id) by auto. apply in_or_app. right. apply in_or_app. auto.
Qed.

(** every token comes from an identifier *)
Lemma token_identifier : forall t x, In x (tokenize_identifiers t) -> exists id, all word_char id /\ id <> [] /\ In x (split_identifier id).
Proof.
  intros t. remember (length t) as n eqn:E. assert (L : length t <= n) by lia. clear E. revert t L.
  induction n as [|n IH]; intros [|c r] L x H; try (destruct H; fail); [cbn in L; lia|]. destruct (id_head c) eqn:Hc.
  - rewrite tok_cons_id in H by auto. apply in_app_or in H. destruct H as [H|H].
    + exists (c :: take_while id_char r). split; [apply all_cons; split; [apply id_head_char; auto|apply take_all]|]. split; [discriminate|auto].
    + eapply IH; eauto. pose proof (drop_length id_char r). cbn in L. lia.
  - rewrite tok_cons_other in H by auto. eapply IH; eauto. cbn in L. lia.
Qed.

Lemma drop_stops p s y r : drop_while p s = y :: r -> p y = false.
Proof. intro E. destruct (drop_head p s) as [H|(c & r' & H & Hc)]; rewrite E in H; [discriminate|]. injection H as -> _. exact Hc. Qed.
Lemma token_origin_gen : forall n s a ds, length s <= n -> all a_digit ds ->
  (a = [] \/ exists a' c, a = a' ++ [c] /\ word_char c = false) ->
  forall x, In x (tokenize_identifiers s) -> exists id, identifier_in (a ++ ds ++ s) id /\ In x (split_identifier id).
Proof.
  induction n as [|n IH]; intros [|c r] a ds L D B x H; try (destruct H; fail); [cbn in L; lia|]. cbn [length] in L. destruct (id_head c) eqn:Hc.
  - rewrite tok_cons_id in H by auto. pose proof (take_drop id_char r) as TD. apply in_app_or in H. destruct H as [H|H].
    + exists (c :: take_while id_char r). split; auto. exists a, ds, (drop_while id_char r). split; [cbn [app]; rewrite TD; auto|]. split; auto.
      split; [apply all_cons; split; [apply id_head_char; auto|apply take_all]|].
      split; [exists c, (take_while id_char r); split; auto; clear - Hc; classes; lia|]. split; auto.
      destruct (drop_while id_char r) as [|y r'] eqn:Ed; auto. right. exists y, r'. split; auto. apply (drop_stops id_char r y r' Ed).
    + destruct (drop_while id_char r) as [|y r'] eqn:Ed; [destruct H|].
      assert (Y : word_char y = false) by (apply (drop_stops id_char r y r' Ed)). rewrite tok_cons_other in H by (clear - Y; classes; lia).
      pose proof (drop_length id_char r) as Dl. rewrite Ed in Dl. cbn [length] in Dl.
      destruct (IH r' (a ++ ds ++ c :: take_while id_char r ++ [y]) []) with (x := x) as (id & Hid & Hx); auto; [lia|intros z []| |].
      * right. exists (a ++ ds ++ c :: take_while id_char r), y. split; auto. rewrite <- !app_assoc. reflexivity.
      * exists id. split; auto. rewrite <- TD. revert Hid. cbn [app]. rewrite <- !app_assoc. cbn [app]. rewrite <- app_assoc. auto.
  - rewrite tok_cons_other in H by auto. destruct (a_digit c) eqn:Dc.
    + destruct (IH r a (ds ++ [c])) with (x := x) as (id & Hid & Hx); auto; [lia|apply all_app; split; auto; intros z [<-|[]]; auto|].
      exists id. split; auto. revert Hid. rewrite <- app_assoc. auto.
    + destruct (IH r (a ++ ds ++ [c]) []) with (x := x) as (id & Hid & Hx); auto; [lia|intros z []| |].
      * right. exists (a ++ ds), c. rewrite <- app_assoc. split; auto. clear - Hc Dc. classes. lia.
      * exists id. split; auto. revert Hid. cbn [app]. rewrite <- !app_assoc. auto.
Qed.
Lemma bigrams_iff : forall ps x, In x (bigrams ps) <-> exists u a b v, ps = u ++ a :: b :: v /\ x = a ++ 95%Z :: b.
Proof.
  induction ps as [|a ps IH]; intro x; [split; [intros []|intros ([|? ?] & a & b & v & E & _); discriminate]|].
  destruct ps as [|b ps]; [split; [intros []|intros ([|? [|? ?]] & a' & b & v & E & _); discriminate]|]. cbn [bigrams In]. fold (bigrams (b :: ps)). rewrite IH. split.
  - intros [<-|(u & a' & b' & v & E & ->)]; [exists [], a, b, ps; auto|]. exists (a :: u), a', b', v. rewrite E. auto.
  - intros ([|y u] & a' & b' & v & E & ->); cbn [app] in E; [injection E as <- <- <-; left; auto|]. injection E as <- E. right. exists u, a', b', v. auto.
Qed.
Lemma split_identifier_iff id x : all word_char id -> In x (split_identifier id) <-> identifier_token id x.
Proof.
  intro A. destruct (parts_ok id A) as (ws & S0 & E). unfold split_identifier, identifier_token. cbv zeta. rewrite E, map_length. fold (lower id).
  destruct (Nat.leb_spec 2 (length ws)) as [L|L].
  - cbn [In]. rewrite in_app_iff, bigrams_iff. split.
    + intros [<-|[H|(u & a & b & v & Eq & ->)]]; auto; right; exists ws; split; auto; split; auto.
      * left. apply in_map_iff in H. destruct H as (w & <- & Hw). eauto.
      * right. destruct (map_eq_app _ _ _ _ Eq) as (u' & v' & -> & <- & Ev). destruct v' as [|a' [|b' v']]; try discriminate. injection Ev as <- <- <-. exists u', a', b', v'. auto.
    + intros [->|(ws' & S1 & _ & H)]; auto. rewrite (subwords_determined _ _ _ S1 S0) in H. right. destruct H as [(w & Hw & ->)|(u & a & b & v & -> & ->)].
      * left. apply (in_map lower). auto.
      * right. rewrite map_app. exists (map lower u), (lower a), (lower b), (map lower v). auto.
  - cbn [In]. split; [intros [<-|[]]; auto|]. intros [->|(ws' & S1 & L' & _)]; auto. rewrite (subwords_determined _ _ _ S1 S0) in L'. lia.
Qed.
Lemma tokens_iff t x : In x (tokenize_identifiers t) <-> exists id, identifier_in t id /\ identifier_token id x.
Proof.
  split.
  - intro H. destruct (token_origin_gen (length t) t [] []) with (x := x) as (id & I0 & Hx); auto; [intros z []|].
    cbn [app] in I0. exists id. split; auto. apply split_identifier_iff; auto. destruct I0 as (a & ds & b & _ & _ & A & _). exact A.
  - intros (id & I0 & Hx). apply (identifier_tokens t id I0). apply split_identifier_iff; auto. destruct I0 as (a & ds & b & _ & _ & A & _). exact A.
Qed.

(** ** Tokens are lower-case words *)
Definition token_char (c : Z) : bool := a_lower c || a_digit c || under c.
Lemma lower_token s : all word_char s -> all token_char (lower s).
Proof. intros A c Hc. apply in_map_iff in Hc. destruct Hc as (x & <- & Hx). apply A in Hx. unfold token_char. classes. destruct ((65 <=? x)%Z && (x <=? 90)%Z) eqn:E; lia. Qed.
Lemma subword_chars id ws w : subwords id ws -> In w ws -> w <> [] /\ forall c, In c w -> In c id.
Proof.
  intros [(_ & H)|(_ & H)] Hw.
  - induction H as [s N|s r ws N S0 IH].
    + destruct s; [destruct Hw|]. destruct Hw as [<-|[]]. split; [discriminate|auto].
    + assert (w = s /\ s <> [] \/ In w ws) as [(-> & NE)|Hw'].
      { destruct s; [right; auto|]. destruct Hw as [<-|Hw]; [left; split; auto; discriminate|right; auto]. }
      * split; auto. intros c Hc. apply in_or_app; auto.
      * destruct (IH Hw') as (IH1 & IH2). split; auto. intros c Hc. apply in_or_app. right; right; auto.
  - destruct H as (E & N & _). rewrite Forall_forall in N. split; auto. intros c Hc. rewrite <- E. apply in_concat. eauto.
Qed.
Lemma bigrams_in ps x : In x (bigrams ps) -> exists a b, In a ps /\ In b ps /\ x = a ++ 95%Z :: b.
Proof.
  induction ps as [|a ps IH]; [intros []|]. destruct ps as [|b ps]; [intros []|]. intros [<-|H].
  - exists a, b. repeat split; auto; [left|right; left]; auto.
  - destruct (IH H) as (c & d & Hc & Hd & ->). exists c, d. repeat split; auto; right; auto.
Qed.
Lemma token_shape t x : In x (tokenize_identifiers t) -> x <> [] /\ all token_char x.
Proof.
  intro H. destruct (token_identifier t x H) as (id & A & NE & Hx). destruct (parts_ok id A) as (ws & S0 & E).
  assert (W : lower id <> [] /\ all token_char (lower id)) by (split; [destruct id; [contradiction|discriminate]|apply lower_token; auto]).
  assert (P : forall p, In p (map lower ws) -> p <> [] /\ all token_char p).
  { intros p Hp. apply in_map_iff in Hp. destruct Hp as (w & <- & Hw). destruct (subword_chars id ws w S0 Hw) as (N & C0).
    split; [destruct w; [contradiction|discriminate]|]. apply lower_token. intros c Hc. apply A. auto. }
  unfold split_identifier in Hx. cbv zeta in Hx. rewrite E in Hx. destruct (2 <=? length (map lower ws)); destruct Hx as [<-|Hx]; auto; [|destruct Hx].
  apply in_app_or in Hx. destruct Hx as [Hx|Hx]; auto. apply bigrams_in in Hx. destruct Hx as (a & b & Ha & Hb & ->).
  destruct (P a Ha) as (Na & Ta). destruct (P b Hb) as (Nb & Tb). split; [destruct a; discriminate|]. apply all_app. split; auto. apply all_cons. split; auto.
Qed.

(** ** The OR query *)
Lemma first_seen_in : forall l seen x, In x (first_seen seen l) <-> In x l /\ x <> [] /\ ~ In x seen.
Proof.
  induction l as [|t l IH]; intros seen x; cbn [first_seen]; [split; [intros []|intros ([] & _)]|].
  destruct (nonempty t) eqn:NE; cbn [negb orb].
  - assert (NE' : t <> []) by (destruct t; discriminate). destruct (existsb (text_eqb t) seen) eqn:S0.
    + rewrite IH. assert (It : In t seen). { apply existsb_exists in S0. destruct S0 as (y & Hy & E). apply text_eqb_eq in E. subst; auto. }
      split; [intros (H1 & H2 & H3); repeat split; auto; right; auto|]. intros ([<-|H1] & H2 & H3); [contradiction|auto].
    + assert (Nt : ~ In t seen). { intro Q. assert (existsb (text_eqb t) seen = true); [|congruence]. apply existsb_exists. exists t. split; auto. apply text_eqb_refl. }
      cbn [In]. rewrite IH. split.
      * intros [<-|(H1 & H2 & H3)]; [repeat split; auto|repeat split; auto]. intro. apply H3. right; auto.
      * intros ([<-|H1] & H2 & H3); auto. destruct (text_dec t x) as [<-|D]; auto. right. repeat split; auto. intros [Q|Q]; auto.
  - destruct t; [|discriminate]. rewrite IH. split; [intros (H1 & H2 & H3); repeat split; auto; right; auto|]. intros ([<-|H1] & H2 & H3); [contradiction|auto].
Qed.
Lemma first_seen_nodup : forall l seen, NoDup (first_seen seen l).
Proof.
  induction l as [|t l IH]; intro seen; cbn [first_seen]; [constructor|]. destruct (negb (nonempty t) || existsb (text_eqb t) seen); auto.
  constructor; auto. intro H. apply first_seen_in in H. apply H. left; auto.
Qed.
Lemma sanitize_or_ok q : exists ts, fts5_lex (sanitize_fts5_query_or q) = Some (or_of ts) /\ NoDup ts /\ forall x, In x ts <-> In x (tokenize_identifiers q).
Proof.
  exists (first_seen [] (tokenize_identifiers q)). split; [|split].
  - unfold sanitize_fts5_query_or, fts5_lex. apply lex_or_join; [|lia]. intros w Hw Z0. apply first_seen_in in Hw. destruct Hw as (Hw & _).
    destruct (token_shape q w Hw) as (_ & T). specialize (T _ Z0). discriminate.
  - apply first_seen_nodup.
  - intro x. rewrite first_seen_in. split; [tauto|]. intro H. repeat split; auto. apply (token_shape q x H).
Qed.

(** ** FTS5 words *)
Lemma fts_acc_sep : forall s acc c b, a_alnum c = false -> fts_words_acc acc (s ++ c :: b) = fts_words_acc acc s ++ fts_words b.
Proof.
  induction s as [|x s IH]; intros acc c b H; cbn [app fts_words_acc].
  - rewrite H. destruct acc; reflexivity.
  - destruct (a_alnum x); [apply IH; auto|]. destruct acc; [apply IH; auto|]. cbn [app]. f_equal. apply IH; auto.
Qed.
Lemma fts_words_sep a c b : a_alnum c = false -> fts_words (a ++ c :: b) = fts_words a ++ fts_words b.
Proof. apply fts_acc_sep. Qed.
Lemma fts_words_join : forall toks t, In t toks -> exists a b, fts_words (join [32%Z] toks) = a ++ fts_words t ++ b.
Proof.
  induction toks as [|x toks IH]; intros t Ht; [destruct Ht|destruct Ht as [<-|H]].
  - destruct toks as [|y toks]; [exists [], []; cbn [join]; rewrite app_nil_r; auto|].
    change (join [32%Z] (x :: y :: toks)) with (x ++ 32%Z :: join [32%Z] (y :: toks)). rewrite fts_words_sep by reflexivity. exists [], (fts_words (join [32%Z] (y :: toks))). auto.
  - destruct toks as [|y toks]; [destruct H|].
    change (join [32%Z] (x :: y :: toks)) with (x ++ 32%Z :: join [32%Z] (y :: toks)). rewrite fts_words_sep by reflexivity.
    destruct (IH t H) as (a & b & ->). exists (fts_words x ++ a), b. rewrite <- app_assoc. auto.
Qed.
Lemma fts_acc_word : forall s acc, all a_alnum s -> (acc <> [] \/ s <> []) -> fts_words_acc acc s = [rev acc ++ lower s].
Proof.
  induction s as [|c s IH]; intros acc A NE; cbn [fts_words_acc lower map].
  - destruct NE as [NE|NE]; [|contradiction]. destruct acc; [contradiction|]. rewrite app_nil_r. auto.
  - apply all_cons in A. destruct A as (Ac & A). rewrite Ac, IH; auto; [|left; discriminate]. cbn [rev]. rewrite <- app_assoc. reflexivity.
Qed.
Lemma fts_words_word s : all a_alnum s -> s <> [] -> fts_words s = [lower s].
Proof. intros A NE. unfold fts_words. rewrite fts_acc_word; auto. Qed.
Lemma fts_words_nil : fts_words [] = [].
Proof. reflexivity. Qed.
Lemma word_no_under s : all word_char s -> none under s -> all a_alnum s.
Proof. intros A N c Hc. apply A in Hc as H. apply N in Hc. unfold word_char in H. rewrite Hc, orb_false_r in H. auto. Qed.
Lemma fts_words_snake id ws : all word_char id -> snake_words id ws -> fts_words id = map lower ws.
Proof.
  intros A H. induction H as [s N|s r ws N S0 IH].
  - destruct s as [|c s]; auto. rewrite fts_words_word; [auto|apply word_no_under; auto|discriminate].
  - apply all_app in A. destruct A as (A1 & A2). apply all_cons in A2. rewrite fts_words_sep by reflexivity. rewrite IH by apply A2.
    destruct s as [|c s]; auto. rewrite fts_words_word; [auto|apply word_no_under; auto|discriminate].
Qed.
Lemma lower_words id : all word_char id -> all word_char (lower id).
Proof. intros A c Hc. apply in_map_iff in Hc. destruct Hc as (x & <- & Hx). unfold word_char. rewrite lower_alnum, lower_under. apply A; auto. Qed.
Lemma fts_acc_lower : forall s acc, fts_words_acc acc (lower s) = fts_words_acc acc s.
Proof.
  induction s as [|c s IH]; intro acc; auto. cbn [lower map fts_words_acc]. rewrite lower_alnum, to_lower_idem. change (map to_lower1 s) with (lower s).
  destruct (a_alnum c); [auto|]. destruct acc; [auto|f_equal; auto].
Qed.
Lemma fts_words_lower s : fts_words (lower s) = fts_words s.
Proof. apply fts_acc_lower. Qed.

(** a query for a sub-word (in any case), or for the identifier itself, matches *)
Lemma tok_single q : all word_char q -> (exists c r, q = c :: r /\ a_digit c = false) -> tokenize_identifiers q = split_identifier q.
Proof. intros A H. rewrite <- (app_nil_r q) at 1. rewrite tok_one by auto. apply app_nil_r. Qed.
Lemma same_letters_chars q w : same_letters q w -> all a_alnum w -> all a_alnum q.
Proof.
  intros E A c Hc. assert (In (to_lower1 c) (map to_lower1 w)) as H by (rewrite <- E; apply in_map; auto).
  apply in_map_iff in H. destruct H as (x & Ex & Hx). rewrite <- lower_alnum, <- Ex, lower_alnum. auto.
Qed.
Lemma subword_match t id ws w q : identifier_in t id -> subwords id ws -> In w ws -> same_letters q w ->
  (exists c r, w = c :: r /\ a_alpha c = true) -> all a_alnum w ->
  exists x, In x (tokenize_identifiers q) /\ phrase_matches x (join [32%Z] (tokenize_identifiers t)).
Proof.
  intros I S0 Hw Eq (c & r & Ew & Hc) Aw. pose proof (same_letters_chars q w Eq Aw) as Aq.
  exists (lower q). unfold same_letters in Eq. change (map to_lower1 q) with (lower q) in Eq. change (map to_lower1 w) with (lower w) in Eq. split.
  - rewrite tok_single; [apply whole_token| |].
    + intros x Hx. unfold word_char. rewrite (Aq x Hx). auto.
    + destruct q as [|d q]; [rewrite Ew in Eq; discriminate|]. exists d, q. split; auto. rewrite Ew in Eq. cbn in Eq. injection Eq as Ed _.
      clear - Ed Hc. classes. destruct ((65 <=? d)%Z && (d <=? 90)%Z) eqn:E1, ((65 <=? c)%Z && (c <=? 90)%Z) eqn:E2; lia.
  - rewrite Eq. assert (NEw : w <> []) by (rewrite Ew; discriminate). assert (F : fts_words (lower w) = [lower w]) by (rewrite fts_words_lower; apply fts_words_word; auto).
    split; [rewrite F; discriminate|].
    assert (Aid : all word_char id) by (destruct I as (? & ? & ? & ? & ? & ? & ?); auto).
    assert (T : exists x, In x (split_identifier id) /\ exists a b, fts_words x = a ++ fts_words (lower w) ++ b).
    { destruct (Nat.lt_ge_cases (length ws) 2) as [L|L].
      - exists (lower id). split; [apply whole_token|]. rewrite fts_words_lower, F. destruct S0 as [(_ & S0)|(Nu & S0)].
        + rewrite (fts_words_snake id ws) by auto. destruct ws as [|v [|v' ws]]; [destruct Hw| |cbn in L; lia]. destruct Hw as [->|[]]. exists [], []. auto.
        + destruct ws as [|v [|v' ws]]; [destruct Hw| |cbn in L; lia]. destruct Hw as [->|[]]. destruct S0 as (Ec & _). cbn in Ec. rewrite app_nil_r in Ec. subst id.
          exists [], []. rewrite fts_words_word; auto.
      - exists (lower w). split; [eapply subword_token; eauto|]. exists [], []. rewrite app_nil_r. auto. }
    destruct T as (x & Hx & a & b & Ex). apply (identifier_tokens t id I) in Hx. destruct (fts_words_join _ x Hx) as (a' & b' & ->). rewrite Ex.
    exists (a' ++ a), (b ++ b'). rewrite <- !app_assoc. auto.
Qed.
Lemma whole_match t id q : identifier_in t id -> same_letters q id -> (exists c, In c id /\ a_alnum c = true) ->
  exists x, In x (tokenize_identifiers q) /\ phrase_matches x (join [32%Z] (tokenize_identifiers t)).
Proof.
  intros I Eq (c & Hc & Ac). assert (Aid : all word_char id) by (destruct I as (? & ? & ? & ? & ? & ? & ?); auto). assert (Hd : exists c r, id = c :: r /\ a_digit c = false) by (destruct I as (? & ? & ? & ? & ? & ? & ? & ?); auto).
  assert (El : lower q = lower id) by exact Eq. exists (lower q). split.
  - rewrite tok_single; [apply whole_token| |].
    + intros x Hx. assert (In (to_lower1 x) (lower id)) as H by (rewrite <- El; apply in_map; auto). apply (lower_words id Aid) in H.
      unfold word_char in *. rewrite lower_alnum, lower_under in H. auto.
    + destruct Hd as (d & r & -> & D). destruct q as [|x q]; [discriminate|]. exists x, q. split; auto. cbn in El. injection El as Ed _.
      clear - Ed D. classes. destruct ((65 <=? x)%Z && (x <=? 90)%Z) eqn:E1, ((65 <=? d)%Z && (d <=? 90)%Z) eqn:E2; lia.
  - rewrite El. split.
    + rewrite fts_words_lower. clear - Hc Ac. unfold fts_words. assert (G : forall s acc, (acc <> [] \/ exists c, In c s /\ a_alnum c = true) -> fts_words_acc acc s <> []).
      { induction s as [|x s IH]; intros acc H; cbn [fts_words_acc].
        - destruct H as [H|(y & [] & _)]. destruct acc; [contradiction|discriminate].
        - destruct (a_alnum x) eqn:E; [apply IH; left; discriminate|]. destruct acc; [|discriminate]. apply IH. destruct H as [H|(y & [<-|Hy] & Ay)]; [contradiction|congruence|right; eauto]. }
      apply G. right. eauto.
    + apply fts_words_join. apply (identifier_tokens t id I). apply whole_token.
Qed.
