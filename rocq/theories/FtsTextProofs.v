(** Proofs about identifier splitting and query sanitising. *)
From Verif Require Import Base Text FtsText FtsTextSpec.
Open Scope nat_scope.

(** ** Runs *)
Lemma take_drop p s : take_while p s ++ drop_while p s = s.
Proof. induction s as [|c s IH]; cbn; auto. destruct (p c); cbn; congruence. Qed.
Lemma take_all p s : all p (take_while p s).
Proof. induction s as [|c s IH]; intros x Hx; [destruct Hx|]. cbn in Hx. destruct (p c) eqn:E; [destruct Hx as [<-|Hx]; auto|destruct Hx]. Qed.
Lemma drop_head p s : drop_while p s = [] \/ exists c r, drop_while p s = c :: r /\ p c = false.
Proof. induction s as [|c s IH]; cbn; auto. destruct (p c) eqn:E; auto. right. eauto. Qed.
Lemma drop_length p s : length (drop_while p s) <= length s.
Proof. rewrite <- (take_drop p s) at 2. rewrite app_length. lia. Qed.
Lemma take_app_all p a b : all p a -> take_while p (a ++ b) = a ++ take_while p b.
Proof. induction a as [|c a IH]; intro H; cbn; auto. rewrite (H c) by (left; auto). f_equal. apply IH. intros x Hx. apply H. right; auto. Qed.
Lemma drop_app_all p a b : all p a -> drop_while p (a ++ b) = drop_while p b.
Proof. induction a as [|c a IH]; intro H; cbn; auto. rewrite (H c) by (left; auto). apply IH. intros x Hx. apply H. right; auto. Qed.
Lemma take_stop p b : (b = [] \/ exists c r, b = c :: r /\ p c = false) -> take_while p b = [] /\ drop_while p b = b.
Proof. intros [->|(c & r & -> & E)]; cbn; auto. rewrite E. auto. Qed.
Lemma all_app p a b : all p (a ++ b) <-> all p a /\ all p b.
Proof.
  split; [intro H; split; intros c Hc; apply H, in_or_app; auto|]. intros (H1 & H2) c Hc. apply in_app_or in Hc. destruct Hc; auto.
Qed.
Lemma all_cons p c b : all p (c :: b) <-> p c = true /\ all p b.
Proof. split; [intro H; split; [apply H; left; auto|intros x Hx; apply H; right; auto]|]. intros (H1 & H2) x [<-|Hx]; auto. Qed.
Lemma none_app p a b : none p (a ++ b) <-> none p a /\ none p b.
Proof.
  split; [intro H; split; intros c Hc; apply H, in_or_app; auto|]. intros (H1 & H2) c Hc. apply in_app_or in Hc. destruct Hc; auto.
Qed.

(** ** White space *)
Lemma split_ws_splits ws : forall fuel s, length s < fuel -> splits ws s (split_ws_fuel ws fuel s).
Proof.
  induction fuel as [|f IH]; intros s L; [lia|]. cbn [split_ws_fuel].
  destruct (drop_while ws s) as [|c r] eqn:D.
  - apply sp_end. rewrite <- (take_drop ws s), D, app_nil_r. apply take_all.
  - destruct (drop_head ws s) as [E|(c' & r' & E & N)]; [congruence|]. rewrite D in E. injection E as <- <-.
    rewrite <- (take_drop ws s) at 1. rewrite D. rewrite <- (take_drop (fun x => negb (ws x)) (c :: r)) at 1.
    apply sp_word.
    + apply take_all.
    + intros x Hx. apply take_all in Hx. destruct (ws x); auto; discriminate.
    + cbn [take_while]. rewrite N. discriminate.
    + destruct (drop_head (fun x => negb (ws x)) (c :: r)) as [E|(x & y & E & M)]; [left; auto|right; exists x, y; split; auto].
      destruct (ws x); auto; discriminate.
    + apply IH. pose proof (drop_length ws s) as B. rewrite D in B.
      pose proof (take_drop (fun x => negb (ws x)) (c :: r)) as T. apply (f_equal (@length Z)) in T. rewrite app_length in T.
      cbn [take_while] in T. rewrite N in T. cbn [negb length] in T. cbn [length] in *. cbn [drop_while] in T |- *. rewrite N in *. cbn [negb] in *. lia.
Qed.
Lemma trim_start_spec p s : exists l, s = l ++ trim_start p s /\ all p l /\ (trim_start p s = [] \/ exists c r, trim_start p s = c :: r /\ p c = false).
Proof.
  induction s as [|c s (l & E & A & B)]; cbn.
  - exists []. repeat split; auto. intros x [].
  - destruct (p c) eqn:P.
    + exists (c :: l). cbn. rewrite <- E. repeat split; auto. apply all_cons; auto.
    + exists []. repeat split; auto; [intros x []|]. right. eauto.
Qed.
Lemma trim_core alnum w : core_of alnum w (trim (fun c => negb (alnum c)) w).
Proof.
  unfold trim. destruct (trim_start_spec (fun c => negb (alnum c)) w) as (l & E & A & B).
  destruct (trim_start_spec (fun c => negb (alnum c)) (rev (trim_start (fun c => negb (alnum c)) w))) as (r & E2 & A2 & B2).
  remember (trim_start (fun c => negb (alnum c)) w) as m. remember (trim_start (fun c => negb (alnum c)) (rev m)) as k.
  exists l, (rev r).
  assert (Em : m = rev k ++ rev r) by (rewrite <- rev_app_distr, <- E2, rev_involutive; auto).
  split; [rewrite <- Em; auto|]. split; [intros c Hc; apply A in Hc; destruct (alnum c); auto; discriminate|].
  split; [intros c Hc; apply in_rev in Hc; apply A2 in Hc; destruct (alnum c); auto; discriminate|].
  destruct B2 as [->|(c & s & -> & N)]; [left; auto|]. right. split.
  - destruct B as [->|(c' & s' & Em' & N')]; [destruct r; discriminate|].
    destruct (rev (c :: s)) as [|x t] eqn:R; [apply (f_equal (@rev Z)) in R; rewrite rev_involutive in R; discriminate|].
    exists x, t. split; auto. rewrite Em' in Em. cbn in Em. injection Em as -> _. destruct (alnum x); auto; discriminate.
  - exists c, (rev s). split; [reflexivity|]. destruct (alnum c); auto; discriminate.
Qed.

(** ** Quoting *)
Lemma lex_string w rest : ~ In 0%Z w -> (rest = [] \/ exists c r, rest = c :: r /\ c <> quote) ->
  fts5_string (flat_map (fun c => if (c =? quote)%Z then [quote; quote] else [c]) w ++ quote :: rest) = Some (w, rest).
Proof.
  intros N R. induction w as [|c w IH].
  - cbn. destruct R as [->|(c & r & -> & Nc)]; auto. change 34%Z with quote. destruct (c =? quote)%Z eqn:E; auto. apply Z.eqb_eq in E. contradiction.
  - assert (N' : ~ In 0%Z w) by (intro; apply N; right; auto). specialize (IH N'). cbn [flat_map]. destruct (c =? quote)%Z eqn:E.
    + apply Z.eqb_eq in E. subst c. cbn [app fts5_string]. change (quote =? 0)%Z with false. change (quote =? 34)%Z with true. cbn iota. rewrite IH. reflexivity.
    + cbn [app fts5_string]. destruct (c =? 0)%Z eqn:E0; [apply Z.eqb_eq in E0; exfalso; apply N; left; auto|]. change 34%Z with quote. rewrite E, IH. reflexivity.
Qed.
Lemma quoted_length w : 2 <= length (quoted w).
Proof. unfold quoted. cbn. rewrite app_length. cbn. lia. Qed.
Lemma lex_quoted f w rest : ~ In 0%Z w -> (rest = [] \/ exists c r, rest = c :: r /\ c <> quote) ->
  fts5_lex_fuel (S f) (quoted w ++ rest) = option_map (cons (FStr w)) (fts5_lex_fuel f rest).
Proof.
  intros N R. unfold quoted. cbn [app fts5_lex_fuel]. rewrite <- app_assoc. cbn [app].
  change (quote =? 0)%Z with false. cbn [orb]. change ((quote =? 32)%Z || (quote =? 9)%Z || (quote =? 10)%Z || (quote =? 13)%Z) with false.
  change (quote =? 34)%Z with true. cbn iota. rewrite lex_string by auto. reflexivity.
Qed.
Lemma lex_space_join : forall ws fuel, (forall w, In w ws -> ~ In 0%Z w) -> length (join [32%Z] (map quoted ws)) < fuel ->
  fts5_lex_fuel fuel (join [32%Z] (map quoted ws)) = Some (map FStr ws).
Proof.
  induction ws as [|w ws IH]; intros fuel N L; [destruct fuel; [cbn in L; lia|reflexivity]|].
  assert (Nw : ~ In 0%Z w) by (apply N; left; auto). destruct fuel as [|f]; [lia|].
  destruct ws as [|v ws].
  - cbn [map join]. rewrite <- (app_nil_r (quoted w)). rewrite lex_quoted by auto. cbn [map join] in L. pose proof (quoted_length w). destruct f; [lia|reflexivity].
  - change (join [32%Z] (map quoted (w :: v :: ws))) with (quoted w ++ 32%Z :: join [32%Z] (map quoted (v :: ws))) in *.
    rewrite lex_quoted; auto; [|right; eexists; eexists; split; [reflexivity|discriminate]].
    rewrite app_length in L. cbn [length] in L. pose proof (quoted_length w). destruct f as [|f]; [lia|].
    cbn [fts5_lex_fuel]. change (32 =? 0)%Z with false. change ((32 =? 32)%Z || (32 =? 9)%Z || (32 =? 10)%Z || (32 =? 13)%Z) with true. cbn iota.
    rewrite IH; [reflexivity|intros x Hx; apply N; right; auto|lia].
Qed.
Lemma lex_sp f r : fts5_lex_fuel (S f) (32%Z :: r) = fts5_lex_fuel f r.
Proof. reflexivity. Qed.
Lemma lex_OR f r : fts5_lex_fuel (S f) (79 :: 82 :: 32 :: r)%Z = option_map (cons FOr) (fts5_lex_fuel f (32%Z :: r)).
Proof. reflexivity. Qed.
Lemma lex_or_join : forall ws fuel, (forall w, In w ws -> ~ In 0%Z w) -> length (join (txt " OR ") (map quoted ws)) < fuel ->
  fts5_lex_fuel fuel (join (txt " OR ") (map quoted ws)) = Some (or_of ws).
Proof.
  induction ws as [|w ws IH]; intros fuel N L; [destruct fuel; [cbn in L; lia|reflexivity]|].
  assert (Nw : ~ In 0%Z w) by (apply N; left; auto). destruct fuel as [|f]; [lia|].
  destruct ws as [|v ws].
  - cbn [map join]. rewrite <- (app_nil_r (quoted w)). rewrite lex_quoted by auto. cbn [map join] in L. pose proof (quoted_length w). destruct f; [lia|reflexivity].
  - change (join (txt " OR ") (map quoted (w :: v :: ws))) with (quoted w ++ [32; 79; 82; 32]%Z ++ join (txt " OR ") (map quoted (v :: ws))) in *.
    rewrite lex_quoted; auto; [|right; eexists; eexists; split; [reflexivity|discriminate]].
    rewrite !app_length in L. cbn [length] in L. pose proof (quoted_length w). destruct f as [|[|[|[|f]]]]; try lia.
    cbn [app]. rewrite lex_sp, lex_OR, lex_sp.
    rewrite IH; [reflexivity|intros x Hx; apply N; right; auto|lia].
Qed.

(** ** The sanitised query *)
Lemma operators_iff U w : existsb (text_eqb (u_upper U w)) operators = true <-> fts5_operator U w.
Proof.
  rewrite existsb_exists. unfold fts5_operator. split.
  - intros (x & Hx & E). apply text_eqb_eq in E. subst. exact Hx.
  - intro H. exists (u_upper U w). split; [exact H|apply text_eqb_refl].
Qed.
Lemma sanitize_words U : forall ws, exists ks, searched U ws ks
  /\ flat_map (sanitize_word U) ws = map quoted ks
  /\ forall k, In k ks -> exists w, In w ws /\ core_of (u_alnum U) w k.
Proof.
  induction ws as [|w ws (ks & S0 & E & C0)]; [exists []; repeat split; [constructor|intros k []]|].
  cbn [flat_map]. rewrite E. pose proof (trim_core (u_alnum U) w) as T. unfold sanitize_word. cbv zeta.
  destruct (nonempty (trim (fun c => negb (u_alnum U c)) w)) eqn:NE; cbn [negb].
  - assert (NE' : trim (fun c => negb (u_alnum U c)) w <> []) by (intro Q; rewrite Q in NE; discriminate).
    destruct (existsb (text_eqb (u_upper U (trim (fun c => negb (u_alnum U c)) w))) operators) eqn:O.
    + exists ks. split; [|split; auto]. { eapply se_operator; eauto. apply operators_iff; auto. } intros k Hk. destruct (C0 k Hk) as (x & Hx & Cx). exists x. split; [right|]; auto.
    + exists (trim (fun c => negb (u_alnum U c)) w :: ks). split; [|split; [reflexivity|]].
      * apply se_keep; auto. rewrite <- operators_iff, O. discriminate.
      * intros k [<-|Hk]; [exists w; split; [left|]; auto|]. destruct (C0 k Hk) as (x & Hx & Cx). exists x. split; [right|]; auto.
  - exists ks. split; [|split; auto].
    + apply se_skip; auto. destruct (trim (fun c => negb (u_alnum U c)) w); [auto|discriminate].
    + intros k Hk. destruct (C0 k Hk) as (x & Hx & Cx). exists x. split; [right|]; auto.
Qed.
Lemma splits_in ws q l w c : splits ws q l -> In w l -> In c w -> In c q.
Proof.
  intro H. induction H as [|gap v rest l A N NE R S IH]; [intros []|]. intros [<-|Hw] Hc; rewrite !in_app_iff; auto.
Qed.
Lemma sanitize_ok U q : ~ In 0%Z q -> exists ws ks, splits (u_ws U) q ws /\ searched U ws ks
  /\ fts5_lex (sanitize_fts5_query U q) = Some (map FStr ks).
Proof.
  intro N. pose proof (split_ws_splits (u_ws U) (S (length q)) q (Nat.lt_succ_diag_r _)) as Sp. fold (split_whitespace (u_ws U) q) in Sp.
  destruct (sanitize_words U (split_whitespace (u_ws U) q)) as (ks & S0 & E & C0).
  exists (split_whitespace (u_ws U) q), ks. split; auto. split; auto. unfold sanitize_fts5_query. rewrite E.
  apply lex_space_join; [|lia]. intros k Hk Z0. destruct (C0 k Hk) as (w & Hw & l & r & Ew & _). apply N. eapply splits_in; eauto.
  rewrite Ew. rewrite !in_app_iff; auto.
Qed.
Lemma join_nil ks : join [32%Z] (map quoted ks) = [] -> ks = [].
Proof. destruct ks as [|k [|k' ks]]; auto; discriminate. Qed.
