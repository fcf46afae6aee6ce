(** Proofs about identifier splitting: sub-words, identifiers of a text, matching. *)
From Verif Require Import Base Text FtsText FtsTextSpec FtsTextProofs.
Open Scope nat_scope.

(** ** Character classes *)
Ltac classes := unfold word_char, id_char, id_head, to_lower1, a_alnum, a_alpha, a_upper, a_lower, a_digit, under in *.
Lemma lower_digit_run s : all a_digit s -> lower s = s.
Proof.
  induction s as [|c s IH]; intro H; cbn; auto. apply all_cons in H. destruct H as (Hc & H). f_equal; auto.
  clear - Hc. classes. destruct ((65 <=? c)%Z && (c <=? 90)%Z) eqn:E; auto; lia.
Qed.
Lemma to_lower_idem c : to_lower1 (to_lower1 c) = to_lower1 c.
Proof. classes. destruct ((65 <=? c)%Z && (c <=? 90)%Z) eqn:E; [|rewrite E; auto]. destruct ((65 <=? c + 32)%Z && (c + 32 <=? 90)%Z) eqn:E2; lia. Qed.
Lemma lower_idem s : lower (lower s) = lower s.
Proof. unfold lower. rewrite map_map. apply map_ext. apply to_lower_idem. Qed.
Lemma lower_alnum c : a_alnum (to_lower1 c) = a_alnum c.
Proof. classes. destruct ((65 <=? c)%Z && (c <=? 90)%Z) eqn:E; lia. Qed.
Lemma lower_under c : under (to_lower1 c) = under c.
Proof. classes. destruct ((65 <=? c)%Z && (c <=? 90)%Z) eqn:E; lia. Qed.

(** ** camelCase *)
Lemma nth_error_in_all p s i (c : Z) : all p s -> nth_error s i = Some c -> p c = true.
Proof. intros A H. apply A. eapply nth_error_In; eauto. Qed.
Lemma words_cons w r ws : w <> [] -> (forall p, 0 < p < length w -> ~ cut_at (w ++ r) p) ->
  (r <> [] -> cut_at (w ++ r) (length w)) -> camel_words r ws -> camel_words (w ++ r) (w :: ws).
Proof.
  intros NE IN AT (C1 & C2 & C3). split; [cbn; congruence|]. split; [constructor; auto|].
  intros p Hp. rewrite app_length in Hp. assert (Lw : 0 < length w) by (destruct w; [contradiction|cbn; lia]).
  destruct (Nat.lt_trichotomy p (length w)) as [L|[E|G]].
  - split; [intro Q; exfalso; apply (IN p); auto; lia|]. intros (u & v & E & Lp). exfalso.
    destruct u as [|x u]; [cbn in Lp; lia|]. cbn in E. injection E as <- _. cbn in Lp. rewrite app_length in Lp. lia.
  - subst p. split; [|intros _; apply AT; intros ->; cbn in Hp; lia]. intros _. exists [w], ws. split; auto. cbn. rewrite app_nil_r. auto.
  - assert (Hq : 0 < p - length w < length r) by lia. specialize (C3 _ Hq).
    assert (K : cut_at (w ++ r) p <-> cut_at r (p - length w)).
    { unfold cut_at. rewrite !nth_error_app2 by lia. replace (p - 1 - length w) with (p - length w - 1) by lia.
      replace (p + 1 - length w) with (p - length w + 1) by lia. reflexivity. }
    rewrite K, C3. split.
    + intros (u & v & -> & L). exists (w :: u), v. split; auto. cbn. rewrite app_length. lia.
    + intros (u & v & E & L). destruct u as [|x u]; [cbn in L; lia|]. cbn in E. injection E as <- ->. exists u, v. split; auto. cbn in L. rewrite app_length in L. lia.
Qed.
Lemma words_nil : camel_words [] [].
Proof. split; [auto|split; [constructor|]]. cbn. intros p Hp. lia. Qed.
Lemma nth_last (w : text) r : w <> [] -> nth_error (w ++ r) (length w - 1) = Some (last w 0%Z).
Proof.
  intro NE. rewrite nth_error_app1 by (destruct w; [contradiction|cbn; lia]).
  rewrite (app_removelast_last 0%Z NE) at 1. assert (L : length (removelast w) = length w - 1).
  { rewrite (app_removelast_last 0%Z NE) at 2. rewrite app_length. cbn. lia. }
  rewrite nth_error_app2 by lia. rewrite L, Nat.sub_diag. reflexivity.
Qed.
Lemma last_in (w : text) : w <> [] -> In (last w 0%Z) w.
Proof. intro NE. rewrite (app_removelast_last 0%Z NE) at 2. apply in_or_app. right; left; auto. Qed.
Lemma cut_end w r x : w <> [] -> r <> [] -> last w 0%Z = x ->
  (forall y t, r = y :: t -> boundary x y (nth_error t 0) = true) -> cut_at (w ++ r) (length w).
Proof.
  intros NE NR E B. destruct r as [|y t]; [contradiction|]. exists x, y. split; [rewrite nth_last, E; auto|].
  split; [rewrite nth_error_app2, Nat.sub_diag by lia; auto|]. rewrite nth_error_app2 by lia. replace (length w + 1 - length w) with 1 by lia. cbn [nth_error]. apply B. reflexivity.
Qed.
Lemma boundary_digit_digit x y n : a_digit x = true -> a_digit y = true -> boundary x y n = false.
Proof. intros H1 H2. unfold boundary. rewrite H1, H2. reflexivity. Qed.
Lemma boundary_digit_other x y n : a_digit x = true -> a_digit y = false -> boundary x y n = true.
Proof. intros H1 H2. unfold boundary. rewrite H1, H2. reflexivity. Qed.
Lemma boundary_other_digit x y n : a_digit x = false -> a_digit y = true -> boundary x y n = true.
Proof. intros H1 H2. unfold boundary. rewrite H1, H2. reflexivity. Qed.
Lemma boundary_to_lower x y n : a_digit x = false -> a_lower y = true -> boundary x y n = false.
Proof. intros H1 H2. unfold boundary. assert (a_digit y = false) as -> by (classes; lia). assert (a_upper y = false) as -> by (classes; lia). rewrite H1. reflexivity. Qed.
Lemma boundary_lower_upper x y n : a_lower x = true -> a_upper y = true -> boundary x y n = true.
Proof. intros H1 H2. unfold boundary. rewrite H1, H2. assert (a_digit y = false) as -> by (classes; lia). assert (a_digit x = false) as -> by (classes; lia). reflexivity. Qed.
Lemma boundary_upper_upper x y n : a_upper x = true -> a_upper y = true -> boundary x y n = match n with Some z => a_lower z | None => false end.
Proof. intros H1 H2. unfold boundary. rewrite H2. assert (a_digit y = false) as -> by (classes; lia). assert (a_digit x = false) as -> by (classes; lia). assert (a_lower x = false) as -> by (classes; lia). reflexivity. Qed.
Lemma upper_not_digit x : a_upper x = true -> a_digit x = false.
Proof. classes; lia. Qed.
Lemma lower_not_digit x : a_lower x = true -> a_digit x = false.
Proof. classes; lia. Qed.
Lemma no_cut_inside w r p : p < length w -> 0 < p ->
  (forall x y n, nth_error w (p - 1) = Some x -> nth_error w p = Some y -> n = nth_error (w ++ r) (p + 1) -> boundary x y n = false) -> ~ cut_at (w ++ r) p.
Proof.
  intros L1 L2 H (x & y & Hx & Hy & B). rewrite nth_error_app1 in Hx by lia. rewrite nth_error_app1 in Hy by lia.
  rewrite (H x y _ Hx Hy eq_refl) in B. discriminate.
Qed.

Lemma camel_ok : forall fuel s, length s <= fuel -> all a_alnum s ->
  exists ws, camel_words s ws /\ camel_fuel fuel s = map lower ws.
Proof.
  induction fuel as [|f IH]; intros s L A; [destruct s; [|cbn in L; lia]; exists []; split; [apply words_nil|auto]|].
  destruct s as [|c r]; [exists []; split; [apply words_nil|auto]|]. cbn [camel_fuel]. pose proof A as A'. apply all_cons in A'. destruct A' as (Ac & Ar).
  destruct (a_digit c) eqn:Dc.
  { pose proof (take_drop a_digit (c :: r)) as TD. pose proof (take_all a_digit (c :: r)) as TA. pose proof (drop_head a_digit (c :: r)) as DH.
    assert (NE : take_while a_digit (c :: r) <> []) by (cbn; rewrite Dc; discriminate).
    remember (take_while a_digit (c :: r)) as w. remember (drop_while a_digit (c :: r)) as t.
    assert (Lt : length t <= f). { apply (f_equal (@length Z)) in TD. rewrite app_length in TD. assert (length w <> 0) by (destruct w; [contradiction|discriminate]). cbn in TD, L. lia. }
    rewrite <- TD in A. apply all_app in A. destruct (IH t Lt (proj2 A)) as (ws & W & E). exists (w :: ws). split.
    - rewrite <- TD. apply words_cons; auto.
      + intros p Hp. apply no_cut_inside; try lia. intros x y n Hx Hy _. apply boundary_digit_digit; eapply nth_error_in_all; eauto.
      + intro NR. eapply cut_end; eauto. intros y t' Et. destruct DH as [?|(c' & r' & Ec & N)]; [contradiction|]. rewrite Ec in Et. injection Et as <- <-.
        apply boundary_digit_other; auto. apply TA, last_in; auto.
    - cbn [map]. rewrite E, (lower_digit_run w) by auto. reflexivity. }
  assert (Al : a_alpha c = true) by (classes; lia). rewrite Al. cbn [negb].
  destruct (a_upper c) eqn:Uc.
  - pose proof (take_drop a_upper (c :: r)) as TD. pose proof (take_all a_upper (c :: r)) as TA. pose proof (drop_head a_upper (c :: r)) as DH.
    assert (NE : take_while a_upper (c :: r) <> []) by (cbn; rewrite Uc; discriminate).
    remember (take_while a_upper (c :: r)) as run. remember (drop_while a_upper (c :: r)) as rest.
    assert (Lrun : length run <> 0) by (destruct run; [contradiction|discriminate]).
    assert (LL : length run + length rest = S (length r)) by (apply (f_equal (@length Z)) in TD; rewrite app_length in TD; exact TD). cbn [length] in L.
    rewrite <- TD in A. apply all_app in A. destruct A as (A1 & A2).
    destruct (starts a_lower rest && (1 <? length run)) eqn:SL.
    + apply andb_true_iff in SL. destruct SL as (SL & L1). apply Nat.ltb_lt in L1. destruct rest as [|d rest]; [discriminate|]. cbn in SL.
      pose proof (app_removelast_last 0%Z NE) as RL. assert (Lr : length (removelast run) = length run - 1) by (pose proof (f_equal (@length Z) RL) as Q; rewrite app_length in Q; cbn in Q; lia).
      destruct (IH (last run 0%Z :: d :: rest)) as (ws & W & E); [cbn in *; lia| |].
      { apply all_cons. split; auto. apply A1, last_in; auto. }
      assert (TD' : removelast run ++ last run 0%Z :: d :: rest = c :: r) by (rewrite <- TD; transitivity ((removelast run ++ [last run 0%Z]) ++ d :: rest); [rewrite <- app_assoc; reflexivity|rewrite <- RL; reflexivity]).
      assert (TR : all a_upper (removelast run)). { rewrite RL in TA. apply all_app in TA. apply TA. }
      exists (removelast run :: ws). split; [|cbn [map]; rewrite E; auto]. rewrite <- TD'. apply words_cons; auto.
      * intro Q. rewrite Q in Lr. cbn in Lr. lia.
      * intros p Hp. apply no_cut_inside; try lia. intros x y n Hx Hy En.
        rewrite boundary_upper_upper; [|eapply nth_error_in_all; eauto|eapply nth_error_in_all; eauto].
        assert (En' : n = nth_error (run ++ d :: rest) (p + 1)) by (rewrite En; f_equal; transitivity ((removelast run ++ [last run 0%Z]) ++ d :: rest); [rewrite <- app_assoc; reflexivity|rewrite <- RL; reflexivity]).
        rewrite nth_error_app1 in En' by lia. destruct n as [z|]; auto. assert (a_upper z = true) by (symmetry in En'; exact (nth_error_in_all _ _ _ _ TA En')). classes; lia.
      * intros _. eapply cut_end; [intro Q; rewrite Q in Lr; cbn in Lr; lia|discriminate|reflexivity|]. intros y t Et. injection Et as <- <-.
        rewrite boundary_upper_upper; [cbn; auto| |apply TA, last_in; auto]. apply TR, last_in. intro Q; rewrite Q in Lr; cbn in Lr; lia.
    + pose proof (take_drop a_lower rest) as TD2. pose proof (take_all a_lower rest) as TA2. pose proof (drop_head a_lower rest) as DH2.
      remember (take_while a_lower rest) as tl. remember (drop_while a_lower rest) as rest2.
      assert (OR : tl = [] \/ length run = 1).
      { destruct rest as [|d rest]; [left; auto|]. cbn [starts] in SL. destruct (a_lower d) eqn:E; [right|left; subst tl; cbn; rewrite E; auto]. cbn [andb] in SL. apply Nat.ltb_ge in SL. lia. }
      rewrite <- TD2 in A2. apply all_app in A2. destruct A2 as (A2 & A3).
      assert (L2 : length tl + length rest2 = length rest) by (rewrite <- TD2, app_length; auto).
      destruct (IH rest2) as (ws & W & E); [lia|auto|]. exists ((run ++ tl) :: ws). split; [|cbn [map]; rewrite E; auto].
      assert (TDD : (run ++ tl) ++ rest2 = c :: r) by (rewrite <- app_assoc, TD2; auto). rewrite <- TDD. apply words_cons; auto.
      * intro Q. apply app_eq_nil in Q. destruct Q; contradiction.
      * intros p Hp. rewrite app_length in Hp. apply no_cut_inside; try (rewrite app_length; lia); try lia. intros x y n Hx Hy En.
        destruct (Nat.lt_ge_cases p (length run)) as [Lp|Gp].
        -- rewrite nth_error_app1 in Hx, Hy by lia.
           rewrite boundary_upper_upper; [|eapply nth_error_in_all; eauto|eapply nth_error_in_all; eauto].
           destruct OR as [->|O]; [|lia]. rewrite app_nil_r in En.
           destruct n as [z|]; auto. symmetry in En. destruct (Nat.lt_ge_cases (p + 1) (length run)) as [Lq|Gq].
           ++ rewrite nth_error_app1 in En by lia. assert (a_upper z = true) by (eapply nth_error_in_all; eauto). classes; lia.
           ++ rewrite nth_error_app2 in En by lia. replace (p + 1 - length run) with 0 in En by lia. destruct rest2 as [|d t]; [discriminate|]. cbn in En. injection En as ->.
              destruct DH2 as [?|(c' & r' & Ec & N)]; [discriminate|]. injection Ec as <- <-. auto.
        -- rewrite nth_error_app2 in Hy by lia. assert (Ly : a_lower y = true) by (eapply nth_error_in_all; eauto).
           apply boundary_to_lower; auto. apply nth_error_In in Hx. apply in_app_or in Hx. destruct Hx as [Hx|Hx]; [apply upper_not_digit, TA; auto|apply lower_not_digit, TA2; auto].
      * intro NR. eapply cut_end; [intro Q; apply app_eq_nil in Q; destruct Q; contradiction|auto|reflexivity|]. intros y t Et.
        destruct DH2 as [?|(c' & r' & Ec & N)]; [contradiction|]. rewrite Ec in Et. injection Et as <- <-.
        assert (Ay : a_alnum c' = true) by (apply A3; rewrite Ec; left; auto).
        destruct tl as [|z tl].
        -- rewrite app_nil_r. cbn in TD2. rewrite <- TD2 in DH. destruct DH as [?|(c2 & r2 & Ec2 & N2)]; [contradiction|]. rewrite Ec in Ec2. injection Ec2 as <- <-.
           apply boundary_other_digit; [apply upper_not_digit, TA, last_in; auto|]. clear - Ay N N2. classes; lia.
        -- assert (Lz : a_lower (last (run ++ z :: tl) 0%Z) = true).
           { rewrite last_app || idtac. assert (last (run ++ z :: tl) 0%Z = last (z :: tl) 0%Z) as ->.
             { clear. induction run as [|a run IHr]; auto. cbn [app]. rewrite <- IHr. destruct (run ++ z :: tl) eqn:Q; [destruct run; discriminate|reflexivity]. }
             apply TA2, last_in. discriminate. }
           destruct (a_upper c') eqn:Uy; [apply boundary_lower_upper; auto|]. apply boundary_other_digit; [apply lower_not_digit; auto|]. clear - Ay N Uy. classes; lia.
  - assert (Lc : a_lower c = true) by (clear - Al Uc; classes; lia).
    pose proof (take_drop a_lower (c :: r)) as TD. pose proof (take_all a_lower (c :: r)) as TA. pose proof (drop_head a_lower (c :: r)) as DH.
    assert (NE : take_while a_lower (c :: r) <> []) by (cbn; rewrite Lc; discriminate).
    remember (take_while a_lower (c :: r)) as w. remember (drop_while a_lower (c :: r)) as t.
    assert (Lt : length t <= f). { apply (f_equal (@length Z)) in TD. rewrite app_length in TD. assert (length w <> 0) by (destruct w; [contradiction|discriminate]). cbn in TD, L. lia. }
    rewrite <- TD in A. apply all_app in A. destruct (IH t Lt (proj2 A)) as (ws & W & E). exists (w :: ws). split; [|cbn [map]; rewrite E; auto].
    rewrite <- TD. apply words_cons; auto.
    + intros p Hp. apply no_cut_inside; try lia. intros x y n Hx Hy _. apply boundary_to_lower; [apply lower_not_digit|]; eapply nth_error_in_all; eauto.
    + intro NR. eapply cut_end; eauto. intros y t' Et. destruct DH as [?|(c' & r' & Ec & N)]; [contradiction|]. rewrite Ec in Et. injection Et as <- <-.
      assert (Ay : a_alnum c' = true) by (apply A; rewrite Ec; left; auto). assert (Lz : a_lower (last w 0%Z) = true) by (apply TA, last_in; auto).
      destruct (a_upper c') eqn:Uy; [apply boundary_lower_upper; auto|]. apply boundary_other_digit; [apply lower_not_digit; auto|]. clear - Ay N Uy. classes; lia.
Qed.
