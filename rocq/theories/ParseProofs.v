From Verif Require Import Base Text FtsText Units Parse ParseSpec.
From Coq Require Import Sorted.
Open Scope nat_scope.

Lemma trim_start_nil ws s : trim_start ws s = [] <-> forall c, In c s -> ws c = true.
Proof.
  induction s as [|c s IH]; cbn; [split; [intros _ c []|reflexivity]|]. destruct (ws c) eqn:W.
  - rewrite IH. split; intros H x; [intros [<-|Hx]; auto|auto].
  - split; [discriminate|]. intro H. rewrite (H c) in W by auto. discriminate.
Qed.
Section P.
  Variable U : unicode.
  Lemma blank_iff l : is_blank U l = true <-> forall c, In c l -> u_ws U c = true.
  Proof using.
    unfold is_blank, clean, trim. assert (K : forall s, rev (trim_start (u_ws U) s) = [] <-> forall c, In c s -> u_ws U c = true).
    { intro s. rewrite <- trim_start_nil. split; intro H; [|rewrite H; reflexivity]. apply (f_equal (@rev Z)) in H. rewrite rev_involutive in H. exact H. }
    destruct (rev (trim_start (u_ws U) (rev (trim_start (u_ws U) l)))) as [|c r] eqn:T.
    - split; [intros _|reflexivity]. rewrite K in T. intros c Hc.
      destruct (trim_start (u_ws U) l) as [|d s] eqn:Ts; [apply (proj1 (trim_start_nil _ _) Ts); exact Hc|].
      exfalso. assert (Hd : u_ws U d = true) by (apply T; apply in_rev; rewrite rev_involutive; left; reflexivity).
      clear - Ts Hd. induction l as [|x l IH]; cbn in Ts; [discriminate|]. destruct (u_ws U x) eqn:W; [auto|]. injection Ts as -> _. congruence.
    - split; [discriminate|]. intro H. exfalso. assert (Q : trim_start (u_ws U) l = []) by (apply trim_start_nil; exact H). rewrite Q in T. discriminate.
  Qed.
  Lemma not_blank_iff l : is_blank U l = false <-> exists c, In c l /\ u_ws U c = false.
  Proof using.
    split.
    - intro B. destruct (existsb (fun c => negb (u_ws U c)) l) eqn:E.
      + apply existsb_exists in E. destruct E as (c & Hc & W). exists c. split; [exact Hc|]. apply Bool.negb_true_iff. exact W.
      + assert (is_blank U l = true); [|congruence]. apply blank_iff. intros c Hc. destruct (u_ws U c) eqn:W; [reflexivity|].
        assert (existsb (fun c => negb (u_ws U c)) l = true); [|congruence]. apply existsb_exists. exists c. split; [exact Hc|]. rewrite W. reflexivity.
    - intros (c & Hc & W). destruct (is_blank U l) eqn:B; [|reflexivity]. rewrite blank_iff in B. rewrite (B c Hc) in W. discriminate.
  Qed.

  (** ** The walk *)
  Variable path : text.
  Variable G : grammar.
  Variable ls : list text.
  Hypothesis BO : bodies_ok G.
  Lemma attributes_le n : forall start, n <= start -> attributes_from U G ls n start <= start.
  Proof using.
    clear BO. induction n as [|i IH]; intros start H; cbn [attributes_from]; [lia|]. destruct (match nth_error ls i with Some l => clean U l | None => [] end).
    - apply IH. lia.
    - destruct (g_attribute G _); [|lia]. specialize (IH i). lia.
  Qed.
  Lemma firstn_min {A} n (l : list A) : firstn (Nat.min n (length l)) l = firstn n l.
  Proof using. clear. revert n. induction l as [|x l IH]; intros [|n]; cbn; try reflexivity. rewrite IH. reflexivity. Qed.
  Lemma placed_ok n u : n_first n <= n_last n -> n_first n <= length ls ->
    exists u', placed U path G ls n u = Ok u' /\ shows_its_lines ls u' /\ cu_line u' <= n_first n + 1 /\ cu_end_line u' = n_last n + 1
      /\ cu_unit_type u' = cu_unit_type u /\ cu_name u' = cu_name u.
  Proof using.
    clear BO. intros H1 H2. unfold placed. pose proof (attributes_le (n_first n) (n_first n) (le_n _)) as A. fold (find_start_with_attributes U G ls (n_first n)) in A.
    set (s := find_start_with_attributes U G ls (n_first n)) in *. unfold cut.
    replace ((s <=? Nat.min (n_last n + 1) (length ls)) && (Nat.min (n_last n + 1) (length ls) <=? length ls)) with true by (symmetry; apply andb_true_iff; split; apply Nat.leb_le; lia).
    cbn [bind]. eexists. split; [reflexivity|]. unfold shows_its_lines, lines_of. cbn. split; [|repeat split; try reflexivity; lia]. split; [lia|]. replace (s + 1 - 1) with s by lia.
    replace (Nat.min (n_last n + 1) (length ls) - s) with (Nat.min (n_last n + 1 - s) (length (skipn s ls))) by (rewrite skipn_length; lia). rewrite firstn_min. reflexivity.
  Qed.
  Variable ra : bool.
  Definition went (fuel : nat) (n : node) (st st' : walk) : Prop :=
    (exists new, fst st' = fst st ++ new /\ Forall (shows_its_lines ls) new)
    /\ (snd st = true -> st' = st) /\ (height n < fuel -> snd st = false -> snd st' = false).
  Lemma height_child n c : In c (n_children n) -> height c < height n.
  Proof using.
    clear. destruct n as [k a b cs]. cbn [n_children height]. intro H.
    pose proof (proj1 (list_max_le (map (fun c => S (height c)) cs) _) (le_n _)) as F. rewrite Forall_forall in F.
    specialize (F (S (height c))). cbv beta in F. apply F. apply in_map_iff. exists c. split; [reflexivity|exact H].
  Qed.
  Lemma into_ok f (cs : list node) p : (forall c, In c cs -> forall p st, exists st', extract_from_node U path G ls ra f c p st = Ok st' /\ went f c st st') ->
    forall st, exists st', foldM (fun st c => extract_from_node U path G ls ra f c p st) cs st = Ok st'
      /\ (exists new, fst st' = fst st ++ new /\ Forall (shows_its_lines ls) new)
      /\ (snd st = true -> st' = st) /\ ((forall c, In c cs -> height c < f) -> snd st = false -> snd st' = false).
  Proof using.
    clear BO. induction cs as [|c cs IH]; intros H st; cbn [foldM].
    - exists st. repeat split; auto. exists []. rewrite app_nil_r. auto.
    - destruct (H c (or_introl eq_refl) p st) as (s1 & -> & (n1 & E1 & F1) & T1 & K1). cbn [bind].
      destruct (IH (fun c Hc => H c (or_intror Hc)) s1) as (s2 & -> & (n2 & E2 & F2) & T2 & K2). exists s2. split; [reflexivity|]. split; [|split].
      + exists (n1 ++ n2). rewrite E2, E1, app_assoc. split; [reflexivity|]. apply Forall_app. split; assumption.
      + intro St. rewrite (T1 St) in *. apply T2. exact St.
      + intros Hh St. apply K2; [intros x Hx; apply Hh; right; exact Hx|]. apply K1; [apply Hh; left; reflexivity|exact St].
  Qed.
  Lemma walk_ok fuel : forall n, rows_ok (length ls) n -> forall p st, exists st', extract_from_node U path G ls ra fuel n p st = Ok st' /\ went fuel n st st'.
  Proof using BO.
    induction fuel as [|f IH]; intros n RO p st.
    - cbn [extract_from_node]. destruct (snd st) eqn:St.
      + exists st. split; [reflexivity|]. split; [exists []; rewrite app_nil_r; auto|]. split; [reflexivity|lia].
      + eexists. split; [reflexivity|]. split; [exists []; cbn; rewrite app_nil_r; auto|]. split; [congruence|lia].
    - cbn [extract_from_node]. destruct (snd st) eqn:St.
      { exists st. split; [reflexivity|]. split; [exists []; rewrite app_nil_r; auto|]. split; [reflexivity|congruence]. }
      assert (CH : forall c, In c (n_children n) -> forall p st, exists st', extract_from_node U path G ls ra f c p st = Ok st' /\ went f c st st').
      { intros c Hc. apply IH. intros m Hm. apply RO. eapply in_child; eassumption. }
      assert (BC : forall b, g_body G n = Some b -> forall c, In c (n_children b) -> (forall p st, exists st', extract_from_node U path G ls ra f c p st = Ok st' /\ went f c st st') /\ height c < height n).
      { intros b Hb c Hc. pose proof (BO n b Hb) as Hn. split.
        - apply IH. intros m Hm. apply RO. eapply in_child; [exact Hn|]. eapply in_child; eassumption.
        - pose proof (height_child n b Hn). pose proof (height_child b c Hc). lia. }
      assert (INTO : forall p s0, snd s0 = snd st -> (exists new, fst s0 = fst st ++ new /\ Forall (shows_its_lines ls) new) ->
        exists st', foldM (fun st c => extract_from_node U path G ls ra f c p st) (n_children n) s0 = Ok st' /\ went (S f) n st st').
      { intros p0 s0 Es (n0 & En & Fn). destruct (into_ok f (n_children n) p0 CH s0) as (s' & -> & (n1 & E1 & F1) & T1 & K1). exists s'. split; [reflexivity|]. split; [|split].
        - exists (n0 ++ n1). rewrite E1, En, app_assoc. split; [reflexivity|]. apply Forall_app. split; assumption.
        - congruence.
        - intros Hh _. apply K1; [intros c Hc; pose proof (height_child n c Hc); lia|congruence]. }
      destruct (RO n (in_here n)) as (R1 & R2).
      assert (ADD : forall u, exists u', placed U path G ls n u = Ok u' /\ shows_its_lines ls u') by (intro u; destruct (placed_ok n u R1 R2) as (u' & H1 & H2 & _); exists u'; split; assumption).
      assert (NOW : forall u', shows_its_lines ls u' -> went (S f) n st (fst st ++ [u'], snd st)).
      { intros u' Hu. split; [exists [u']; split; [reflexivity|constructor; [exact Hu|constructor]]|]. split; [congruence|]. intros _ _. exact St. }
      assert (STAY : went (S f) n st st) by (split; [exists []; rewrite app_nil_r; auto|split; [auto|auto]]).
      rewrite St in *.
      destruct (g_function G (n_kind n)).
      + destruct (g_name G n).
        * destruct (ADD (g_analysis G n p)) as (u' & -> & Su). cbn [bind]. apply INTO; [reflexivity|]. exists [u']. split; [reflexivity|constructor; [exact Su|constructor]].
        * cbn [bind]. apply INTO; [exact St|]. exists []. rewrite app_nil_r. auto.
      + destruct (g_class G (n_kind n)).
        * destruct (g_name G n) as [name|]; [|apply INTO; [exact St|exists []; rewrite app_nil_r; auto]].
          destruct (ADD (g_analysis G n None)) as (u' & -> & Su). cbn [bind]. specialize (NOW u' Su).
          destruct (negb ra && g_abstract G (n_kind n)); [eexists; split; [reflexivity|exact NOW]|].
          destruct (g_body G n) as [b|] eqn:Hb; [|eexists; split; [reflexivity|exact NOW]].
          destruct (ra || below (g_function G) b); [|eexists; split; [reflexivity|exact NOW]].
          destruct (into_ok f (n_children b) (Some name) (fun c Hc => proj1 (BC b eq_refl c Hc)) (fst st ++ [u'], false)) as (s' & -> & (n1 & E1 & F1) & T1 & K1).
          exists s'. split; [reflexivity|]. split; [|split].
          -- exists (u' :: n1). rewrite E1. cbn [fst]. rewrite <- app_assoc. split; [reflexivity|]. constructor; assumption.
          -- congruence.
          -- intros Hh _. apply K1; [|reflexivity]. intros c Hc. pose proof (proj2 (BC b eq_refl c Hc)). lia.
        * destruct (_ && g_constant G (n_kind n)).
          -- destruct (g_constant_name G n).
             ++ destruct (ADD (g_analysis G n None)) as (u' & -> & Su). cbn [bind]. eexists. split; [reflexivity|]. apply NOW. exact Su.
             ++ exists st. split; [reflexivity|exact STAY].
          -- apply INTO; [exact St|]. exists []. rewrite app_nil_r. auto.
  Qed.
End P.
