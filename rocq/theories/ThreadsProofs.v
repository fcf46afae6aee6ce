(** Every schedule: invariant, progress, end. *)
From Verif Require Import Base Threads ThreadsSpec.
Open Scope nat_scope.
Set Default Proof Using "Type".

Lemma emits_snoc {M E} (on : list M -> list (action M E)) h m : emits on (h ++ [m]) = emits on h ++ on (h ++ [m]).
Proof.
  unfold emits. rewrite app_length. cbn [length]. rewrite Nat.add_1_r, seq_S, flat_map_app. cbn [flat_map]. rewrite app_nil_r. f_equal.
  - rewrite !flat_map_concat_map. f_equal. apply map_ext_in. intros k K. apply in_seq in K. f_equal. rewrite firstn_app. replace (k - length h) with 0 by lia. cbn [firstn]. apply app_nil_r.
  - f_equal. apply firstn_all2. rewrite app_length. cbn. lia.
Qed.

Section NET.
  Context {M E : Type}.
  Variable n : nat.
  Variable parent : nat -> nat.
  Variable cap : nat -> nat.
  Variable prog : nat -> program M E.
  Hypothesis D : disciplined_net n parent cap prog.
  Notation state := (@state M E).
  Notation step1 := (@step1 M E parent cap prog).
  Notation acts_ok := (acts_ok n parent).

  Definition all_of (i : nat) (t : thread M E) : list (action M E) :=
    p_start (prog i) ++ emits (p_on (prog i)) (t_hist t) ++ (if t_last t then p_end (prog i) (t_hist t) else []).
  Definition mine (i c : nat) := 0 < c < n /\ parent c = i.
  Definition careful (s : state) (i : nat) : Prop := exists C J, acts_ok i C J (t_todo (s i)) /\
    (forall c, In c C -> c < n /\ t_open (s c) = false) /\ (forall t, In t J -> t < n /\ t_status (s t) = Done) /\
    (forall c, mine i c -> t_open (s c) = false -> In c C) /\ (C <> [] \/ (exists c, In (Close c) (t_todo (s i))) -> In Stop (t_todo (s i)) \/ In Fail (t_todo (s i)) \/ t_last (s i) = true).
  Record ok (s : state) : Prop := {
    ok_open : forall c, 0 < c < n -> t_open (s c) = true -> t_status (s (parent c)) = Running;
    ok_root : t_open (s 0) = false /\ t_queue (s 0) = [];
    ok_acts : forall i, i < n -> t_status (s i) = Running -> careful s i;
    ok_all : forall i, i < n -> t_done (s i) ++ t_todo (s i) = all_of i (s i);
    ok_flow : forall c, 0 < c < n -> flat_map (is_send c) (t_done (s (parent c))) = t_hist (s c) ++ t_queue (s c);
    ok_last : forall c, 0 < c < n -> t_last (s c) = true -> t_open (s c) = false /\ t_queue (s c) = [];
    ok_done : forall i, i < n -> t_status (s i) = Done -> t_todo (s i) = [] /\ t_last (s i) = true \/ exists r, t_todo (s i) = Stop :: r }.

  Lemma upd_eq (s : state) i t : upd s i t i = t.
  Proof. unfold upd. rewrite Nat.eqb_refl. reflexivity. Qed.
  Lemma upd_ne (s : state) i j t : j <> i -> upd s i t j = s j.
  Proof. unfold upd. intro H. apply Nat.eqb_neq in H. rewrite H. reflexivity. Qed.
  Lemma ok_start : ok (start prog).
  Proof using D.
    constructor; cbn; auto.
    - intros i I _. exists [], []. cbn. destruct (dn_start _ _ _ _ D i I) as (A & B). split; [exact A|]. split; [contradiction|]. split; [contradiction|].
      split; [intros c ((K & _) & _) O; destruct c; [lia|discriminate O]|]. intros [K|(c & K)]; [congruence|]. destruct B as [B|[B|B]]; auto. destruct (B c K).
    - intros i I. unfold all_of, emits. cbn. rewrite app_nil_r. reflexivity.
    - discriminate.
    - discriminate.
  Qed.
  Lemma careful_other s s' i : careful s i -> t_todo (s' i) = t_todo (s i) -> t_last (s' i) = t_last (s i) ->
    (forall c, c < n -> t_open (s c) = false -> t_open (s' c) = false) -> (forall c, mine i c -> t_open (s' c) = false -> t_open (s c) = false) ->
    (forall t, t < n -> t_status (s t) = Done -> t_status (s' t) = Done) -> careful s' i.
  Proof.
    intros (C & J & A1 & A2 & A3 & A4 & A5) ET EL O1 O2 ST. exists C, J. rewrite ET, EL. split; [exact A1|].
    split; [intros c K; destruct (A2 c K); auto|]. split; [intros t K; destruct (A3 t K); auto|]. split; [intros c K O; apply A4; auto|exact A5].
  Qed.
  (** *** The steps *)
  Lemma ok_finish s i x : ok s -> i < n -> t_status (s i) = Running -> x <> Running -> (x = Done -> t_todo (s i) = [] /\ t_last (s i) = true \/ exists r, t_todo (s i) = Stop :: r) ->
    ok (finish parent s i x).
  Proof using D.
    intros O I R NR FIN. destruct O as [o1 (o2 & o2') o3 o4 o5 o6 o7].
    assert (ST : forall j, j <> i -> t_status (finish parent s i x j) = t_status (s j)).
    { intros j J. unfold finish. apply Nat.eqb_neq in J. rewrite J. destruct (_ && _); reflexivity. }
    assert (OP : forall j, t_open (finish parent s i x j) = if (parent j =? i) && (0 <? j) then false else t_open (s j)).
    { intros j. unfold finish. destruct (_ && _); destruct (j =? i) eqn:Q; try reflexivity. apply Nat.eqb_eq in Q. subst. reflexivity. }
    assert (SA : forall j, t_hist (finish parent s i x j) = t_hist (s j) /\ t_done (finish parent s i x j) = t_done (s j) /\ t_todo (finish parent s i x j) = t_todo (s j)
       /\ t_last (finish parent s i x j) = t_last (s j) /\ t_queue (finish parent s i x j) = t_queue (s j)).
    { intros j. unfold finish. destruct (_ && _); destruct (j =? i) eqn:Q; try (repeat split; fail); apply Nat.eqb_eq in Q; subst; repeat split. }
    constructor.
    - intros c K Q. rewrite OP in Q. destruct (parent c =? i) eqn:P.
      + assert (0 <? c = true) as Z by (apply Nat.ltb_lt; lia). rewrite Z in Q. discriminate.
      + apply Nat.eqb_neq in P. rewrite ST by exact P. apply o1; auto.
    - rewrite OP. destruct (SA 0) as (_ & _ & _ & _ & ->). split; [|exact o2']. destruct (_ && _); auto.
    - intros j J Q. destruct (Nat.eq_dec j i) as [->|NE].
      + destruct (SA i) as (H1 & H2 & H3 & H4 & H5). assert (EX : t_status (finish parent s i x i) = x).
        { unfold finish. rewrite Nat.eqb_refl. destruct (_ && _); reflexivity. }
        congruence.
      + destruct (SA j) as (H1 & H2 & H3 & H4 & H5). apply (careful_other s); auto.
        * apply o3; auto. rewrite <- (ST j NE). exact Q.
        * intros c K O. rewrite OP. destruct (_ && _); auto.
        * intros c (K1 & K2) O. rewrite OP in O. destruct (parent c =? i) eqn:P; [apply Nat.eqb_eq in P; congruence|exact O].
        * intros t K O. destruct (Nat.eq_dec t i) as [->|N2]; [congruence|]. rewrite ST; auto.
    - intros j J. destruct (SA j) as (H1 & H2 & H3 & H4 & H5). unfold all_of. rewrite H1, H2, H3, H4. apply o4; auto.
    - intros c K. destruct (SA c) as (H1 & _ & _ & _ & H5). destruct (SA (parent c)) as (_ & H2 & _). rewrite H1, H2, H5. apply o5; auto.
    - intros c K L. destruct (SA c) as (_ & _ & _ & H4 & H5). rewrite H4 in L. destruct (o6 c K L) as (Q1 & Q2). rewrite OP, H5. split; [destruct (_ && _); auto|exact Q2].
    - intros j J Q. destruct (SA j) as (_ & _ & H3 & H4 & _). rewrite H3, H4. destruct (Nat.eq_dec j i) as [->|NE].
      + apply FIN. rewrite <- Q. unfold finish. rewrite Nat.eqb_refl. destruct (_ && _); reflexivity.
      + apply o7; auto. rewrite <- (ST j NE). exact Q.
  Qed.
  (** Completing an action that touches no channel: [Do], [Join] of a thread that is done. *)
  Lemma ok_quiet s i a r : ok s -> i < n -> t_status (s i) = Running -> t_todo (s i) = a :: r -> a <> Stop -> a <> Fail -> (forall c, is_send c a = []) ->
    (forall C J, acts_ok i C J (a :: r) -> (forall c, In c C -> c < n /\ t_open (s c) = false) -> (forall t, In t J -> t < n /\ t_status (s t) = Done) ->
       exists J', acts_ok i C J' r /\ (forall t, In t J' -> t < n /\ t_status (s t) = Done)) ->
    ok (upd s i (with_todo (s i) (t_done (s i) ++ [a]) r)).
  Proof using D.
    intros O I R T NS NF SE AC. destruct O as [o1 (o2 & o2') o3 o4 o5 o6 o7]. set (s' := upd s i _).
    assert (Ei : s' i = with_todo (s i) (t_done (s i) ++ [a]) r) by apply upd_eq.
    assert (Ej : forall j, j <> i -> s' j = s j) by (intros j J; apply upd_ne; exact J).
    assert (OP : forall j, t_open (s' j) = t_open (s j)) by (intros j; destruct (Nat.eq_dec j i) as [->|J]; [rewrite Ei|rewrite Ej by exact J]; reflexivity).
    assert (ST : forall j, t_status (s' j) = t_status (s j)) by (intros j; destruct (Nat.eq_dec j i) as [->|J]; [rewrite Ei|rewrite Ej by exact J]; reflexivity).
    assert (LA : forall j, t_last (s' j) = t_last (s j) /\ t_queue (s' j) = t_queue (s j) /\ t_hist (s' j) = t_hist (s j)) by (intros j; destruct (Nat.eq_dec j i) as [->|J]; [rewrite Ei|rewrite Ej by exact J]; repeat split).
    constructor.
    - intros c K Q. rewrite OP in Q. rewrite ST. auto.
    - rewrite OP. destruct (LA 0) as (_ & -> & _). auto.
    - intros j J Q. rewrite ST in Q. destruct (Nat.eq_dec j i) as [->|NE].
      + destruct (o3 i I R) as (C & J' & A1 & A2 & A3 & A4 & A5). rewrite T in A1, A5. destruct (AC C J' A1 A2 A3) as (J2 & B1 & B2).
        exists C, J2. rewrite Ei. cbn [t_todo t_last with_todo]. split; [exact B1|]. split; [intros c K; rewrite OP; auto|]. split; [intros t K; rewrite ST; auto|].
        split; [intros c K Z; rewrite OP in Z; auto|]. intros K. assert (K' : C <> [] \/ exists c, In (Close c) (a :: r)) by (destruct K as [K|(c & K)]; [auto|right; exists c; right; exact K]). destruct (A5 K') as [[Z|Z]|[[Z|Z]|Z]]; auto; contradiction.
      + apply (careful_other s); auto; rewrite ?Ej by exact NE; auto; intros c K; rewrite ?OP, ?ST; auto.
    - intros j J. destruct (Nat.eq_dec j i) as [->|NE]; [|rewrite Ej by exact NE; auto]. rewrite Ei. unfold all_of. cbn. rewrite <- app_assoc. cbn [app]. rewrite <- T. apply o4; auto.
    - intros c K. destruct (LA c) as (_ & -> & ->). rewrite <- o5 by exact K. destruct (Nat.eq_dec (parent c) i) as [->|NE]; [|rewrite Ej by exact NE; reflexivity].
      rewrite Ei. cbn [t_done with_todo]. rewrite flat_map_app. cbn [flat_map]. rewrite SE. apply app_nil_r.
    - intros c K L. destruct (LA c) as (E1 & E2 & _). rewrite E1 in L. rewrite OP, E2. auto.
    - intros j J Q. rewrite ST in Q. destruct (Nat.eq_dec j i) as [->|NE]; [congruence|]. rewrite Ej by exact NE. auto.
  Qed.
  Lemma ok_send s i c m r : ok s -> i < n -> t_status (s i) = Running -> t_todo (s i) = Send c m :: r -> t_status (s c) = Running ->
    ok (upd (upd s i (with_todo (s i) (t_done (s i) ++ [Send c m]) r)) c (with_queue (s c) (t_queue (s c) ++ [m]))).
  Proof using D.
    intros O I R T RC. destruct O as [o1 (o2 & o2') o3 o4 o5 o6 o7]. destruct (o3 i I R) as (C & J' & A1 & A2 & A3 & A4 & A5). rewrite T in A1, A5.
    destruct A1 as (CR & PC & NC & A1). assert (NE : c <> i) by (pose proof (dn_parent _ _ _ _ D c CR); lia).
    set (s' := upd _ c _).
    assert (Ec : s' c = with_queue (s c) (t_queue (s c) ++ [m])) by apply upd_eq.
    assert (Ei : s' i = with_todo (s i) (t_done (s i) ++ [Send c m]) r) by (unfold s'; rewrite upd_ne by congruence; apply upd_eq).
    assert (Ej : forall j, j <> i -> j <> c -> s' j = s j) by (intros j J1 J2; unfold s'; rewrite !upd_ne by assumption; reflexivity).
    assert (AL : forall j, t_open (s' j) = t_open (s j) /\ t_status (s' j) = t_status (s j) /\ t_last (s' j) = t_last (s j) /\ t_hist (s' j) = t_hist (s j)).
    { intros j. destruct (Nat.eq_dec j c) as [->|]; [rewrite Ec; repeat split|]. destruct (Nat.eq_dec j i) as [->|]; [rewrite Ei; repeat split|]. rewrite Ej by assumption. repeat split. }
    assert (OP : forall j, t_open (s' j) = t_open (s j)) by apply AL. assert (ST : forall j, t_status (s' j) = t_status (s j)) by apply AL.
    assert (LA : forall j, t_last (s' j) = t_last (s j)) by apply AL. assert (HI : forall j, t_hist (s' j) = t_hist (s j)) by apply AL.
    assert (TD : forall j, j <> i -> t_todo (s' j) = t_todo (s j) /\ t_done (s' j) = t_done (s j)).
    { intros j J. destruct (Nat.eq_dec j c) as [->|]; [rewrite Ec; repeat split|]. rewrite Ej by assumption. repeat split. }
    assert (QU : forall j, j <> c -> t_queue (s' j) = t_queue (s j)).
    { intros j J. destruct (Nat.eq_dec j i) as [->|]; [rewrite Ei; repeat split|]. rewrite Ej by assumption. repeat split. }
    constructor.
    - intros k K Q. rewrite OP in Q. rewrite ST. auto.
    - rewrite OP. split; [exact o2|]. rewrite QU by lia. exact o2'.
    - intros j J Q. rewrite ST in Q. destruct (Nat.eq_dec j i) as [->|N2].
      + exists C, J'. rewrite Ei. cbn [t_todo t_last with_todo]. split; [exact A1|]. split; [intros k K; rewrite OP; auto|]. split; [intros t K; rewrite ST; auto|].
        split; [intros k K Z; rewrite OP in Z; auto|]. intros K. assert (K' : C <> [] \/ exists c', In (Close c') (Send c m :: r)) by (destruct K as [K|(c' & K)]; [auto|right; exists c'; right; exact K]). destruct (A5 K') as [[Z|Z]|[[Z|Z]|Z]]; auto; discriminate.
      + destruct (TD j N2) as (Q1 & Q2). apply (careful_other s); auto; intros k K; rewrite ?OP, ?ST; auto.
    - intros j J. unfold all_of. rewrite HI, LA. destruct (Nat.eq_dec j i) as [->|N2].
      + rewrite Ei. cbn [t_done t_todo with_todo]. rewrite <- app_assoc. cbn [app]. rewrite <- T. apply o4; auto.
      + destruct (TD j N2) as (-> & ->). apply o4; auto.
    - intros k K. rewrite HI. destruct (Nat.eq_dec k c) as [->|N2].
      + rewrite PC, Ei, Ec. cbn [t_done with_todo t_queue with_queue]. rewrite flat_map_app, app_assoc, <- (o5 c K), PC. cbn [flat_map is_send]. rewrite Nat.eqb_refl. reflexivity.
      + rewrite QU by exact N2. rewrite <- (o5 k K). destruct (Nat.eq_dec (parent k) i) as [->|N3].
        * rewrite Ei. cbn [t_done with_todo]. rewrite flat_map_app. cbn [flat_map is_send]. assert (c =? k = false) as -> by (apply Nat.eqb_neq; congruence). cbn. apply app_nil_r.
        * destruct (TD _ N3) as (_ & ->). reflexivity.
    - intros k K L. rewrite LA in L. rewrite OP. destruct (o6 k K L) as (Q1 & Q2). split; [exact Q1|]. destruct (Nat.eq_dec k c) as [->|N2]; [|rewrite QU by exact N2; exact Q2].
      exfalso. apply NC. apply A4; [split; assumption|exact Q1].
    - intros j J Q. rewrite ST in Q. rewrite LA. destruct (Nat.eq_dec j i) as [->|N2]; [congruence|]. destruct (TD j N2) as (-> & _). auto.
  Qed.
  Lemma ok_close s i c r : ok s -> i < n -> t_status (s i) = Running -> t_todo (s i) = Close c :: r ->
    ok (upd (upd s i (with_todo (s i) (t_done (s i) ++ [Close c]) r)) c (closed (s c))).
  Proof using D.
    intros O I R T. destruct O as [o1 (o2 & o2') o3 o4 o5 o6 o7]. destruct (o3 i I R) as (C & J' & A1 & A2 & A3 & A4 & A5). rewrite T in A1, A5.
    assert (FIN : In Stop r \/ In Fail r \/ t_last (s i) = true) by (destruct (A5 (or_intror (ex_intro _ c (or_introl eq_refl)))) as [[Z|Z]|[[Z|Z]|Z]]; auto; discriminate).
    destruct A1 as (CR & PC & A1). assert (NE : c <> i) by (pose proof (dn_parent _ _ _ _ D c CR); lia).
    set (s' := upd _ c _).
    assert (Ec : s' c = closed (s c)) by apply upd_eq.
    assert (Ei : s' i = with_todo (s i) (t_done (s i) ++ [Close c]) r) by (unfold s'; rewrite upd_ne by congruence; apply upd_eq).
    assert (Ej : forall j, j <> i -> j <> c -> s' j = s j) by (intros j J1 J2; unfold s'; rewrite !upd_ne by assumption; reflexivity).
    assert (AL : forall j, t_queue (s' j) = t_queue (s j) /\ t_status (s' j) = t_status (s j) /\ t_last (s' j) = t_last (s j) /\ t_hist (s' j) = t_hist (s j)).
    { intros j. destruct (Nat.eq_dec j c) as [->|]; [rewrite Ec; repeat split|]. destruct (Nat.eq_dec j i) as [->|]; [rewrite Ei; repeat split|]. rewrite Ej by assumption. repeat split. }
    assert (QU : forall j, t_queue (s' j) = t_queue (s j)) by apply AL. assert (ST : forall j, t_status (s' j) = t_status (s j)) by apply AL.
    assert (LA : forall j, t_last (s' j) = t_last (s j)) by apply AL. assert (HI : forall j, t_hist (s' j) = t_hist (s j)) by apply AL.
    assert (TD : forall j, j <> i -> t_todo (s' j) = t_todo (s j) /\ t_done (s' j) = t_done (s j)).
    { intros j J. destruct (Nat.eq_dec j c) as [->|]; [rewrite Ec; repeat split|]. rewrite Ej by assumption. repeat split. }
    assert (OP : forall j, j <> c -> t_open (s' j) = t_open (s j)).
    { intros j J. destruct (Nat.eq_dec j i) as [->|]; [rewrite Ei; repeat split|]. rewrite Ej by assumption. repeat split. }
    assert (OC : t_open (s' c) = false) by (rewrite Ec; reflexivity).
    assert (OF : forall j, t_open (s j) = false -> t_open (s' j) = false) by (intros j J; destruct (Nat.eq_dec j c) as [->|N2]; [exact OC|rewrite OP; assumption]).
    constructor.
    - intros k K Q. rewrite ST. destruct (Nat.eq_dec k c) as [->|N2]; [congruence|]. rewrite OP in Q by exact N2. auto.
    - rewrite QU. split; [apply OF; exact o2|exact o2'].
    - intros j J Q. rewrite ST in Q. destruct (Nat.eq_dec j i) as [->|N2].
      + exists (c :: C), J'. rewrite Ei. cbn [t_todo t_last with_todo]. split; [exact A1|]. split; [intros k [<-|K]; [split; [lia|exact OC]|destruct (A2 k K); auto]|]. split; [intros t K; rewrite ST; auto|].
        split; [|intros _; exact FIN]. intros k K Z. destruct (Nat.eq_dec k c) as [->|N3]; [left; reflexivity|]. right. rewrite OP in Z by exact N3. auto.
      + destruct (TD j N2) as (Q1 & Q2). apply (careful_other s); auto; intros k K; rewrite ?ST; auto.
        intros Z. destruct (Nat.eq_dec k c) as [->|N3]; [destruct K; congruence|]. rewrite OP in Z by exact N3. exact Z.
    - intros j J. unfold all_of. rewrite HI, LA. destruct (Nat.eq_dec j i) as [->|N2].
      + rewrite Ei. cbn [t_done t_todo with_todo]. rewrite <- app_assoc. cbn [app]. rewrite <- T. apply o4; auto.
      + destruct (TD j N2) as (-> & ->). apply o4; auto.
    - intros k K. rewrite HI, QU, <- (o5 k K). destruct (Nat.eq_dec (parent k) i) as [->|N3].
      + rewrite Ei. cbn [t_done with_todo]. rewrite flat_map_app. cbn [flat_map is_send]. apply app_nil_r.
      + destruct (TD _ N3) as (_ & ->). reflexivity.
    - intros k K L. rewrite LA in L. rewrite QU. destruct (o6 k K L) as (Q1 & Q2). split; [apply OF; exact Q1|exact Q2].
    - intros j J Q. rewrite ST in Q. rewrite LA. destruct (Nat.eq_dec j i) as [->|N2]; [congruence|]. destruct (TD j N2) as (-> & _). auto.
  Qed.
  (** Thread [i] takes a message, or finds its channel closed. *)
  Lemma ok_turn s i t : ok s -> i < n -> t_status (s i) = Running -> t_todo (s i) = [] -> t_last (s i) = false ->
    t_status t = Running -> t_open t = t_open (s i) -> t_done t = t_done (s i) -> t_todo t = (if t_last t then p_end (prog i) (t_hist t) else p_on (prog i) (t_hist t)) ->
    t_hist t ++ t_queue t = t_hist (s i) ++ t_queue (s i) ->
    (t_last t = true /\ t_hist t = t_hist (s i) /\ t_open t = false /\ t_queue t = [] \/ t_last t = false /\ exists m, t_hist t = t_hist (s i) ++ [m]) -> ok (upd s i t).
  Proof using D.
    intros O I R T L RT OT DT TT HQ CASE. destruct O as [o1 (o2 & o2') o3 o4 o5 o6 o7]. set (s' := upd s i t).
    assert (Ei : s' i = t) by apply upd_eq. assert (Ej : forall j, j <> i -> s' j = s j) by (intros j J; apply upd_ne; exact J).
    assert (OP : forall j, t_open (s' j) = t_open (s j)) by (intros j; destruct (Nat.eq_dec j i) as [->|J]; [rewrite Ei; exact OT|rewrite Ej by exact J; reflexivity]).
    assert (ST : forall j, t_status (s' j) = t_status (s j)) by (intros j; destruct (Nat.eq_dec j i) as [->|J]; [rewrite Ei; congruence|rewrite Ej by exact J; reflexivity]).
    assert (DN : forall j, t_done (s' j) = t_done (s j)) by (intros j; destruct (Nat.eq_dec j i) as [->|J]; [rewrite Ei; congruence|rewrite Ej by exact J; reflexivity]).
    constructor.
    - intros c K Q. rewrite OP in Q. rewrite ST. auto.
    - rewrite OP. split; [exact o2|]. destruct (Nat.eq_dec 0 i) as [<-|J]; [|rewrite Ej by exact J; exact o2']. rewrite Ei.
      destruct CASE as [(_ & _ & _ & Q)|(_ & m & Q)]; [exact Q|]. rewrite Q, o2', app_nil_r, <- app_assoc in HQ. symmetry in HQ. rewrite <- (app_nil_r (t_hist (s 0))) in HQ at 1. apply app_inv_head in HQ. discriminate.
    - intros j J Q. rewrite ST in Q. destruct (Nat.eq_dec j i) as [->|NE].
      + destruct (o3 i I R) as (C & J' & A1 & A2 & A3 & A4 & A5). rewrite T, L in A5. cbn in A5.
        assert (CN : C = []) by (destruct C; [reflexivity|]; destruct A5 as [[]|[[]|Z]]; [left; discriminate|discriminate]). subst C.
        exists [], []. rewrite Ei, TT. split; [destruct (t_last t); [apply (dn_end _ _ _ _ D)|apply (dn_on _ _ _ _ D)]; exact I|]. split; [contradiction|]. split; [contradiction|].
        split; [intros c K Z; rewrite OP in Z; apply A4; assumption|]. intros [K|(c & K)]; [congruence|]. destruct CASE as [(Z & _)|(Z & _)]; [auto|]. rewrite Z in *.
        destruct (proj2 (dn_on _ _ _ _ D i (t_hist t) I)) as [B|[B|B]]; auto. destruct (B c K).
      + apply (careful_other s); auto; rewrite ?Ej by exact NE; auto; intros c K; rewrite ?OP, ?ST; auto.
    - intros j J. destruct (Nat.eq_dec j i) as [->|NE]; [|rewrite Ej by exact NE; auto]. pose proof (o4 i I) as A. rewrite T, app_nil_r in A. unfold all_of in *. rewrite L, app_nil_r in A. rewrite Ei, DT, TT, A.
      destruct CASE as [(Z & H & _)|(Z & m & H)]; rewrite Z, H.
      + rewrite !app_assoc. reflexivity.
      + rewrite emits_snoc, app_nil_r, app_assoc. reflexivity.
    - intros c K. rewrite DN, (o5 c K). destruct (Nat.eq_dec c i) as [->|NE]; [rewrite Ei; congruence|rewrite Ej by exact NE; reflexivity].
    - intros c K Z. rewrite OP. destruct (Nat.eq_dec c i) as [->|NE]; [|rewrite Ej in * by exact NE; auto]. rewrite Ei in *. destruct CASE as [(_ & _ & Z1 & Z2)|(Z1 & _)]; [|congruence]. split; congruence.
    - intros j J Q. rewrite ST in Q. destruct (Nat.eq_dec j i) as [->|NE]; [congruence|]. rewrite Ej by exact NE. auto.
  Qed.
  Lemma ok_step i s s' : ok s -> i < n -> step1 i s = Some s' -> ok s'.
  Proof using D.
    intros O I H. unfold Threads.step1 in H. destruct (t_status (s i)) eqn:R; try discriminate. destruct (t_todo (s i)) as [|a r] eqn:T.
    - destruct (t_last (s i)) eqn:L.
      + injection H as <-. apply ok_finish; auto; discriminate.
      + destruct (t_queue (s i)) as [|m q] eqn:Q.
        * destruct (t_open (s i)) eqn:OP; [discriminate|]. injection H as <-. apply ok_turn; auto; cbn; auto.
        * injection H as <-. apply ok_turn; auto; cbn; auto; [rewrite Q, <- app_assoc; reflexivity|]. right. split; [reflexivity|]. exists m. reflexivity.
    - destruct a as [c m|c|t|e| |].
      + destruct (t_status (s c)) eqn:RC.
        * destruct (_ <? _); [|discriminate]. injection H as <-. apply ok_send; auto.
        * injection H as <-. apply ok_finish; auto; discriminate.
        * injection H as <-. apply ok_finish; auto; discriminate.
      + injection H as <-. apply ok_close; auto.
      + destruct (t_status (s t)) eqn:RT; try discriminate.
        * injection H as <-. apply ok_quiet; auto; try discriminate. intros C J (A1 & A2 & A3) B1 B2. exists (t :: J). split; [exact A3|]. intros t' [<-|K]; [split; [lia|exact RT]|auto].
        * injection H as <-. apply ok_finish; auto; discriminate.
      + injection H as <-. apply ok_quiet; auto; try discriminate. intros C J A B1 B2. exists J. split; [exact A|exact B2].
      + injection H as <-. apply ok_finish; auto; discriminate.
      + injection H as <-. apply ok_finish; auto; try discriminate. intros _. right. exists r. exact T.
  Qed.
  Theorem reached_ok s : reached parent cap prog n s -> ok s.
  Proof using D. induction 1; [apply ok_start|eapply ok_step; eauto]. Qed.

  (** *** Somebody can always go on *)
  Definition can_go (s : state) : Prop := exists i s', i < n /\ step1 i s = Some s'.
  Lemma go_down s : ok s -> forall k i, n - i <= k -> i < n -> t_status (s i) = Running ->
    t_todo (s i) <> [] \/ t_last (s i) = true \/ t_queue (s i) <> [] \/ t_open (s i) = false -> can_go s.
  Proof using D.
    intros O. induction k as [|k IH]; intros i K I R W; [lia|].
    destruct (step1 i s) as [s'|] eqn:H; [exists i, s'; auto|]. unfold Threads.step1 in H. rewrite R in H.
    destruct (ok_acts _ O i I R) as (C & J & A1 & A2 & A3 & A4 & A5).
    destruct (t_todo (s i)) as [|a r] eqn:T.
    - destruct (t_last (s i)); [discriminate|]. destruct (t_queue (s i)) eqn:Q; [|discriminate]. destruct (t_open (s i)); [|discriminate].
      destruct W as [W|[W|[W|W]]]; try congruence; discriminate.
    - destruct a as [c m|c|t|e| |]; try discriminate.
      + destruct A1 as (CR & PC & _). destruct (t_status (s c)) eqn:RC; try discriminate. destruct (_ <? _) eqn:F; [discriminate|]. apply Nat.ltb_ge in F.
        pose proof (dn_parent _ _ _ _ D c CR). pose proof (dn_cap _ _ _ _ D c CR). apply (IH c); auto; [lia|lia|]. right. right. left. destruct (t_queue (s c)); [cbn in F; lia|discriminate].
      + destruct A1 as (TR & KN & _). destruct (t_status (s t)) eqn:RT; try discriminate. apply (IH t); auto; [lia|lia|]. right. right. right.
        destruct KN as [KN|KN]; [apply A2; exact KN|]. destruct (t_open (s t)) eqn:OT; [|reflexivity]. pose proof (ok_open _ O t ltac:(lia) OT). destruct (A3 _ KN). congruence.
  Qed.
  Lemma go_up s : ok s -> forall k i, i <= k -> i < n -> t_status (s i) = Running -> can_go s.
  Proof using D.
    intros O. induction k as [|k IH]; intros i K I R.
    - assert (i = 0) by lia. subst i. apply (go_down s O (n - 0) 0); auto. right. right. right. apply (ok_root _ O).
    - destruct (t_todo (s i)) eqn:T; [|apply (go_down s O (n - i) i); auto; left; congruence].
      destruct (t_last (s i)) eqn:L; [apply (go_down s O (n - i) i); auto|].
      destruct (t_queue (s i)) eqn:Q; [|apply (go_down s O (n - i) i); auto; right; right; left; congruence].
      destruct (t_open (s i)) eqn:OP; [|apply (go_down s O (n - i) i); auto].
      destruct (Nat.eq_dec i 0) as [->|NZ]; [destruct (ok_root _ O); congruence|]. apply (IH (parent i)).
      + pose proof (dn_parent _ _ _ _ D i ltac:(lia)). lia.
      + pose proof (dn_parent _ _ _ _ D i ltac:(lia)). lia.
      + apply (ok_open _ O); [lia|exact OP].
  Qed.
  Theorem never_stuck s i : reached parent cap prog n s -> i < n -> t_status (s i) = Running -> can_go s.
  Proof using D. intros H I R. exact (go_up s (reached_ok s H) i i (le_n _) I R). Qed.
End NET.
