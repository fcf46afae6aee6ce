(** What each stage has received and sent, at any moment. *)
From Coq Require Import String.
From Verif Require Import Base Threads ThreadsSpec ThreadsProofs ThreadsEnd Pipeline PipelineSpec.
Open Scope nat_scope.
Open Scope list_scope.
Set Default Proof Using "Type".

(** *** Completed actions *)
Section RAN.
  Context {M E : Type}.
  Variable n : nat.
  Variable parent : nat -> nat.
  Variable cap : nat -> nat.
  Variable prog : nat -> program M E.
  Hypothesis D : disciplined_net n parent cap prog.
  Definition ran (s : @state M E) : Prop := forall i a, In a (t_done (s i)) -> a <> Stop /\ a <> Fail /\ forall t, a = Join t -> t_status (s t) = Done.
  Lemma finish_done (s : @state M E) i x j : t_done (finish parent s i x j) = t_done (s j).
  Proof. unfold finish. destruct (_ && _); destruct (j =? i) eqn:Q; try reflexivity; apply Nat.eqb_eq in Q; subst; reflexivity. Qed.
  Lemma finish_status (s : @state M E) i x j : t_status (s i) = Running -> t_status (s j) = Done -> t_status (finish parent s i x j) = Done.
  Proof. intros R K. unfold finish. destruct (j =? i) eqn:Q; [apply Nat.eqb_eq in Q; congruence|]. destruct (_ && _); exact K. Qed.
  Lemma step_ran i s s' : ok n parent prog s -> i < n -> step1 parent cap prog i s = Some s' -> ran s -> ran s'.
  Proof using D.
    intros O I H RS. unfold step1 in H. destruct (t_status (s i)) eqn:R; try discriminate.
    assert (FIN : forall x, Some (finish parent s i x) = Some s' -> ran s').
    { intros x Q. injection Q as <-. intros j a A. rewrite finish_done in A. destruct (RS j a A) as (A1 & A2 & A3). split; [exact A1|]. split; [exact A2|]. intros t ->. apply finish_status; auto. }
    assert (OWN : forall a r (s1 : @state M E), a <> Stop -> a <> Fail -> (forall t, a = Join t -> t_status (s t) = Done) ->
       (forall j, t_status (s1 j) = t_status (s j)) -> t_done (s1 i) = t_done (with_todo (s i) (t_done (s i) ++ [a]) r) -> (forall j, j <> i -> t_done (s1 j) = t_done (s j)) -> ran s1).
    { intros a r s1 N1 N2 NJ ST Ei Ej j x X. assert (K : x = a \/ In x (t_done (s j))).
      { destruct (Nat.eq_dec j i) as [->|N]; [|rewrite Ej in X by exact N; auto]. rewrite Ei in X. cbn in X. apply in_app_or in X. destruct X as [X|[X|[]]]; auto. }
      destruct K as [->|K]; [|destruct (RS _ _ K) as (B1 & B2 & B3)]; (split; [assumption|]; split; [assumption|]; intros t ->; rewrite ST; auto). }
    destruct (t_todo (s i)) as [|a r] eqn:T.
    - assert (SAME : forall t, t_done t = t_done (s i) -> t_status t = Running -> Some (upd s i t) = Some s' -> ran s').
      { intros t D1 S1 Q. injection Q as <-. intros j x X. assert (X' : In x (t_done (s j))) by (destruct (Nat.eq_dec j i) as [->|N]; [rewrite upd_eq in X; congruence|rewrite upd_ne in X; assumption]).
        destruct (RS j x X') as (B1 & B2 & B3). split; [exact B1|]. split; [exact B2|]. intros t' ->. specialize (B3 t' eq_refl). destruct (Nat.eq_dec t' i) as [->|N]; [congruence|rewrite upd_ne; assumption]. }
      destruct (t_last (s i)); [exact (FIN Done H)|]. destruct (t_queue (s i)); [destruct (t_open (s i)); [discriminate|]|]; (eapply SAME; [| |exact H]; cbn; auto).
    - destruct (ok_acts _ _ _ _ O i I R) as (C & J & A1 & _). rewrite T in A1. destruct a as [c m|c|t|e| |].
      + destruct A1 as (CR & PC & _). pose proof (dn_parent _ _ _ _ D c CR). destruct (t_status (s c)) eqn:RC; [|exact (FIN Failed H)|exact (FIN Failed H)]. destruct (_ <? _); [|discriminate]. injection H as <-.
        apply (OWN (Send c m) r); try discriminate.
        * intros j. destruct (Nat.eq_dec j c) as [->|]; [rewrite upd_eq; reflexivity|]. destruct (Nat.eq_dec j i) as [->|]; [rewrite upd_ne, upd_eq by lia; reflexivity|rewrite !upd_ne by lia; reflexivity].
        * rewrite upd_ne, upd_eq by lia. reflexivity.
        * intros j J'. destruct (Nat.eq_dec j c) as [->|]; [rewrite upd_eq; reflexivity|]. rewrite !upd_ne by lia. reflexivity.
      + destruct A1 as (CR & PC & _). pose proof (dn_parent _ _ _ _ D c CR). injection H as <-.
        apply (OWN (Close c) r); try discriminate.
        * intros j. destruct (Nat.eq_dec j c) as [->|]; [rewrite upd_eq; reflexivity|]. destruct (Nat.eq_dec j i) as [->|]; [rewrite upd_ne, upd_eq by lia; reflexivity|rewrite !upd_ne by lia; reflexivity].
        * rewrite upd_ne, upd_eq by lia. reflexivity.
        * intros j J'. destruct (Nat.eq_dec j c) as [->|]; [rewrite upd_eq; reflexivity|]. rewrite !upd_ne by lia. reflexivity.
      + destruct (t_status (s t)) eqn:RT; [discriminate| |exact (FIN Failed H)]. injection H as <-.
        apply (OWN (Join t) r); try discriminate.
        * intros t' Q. injection Q as <-. exact RT.
        * intros j. destruct (Nat.eq_dec j i) as [->|]; [rewrite upd_eq; reflexivity|rewrite upd_ne by lia; reflexivity].
        * rewrite upd_eq. reflexivity.
        * intros j J'. rewrite upd_ne by lia. reflexivity.
      + injection H as <-. apply (OWN (Do e) r); try discriminate.
        * intros j. destruct (Nat.eq_dec j i) as [->|]; [rewrite upd_eq; reflexivity|rewrite upd_ne by lia; reflexivity].
        * rewrite upd_eq. reflexivity.
        * intros j J'. rewrite upd_ne by lia. reflexivity.
      + exact (FIN Failed H).
      + exact (FIN Done H).
  Qed.
  Lemma reached_ran s : reached parent cap prog n s -> ran s.
  Proof using D. induction 1 as [|i s s' H IH I ST]; [intros i a []|]. exact (step_ran i s s' (reached_ok _ _ _ _ D s H) I ST IH). Qed.
End RAN.

Section PIPE.
  Context {U K R V : Type}.
  Variable W : world U K R V.
  Variable raw : string -> R.
  Variable cs : list (list (sorted_unit U)).
  Hypothesis GM : good_model W raw.
  Notation msg := (msg U K R V).
  Notation effect := (effect U V).
  Notation act := (action msg effect).
  Notation chunk := (list (sorted_unit U)).
  Notation prog := (prog_of W cs).

  (** *** The discipline *)
  Lemma feed_ok k l : acts_ok threads parent 0 [] [] (@feed U K R V W k l ++ [Close 1; Join 1; Join 2; Join 3; Join 4; Join 5; Stop]).
  Proof.
    revert k. induction l as [|c l IH]; intro k; cbn [feed].
    - cbn. unfold threads, parent. repeat split; try lia; auto 8.
    - destruct (w_main W k); cbn [app acts_ok].
      + cbn. unfold threads, parent. repeat split; try lia; auto 8.
      + unfold threads at 1. cbn [parent]. split; [lia|]. split; [reflexivity|]. split; [intros []|]. apply IH.
  Qed.
  Lemma no_close l : (forall a : act, In a l -> match a with Close _ => False | _ => True end) -> calm l.
  Proof. intro H. left. intros c A. exact (H _ A). Qed.
  Ltac small := unfold threads; cbn; repeat split; auto; try lia; try (intros []; fail).
  Theorem pipeline_disciplined : disciplined_net threads parent cap prog.
  Proof.
    constructor.
    - intros c H. unfold threads in H. destruct c as [|[|[|[|[|[|[|c]]]]]]]; cbn; lia.
    - intros c H. unfold threads in H. destruct c as [|[|[|[|[|[|[|c]]]]]]]; cbn; lia.
    - intros i I. destruct i as [|[|[|[|[|[|i]]]]]]; try (split; [exact I|]; left; intros c []; fail); try (split; [exact Logic.I|left; intros c []]).
      split; [apply feed_ok|]. right. left. cbn [prog_of main_prog p_start]. apply in_or_app. right. cbn. auto 8.
    - intros i h I. destruct i as [|[|[|[|[|[|i]]]]]]; cbn [prog_of p_on main_prog tokenize_prog encode_prog pool_prog index_prog metadata_prog coding_prog].
      + split; [exact Logic.I|left; intros c []].
      + destruct (latest h) as [[]|]; try (split; [exact Logic.I|left; intros c []]). destruct (w_tok W uniq); (split; [small|apply no_close; intros z [<-|[]]; exact Logic.I]).
      + destruct (latest h) as [[]|]; try (split; [exact Logic.I|left; intros c []]). destruct (w_stop W _); [|destruct (w_enc W _ _)]; (split; [small|apply no_close; intros z [<-|[]]; exact Logic.I]).
      + destruct (latest h) as [[]|]; try (split; [exact Logic.I|left; intros c []]). destruct (mapM _ _); (split; [small|apply no_close; intros z [<-|[]]; exact Logic.I]).
      + destruct (latest h) as [[]|]; try (split; [exact Logic.I|left; intros c []]). destruct (w_fresh W).
        * split; [small|apply no_close; intros z [<-|[<-|[]]]; exact Logic.I].
        * destruct (pending W (removelast h)) as ((k & us) & es). destruct (_ <=? _); [|split; [exact Logic.I|left; intros c []]]. unfold flush. destruct (es ++ embs); [split; [exact Logic.I|left; intros c []]|].
          destruct (w_append W k _); [split; [small|apply no_close; intros z [<-|[<-|[]]]; exact Logic.I]|split; [small|apply no_close; intros z [<-|[]]; exact Logic.I]].
      + destruct (latest h) as [[]|]; try (split; [exact Logic.I|left; intros c []]). destruct (w_rows W _); (split; [small|apply no_close]); [intros z [<-|[]]; exact Logic.I|intros z [<-|[<-|[]]]; exact Logic.I].
      + destruct (latest h) as [[]|]; try (split; [exact Logic.I|left; intros c []]). destruct (_ && _); [split; [exact Logic.I|left; intros c []]|split; [small|apply no_close; intros z [<-|[]]; exact Logic.I]].
    - intros i h I. destruct i as [|[|[|[|[|[|i]]]]]]; cbn [prog_of p_end main_prog tokenize_prog encode_prog pool_prog index_prog metadata_prog coding_prog]; try exact Logic.I.
      + destruct (w_fresh W).
        * destruct h; [exact Logic.I|small].
        * destruct (pending W h) as ((k & us) & es). unfold flush. destruct es; [exact Logic.I|]. destruct (w_append W k _); small.
      + destruct h; [exact Logic.I|]. destruct (w_create W _); small.
  Qed.
End PIPE.
