(** C118: Ctrl+C is never lost, is put off by a critical section, and is acknowledged once. *)
From Verif Require Import Base Signals SignalsSpec.
Open Scope Z_scope.
Open Scope list_scope.

Lemma drop_one_length t l : In t l -> S (length (drop_one t l)) = length l.
Proof.
  induction l as [|u r IH]; cbn; [intros []|]. destruct (Nat.eqb t u) eqn:E; [auto|].
  intros [->|H]; [rewrite Nat.eqb_refl in E; discriminate|]. cbn. f_equal. auto.
Qed.
Lemma depth_from h : forall l s, guarded_from l h -> depth s = Z.of_nat (length l) ->
  depth (fold_left step h s) = Z.of_nat (length (fold_left hold h l)).
Proof.
  induction h as [|e r IH]; intros l s G D; [exact D|]. cbn [guarded_from] in G. destruct G as (B & Ge & Gr).
  cbn [fold_left]. apply IH; [exact Gr|].
  assert (B' : Z.of_nat (length (hold l e)) < 2 ^ 64) by (destruct r; cbn [guarded_from] in Gr; tauto).
  destruct e as [t|t| | |t|t]; cbn [step hold] in *.
  - cbn [depth]. unfold wrap. rewrite D, Z.mod_small; cbn [length] in *; lia.
  - cbn [depth]. unfold wrap. pose proof (drop_one_length t l Ge). rewrite D, Z.mod_small; lia.
  - exact D.
  - destruct (noticed s); exact D.
  - match goal with |- context [if ?c then _ else _] => destruct c end; exact D.
  - destruct (existsb (Nat.eqb t) (asking s)); exact D.
Qed.
Lemma depth_run h : guarded h -> depth (run h) = Z.of_nat (length (holders h)).
Proof. intro G. exact (depth_from h [] start G eq_refl). Qed.
Lemma run_app a b : run (a ++ b) = fold_left step b (run a).
Proof. apply fold_left_app. Qed.
Lemma flag_step s e : flag (step s e) = flag s || match e with Press => true | _ => false end.
Proof.
  destruct e; cbn; try (now rewrite orb_false_r); [now rewrite orb_true_r| | |].
  - destruct (noticed s); cbn; now rewrite orb_false_r.
  - match goal with |- context [if ?c then _ else _] => destruct c end; cbn; now rewrite orb_false_r.
  - destruct (existsb (Nat.eqb t) (asking s)); cbn; now rewrite orb_false_r.
Qed.
Lemma flag_from h : forall s, flag (fold_left step h s) = true <-> flag s = true \/ In Press h.
Proof.
  induction h as [|e r IH]; intro s; cbn [fold_left]; [cbn; tauto|]. rewrite IH, flag_step, orb_true_iff. cbn [In].
  destruct e; intuition discriminate.
Qed.

(** An interrupt is never lost and never made up: the flag is set exactly from the first press on, sections or not. *)
Theorem C118_never_lost : forall h, is_interrupted (run h) = true <-> In Press h.
Proof. intro h. unfold is_interrupted, run. rewrite flag_from. cbn. intuition discriminate. Qed.
Print Assumptions C118_never_lost.

(** A thread in a critical section, its own or another's, that asks is told to go on, whatever the other threads do. *)
Theorem C118_deferred : forall h t u, guarded h -> In u (holders h) ->
  answers (run (h ++ [AskDepth t])) = (t, false) :: answers (run h).
Proof.
  intros h t u G Hu. rewrite run_app. cbn [fold_left step]. rewrite (depth_run h G).
  assert (0 <? Z.of_nat (length (holders h)) = true) as ->; [|reflexivity].
  apply Z.ltb_lt. destruct (holders h); [destruct Hu|cbn [length]; lia].
Qed.
Print Assumptions C118_deferred.

Lemma asking_kept b : forall s t, ~ In (AskFlag t) b -> In t (asking s) -> In t (asking (fold_left step b s)).
Proof.
  induction b as [|e r IH]; intros s t Hn Hi; [exact Hi|]. cbn [fold_left]. apply IH; [intro; apply Hn; cbn; auto|].
  destruct e; cbn [step]; auto.
  - destruct (noticed s); auto.
  - match goal with |- context [if ?c then _ else _] => destruct c end; cbn; auto.
  - destruct (existsb (Nat.eqb t0) (asking s)); cbn; auto. apply filter_In. split; [auto|].
    apply negb_true_iff, Nat.eqb_neq. intro; subst. apply Hn. cbn; auto.
Qed.

(** Once no section is open, the next question after a press is answered with yes, whatever happens between its two accesses. *)
Theorem C118_honoured : forall h t b, guarded h -> In Press h -> holders h = [] -> ~ In (AskFlag t) b ->
  answers (run (h ++ AskDepth t :: b ++ [AskFlag t])) = (t, true) :: answers (run (h ++ AskDepth t :: b)).
Proof.
  intros h t b G P Hh Hb. rewrite !run_app. cbn [fold_left]. rewrite fold_left_app. cbn [fold_left].
  set (s := step (run h) (AskDepth t)).
  assert (Ha : In t (asking s)).
  { unfold s. cbn [step]. rewrite (depth_run h G), Hh. cbn. auto. }
  assert (Hf : flag (fold_left step b s) = true).
  { apply flag_from. left. unfold s. rewrite flag_step. apply C118_never_lost in P. unfold is_interrupted in P. rewrite P. reflexivity. }
  pose proof (asking_kept b s t Hb Ha) as Hk. cbn [step].
  assert (existsb (Nat.eqb t) (asking (fold_left step b s)) = true) as -> by (apply existsb_exists; exists t; split; [exact Hk|apply Nat.eqb_refl]).
  cbn [answers]. now rewrite Hf.
Qed.
Print Assumptions C118_honoured.

(** Nobody is told to stop before a press. *)
Theorem C118_no_false_alarm : forall h t, In (t, true) (answers (run h)) -> In Press h.
Proof.
  intros h t. unfold run. assert (Hg : forall h s, In (t, true) (answers (fold_left step h s)) -> In (t, true) (answers s) \/ flag s = true \/ In Press h).
  { clear h. induction h as [|e r IH]; intros s H; [auto|]. cbn [fold_left] in H. apply IH in H. rewrite flag_step, orb_true_iff in H. cbn [In].
    destruct H as [H|[[H|H]|H]]; auto; [|destruct e; try discriminate; auto].
    destruct e; cbn [step] in H; auto.
    - destruct (noticed s); auto.
    - match type of H with context [if ?c then _ else _] => destruct c end; cbn in H; auto. destruct H as [H|H]; [discriminate|auto].
    - destruct (existsb (Nat.eqb t0) (asking s)); cbn in H; auto. destruct H as [H|H]; [injection H as _ H; auto|auto]. }
  intro H. destruct (Hg h start H) as [[]|[D|D]]; [discriminate|exact D].
Qed.
Print Assumptions C118_no_false_alarm.

(** The first press is acknowledged, and no other is. *)
Theorem C118_acknowledged : forall a h, 
  (length (said (run h)) <= 1)%nat
  /\ (~ In Press h -> said (run h) = [])
  /\ (In Press a -> h = a ++ [Say] -> length (said (run h)) = 1%nat).
Proof.
  assert (I : forall h, let s := run h in
    if flag s then (length (said s) + (if noticed s then 1 else 0) = 1)%nat else said s = [] /\ noticed s = false).
  { intro h. unfold run. assert (Q : forall h s, (if flag s then (length (said s) + (if noticed s then 1 else 0) = 1)%nat else said s = [] /\ noticed s = false) ->
      let s := fold_left step h s in if flag s then (length (said s) + (if noticed s then 1 else 0) = 1)%nat else said s = [] /\ noticed s = false).
    { clear h. induction h as [|e r IH]; intros s H; [exact H|]. cbn [fold_left]. apply IH.
      destruct e; cbn [step]; auto.
      - destruct (flag s) eqn:F; cbn [flag said noticed]; [exact H|]. destruct H as (-> & _). reflexivity.
      - destruct (noticed s) eqn:N; [|now rewrite N]. cbn [flag said noticed length].
        destruct (flag s); [lia|]. destruct H; discriminate.
      - match goal with |- context [flag (if ?c then _ else _)] => destruct c end; exact H.
      - destruct (existsb (Nat.eqb t) (asking s)); exact H. }
    apply Q. cbn. auto. }
  intros a h. pose proof (I h) as Ih. cbn zeta in Ih. repeat match goal with |- _ /\ _ => split end.
  - destruct (flag (run h)); [lia|]. destruct Ih as (-> & _). cbn. lia.
  - intro P. destruct (flag (run h)) eqn:F; [|tauto]. exfalso. apply P, C118_never_lost. exact F.
  - intros P ->. pose proof (I a) as Ia. cbn zeta in Ia. apply C118_never_lost in P. unfold is_interrupted in P. rewrite P in Ia.
    rewrite run_app. cbn [fold_left step]. destruct (noticed (run a)); cbn [said length]; lia.
Qed.
Print Assumptions C118_acknowledged.

(** The message tells whether a section is open at the moment it is chosen. *)
Theorem C118_message : forall h m, guarded h -> said (run (h ++ [Say])) = m :: said (run h) -> (m = true <-> holders h <> []).
Proof.
  intros h m G H. rewrite run_app in H. cbn [fold_left step] in H. destruct (noticed (run h)).
  - cbn [said] in H. injection H as <-. rewrite (depth_run h G), Z.ltb_lt. destruct (holders h); cbn [length]; split; try congruence; try lia; discriminate.
  - apply (f_equal (@length bool)) in H. cbn in H. lia.
Qed.
Print Assumptions C118_message.
Example C118_message_example : said (run ([Enter 1; Press] ++ [Say])) = true :: said (run [Enter 1; Press]) /\ guarded [Enter 1; Press].
Proof. vm_compute. repeat split; auto. Qed.

(** Thread 1 is in two sections, Ctrl+C is pressed twice, thread 2 asks; thread 1 leaves, thread 2 asks again. *)
Definition busy : list event := [Enter 1; Enter 1; Press; Press; Say; Say].
Definition idle : list event := busy ++ [AskDepth 2; Leave 1; Leave 1].
Example C118_example : guarded busy /\ In 1%nat (holders busy) /\ guarded idle /\ In Press idle /\ holders idle = [] /\ said (run idle) = [true]
  /\ answers (run (idle ++ [AskDepth 2; Enter 1; AskFlag 2])) = [(2%nat, true); (2%nat, false)].
Proof. vm_compute. repeat split; auto. Qed.

(** "True only if not in a critical section": not between threads. A thread may find no section open, and be told to stop after another has entered one. *)
Theorem C118_outside_refuted : ~ (forall h t, guarded (h ++ [AskFlag t]) ->
  answers (run (h ++ [AskFlag t])) = (t, true) :: answers (run h) -> holders h = []).
Proof.
  intro H. specialize (H [Press; AskDepth 0; Enter 1] 0%nat).
  assert (G : guarded ([Press; AskDepth 0; Enter 1] ++ [AskFlag 0])) by (vm_compute; repeat split; auto).
  specialize (H G eq_refl). discriminate H.
Qed.
Print Assumptions C118_outside_refuted.

(** Nor does the message say what was so when Ctrl+C was pressed: a section may close, or open, before it is chosen. *)
Theorem C118_message_refuted : ~ (forall a b, guarded (a ++ Press :: b ++ [Say]) -> ~ In Press a -> ~ In Press b -> ~ In Say b ->
  (said (run (a ++ Press :: b ++ [Say])) = [true] <-> holders a <> [])).
Proof.
  intro H. specialize (H [Enter 1] [Leave 1]).
  assert (G : guarded ([Enter 1] ++ Press :: [Leave 1] ++ [Say])) by (vm_compute; repeat split; auto).
  assert (N : forall e f : event, f <> e -> ~ In e [f]) by (intros e f D [E|[]]; auto).
  destruct (H G) as (_ & H'); try (apply N; discriminate).
  assert (C : holders [Enter 1] <> []) by discriminate. specialize (H' C). vm_compute in H'. discriminate H'.
Qed.
Print Assumptions C118_message_refuted.
