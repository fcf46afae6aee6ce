(** Every schedule comes to an end. *)
From Verif Require Import Base Threads ThreadsSpec ThreadsProofs.
From Coq Require Import Wf_nat.
Open Scope nat_scope.
Set Default Proof Using "Type".

Definition ltp (p q : nat * nat) : Prop := fst p < fst q \/ fst p = fst q /\ snd p < snd q.
Lemma ltp_wf : well_founded ltp.
Proof.
  intros (a & b). revert b. induction a as [a IHa] using (well_founded_induction lt_wf). induction b as [b IHb] using (well_founded_induction lt_wf).
  constructor. intros (a' & b') [H|(H1 & H2)]; cbn [fst snd] in *; [apply IHa; exact H|subst a'; apply IHb; exact H2].
Qed.
Definition lexn (n : nat) (f g : nat -> nat * nat) : Prop := exists i, i < n /\ ltp (f i) (g i) /\ forall j, j < i -> f j = g j.
Lemma lexn_wf n : well_founded (lexn n).
Proof.
  induction n as [|n IH]; intro f; [constructor; intros g (i & I & _); lia|].
  remember (f 0) as x eqn:X. revert f X. induction x as [x IHx] using (well_founded_induction ltp_wf).
  intros f X. remember (fun i => f (S i)) as h eqn:Hh. revert f X Hh. induction h as [h IHh] using (well_founded_induction IH).
  intros f -> ->. constructor. intros g (i & I & L & P). destruct i as [|i]; [apply (IHx (g 0)); auto|].
  apply (IHh (fun i => g (S i))); auto.
  - exists i. split; [lia|]. split; [exact L|]. intros j J. apply P. lia.
  - symmetry. apply P. lia.
Qed.

Section NET.
  Context {M E : Type}.
  Variable n : nat.
  Variable parent : nat -> nat.
  Variable cap : nat -> nat.
  Variable prog : nat -> program M E.
  Hypothesis D : disciplined_net n parent cap prog.
  Definition weight (t : thread M E) : nat * nat :=
    (length (t_queue t) + (if t_last t then 0 else 1), length (t_todo t) + match t_status t with Running => 1 | _ => 0 end).
  Lemma weight_closed t : weight (closed t) = weight t.
  Proof. reflexivity. Qed.
  Lemma finish_weight (s : @state M E) i x : t_status (s i) = Running -> x <> Running -> ltp (weight (finish parent s i x i)) (weight (s i)) /\ (forall j, j <> i -> weight (finish parent s i x j) = weight (s j)).
  Proof.
    intros R X. split.
    - unfold finish. rewrite Nat.eqb_refl. destruct (_ && _); rewrite ?weight_closed; right; cbn; rewrite R; destruct x; try congruence; split; lia.
    - intros j J. unfold finish. apply Nat.eqb_neq in J. rewrite J. destruct (_ && _); rewrite ?weight_closed; reflexivity.
  Qed.
  Lemma step_weight i s s' : ok n parent prog s -> i < n -> step1 parent cap prog i s = Some s' -> lexn n (fun j => weight (s' j)) (fun j => weight (s j)).
  Proof using D.
    intros O I H. exists i. split; [exact I|]. unfold step1 in H. destruct (t_status (s i)) eqn:R; try discriminate.
    assert (FIN : forall x, x <> Running -> Some (finish parent s i x) = Some s' -> ltp (weight (s' i)) (weight (s i)) /\ forall j, j < i -> weight (s' j) = weight (s j)).
    { intros x X Q. injection Q as <-. destruct (finish_weight s i x R X) as (K1 & K2). split; [exact K1|]. intros j J. apply K2. lia. }
    assert (TODO : forall a r, t_todo (s i) = a :: r -> ltp (weight (with_todo (s i) (t_done (s i) ++ [a]) r)) (weight (s i))).
    { intros a r T. right. cbn. rewrite R, T. cbn. split; lia. }
    destruct (t_todo (s i)) as [|a r] eqn:T.
    - destruct (t_last (s i)) eqn:L; [apply (FIN Done); [discriminate|exact H]|]. destruct (t_queue (s i)) as [|m q] eqn:Q.
      + destruct (t_open (s i)); [discriminate|]. injection H as <-. split; [rewrite upd_eq; left; cbn; rewrite Q, L; cbn; lia|]. intros j J. rewrite upd_ne by lia. reflexivity.
      + injection H as <-. split; [rewrite upd_eq; left; cbn; rewrite Q, L; cbn; lia|]. intros j J. rewrite upd_ne by lia. reflexivity.
    - destruct (ok_acts _ _ _ _ O i I R) as (C & J & A1 & _). rewrite T in A1. destruct a as [c m|c|t|e| |].
      + destruct A1 as (CR & PC & _). pose proof (dn_parent _ _ _ _ D c CR). destruct (t_status (s c)); [|apply (FIN Failed); [discriminate|exact H]|apply (FIN Failed); [discriminate|exact H]].
        destruct (_ <? _); [|discriminate]. injection H as <-. split; [rewrite upd_ne by lia; rewrite upd_eq; apply TODO; reflexivity|]. intros j K. rewrite !upd_ne by lia. reflexivity.
      + destruct A1 as (CR & PC & _). pose proof (dn_parent _ _ _ _ D c CR). injection H as <-. split; [rewrite upd_ne by lia; rewrite upd_eq; apply TODO; reflexivity|]. intros j K. rewrite !upd_ne by lia. reflexivity.
      + destruct (t_status (s t)); [discriminate| |apply (FIN Failed); [discriminate|exact H]]. injection H as <-. split; [rewrite upd_eq; apply TODO; reflexivity|]. intros j K. rewrite upd_ne by lia. reflexivity.
      + injection H as <-. split; [rewrite upd_eq; apply TODO; reflexivity|]. intros j K. rewrite upd_ne by lia. reflexivity.
      + apply (FIN Failed); [discriminate|exact H].
      + apply (FIN Done); [discriminate|exact H].
  Qed.
  (** No schedule goes on for ever. *)
  Theorem no_endless_schedule (who : nat -> nat) (s : nat -> @state M E) : s 0 = start prog -> (forall k, who k < n) -> ~ forall k, step1 parent cap prog (who k) (s k) = Some (s (S k)).
  Proof using D.
    intros S0 W H. assert (O : forall k, ok n parent prog (s k)).
    { induction k as [|k IH]; [rewrite S0; exact (ok_start _ _ _ _ D)|]. exact (ok_step _ _ _ _ D _ _ _ IH (W k) (H k)). }
    assert (A : forall v, forall k, (fun j => weight (s k j)) = v -> False).
    { intro v. induction v as [v IH] using (well_founded_induction (lexn_wf n)). intros k <-. apply (IH (fun j => weight (s (S k) j))) with (k := S k); [|reflexivity].
      exact (step_weight _ _ _ (O k) (W k) (H k)). }
    exact (A _ 0 eq_refl).
  Qed.
End NET.
