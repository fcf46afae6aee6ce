(** Proofs about waiting in the server. *)
From Verif Require Import Base Life LifeSpec LifeProofs.
Open Scope nat_scope.

(** Phases in which a thread may hold a lock. *)
Definition holds (p : phase) : Prop :=
  match p with
  | RIn | RMiss | RLoaded _ | RPut | Locked | CLook | CRead | CFill _ | CHave _ | Write _ | Written _ | Loaded _ _ | NoSlot _ _ | NewConfig _ | D1 | D2 | D3 => True
  | _ => False
  end.
Definition fits (requests : nat -> request) (t : thread) (p : phase) : Prop :=
  match p with
  | Locked => match t with H k => match requests k with Create _ | Configure _ | Delete _ | Add _ | Drop => True | _ => False end | W _ => False end
  | USend _ => match t with H k => match requests k with Update _ => True | _ => False end | W _ => False end
  | UQueue => match t with H k => match requests k with Update _ => True | _ => False end | W _ => False end
  | ALock => match t with H k => match requests k with Add _ => True | _ => False end | W _ => False end
  | Batch => match t with W _ => True | H _ => False end
  | Answered _ => match t with H _ => True | W _ => False end
  | _ => True
  end.
Record live (requests : nat -> request) (w : world) : Prop := {
  l_holds : forall t, has_a_lock w t -> holds (w_phase w t);
  l_fits : forall t, fits requests t (w_phase w t)
}.
Lemma free_lock o t u : (match o with Some x => if thread_eqb x t then None else o | None => None end) = Some u -> o = Some u /\ u <> t.
Proof.
  destruct o as [x|]; [|discriminate]. destruct (thread_eqb x t) eqn:E; [discriminate|]. intros H. injection H as ->. split; [reflexivity|]. intros ->. rewrite thread_eqb_refl in E. discriminate.
Qed.
Lemma has_after_unlock w t u : has_a_lock (unlock w t) u -> has_a_lock w u /\ u <> t.
Proof.
  unfold has_a_lock, unlock. cbn [set_locks w_name w_path w_loading]. intros [L|[L|L]]; apply free_lock in L; destruct L as (L & N); (split; [|exact N]); auto.
Qed.
(** A move of [t] to phase [p] after which others hold no more than before. *)
Lemma live_move requests w w' t p : live requests w -> w_phase w' = updt (w_phase w) t p -> (forall u, u <> t -> has_a_lock w' u -> has_a_lock w u) -> (has_a_lock w' t -> holds p) ->
  fits requests t p -> live requests w'.
Proof.
  intros [A B] E O S F. constructor; intros u; rewrite E; destruct (thread_dec u t) as [->|N]; rewrite ?updt_same, ?updt_other by exact N; auto.
Qed.
Ltac quiet := eapply live_move; [eassumption|reflexivity|intros u N L; exact L| |].
Lemma locks_other (w w' : world) t u : u <> t -> has_a_lock w' u -> (w_name w' = w_name w \/ w_name w' = Some t) -> (w_path w' = w_path w \/ w_path w' = Some t) -> (w_loading w' = w_loading w \/ w_loading w' = Some t) -> has_a_lock w u.
Proof. unfold has_a_lock. intros N [L|[L|L]] [A|A] [B|B] [C|C]; rewrite ?A, ?B, ?C in L; auto; injection L as ->; congruence. Qed.
Lemma live_step requests t n w w' : live requests w -> step requests t n w = Some w' -> live requests w'.
Proof.
  intros L E. assert (Fin : forall w0 a, live requests w -> w_phase w0 = w_phase w -> w_name w0 = w_name w -> w_path w0 = w_path w -> w_loading w0 = w_loading w ->
    live requests (finish w0 t a)).
  { intros w0 a Lw P1 P2 P3 P4. eapply live_move; [exact Lw|unfold finish; cbn [set_phase w_phase unlock set_locks]; rewrite P1; reflexivity| | |].
    - intros u N H. change (has_a_lock (unlock w0 t) u) in H. apply has_after_unlock in H. destruct H as (H & _). unfold has_a_lock in *. rewrite P2, P3, P4 in H. exact H.
    - intros H. change (has_a_lock (unlock w0 t) t) in H. apply has_after_unlock in H. tauto.
    - destruct t; exact Logic.I. }
  assert (Un : forall w0 p, live requests w -> w_phase w0 = w_phase w -> w_name w0 = w_name w -> w_path w0 = w_path w -> w_loading w0 = w_loading w -> fits requests t p ->
    live requests (set_phase (unlock w0 t) t p)).
  { intros w0 p Lw P1 P2 P3 P4 Fp. eapply live_move; [exact Lw|cbn [set_phase w_phase unlock set_locks]; rewrite P1; reflexivity| | |exact Fp].
    - intros u N H. change (has_a_lock (unlock w0 t) u) in H. apply has_after_unlock in H. destruct H as (H & _). unfold has_a_lock in *. rewrite P2, P3, P4 in H. exact H.
    - intros H. change (has_a_lock (unlock w0 t) t) in H. apply has_after_unlock in H. tauto. }
  assert (Mv : forall w0 p, live requests w -> w_phase w0 = w_phase w -> (w_name w0 = w_name w \/ w_name w0 = Some t) -> (w_path w0 = w_path w \/ w_path w0 = Some t) -> (w_loading w0 = w_loading w \/ w_loading w0 = Some t) ->
    holds p -> fits requests t p -> live requests (set_phase w0 t p)).
  { intros w0 p Lw P1 P2 P3 P4 Hp Fp. eapply live_move; [exact Lw|cbn [set_phase w_phase]; rewrite P1; reflexivity| | |exact Fp].
    - intros u N H. exact (locks_other w w0 t u N H P2 P3 P4).
    - intros _. exact Hp. }
  assert (Nh : forall w0 p, live requests w -> ~ holds (w_phase w t) -> w_phase w0 = w_phase w -> w_name w0 = w_name w -> w_path w0 = w_path w -> w_loading w0 = w_loading w -> fits requests t p ->
    live requests (set_phase w0 t p)).
  { intros w0 p Lw Nt P1 P2 P3 P4 Fp. eapply live_move; [exact Lw|cbn [set_phase w_phase]; rewrite P1; reflexivity| | |exact Fp].
    - intros u N H. apply (locks_other w w0 t u N H); auto.
    - intros H. exfalso. apply Nt. apply (l_holds _ _ Lw). unfold has_a_lock in *. cbn [set_phase w_name w_path w_loading] in H. rewrite P2, P3, P4 in H. exact H. }
  assert (Ft := l_fits _ _ L t). unfold step in E. cbv zeta in E. destruct t as [k|q0]; destruct (w_phase w _) eqn:P; cbn [fits] in Ft.
  all: repeat match type of E with
       | match ?x with _ => _ end = Some _ => let Q := fresh "Q" in destruct x eqn:Q; try discriminate
       | (if ?x then _ else _) = Some _ => destruct x eqn:?; try discriminate
       end.
  all: repeat match goal with Q : @Some request _ = Some _ |- _ => injection Q as Q end.
  all: try discriminate; try (injection E as <-).
  all: try (rewrite Q in Ft); try (rewrite Q0 in Ft); try contradiction.
  all: try (apply Fin; [exact L|reflexivity|reflexivity|reflexivity|reflexivity]; fail).
  all: try (apply Mv; [exact L|reflexivity| | | |exact Logic.I|]; cbn [fits]; repeat match goal with Q : _ = _ :> request |- _ => rewrite Q; clear Q end; cbn; auto; fail).
  all: try (apply Nh; [exact L|intros []|reflexivity|reflexivity|reflexivity|reflexivity|]; cbn [fits]; repeat match goal with Q : _ = _ :> request |- _ => rewrite Q; clear Q end; cbn; auto; fail).
  all: try (apply Un; [exact L|reflexivity|reflexivity|reflexivity|reflexivity|]; cbn; auto; fail).
  all: try (destruct (requests k); (apply Fin; [exact L|reflexivity|reflexivity|reflexivity|reflexivity]); fail).
  all: try (apply Mv; [exact L|reflexivity| | | |exact Logic.I|]; cbn [fits]; try exact Ft; cbn; auto; destruct (requests k); auto; fail).
  all: try (apply Nh; [exact L|intros []|reflexivity|reflexivity|reflexivity|reflexivity|exact Ft]; fail).
Qed.
Lemma live_boot requests c d : live requests (boot c d).
Proof. constructor; intros t; [intros [L|[L|L]]; discriminate|]. exact Logic.I. Qed.
Lemma live_reach requests w0 w : live requests w0 -> reach requests w0 w -> live requests w.
Proof. intros L R. induction R as [|w t n w' R IH E]; [exact L|]. exact (live_step _ _ _ _ _ IH E). Qed.
(** Whoever is in a phase in which locks are held can move. *)
Lemma holder_moves requests w t : live requests w -> holds (w_phase w t) -> can_move requests w t.
Proof.
  intros L A. assert (F := l_fits _ _ L t). unfold can_move. exists 0. unfold step. cbv zeta.
  destruct (w_phase w t) eqn:P; cbn [holds] in A; try contradiction; cbn [fits] in F.
  all: destruct t as [k|q]; try contradiction.
  all: repeat match goal with |- exists w', match ?x with _ => _ end = Some w' => destruct x; try contradiction end.
  all: eexists; reflexivity.
Qed.
Lemma progress requests w t : live requests w -> unfinished w t ->
  can_move requests w t \/ exists u, u <> t /\ has_a_lock w u /\ can_move requests w u.
Proof.
  intros L U. assert (Hd : forall u, has_a_lock w u -> can_move requests w u) by (intros u X; apply holder_moves; [exact L|apply (l_holds _ _ L); exact X]).
  assert (W : forall u, has_a_lock w u -> ~ holds (w_phase w t) -> exists u, u <> t /\ has_a_lock w u /\ can_move requests w u).
  { intros u X Y. exists u. split; [|auto]. intros ->. apply Y. apply (l_holds _ _ L). exact X. }
  destruct (w_phase w t) eqn:P; try (left; apply holder_moves; [exact L|rewrite P; exact Logic.I]).
  - (* Start *) destruct t as [k|q].
    + destruct (requests k) eqn:RQ.
      * left. exists 0. unfold step. cbv zeta. rewrite P, RQ. destruct (w_current w); eexists; reflexivity.
      * left. exists 0. unfold step. cbv zeta. rewrite P, RQ. eexists; reflexivity.
      * destruct (w_name w) as [u|] eqn:N; [right; apply (W u); [left; exact N|intros []]|]. left. exists 0. unfold step. cbv zeta. rewrite P, RQ, N. eexists; reflexivity.
      * left. exists 0. unfold step. cbv zeta. rewrite P, RQ. destruct (w_config w); eexists; reflexivity.
      * destruct (w_path w) as [u|] eqn:N; [right; apply (W u); [right; left; exact N|intros []]|]. left. exists 0. unfold step. cbv zeta. rewrite P, RQ, N. eexists; reflexivity.
      * left. exists 0. unfold step. cbv zeta. rewrite P, RQ. destruct (w_current w); eexists; reflexivity.
      * destruct (w_name w) as [u|] eqn:N; [right; apply (W u); [left; exact N|intros []]|]. left. exists 0. unfold step. cbv zeta. rewrite P, RQ, N. eexists; reflexivity.
      * destruct (w_name w) as [u|] eqn:N; [right; apply (W u); [left; exact N|intros []]|]. left. exists 0. unfold step. cbv zeta. rewrite P, RQ, N. eexists; reflexivity.
    + left. exists 1. unfold step. cbv zeta. rewrite P. destruct U as [U|U]; [congruence|]. destruct (w_items w q) as [|b l]; [congruence|]. cbn [length Nat.leb andb]. eexists; reflexivity.
  - (* RWait *) destruct (w_loading w) as [u|] eqn:N; [right; apply (W u); [right; right; exact N|intros []]|]. left. exists 0. unfold step. cbv zeta. rewrite P, N. eexists; reflexivity.
  - (* RGot *) left. exists 0. unfold step. cbv zeta. rewrite P. destruct t as [k|q]; [destruct (requests k)|]; eexists; reflexivity.
  - (* ALock *) destruct (w_name w) as [u|] eqn:N; [right; apply (W u); [left; exact N|intros []]|]. left. exists 0. unfold step. cbv zeta. rewrite P, N. eexists; reflexivity.
  - (* UQueue *) left. exists 0. unfold step. cbv zeta. rewrite P. destruct (w_queue w); eexists; reflexivity.
  - (* USend *) assert (F := l_fits _ _ L t). rewrite P in F. cbn [fits] in F. destruct t as [k|q0]; [|contradiction]. destruct (requests k) eqn:RQ; try contradiction.
    left. exists 0. unfold step. cbv zeta. rewrite P, RQ. eexists; reflexivity.
  - (* D4 *) left. exists 0. unfold step. cbv zeta. rewrite P. eexists; reflexivity.
  - (* Batch *) destruct (w_path w) as [u|] eqn:N; [right; apply (W u); [right; left; exact N|intros []]|]. left. exists 0. unfold step. cbv zeta. rewrite P, N. eexists; reflexivity.
  - (* Answered *) destruct t as [k|q]; [exfalso; exact (U _ P)|]. assert (F := l_fits _ _ L (Life.W q)). rewrite P in F. destruct F.
Qed.

(** ** How many moves *)
Definition rank (p : phase) : nat :=
  match p with
  | Start => 17 | RWait => 16 | RIn => 15 | RMiss => 14 | RLoaded _ => 13 | RPut => 12 | RGot _ => 11 | ALock => 10 | Locked => 9 | Batch => 9
  | CLook => 8 | CRead => 7 | CFill _ => 6 | CHave _ => 5 | Write _ => 4 | Written _ => 3 | Loaded _ _ => 2 | NoSlot _ _ => 1 | NewConfig _ => 1
  | UQueue => 2 | USend _ => 1 | D1 => 4 | D2 => 3 | D3 => 2 | D4 => 1 | Answered _ => 0
  end.
Lemma step_others requests t n w w' u : step requests t n w = Some w' -> u <> t -> w_phase w' u = w_phase w u.
Proof.
  intros E N. unfold step in E. cbv zeta in E. destruct t as [k|q0]; destruct (w_phase w _) eqn:P.
  all: repeat match type of E with
       | match ?x with _ => _ end = Some _ => let Q := fresh "Q" in destruct x eqn:Q; try discriminate
       | (if ?x then _ else _) = Some _ => destruct x eqn:?; try discriminate
       end.
  all: try discriminate; try (injection E as <-).
  all: try (unfold finish; cbn [set_phase w_phase unlock set_locks]; rewrite updt_other by exact N; reflexivity).
  all: try (unfold finish, store_slot, insert_slot, publish; cbn; rewrite updt_other by exact N; try reflexivity; destruct (requests k); reflexivity).
Qed.
Lemma request_rank requests k n w w' : step requests (H k) n w = Some w' -> rank (w_phase w' (H k)) < rank (w_phase w (H k)).
Proof.
  intros E. unfold step in E. cbv zeta in E. destruct (w_phase w _) eqn:P.
  all: repeat match type of E with
       | match ?x with _ => _ end = Some _ => let Q := fresh "Q" in destruct x eqn:Q; try discriminate
       | (if ?x then _ else _) = Some _ => destruct x eqn:?; try discriminate
       end.
  all: try discriminate; try (injection E as <-).
  all: try (unfold finish; cbn [set_phase w_phase unlock set_locks]; rewrite updt_same; cbn [rank]; lia).
Qed.
Lemma request_moves requests k : forall l w w', steps requests l w = Some w' -> moves_of (H k) l + rank (w_phase w' (H k)) <= rank (w_phase w (H k)).
Proof.
  induction l as [|(t, n) l IH]; intros w w' E; cbn [steps] in E; [injection E as <-; unfold moves_of; cbn; lia|].
  destruct (step requests t n w) as [w1|] eqn:S; [|discriminate]. specialize (IH _ _ E). unfold moves_of in *. cbn [filter fst]. destruct (thread_eqb t (H k)) eqn:T.
  - apply thread_eqb_eq in T. subst t. apply request_rank in S. cbn [length]. lia.
  - rewrite (step_others _ _ _ _ _ (H k) S) in IH; [exact IH|]. intros <-. rewrite thread_eqb_refl in T. discriminate.
Qed.
(** a worker *)
Definition wrank (p : phase) : nat := match p with Start => 0 | RWait | RIn | RMiss | RLoaded _ | RPut | RGot _ | ALock => 0 | _ => rank p end.
Definition reader (p : phase) : Prop := match p with RWait | RIn | RMiss | RLoaded _ | RPut | RGot _ | ALock | D1 | D2 | D3 | D4 | UQueue | USend _ | Locked => True | _ => False end.
Lemma worker_phases requests q n w w' : ~ reader (w_phase w (W q)) -> step requests (W q) n w = Some w' -> ~ reader (w_phase w' (W q)).
Proof.
  intros R E. unfold step in E. cbv zeta in E. destruct (w_phase w _) eqn:P; cbn [reader] in R; try (exfalso; apply R; exact Logic.I).
  all: repeat match type of E with
       | match ?x with _ => _ end = Some _ => let Q := fresh "Q" in destruct x eqn:Q; try discriminate
       | (if ?x then _ else _) = Some _ => destruct x eqn:?; try discriminate
       end.
  all: try discriminate; try (injection E as <-).
  all: try (unfold finish; cbn [set_phase w_phase unlock set_locks]; rewrite updt_same; intros []).
Qed.
Lemma worker_rank requests q n w w' : ~ reader (w_phase w (W q)) -> step requests (W q) n w = Some w' ->
  10 * length (w_items w' q) + wrank (w_phase w' (W q)) < 10 * length (w_items w q) + wrank (w_phase w (W q)) /\ length (w_accepted w') = length (w_accepted w).
Proof.
  intros R E. unfold step in E. cbv zeta in E. destruct (w_phase w _) eqn:P; cbn [reader] in R; try (exfalso; apply R; exact Logic.I).
  all: repeat match type of E with
       | match ?x with _ => _ end = Some _ => let Q := fresh "Q" in destruct x eqn:Q; try discriminate
       | (if ?x then _ else _) = Some _ => destruct x eqn:?; try discriminate
       end.
  all: try discriminate; try (injection E as <-).
  all: try (unfold finish, store_slot, insert_slot, publish; cbn [set_phase w_phase unlock set_locks set_files set_cached set_slots set_queues set_batch set_ghosts w_items w_accepted]; rewrite updt_same; split; [cbn [wrank rank]; lia|reflexivity]).
  match goal with Q : _ && _ = true |- _ => apply andb_true_iff in Q; destruct Q as (A & B) end. apply Nat.leb_le in A, B. cbn [set_phase w_phase set_batch set_queues w_items w_accepted]. rewrite updt_same, upd_same, skipn_length. cbn [wrank rank]. split; [lia|reflexivity].
Qed.
Lemma other_items requests t q n w w' : t <> W q -> ~ (exists q', t = W q' /\ reader (w_phase w t)) -> step requests t n w = Some w' ->
  length (w_items w' q) + length (w_accepted w) <= length (w_items w q) + length (w_accepted w') /\ length (w_accepted w) <= length (w_accepted w').
Proof.
  intros T R E. unfold step in E. cbv zeta in E. destruct t as [k|q0]; destruct (w_phase w _) eqn:P.
  all: repeat match type of E with
       | match ?x with _ => _ end = Some _ => let Q := fresh "Q" in destruct x eqn:Q; try discriminate
       | (if ?x then _ else _) = Some _ => destruct x eqn:?; try discriminate
       end.
  all: try discriminate; try (injection E as <-).
  all: try (unfold finish, store_slot, insert_slot, publish; cbn [set_phase w_phase unlock set_locks set_files set_cached set_slots set_queues set_batch set_ghosts w_items w_accepted]; split; lia).
  all: try (unfold finish; cbn [set_phase w_phase unlock set_locks set_files set_cached set_slots set_queues set_batch set_ghosts w_items w_accepted]; rewrite upd_other by congruence; split; lia).
  all: try (destruct (requests k); cbn; split; lia).
  all: try (unfold finish; cbn [set_phase w_phase unlock set_locks set_files set_cached set_slots set_queues set_batch set_ghosts w_items w_accepted]; unfold upd; destruct (_ =? _) eqn:Z; rewrite ?app_length; cbn [length];
    [apply Nat.eqb_eq in Z; subst; split; lia|split; lia]).
Qed.
Lemma worker_moves requests q : forall l w w', (forall q, ~ reader (w_phase w (W q))) -> steps requests l w = Some w' ->
  moves_of (W q) l + 10 * length (w_items w' q) + wrank (w_phase w' (W q)) + 10 * length (w_accepted w) <= 10 * length (w_items w q) + wrank (w_phase w (W q)) + 10 * length (w_accepted w').
Proof.
  induction l as [|(t, n) l IH]; intros w w' R E; cbn [steps] in E; [injection E as <-; unfold moves_of; cbn [filter length]; lia|].
  destruct (step requests t n w) as [w1|] eqn:S; [|discriminate].
  assert (R1 : forall q, ~ reader (w_phase w1 (W q))).
  { intros q'. destruct (thread_dec (W q') t) as [<-|N]; [exact (worker_phases _ _ _ _ _ (R q') S)|]. rewrite (step_others _ _ _ _ _ _ S N). apply R. }
  specialize (IH _ _ R1 E). unfold moves_of in *. cbn [filter fst]. destruct (thread_eqb t (W q)) eqn:T.
  - apply thread_eqb_eq in T. subst t. destruct (worker_rank _ _ _ _ _ (R q) S) as (A & B). cbn [length]. lia.
  - assert (T' : t <> W q) by (intros ->; rewrite thread_eqb_refl in T; discriminate). rewrite (step_others _ _ _ _ _ (W q) S) in IH by congruence.
    destruct (other_items requests t q n w w1 T') as (A & B); [intros (q' & -> & X); exact (R q' X)|exact S|]. lia.
Qed.
