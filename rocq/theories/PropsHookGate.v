(** C119: the hooks speak exactly for indexed and for small projects. *)
From Verif Require Import Base Text HookGate.
From Coq Require Import String.
Open Scope string_scope.
Open Scope nat_scope.
Open Scope list_scope.

(** The files of a walk *)
Fixpoint files (walk : list entry) : nat := match walk with [] => 0 | Found (Some true) :: r => S (files r) | _ :: r => files r end.

Lemma small_iff walk : forall n, n <= 50 -> (small_from n walk = true <-> 1 <= n + files walk <= 50).
Proof.
  induction walk as [|e r IH]; intros n Hn.
  - cbn [small_from files]. rewrite Nat.ltb_lt. lia.
  - destruct e as [|[[|]|]]; cbn [small_from files]; try (apply IH; exact Hn).
    unfold SMALL_PROJECT_FILE_LIMIT. destruct (50 <? n + 1) eqn:E.
    + apply Nat.ltb_lt in E. split; [discriminate|lia].
    + apply Nat.ltb_ge in E. rewrite IH by exact E. lia.
Qed.

(** A hook names its event, and so gives its advice, exactly if the model in use has an index here or in a project around, or the project has from one to fifty files. Otherwise it answers with an empty object. *)
Theorem C119_speaks : forall k default_model config index_exists find_parent walk m,
  (config = Some (Some m) \/ ((config = None \/ config = Some None) /\ m = default_model)) ->
  let said := answer k (should_inject default_model config index_exists find_parent walk) in
  (said <> None <-> index_exists m = true \/ find_parent m = Parent \/ 1 <= files walk <= 50)
  /\ (said <> None -> said = Some (match k with Session => txt "SessionStart" | Task => txt "PreToolUse" end)).
Proof.
  intros k dm config ie fp walk m Hm. assert (E : model_used dm config = m) by (destruct Hm as [->|[[->| ->] ->]]; reflexivity).
  cbn zeta. unfold should_inject. rewrite E.
  assert (P : (match fp m with Parent => true | _ => false end) = true <-> fp m = Parent) by (destruct (fp m); split; congruence).
  pose proof (small_iff walk 0 (Nat.le_0_l 50)) as S0. cbn [Nat.add] in S0. fold (is_small_project walk) in S0. rewrite <- P, <- S0.
  destruct (ie m), (match fp m with Parent => true | _ => false end), (is_small_project walk), k; cbn; split; intuition congruence.
Qed.
Print Assumptions C119_speaks.
Example C119_example :
  answer Session (should_inject (txt "m") None (fun _ => false) (fun _ => ParentError) (repeat (Found (Some true)) 50 ++ [Failed; Found None])) = Some (txt "SessionStart")
  /\ answer Task (should_inject (txt "m") None (fun _ => false) (fun _ => NoParent) (repeat (Found (Some true)) 51)) = None
  /\ answer Task (should_inject (txt "m") (Some (Some (txt "n"))) (fun m => text_eqb m (txt "n")) (fun _ => NoParent) []) = Some (txt "PreToolUse").
Proof. vm_compute. auto. Qed.

(** The walk is not read beyond the fifty-first file. *)
Theorem C119_stops : forall walk rest rest', 51 <= files walk -> is_small_project (walk ++ rest) = is_small_project (walk ++ rest').
Proof.
  intros walk rest rest' H. assert (F : forall r, is_small_project (walk ++ r) = false); [|now rewrite !F].
  intro r. apply not_true_is_false. unfold is_small_project. rewrite small_iff by lia.
  assert (files (walk ++ r) = files walk + files r) as ->; [|lia].
  clear. induction walk as [|[|[[|]|]] w IH]; cbn; auto.
Qed.
Print Assumptions C119_stops.
Example C119_stops_example : 51 <= files (Failed :: repeat (Found (Some true)) 51).
Proof. vm_compute. auto. Qed.

(** "Few enough files": not none. To a small project taking its last file away may end the advice. *)
Theorem C119_fewer_refuted : ~ (forall walk walk', files walk <= files walk' -> is_small_project walk' = true -> is_small_project walk = true).
Proof. intro H. specialize (H [] [Found (Some true)] (Nat.le_0_l _) eq_refl). discriminate H. Qed.
Print Assumptions C119_fewer_refuted.
