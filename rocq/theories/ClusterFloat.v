(** Binary64 arithmetic, and token embeddings whose pooling does not end. *)
From Coq Require Import ZArith SpecFloat.
From Verif Require Import Base Cluster ClusterSpec ClusterWard ClusterEnd.
Open Scope nat_scope.

(** IEEE 754 binary64 and binary32, from the standard library's [SpecFloat]. *)
Definition whole (prec emax : Z) (n : nat) : spec_float := binary_normalize prec emax (Z.of_nat n) 0 false.
Definition double : real :=
  {| num := spec_float; of_nat := whole 53 1024;
     add := SFadd 53 1024; sub := SFsub 53 1024; mul := SFmul 53 1024; div := SFdiv 53 1024; sqrt := SFsqrt 53 1024;
     lt := SFltb; infinity := S754_infinity false;
     fmin := fun x y => if SFltb y x then y else x; fmax := fun x y => if SFltb x y then y else x |}.
Definition widened (x : spec_float) : spec_float :=
  match x with S754_finite s m e => binary_normalize 53 1024 (if s then Z.neg m else Z.pos m) e s | _ => x end.
Definition float : cell double :=
  @Build_cell double spec_float widened (SFadd 24 128) (fun x n => SFdiv 24 128 x (whole 24 128 n)) (S754_zero false).

(** Rounds of the inner loop that only extend the chain. *)
Fixpoint rounds (R : real) (k : nat) (s : ward_state R) : option (ward_state R) :=
  match k with
  | 0 => Some s
  | S k' =>
      match w_chain s with
      | current :: rest =>
          match neighbour R s current with
          | Some (nn, dd) =>
              match rest with
              | second :: _ => if second =? nn then None else rounds R k' (pushed R s current nn dd)
              | [] => rounds R k' (pushed R s current nn dd)
              end
          | None => None
          end
      | [] => None
      end
  end.
Lemma rounds_grow R k : forall fuel s s', rounds R k s = Some s' -> grow R (k + fuel) s = grow R fuel s'.
Proof.
  induction k as [|k IH]; intros fuel s s' H; [now injection H as ->|]. cbn [Nat.add]. rewrite grow_unfold. cbn [rounds] in H.
  destruct (w_chain s) as [|c rest]; [discriminate|]. destruct (neighbour R s c) as [(nn & dd)|]; [|discriminate].
  destruct rest as [|u rest]; auto. destruct (u =? nn); [discriminate|auto].
Qed.
(** A cycle of neighbours keeps the loop running. *)
Lemma cycle_grow R (g : nat -> nat) (nodes : list nat) :
  (forall y, In y nodes -> In (g y) nodes /\ g (g y) <> y) ->
  forall fuel s u rest, In u nodes -> w_chain s = g u :: u :: rest ->
  (forall y, In y nodes -> exists d, w_cache s y = Some (g y, d)) -> grow R fuel s = None.
Proof.
  intros G. induction fuel as [|fuel IH]; intros s u rest HU EC HC; [reflexivity|]. rewrite grow_unfold, EC.
  destruct (G u HU) as (HG & NG). destruct (HC (g u) HG) as (d & EN). unfold neighbour. rewrite EN.
  replace (u =? g (g u)) with false by (symmetry; apply Nat.eqb_neq; congruence).
  apply (IH _ (g u) (u :: rest)); auto; [cbn [pushed w_chain]; now rewrite EC|].
  intros y HY. destruct (HC y HY) as (d' & E). exists d'. cbn [pushed w_cache]. unfold set1. destruct (y =? g u) eqn:Q; auto.
  apply Nat.eqb_eq in Q. subst y. congruence.
Qed.
Definition check_cycle (R : real) (s : ward_state R) (nodes : list nat) : bool :=
  let g := fun y => match w_cache s y with Some (z, _) => z | None => 0 end in
  forallb (fun y => mem (g y) nodes && negb (g (g y) =? y) && match w_cache s y with Some _ => true | None => false end) nodes &&
  match w_chain s with x :: u :: _ => mem u nodes && (x =? g u) | _ => false end.
Lemma check_grow R fuel s nodes : check_cycle R s nodes = true -> grow R fuel s = None.
Proof.
  unfold check_cycle. set (g := fun y => match w_cache s y with Some (z, _) => z | None => 0 end). rewrite Bool.andb_true_iff, forallb_forall.
  intros (A & B). destruct (w_chain s) as [|x [|u rest]] eqn:EC; try discriminate. apply Bool.andb_true_iff in B. destruct B as (B1 & B2).
  apply Nat.eqb_eq in B2. subst x.
  assert (MI : forall x l, mem x l = true -> In x l).
  { intros x l H. apply existsb_exists in H. destruct H as (y & H & E). apply Nat.eqb_eq in E. now subst y. }
  apply (cycle_grow R g nodes) with (u := u) (rest := rest); auto.
  - intros y H. specialize (A y H). rewrite !Bool.andb_true_iff in A. destruct A as ((A1 & A2) & _). split; auto. apply Nat.eqb_neq. now apply Bool.negb_true_iff.
  - intros y H. specialize (A y H). rewrite !Bool.andb_true_iff in A. destruct A as (_ & A3). unfold g. destruct (w_cache s y) as [(z & d)|]; [eauto|discriminate].
Qed.
(** After [a] merges and [k] further rounds the loop is in a cycle. *)
Definition stuck (R : real) (distances : list (num R)) (n a k f : nat) (nodes : list nat) : bool :=
  match merge_loop R f a (ward_start R distances n) with
  | Some (Ok s) =>
      match rounds R k (match w_chain s with
                        | [] => {| w_dist := w_dist s; w_size := w_size s; w_active := w_active s; w_cache := w_cache s; w_next := w_next s;
                                   w_chain := firstn 1 (w_active s); w_rows := w_rows s |}
                        | _ => s end) with
      | Some s' => check_cycle R s' nodes
      | None => false
      end
  | _ => false
  end.
Lemma loop_split R fuel a : forall b s s', merge_loop R fuel a s = Some (Ok s') -> merge_loop R fuel (a + b) s = merge_loop R fuel b s'.
Proof.
  induction a as [|a IH]; intros b s s' H; cbn in *; [now injection H as ->|]. destruct (merge_step R fuel s) as [[s1| |]|]; try discriminate. auto.
Qed.
Lemma stuck_ward R distances n a k f nodes : stuck R distances n a k f nodes = true -> a + 1 <= n - 1 ->
  forall fuel, linkage_ward R fuel distances n = None.
Proof.
  intros ST LA fuel. unfold stuck in ST. destruct (merge_loop R f a _) as [[s| |]|] eqn:EM; try discriminate.
  destruct (rounds R k _) as [s'|] eqn:ER; [|discriminate].
  assert (BIG : forall more, linkage_ward R (f + k + more) distances n = None).
  { intros more. unfold linkage_ward. replace (n - 1) with (a + S (n - 1 - a - 1)) by lia.
    rewrite (loop_split R _ a _ _ s) by (rewrite <- Nat.add_assoc; now apply loop_more). cbn [merge_loop].
    assert (E : merge_step R (f + k + more) s = None).
    { unfold merge_step. replace (f + k + more) with (k + (f + more)) by lia. destruct (w_chain s) as [|c ch] eqn:EC.
      - destruct (w_active s) as [|x act] eqn:EA; cbn [firstn] in ER.
        + exfalso. destruct k; cbn in ER; [injection ER as <-; unfold check_cycle in ST; cbn in ST; now rewrite Bool.andb_false_r in ST|discriminate].
        + rewrite (rounds_grow R k _ _ _ ER). now apply (check_grow R _ _ nodes).
      - rewrite (rounds_grow R k _ _ _ ER). now apply (check_grow R _ _ nodes). }
    now rewrite E. }
  destruct (linkage_ward R fuel distances n) as [r|] eqn:E; auto.
  apply (ward_more R fuel (f + k)) in E. replace (fuel + (f + k)) with (f + k + fuel) in E by lia. rewrite BIG in E. discriminate.
Qed.

(** Eleven tokens: multiples of the sum of a common and of a private unit vector. *)
Definition scales : list nat := [874; 484; 514; 58; 394; 161; 773; 366; 109; 579; 483].
Definition token (i : nat) (scale : nat) : list spec_float :=
  whole 24 128 scale :: map (fun j => if j =? i then whole 24 128 scale else S754_zero false) (seq 0 11).
Definition tokens : list (list spec_float) := map (fun p => token (fst p) (snd p)) (combine (seq 0 11) scales).
Definition token_distances : list spec_float := pdist double (map (map (widen float)) tokens).
Lemma tokens_stuck fuel : linkage_ward double fuel token_distances 11 = None.
Proof. apply (stuck_ward double token_distances 11 7 10 60 [8; 11; 17]); [vm_compute; reflexivity|lia]. Qed.
(** A protected first row and the eleven tokens, pool factor 2. *)
Definition endless : list (list spec_float) := token 0 1 :: tokens.
Lemma endless_pool fuel : pool double float fuel 12 endless 2 1 = None.
Proof.
  unfold pool. replace (length endless) with 12 by reflexivity. cbn [Nat.leb Nat.add Nat.sub Nat.eqb].
  change (Nat.max (11 / 2) 1) with 5. cbn [Nat.leb]. unfold endless. cbn [skipn].
  unfold linkage. cbn [Nat.leb]. 
  replace (length (pdist double (map (map (widen float)) tokens)) =? 11 * (11 - 1) / 2) with true by (vm_compute; reflexivity). cbn [negb].
  change (pdist double (map (map (widen float)) tokens)) with token_distances. now rewrite tokens_stuck.
Qed.
(** An infinite component: the distances to its token are not numbers, no neighbour is found. *)
Definition spoiled : list (list spec_float) := [[whole 24 128 1]; [S754_infinity false]; [whole 24 128 1]; [whole 24 128 1]].
Definition spoiled_distances : list (num double) := pdist double (map (map (widen float)) (skipn 1 spoiled)).
Definition panics {A} (r : option (res A)) : bool := match r with Some Panic => true | _ => false end.
Lemma panics_true {A} (r : option (res A)) : panics r = true -> r = Some Panic.
Proof. destruct r as [[| |]|]; try discriminate. reflexivity. Qed.
Lemma spoiled_stuck : linkage_ward double 1 spoiled_distances 3 = Some Panic.
Proof. apply panics_true. vm_compute. reflexivity. Qed.
Lemma spoiled_length : (length spoiled_distances =? 3 * (3 - 1) / 2) = true.
Proof. vm_compute. reflexivity. Qed.
Lemma spoiled_pool fuel : pool double float (S fuel) 1 spoiled 2 1 = Some Panic.
Proof.
  unfold pool. change (length spoiled) with 4. cbn [Nat.leb Nat.add Nat.sub Nat.eqb].
  change (Nat.max (3 / 2) 1) with 1. cbn [Nat.leb].
  assert (E : linkage double (S fuel) spoiled_distances 3 Ward = Some Panic).
  { unfold linkage. cbn [Nat.leb]. rewrite spoiled_length. exact (ward_more double 1 fuel _ _ _ spoiled_stuck). }
  change (pdist double (map (map (widen float)) (skipn 1 spoiled))) with spoiled_distances. now rewrite E.
Qed.
(** Two pairs of different tokens and four equal ones: the pairs are joined in the order of the chain. *)
Definition row3 (a b c : nat) : list spec_float := map (whole 24 128) [a; b; c].
Definition mixed : list (list spec_float) :=
  [row3 1 1 1; row3 4 1 0; row3 4 2 0; row3 0 0 1; row3 0 0 1; row3 0 0 1; row3 0 0 1].
