(** The condensed matrix holds the entry of every pair, at the index the code computes. *)
From Verif Require Import Base Cluster.
Open Scope nat_scope.

Lemma triangle i : 2 * (i * (i + 1) / 2) = i * (i + 1).
Proof.
  assert (H : exists q, i * (i + 1) = 2 * q) by (induction i as [|i (q & E)]; [exists 0; reflexivity|exists (q + (i + 1)); nia]).
  destruct H as (q & ->). rewrite (Nat.mul_comm 2 q), Nat.div_mul by lia. lia.
Qed.
Lemma before_row {A} n (f : nat -> nat -> A) i : i <= n ->
  length (flat_map (fun i => map (fun j => f i j) (seq (S i) (n - S i))) (seq 0 i)) = n * i - i * (i + 1) / 2.
Proof.
  induction i as [|i IH]; intros L; [now rewrite Nat.mul_0_r|]. rewrite seq_S, flat_map_app, app_length, IH by lia.
  cbn [flat_map]. rewrite app_nil_r, map_length, seq_length. pose proof (triangle i). pose proof (triangle (S i)). 
  assert (i * (i + 1) / 2 <= n * i) by nia. nia.
Qed.
Lemma condensed_length {A} n (f : nat -> nat -> A) : length (condensed n f) = n * (n - 1) / 2.
Proof.
  unfold condensed. rewrite before_row by auto. destruct n as [|n]; auto. cbn [Nat.sub]. rewrite Nat.sub_0_r.
  pose proof (triangle (S n)). pose proof (triangle n). replace (S n * n) with (n * (n + 1)) by lia. nia.
Qed.
Lemma condensed_entry {A} n (f : nat -> nat -> A) i j d : i < j -> j < n -> nth (condensed_index n i j) (condensed n f) d = f i j.
Proof.
  intros LT LN. unfold condensed. replace (seq 0 n) with (seq 0 i ++ seq i (n - i)) by (rewrite <- seq_app; f_equal; lia).
  pose proof (triangle i). assert (i * (i + 1) / 2 <= n * i) by nia.
  rewrite flat_map_app, app_nth2; rewrite before_row by lia; unfold condensed_index; [|lia].
  replace (n - i) with (S (n - i - 1)) by lia. cbn [seq flat_map]. rewrite app_nth1 by (rewrite map_length, seq_length; lia).
  replace (n * i - i * (i + 1) / 2 + j - i - 1 - (n * i - i * (i + 1) / 2)) with (j - i - 1) by lia.
  rewrite (nth_indep _ d (f i 0)) by (rewrite map_length, seq_length; lia). rewrite (map_nth (fun j => f i j)), seq_nth by lia. f_equal. lia.
Qed.
Lemma condensed_range n i j : i < j -> j < n -> condensed_index n i j < n * (n - 1) / 2.
Proof.
  intros LT LN. pose proof (triangle i). pose proof (triangle (n - 1)). assert (i * (i + 1) / 2 <= n * i) by nia.
  replace (n * (n - 1)) with ((n - 1) * (n - 1 + 1)) by nia. unfold condensed_index. nia.
Qed.
