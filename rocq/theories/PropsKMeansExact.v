(** C109, continued: the sizes computed from exact numbers. *)
From Verif Require Import Base F32 CodecModel CodecSpec IndexModel IndexSpec KMeans KMeansSpec KMeansProofs PropsKMeans.
Open Scope nat_scope.
Open Scope list_scope.

(** With exact arithmetic the sample is one document more than sixteen times the root of 120 times their number, rounded
    down, or all of them if that is fewer; and the number of partitions is the power of two of [exact_partitions]. *)
Theorem C109_exact_sizes :
  exact_partitions exact64
  /\ forall n, sample_size exact64 n <= n
     /\ (sample_size exact64 n - 1) * (sample_size exact64 n - 1) <= 16 * 16 * (120 * n)
     /\ (sample_size exact64 n = n \/ 16 * 16 * (120 * n) < sample_size exact64 n * sample_size exact64 n).
Proof.
  split; [exact exact64_partitions|]. intro n. assert (E : sample_size exact64 n = Nat.min (1 + Nat.sqrt (16 * 16 * (120 * n))) n).
  { unfold sample_size. cbn [d_of d_add d_mul d_sqrt d_min d_usize exact64]. rewrite !Nat.mul_1_r, !Nat.div_1_r. reflexivity. }
  rewrite E. clear E. remember (16 * 16 * (120 * n)) as N eqn:H. clear H. pose proof (Nat.sqrt_spec N (Nat.le_0_l N)) as (A & B).
  set (r := Nat.sqrt N) in *. clearbody r. split; [apply Nat.le_min_r|]. destruct (Nat.min_spec (1 + r) n) as [(L & ->)|(L & ->)].
  - replace (1 + r - 1) with r by lia. split; [exact A|right; exact B].
  - split; [|left; reflexivity]. apply Nat.le_trans with (r * r); [|exact A]. apply Nat.mul_le_mono; lia.
Qed.
Print Assumptions C109_exact_sizes.
Example C109_exact_sizes_example : sample_size exact64 12 = 12 /\ sample_size exact64 3 = 3.
Proof. split; vm_compute; reflexivity. Qed.
