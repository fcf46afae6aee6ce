(** C109: which documents the centroids are computed from, and how many there are. *)
From Coq Require Import SpecFloat.
From Verif Require Import Base F32 CodecModel CodecSpec IndexModel IndexSpec KMeans KMeansSpec KMeansProofs.
Open Scope nat_scope.
Open Scope list_scope.

Lemma chosen_length docs n chosen : sample_of docs n chosen -> length chosen = n.
Proof. intros (ids & _ & L & F). rewrite <- L. symmetry. apply (same_length _ _ _ F). Qed.
(** C109. The centroids come from the tokens of the documents of a sample, each document at most once and whole;
    there is at least one and no more than those tokens; their number is the one asked for or a power of two. *)
Theorem C109_centroids :
  forall O shuffle train cols norm divide g docs D dim cents, good_shuffle shuffle -> good_train train -> cols = D -> Forall (fun r => length r = D) (concat docs) ->
  compute_kmeans O shuffle train cols norm divide g docs = Ok (dim, cents) ->
  exists chosen raw t, sample_of docs (Nat.min (match k_samples g with Some s => s | None => sample_size O (length docs) end) (length docs)) chosen
  /\ train t (concat chosen) = Ok raw /\ t_k t = length cents /\ t_iters t = k_niters g /\ t_seed t = k_seed g /\ t_max_points t = k_max_points g
  /\ Forall2 (fun r c => Forall2 (fun x y => y = divide x (norm r)) r c) raw cents
  /\ dim = D /\ 1 <= length cents <= length (concat chosen) /\ Forall (fun r => length r = D) cents
  /\ (forall k, k_partitions g = Some k -> length cents = Nat.min k (length (concat chosen)))
  /\ (k_partitions g = None -> exists j, length cents = Nat.min (2 ^ j) (length (concat chosen))
       /\ (exact_partitions O -> 2 ^ j * 2 ^ j * length chosen <= 256 * length (concat chosen) * length docs < 2 ^ (j + 1) * 2 ^ (j + 1) * length chosen)).
Proof.
  intros O shuffle train cols norm divide g docs D dim cents G T E H R. assert (N : docs <> []) by (intros ->; discriminate R).
  destruct (kmeans_is O shuffle train cols norm divide g docs D G E H N) as (chosen & S & K). cbv zeta in K. rewrite K in R. clear K.
  set (k := Nat.min _ (length (concat chosen))) in R. destruct (k =? 0) eqn:Z; [discriminate R|]. apply Nat.eqb_neq in Z.
  set (t := {| t_k := k; t_iters := k_niters g; t_seed := k_seed g; t_max_points := k_max_points g |}) in R. destruct (train t (concat chosen)) as [raw| |] eqn:X; try discriminate R. injection R as <- <-.
  destruct (T t (concat chosen) D (sample_rows _ _ _ _ S H)) with (c := raw) as (L & W); [cbn [t_k t]; unfold k; lia|exact X|].
  exists chosen, raw, t. cbn [t_k t] in L. rewrite map_length, L. repeat match goal with |- _ /\ _ => split end; try reflexivity; try assumption; try lia.
  - clear. induction raw as [|r raw IH]; [constructor|]. cbn [map]. constructor; [|exact IH]. unfold normalised. generalize (norm r). intro n. induction r as [|x r IHr]; [constructor|]. cbn [map]. constructor; [reflexivity|exact IHr].
  - rewrite Forall_forall in *. intros r I. apply in_map_iff in I. destruct I as (s & <- & I). unfold normalised. rewrite map_length. apply W. exact I.
  - intros k' Ek. unfold k. rewrite Ek. reflexivity.
  - intro Ek. unfold k. rewrite Ek. unfold partitions at 1. eexists. split; [reflexivity|]. intro Ex.
    destruct (Nat.eq_dec (length (concat chosen)) 0) as [Q|Q]; [unfold k in Z; lia|]. assert (1 <= length chosen) by (destruct chosen; [cbn in Q; lia|cbn [length]; lia]).
    assert (length chosen <= length docs) by (rewrite (chosen_length _ _ _ S); lia).
    destruct (Ex (length (concat chosen)) (length chosen) (length docs)) as (j & Ej & B); [lia|lia|]. unfold partitions in Ej. apply Nat.pow_inj_r in Ej; [|lia]. rewrite Ej. exact B.
Qed.
Print Assumptions C109_centroids.
(** C109. With tokens in every document, a sample and a number that are not nothing, the centroids are computed. *)
Theorem C109_succeeds :
  forall O shuffle train cols norm divide g docs D, good_shuffle shuffle -> cols = D -> Forall (fun r => length r = D) (concat docs) ->
  (forall t rows, Forall (fun r => length r = D) rows -> 1 <= t_k t <= length rows -> exists c, train t rows = Ok c) ->
  docs <> [] -> Forall (fun d => d <> []) docs -> k_partitions g <> Some 0 -> k_samples g <> Some 0 -> (k_samples g = None -> 1 <= sample_size O (length docs)) ->
  exists cents, compute_kmeans O shuffle train cols norm divide g docs = Ok (D, cents).
Proof.
  intros O shuffle train cols norm divide g docs D G E H T N Ne P S0 S1.
  destruct (kmeans_is O shuffle train cols norm divide g docs D G E H N) as (chosen & S & K). cbv zeta in K. rewrite K. clear K.
  assert (L : 1 <= length chosen). { rewrite (chosen_length _ _ _ S). destruct docs as [|d docs]; [congruence|]. cbn [length] in *. destruct (k_samples g) as [[|s]|]; [congruence|lia|specialize (S1 eq_refl); lia]. }
  assert (Q : 1 <= length (concat chosen)).
  { destruct S as (ids & _ & _ & F). destruct F as [|i d ids chosen X F]; [cbn in L; lia|]. apply nth_error_In in X. rewrite Forall_forall in Ne. specialize (Ne d X). destruct d; [congruence|]. cbn [concat app length]. lia. }
  set (k := Nat.min _ (length (concat chosen))). assert (K : 1 <= k <= length (concat chosen)).
  { unfold k. split; [|lia]. apply Nat.min_glb; [|exact Q]. destruct (k_partitions g) as [[|p]|]; [congruence|lia|]. unfold partitions. assert (2 ^ d_log2_floor O (d_mul O (d_of O 16) (d_sqrt O (d_mul O (d_div O (d_of O (length (concat chosen))) (d_of O (length chosen))) (d_of O (length docs))))) <> 0) by (apply Nat.pow_nonzero; discriminate). lia. }
  assert (Z : (k =? 0) = false) by (apply Nat.eqb_neq; lia). rewrite Z.
  destruct (T {| t_k := k; t_iters := k_niters g; t_seed := k_seed g; t_max_points := k_max_points g |} (concat chosen)) as (c & X); [exact (sample_rows _ _ _ _ S H)|exact K|]. rewrite X. eexists. reflexivity.
Qed.
Print Assumptions C109_succeeds.
(** C109. Nothing to look at, or no centroid asked for, is an error. *)
Theorem C109_refused :
  forall O shuffle train cols norm divide g docs D, good_shuffle shuffle -> cols = D -> Forall (fun r => length r = D) (concat docs) ->
  docs = [] \/ k_samples g = Some 0 \/ k_partitions g = Some 0 \/ concat docs = [] -> compute_kmeans O shuffle train cols norm divide g docs = Err.
Proof.
  intros O shuffle train cols norm divide g docs D G E H C. destruct docs as [|d docs]; [reflexivity|].
  destruct (kmeans_is O shuffle train cols norm divide g (d :: docs) D G E H ltac:(discriminate)) as (chosen & S & K). cbv zeta in K. rewrite K. clear K.
  set (k := Nat.min _ (length (concat chosen))). assert (Z : k = 0); [|rewrite Z; reflexivity]. unfold k. destruct C as [C|[C|[C|C]]]; [discriminate C| | |].
  - rewrite C in S. pose proof (chosen_length _ _ _ S) as L. cbn [Nat.min] in L. destruct chosen; [cbn [concat length]; lia|discriminate L].
  - rewrite C. reflexivity.
  - assert (Q : Forall (fun _ : row => False) (concat chosen)) by (apply (sample_rows _ _ _ _ S); rewrite C; constructor). destruct (concat chosen); [cbn [length]; lia|inversion Q; contradiction].
Qed.
Print Assumptions C109_refused.
(** C109. It is what the theorems about the index (C04-C16) ask of the computation of centroids. *)
Theorem C109_index :
  forall O shuffle train norm divide niters max_points samples partitions D, good_shuffle shuffle -> good_train train ->
  good_kmeans D (fun seed docs => compute_kmeans O shuffle train D norm divide {| k_niters := niters; k_max_points := max_points; k_seed := seed; k_samples := samples; k_partitions := partitions |} docs).
Proof.
  intros O shuffle train norm divide ni mp sa pa D G T seed docs dim cents H R. destruct (C109_centroids _ _ _ _ _ _ _ _ D _ _ G T eq_refl H R) as (chosen & raw & t & _ & _ & _ & _ & _ & _ & _ & Ed & L & W & _).
  split; [exact Ed|split; [|exact W]]. intros ->. cbn in L. lia.
Qed.
Print Assumptions C109_index.
(** C109. The estimate is the number of centroids, if the documents are equally long and the numbers are exact. *)
Theorem C109_estimate :
  forall O shuffle train norm divide niters max_points seed docs D len dim cents, good_shuffle shuffle -> good_train train ->
  exact_partitions O -> (forall n, 1 <= n -> 1 <= sample_size O n) ->
  (forall a b c, 1 <= b -> Nat.modulo a b = 0 -> d_usize O (d_mul O (d_div O (d_of O a) (d_of O b)) (d_of O c)) = a / b * c) ->
  Forall (fun r => length r = D) (concat docs) -> Forall (fun d => length d = len) docs ->
  compute_kmeans O shuffle train D norm divide {| k_niters := niters; k_max_points := max_points; k_seed := seed; k_samples := None; k_partitions := None |} docs = Ok (dim, cents) ->
  estimate_num_partitions O docs = length cents.
Proof.
  intros O shuffle train norm divide ni mp seed docs D len dim cents G T Ex Sp Us H Eq R. assert (N : docs <> []) by (intros ->; discriminate R).
  destruct (C109_centroids _ _ _ _ _ _ _ _ D _ _ G T eq_refl H R) as (chosen & raw & t & S & _ & _ & _ & _ & _ & _ & _ & L & _ & _ & P).
  cbn [k_samples k_partitions] in *. destruct (P eq_refl) as (j & Ej & B). specialize (B Ex). rewrite Ej.
  set (n := length docs) in *. set (s := Nat.min (sample_size O n) n) in *. assert (Hn : 1 <= n) by (destruct docs; [congruence|unfold n; cbn [length]; lia]). specialize (Sp n Hn).
  assert (A : forall l : list doc, Forall (fun d => length d = len) l -> length (concat l) = len * length l).
  { induction 1 as [|d l Ed F IH]; [cbn; lia|]. cbn [concat length]. rewrite app_length, IH, Ed. lia. }
  assert (C : length (concat chosen) = len * s).
  { rewrite A; [rewrite (chosen_length _ _ _ S); reflexivity|]. destruct S as (ids & _ & _ & F). clear -F Eq. rewrite Forall_forall in *. intros d I. induction F as [|i x ids l E F IH]; [destruct I|]. destruct I as [<-|I]; [apply Eq; eapply nth_error_In; exact E|apply IH; exact I]. }
  assert (Cs : length chosen = s) by (apply (chosen_length _ _ _ S)). rewrite C, Cs in *.
  assert (Hl : 1 <= len) by (destruct len; [cbn in L; lia|lia]). assert (Hs : 1 <= s <= n) by (unfold s; lia).
  unfold estimate_num_partitions. destruct docs as [|d docs]; [congruence|]. fold n. fold s. rewrite <- concat_length, (A _ Eq). fold n.
  rewrite Us; [|lia|apply Nat.mod_mul; lia]. rewrite Nat.div_mul by lia.
  destruct (Ex (len * n) n n) as (j' & Ej' & B'); [nia|lia|]. rewrite Ej'. assert (X : j' = j); [|rewrite X; reflexivity].
  apply (pow2_unique j' j (s * n) (256 * (len * n) * (s * n))); [nia| |].
  - destruct B' as (B1 & B2). split; [|].
    + replace (2 ^ j' * 2 ^ j' * (s * n)) with (2 ^ j' * 2 ^ j' * n * s) by ring. replace (256 * (len * n) * (s * n)) with (256 * (len * n) * n * s) by ring. apply Nat.mul_le_mono_r. exact B1.
    + replace (2 ^ (j' + 1) * 2 ^ (j' + 1) * (s * n)) with (2 ^ (j' + 1) * 2 ^ (j' + 1) * n * s) by ring. replace (256 * (len * n) * (s * n)) with (256 * (len * n) * n * s) by ring. apply Nat.mul_lt_mono_pos_r; [lia|exact B2].
  - destruct B as (B1 & B2). split; [|].
    + replace (2 ^ j * 2 ^ j * (s * n)) with (2 ^ j * 2 ^ j * s * n) by ring. replace (256 * (len * n) * (s * n)) with (256 * (len * s) * n * n) by ring. apply Nat.mul_le_mono_r. exact B1.
    + replace (2 ^ (j + 1) * 2 ^ (j + 1) * (s * n)) with (2 ^ (j + 1) * 2 ^ (j + 1) * s * n) by ring. replace (256 * (len * n) * (s * n)) with (256 * (len * s) * n * n) by ring. apply Nat.mul_lt_mono_pos_r; [lia|exact B2].
Qed.
Print Assumptions C109_estimate.
(** C109. [compute_centroids_from_documents] trains on all the tokens in their order. *)
Theorem C109_from_documents :
  forall train cols docs D k given, cols = D -> Forall (fun r => length r = D) (concat docs) -> docs <> [] ->
  exists t, compute_centroids_from_documents train cols docs k given = train t (concat docs) /\ match given with Some t' => t = t' | None => t_k t = k end.
Proof.
  intros train cols docs D k given E H N. destruct docs as [|d docs]; [congruence|]. unfold compute_centroids_from_documents.
  assert (E' : ncols cols d = D). { unfold ncols. destruct d as [|r d]; [exact E|]. rewrite Forall_forall in H. apply H. left. reflexivity. }
  rewrite E', (flatten_ok cols D (d :: docs) E H). cbn [bind]. eexists. split; [reflexivity|]. destruct given; reflexivity.
Qed.
Print Assumptions C109_from_documents.

(** ** Exact numbers: a fraction, a multiple of the root of a fraction, or one more than it *)
Inductive exact := Plain (a b : nat) | Root (c a b : nat) | RootPlus (c a b : nat).
Definition exact64 : f64_ops := {|
  f64 := exact; d_of := fun n => Plain n 1;
  d_add := fun _ y => match y with Root c a b => RootPlus c a b | _ => y end;
  d_mul := fun x y => match x, y with Plain a b, Plain c d => Plain (a * c) (b * d) | Plain a _, Root c e f => Root (a * c) e f | _, _ => x end;
  d_div := fun x y => match x, y with Plain a b, Plain c d => Plain (a * d) (b * c) | _, _ => x end;
  d_sqrt := fun x => match x with Plain a b => Root 1 a b | _ => x end;
  d_min := fun x y => match x, y with RootPlus c a b, Plain n _ => Plain (Nat.min (1 + Nat.sqrt (c * c * a / b)) n) 1 | _, _ => x end;
  d_usize := fun x => match x with Plain a b => a / b | _ => 0 end;
  d_log2_floor := fun x => match x with Root c a b => Nat.log2 (c * c * a / b) / 2 | _ => 0 end |}.
Lemma exact64_partitions : exact_partitions exact64.
Proof.
  intros tokens s n Ht Hs. unfold partitions. cbn [d_of d_mul d_div d_sqrt d_log2_floor exact64]. eexists. split; [reflexivity|]. set (q := 16 * 1 * (16 * 1) * (tokens * 1 * n) / (1 * s * 1)). set (l := Nat.log2 q).
  assert (Q : q = 256 * tokens * n / s) by (unfold q; f_equal; ring). assert (Q1 : 1 <= q). { rewrite Q. apply Nat.div_le_lower_bound; [lia|]. nia. }
  assert (M : s * q <= 256 * tokens * n < s * S q). { rewrite Q. split; [apply Nat.mul_div_le; lia|apply Nat.mul_succ_div_gt; lia]. }
  destruct (Nat.log2_spec q) as (L1 & L2); [lia|]. fold l in L1, L2.
  assert (D : l = 2 * (l / 2) + l mod 2) by (apply Nat.div_mod; lia). assert (D2 : l mod 2 < 2) by (apply Nat.mod_upper_bound; lia). set (h := l / 2) in *.
  assert (P1 : 2 ^ h * 2 ^ h <= q). { rewrite <- Nat.pow_add_r. eapply Nat.le_trans; [|exact L1]. apply Nat.pow_le_mono_r; lia. }
  assert (P2 : S q <= 2 ^ (h + 1) * 2 ^ (h + 1)). { rewrite <- Nat.pow_add_r. eapply Nat.le_trans; [exact L2|]. apply Nat.pow_le_mono_r; lia. }
  split; nia.
Qed.
(** ** The numbers of the machine *)
Definition z64 (z : Z) : spec_float := binary_normalize 53 1024 z 0 false.
Definition to_nat64 (x : spec_float) : nat :=
  match x with S754_finite false m e => Z.to_nat (if (0 <=? e)%Z then (Z.pos m * 2 ^ e)%Z else (Z.pos m / 2 ^ (- e))%Z) | _ => 0 end.
Definition machine64 : f64_ops := {|
  f64 := spec_float; d_of := fun n => z64 (Z.of_nat n);
  d_add := SFadd 53 1024; d_mul := SFmul 53 1024; d_div := SFdiv 53 1024; d_sqrt := SFsqrt 53 1024;
  d_min := fun x y => if SFltb y x then y else x;
  d_usize := to_nat64;
  d_log2_floor := fun x => match x with S754_finite false m e => Z.to_nat (Z.log2 (Z.pos m) + e) | _ => 0 end |}.
(** a training that takes the first tokens, and a shuffle that leaves all as it is *)
Definition first_tokens (t : training) (rows : list row) : res (list row) := Ok (firstn (t_k t) rows).
Lemma first_tokens_good : good_train first_tokens.
Proof.
  intros t rows D F B c E. injection E as <-. split; [rewrite firstn_length; lia|]. rewrite Forall_forall in *. intros r I. apply F. rewrite <- (firstn_skipn (t_k t)). apply in_app_iff. left. exact I.
Qed.
Definition as_it_is (s : Z) (l : list nat) : list nat := l.
Definition plain (samples parts : option nat) : kmeans_config := {| k_niters := 4; k_max_points := 256; k_seed := 42; k_samples := samples; k_partitions := parts |}.
Definition some_docs (lens : list nat) : list doc := map (fun n => repeat [1; 2]%Z n) lens.
Definition count (r : res (nat * list row)) : option nat := match r with Ok p => Some (length (snd p)) | _ => None end.
Definition try (O : f64_ops) (samples parts : option nat) (lens : list nat) : option nat :=
  count (compute_kmeans O as_it_is first_tokens 2 (fun _ => 1%Z) (fun x _ => x) (plain samples parts) (some_docs lens)).
Example C109_example :
  try machine64 None None [3; 2] = Some 5 /\ try machine64 None None [255] = Some 128 /\ try machine64 None None [256] = Some 256
  /\ try machine64 (Some 1) (Some 7) [3; 200] = Some 3 /\ try machine64 None (Some 2) [3; 2] = Some 2
  /\ estimate_num_partitions exact64 (some_docs [4; 4; 4]) = 12 /\ try exact64 None None [4; 4; 4] = Some 12
  /\ (forall n, 1 <= n -> 1 <= sample_size exact64 n) /\ good_shuffle as_it_is.
Proof.
  repeat match goal with |- _ /\ _ => split end; try (vm_compute; reflexivity).
  - intros n H. unfold sample_size. cbn [d_of d_add d_mul d_sqrt d_min d_usize exact64]. rewrite Nat.div_1_r. lia.
Qed.

(** ** What does not hold *)
(** Not true: that the estimate is the number of centroids.  Eleven documents with fifteen tokens: the average
    times eleven is less than fifteen. *)
Theorem C109_estimate_refuted :
  ~ (forall docs cents, Forall (fun r => length r = 2) (concat docs) ->
     compute_kmeans machine64 as_it_is first_tokens 2 (fun _ => 1%Z) (fun x _ => x) (plain None None) docs = Ok (2, cents) -> estimate_num_partitions machine64 docs = length cents).
Proof.
  intro H. set (docs := some_docs [5; 1; 1; 1; 1; 1; 1; 1; 1; 1; 1]). specialize (H docs (repeat [1; 2]%Z 15)).
  assert (X : estimate_num_partitions machine64 docs = 14) by (vm_compute; reflexivity). rewrite X in H. assert (Y : 14 = 15); [|discriminate Y]. apply H; [|vm_compute; reflexivity].
  repeat constructor.
Qed.
(** Not true: that documents with tokens are enough.  The sample may hold only documents without any. *)
Theorem C109_empty_sample_refuted :
  ~ (forall O shuffle train norm divide samples docs D, good_shuffle shuffle -> Forall (fun r => length r = D) (concat docs) ->
     (forall t rows, 1 <= t_k t <= length rows -> exists c, train t rows = Ok c) -> concat docs <> [] -> 1 <= samples ->
     exists cents, compute_kmeans O shuffle train D norm divide (plain (Some samples) None) docs = Ok (D, cents)).
Proof.
  intro H. destruct (H machine64 as_it_is first_tokens (fun _ => 1%Z) (fun x _ => x) 1 (some_docs [0; 3]) 2) as (c & X).
  - intros s l. apply Permutation_refl.
  - repeat constructor.
  - intros t rows _. eexists. reflexivity.
  - discriminate.
  - lia.
  - vm_compute in X. discriminate X.
Qed.
(** Not true: that documents of different widths are refused.  A document with one column is stretched. *)
Theorem C109_widths_refuted :
  ~ (forall O shuffle train norm divide g docs a b x, good_shuffle shuffle -> In a (concat docs) -> In b (concat docs) -> length a <> length b -> k_samples g = None ->
     compute_kmeans O shuffle train 2 norm divide g docs <> Ok x).
Proof.
  intro H. apply (H machine64 as_it_is first_tokens (fun _ => 1%Z) (fun x _ => x) (plain None None) [[[1; 2]%Z]; [[7%Z]]] [1; 2]%Z [7%Z] (2, [[1; 2]%Z; [7; 7]%Z])).
  - intros s l. apply Permutation_refl.
  - left. reflexivity.
  - right. left. reflexivity.
  - discriminate.
  - reflexivity.
  - vm_compute. reflexivity.
Qed.
