(** Proofs about the sample and the number of centroids. *)
From Verif Require Import Base F32 CodecModel IndexModel KMeans KMeansSpec.
Open Scope nat_scope.
Open Scope list_scope.

Lemma flatten_ok cols D docs : cols = D -> Forall (fun r => length r = D) (concat docs) -> flatten cols D docs = Ok (concat docs).
Proof.
  intros -> H. induction docs as [|d docs IH]; [reflexivity|]. cbn [concat] in H. apply Forall_app in H. destruct H as (H1 & H2). cbn [flatten concat]. unfold assigned.
  assert (E : ncols D d = D). { unfold ncols. destruct d as [|r d]; [reflexivity|]. inversion H1. assumption. }
  rewrite E, Nat.eqb_refl. cbn [bind]. rewrite (IH H2). reflexivity.
Qed.
Lemma concat_length {A} (l : list (list A)) : length (concat l) = list_sum (map (@length A) l).
Proof. induction l as [|x l IH]; [reflexivity|]. cbn [concat map list_sum fold_right]. rewrite app_length, IH. reflexivity. Qed.
Lemma nodup_left {A} (a b : list A) : NoDup (a ++ b) -> NoDup a.
Proof. induction a as [|x a IH]; intro N; [constructor|]. cbn [app] in N. inversion N as [|? ? N1 N2]; subst. constructor; [intro I; apply N1; apply in_app_iff; auto|apply IH; exact N2]. Qed.
Lemma chosen_ok shuffle seed docs n : good_shuffle shuffle -> n <= length docs ->
  sample_of docs n (map (fun i => nth i docs []) (firstn n (shuffle seed (seq 0 (length docs))))).
Proof.
  intros G L. set (ids := firstn n (shuffle seed (seq 0 (length docs)))). pose proof (G seed (seq 0 (length docs))) as P. exists ids.
  assert (N : NoDup (shuffle seed (seq 0 (length docs)))). { apply Permutation_NoDup with (l := seq 0 (length docs)); [apply Permutation_sym; exact P|apply seq_NoDup]. }
  split; [|split].
  - rewrite <- (firstn_skipn n (shuffle seed (seq 0 (length docs)))) in N. fold ids in N. apply nodup_left in N. exact N.
  - unfold ids. rewrite firstn_length, (Permutation_length P), seq_length. lia.
  - assert (B : forall i, In i ids -> i < length docs).
    { intros i I. assert (J : In i (seq 0 (length docs))). { apply (Permutation_in _ P). rewrite <- (firstn_skipn n). apply in_app_iff. left. exact I. } apply in_seq in J. lia. }
    clearbody ids. clear -B. induction ids as [|i ids IH]; [constructor|]. cbn [map]. constructor; [apply nth_error_nth'; apply B; left; reflexivity|apply IH; intros j J; apply B; right; exact J].
Qed.
Lemma same_length {A B} (R : A -> B -> Prop) l l' : Forall2 R l l' -> length l = length l'.
Proof. induction 1; [reflexivity|cbn [length]; f_equal; assumption]. Qed.
Lemma sample_rows docs n chosen (P : row -> Prop) : sample_of docs n chosen -> Forall P (concat docs) -> Forall P (concat chosen).
Proof.
  intros (ids & _ & _ & F) H. rewrite Forall_forall in *. intros r I. apply H. apply in_concat in I. destruct I as (d & J & K). apply in_concat. exists d. split; [|exact K].
  induction F as [|i x ids l E F IH]; [destruct J|]. destruct J as [<-|J]; [eapply nth_error_In; exact E|apply IH; exact J].
Qed.
(** All of [compute_kmeans] *)
Lemma kmeans_is O shuffle train cols norm divide g docs D : good_shuffle shuffle -> cols = D -> Forall (fun r => length r = D) (concat docs) -> docs <> [] ->
  exists chosen, sample_of docs (Nat.min (match k_samples g with Some s => s | None => sample_size O (length docs) end) (length docs)) chosen
  /\ let tokens := length (concat chosen) in
     let k := Nat.min (match k_partitions g with Some k => k | None => partitions O tokens (length chosen) (length docs) end) tokens in
     compute_kmeans O shuffle train cols norm divide g docs =
       if k =? 0 then Err else
         match train {| t_k := k; t_iters := k_niters g; t_seed := k_seed g; t_max_points := k_max_points g |} (concat chosen) with
         | Ok c => Ok (D, map (normalised norm divide) c) | Err => Err | Panic => Panic end.
Proof.
  intros G E H N. set (asked := match k_samples g with Some s => s | None => sample_size O (length docs) end). set (n := Nat.min asked (length docs)).
  pose proof (chosen_ok shuffle (k_seed g) docs n G ltac:(lia)) as S.
  exists (map (fun i => nth i docs []) (firstn n (shuffle (k_seed g) (seq 0 (length docs))))). split; [exact S|]. cbv zeta.
  assert (L : length (map (fun i => nth i docs []) (firstn n (shuffle (k_seed g) (seq 0 (length docs))))) = n).
  { destruct S as (ids & _ & L & F). transitivity (length ids); [symmetry; apply (same_length _ _ _ F)|exact L]. }
  rewrite L. unfold compute_kmeans. destruct docs as [|d docs]; [congruence|].
  assert (E' : ncols cols d = D). { unfold ncols. destruct d as [|r d]; [exact E|]. rewrite Forall_forall in H. apply H. left. reflexivity. }
  fold asked. fold n. rewrite E'. rewrite (flatten_ok cols D _ E (sample_rows _ _ _ _ S H)). cbn [bind]. rewrite <- concat_length.
  destruct (_ =? 0); [reflexivity|]. destruct (train _ _); reflexivity.
Qed.
(** The exponent is determined by the bounds *)
Lemma pow2_unique j k a b : (a > 0) -> 2 ^ j * 2 ^ j * a <= b < 2 ^ (j + 1) * 2 ^ (j + 1) * a -> 2 ^ k * 2 ^ k * a <= b < 2 ^ (k + 1) * 2 ^ (k + 1) * a -> j = k.
Proof.
  intros A (J1 & J2) (K1 & K2). assert (X : forall x y, x < y -> 2 ^ (x + 1) * 2 ^ (x + 1) * a <= 2 ^ y * 2 ^ y * a).
  { intros x y L. assert (P : 2 ^ (x + 1) <= 2 ^ y) by (apply Nat.pow_le_mono_r; lia). apply Nat.mul_le_mono_r. apply Nat.mul_le_mono; exact P. }
  destruct (lt_eq_lt_dec j k) as [[L|L]|L]; [specialize (X j k L); lia|exact L|specialize (X k j L); lia].
Qed.
