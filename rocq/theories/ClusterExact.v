(** Exact arithmetic: rational numbers with an infinity meet the laws. *)
From Coq Require Import QArith Lqa.
From Verif Require Import Base Cluster ClusterSpec.
Open Scope nat_scope.

Definition qnum (n : nat) : Q := inject_Z (Z.of_nat n).
Definition qlt (x y : option Q) : bool :=
  match x, y with
  | Some a, Some b => negb (Qle_bool b a)
  | Some _, None => true
  | None, _ => false
  end.
Definition lift2 (f : Q -> Q -> Q) (x y : option Q) : option Q := match x, y with Some a, Some b => Some (f a b) | _, _ => None end.
(** [None] is infinity; the square root, which only labels the rows, is left out. *)
Definition rational : real :=
  {| num := option Q; of_nat := fun n => Some (qnum n);
     add := lift2 Qplus; sub := lift2 Qminus; mul := lift2 Qmult; div := lift2 Qdiv;
     sqrt := fun x => x; lt := qlt; infinity := None;
     fmin := fun x y => if qlt y x then y else x; fmax := fun x y => if qlt x y then y else x |}.
Lemma qlt_some a b : qlt (Some a) (Some b) = true <-> (a < b)%Q.
Proof.
  cbn. rewrite Bool.negb_true_iff. split; intros H.
  - apply Qnot_le_lt. intros L. apply Qle_bool_iff in L. congruence.
  - destruct (Qle_bool b a) eqn:E; auto. apply Qle_bool_iff in E. lra.
Qed.
Lemma qle_some a b : le rational (Some a) (Some b) <-> (a <= b)%Q.
Proof.
  unfold le. change (lt rational) with qlt. split; intros H.
  - apply Qnot_lt_le. intros L. apply qlt_some in L. congruence.
  - destruct (qlt (Some b) (Some a)) eqn:E; auto. apply qlt_some in E. lra.
Qed.
Lemma rational_order : good_order rational.
Proof.
  constructor.
  - intros [x|] [y|] [z|]; cbn [lt rational]; try easy. rewrite !qlt_some. lra.
  - intros [x|] [y|] H; cbn [lt rational] in *; try easy. apply qlt_some in H. destruct (qlt (Some y) (Some x)) eqn:E; auto. apply qlt_some in E. lra.
  - intros [x|] [y|] [z|]; rewrite ?qle_some; try easy. lra.
Qed.
Lemma qnum_pos n : 1 <= n -> (0 < qnum n)%Q.
Proof. intros H. unfold qnum, Qlt. cbn. lia. Qed.
Lemma qnum_add a b : (qnum (a + b) == qnum a + qnum b)%Q.
Proof. unfold qnum. rewrite Nat2Z.inj_add, inject_Z_plus. reflexivity. Qed.
Lemma rational_reducible : reducible rational.
Proof.
  intros na nb nk [ak|] [bk|] [ab|] HA HB HK FA FB LA LB; try easy. cbn [ward rational add sub mul div of_nat lift2].
  split; [reflexivity|]. rewrite !qle_some in *.
  pose proof (qnum_pos na HA) as PA. pose proof (qnum_pos nb HB) as PB. pose proof (qnum_pos nk HK) as PK.
  set (a := qnum na) in *. set (b := qnum nb) in *. set (k := qnum nk) in *.
  assert (E1 : (qnum (na + nk) == a + k)%Q) by apply qnum_add. assert (E2 : (qnum (nb + nk) == b + k)%Q) by apply qnum_add.
  assert (E3 : (qnum (na + nb + nk) == a + b + k)%Q) by (rewrite !qnum_add; reflexivity).
  destruct (Qlt_le_dec bk ak) as [L|L]; [right|left].
  - apply Qle_shift_div_l; rewrite ?E1, ?E2, ?E3; [lra|].
    assert (H1 : (0 <= (a + k) * (ak - bk))%Q) by (apply Qmult_le_0_compat; lra).
    assert (H2 : (0 <= k * (bk - ab))%Q) by (apply Qmult_le_0_compat; lra). lra.
  - apply Qle_shift_div_l; rewrite ?E1, ?E2, ?E3; [lra|].
    assert (H1 : (0 <= (b + k) * (bk - ak))%Q) by (apply Qmult_le_0_compat; lra).
    assert (H2 : (0 <= k * (ak - ab))%Q) by (apply Qmult_le_0_compat; lra). lra.
Qed.
Lemma rational_min : good_min rational.
Proof.
  intros x y. cbn [fmin rational]. destruct (qlt y x) eqn:E; split; auto; split; auto; unfold le; cbn [lt rational].
  - destruct x as [x|], y as [y|]; try easy. apply qlt_some in E. destruct (qlt (Some x) (Some y)) eqn:E'; auto. apply qlt_some in E'. lra.
  - destruct y as [y|]; auto. destruct (qlt (Some y) (Some y)) eqn:E'; auto. apply qlt_some in E'. lra.
  - destruct x as [x|]; auto. destruct (qlt (Some x) (Some x)) eqn:E'; auto. apply qlt_some in E'. lra.
Qed.
Lemma rational_max : good_max rational.
Proof.
  intros x y. cbn [fmax rational]. destruct (qlt x y) eqn:E; split; auto; split; auto; unfold le; cbn [lt rational].
  - destruct x as [x|], y as [y|]; try easy. apply qlt_some in E. destruct (qlt (Some y) (Some x)) eqn:E'; auto. apply qlt_some in E'. lra.
  - destruct y as [y|]; auto. destruct (qlt (Some y) (Some y)) eqn:E'; auto. apply qlt_some in E'. lra.
  - destruct x as [x|]; auto. destruct (qlt (Some x) (Some x)) eqn:E'; auto. apply qlt_some in E'. lra.
Qed.
Lemma rational_average : good_mean rational (update_average rational).
Proof.
  intros [u|] [v|] dd na nb nk HA HB FU FV; try easy. unfold update_average. cbn [rational add mul div of_nat lift2]. split; [reflexivity|].
  intros [m|]; [|easy]. rewrite !qle_some. intros LU LV. pose proof (qnum_pos na HA) as PA. pose proof (qnum_pos nb HB) as PB.
  apply Qle_shift_div_l; [lra|].
  assert (H1 : (0 <= qnum na * (u - m))%Q) by (apply Qmult_le_0_compat; lra).
  assert (H2 : (0 <= qnum nb * (v - m))%Q) by (apply Qmult_le_0_compat; lra). lra.
Qed.
Lemma rational_weighted : good_mean rational (update_weighted rational).
Proof.
  intros [u|] [v|] dd na nb nk HA HB FU FV; try easy. unfold update_weighted. cbn [rational add mul div of_nat lift2]. split; [reflexivity|].
  intros [m|]; [|easy]. rewrite !qle_some. intros LU LV. apply Qle_shift_div_l; [apply qnum_pos; lia|]. change (qnum 2) with (2#1)%Q. lra.
Qed.
