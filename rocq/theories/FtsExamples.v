(** An arithmetic meeting the hypotheses of the ranking theorems: rational numbers with two
    infinities, in reduced form. *)
From Coq Require Import QArith Qreduction.
From Verif Require Import Base FtsRank FtsRankSpec.

Open Scope nat_scope.

Inductive xq := NInf | Fin (q : Q) | PInf.
Definition lift (op : Q -> Q -> Q) (x y : xq) : xq :=
  match x, y with Fin a, Fin b => Fin (Qred (op a b)) | _, _ => PInf end.
Definition xcmp (x y : xq) : comparison :=
  match x, y with
  | NInf, NInf => Eq | NInf, _ => Lt | _, NInf => Gt
  | PInf, PInf => Eq | PInf, _ => Gt | _, PInf => Lt
  | Fin a, Fin b => Qcompare a b
  end.
Definition qarith : arith := {|
  num := xq;
  f_add := lift Qplus; f_sub := lift Qminus; f_mul := lift Qmult; f_div := lift Qdiv;
  f_min := fun x y => match xcmp y x with Lt => y | _ => x end;
  f_max := fun x y => match xcmp x y with Lt => y | _ => x end;
  f_of := fun n => Fin (inject_Z (Z.of_nat n)); f_0 := Fin 0; f_1 := Fin 1; f_inf := PInf; f_ninf := NInf;
  f_cmp := fun x y => Some (xcmp x y) |}.

Lemma xcmp_refl x : xcmp x x = Eq.
Proof. destruct x; cbn; auto. apply Qeq_alt. reflexivity. Qed.
Lemma xcmp_opp x y : xcmp y x = CompOpp (xcmp x y).
Proof. destruct x, y; cbn; auto. symmetry. apply Qcompare_antisym. Qed.
Lemma q_number x : is_number qarith x.
Proof. unfold is_number. cbn. rewrite xcmp_refl. reflexivity. Qed.
Lemma q_not_above x y : not_above qarith x y <-> xcmp x y <> Gt.
Proof.
  unfold not_above. cbn. destruct (xcmp x y); split; intro H; try discriminate; auto.
  - destruct H; discriminate.
  - exfalso. apply H. reflexivity.
Qed.
Lemma q_good : good_order qarith.
Proof.
  constructor.
  - intros x y _ _. rewrite !q_not_above, (xcmp_opp x y). destruct (xcmp x y); cbn; [left|left|right]; intro; discriminate.
  - intros x y _ _. cbn. rewrite (xcmp_opp x y). destruct (xcmp x y); cbn; split; congruence.
  - intros x y H. cbn in *. rewrite xcmp_opp. injection H as ->. reflexivity.
  - intros x y z _ _ _. rewrite !q_not_above. destruct x as [|a|], y as [|b|], z as [|c|]; cbn; try congruence.
    intros H1 H2. apply Qle_alt in H1, H2. apply Qle_alt. eapply Qle_trans; eauto.
Qed.
Lemma q_minmax : good_minmax qarith.
Proof.
  constructor.
  - intros x y _ _. cbn [f_min qarith]. rewrite !q_not_above, (xcmp_opp x y). destruct (xcmp x y); cbn; [left|left|right]; split; auto; intro; discriminate.
  - intros x y _ _. cbn [f_max qarith]. rewrite !q_not_above, (xcmp_opp x y). destruct (xcmp x y); cbn; [left|right|left]; split; auto; intro; discriminate.
  - intros [|q|] _; reflexivity.
  - intros [|q|] _; reflexivity.
Qed.

Definition q_rank (r : nat) : Q := Qred (Qplus (Qred (Qplus (inject_Z 60) (inject_Z (Z.of_nat r)))) 1).
Lemma q_rank_val r : q_rank r == inject_Z (61 + Z.of_nat r).
Proof.
  unfold q_rank. rewrite !Qred_correct, <- inject_Z_plus. change 1%Q with (inject_Z 1). rewrite <- inject_Z_plus.
  replace (60 + Z.of_nat r + 1)%Z with (61 + Z.of_nat r)%Z by lia. reflexivity.
Qed.
Lemma q_rank_pos r : (0 < q_rank r)%Q.
Proof. rewrite q_rank_val. change 0%Q with (inject_Z 0). rewrite <- Zlt_Qlt. lia. Qed.
Lemma q_div_rank w r : f_div qarith (Fin w) (f_add qarith (f_add qarith (f_of qarith 60) (f_of qarith r)) (f_1 qarith)) = Fin (Qred (w / q_rank r)).
Proof. reflexivity. Qed.
Lemma q_rrf n : rrf_arith qarith n.
Proof.
  constructor; try reflexivity.
  - intros r _. change (f_1 qarith) with (Fin 1). rewrite q_div_rank. cbv zeta. set (x := Qred (1 / q_rank r)).
    assert (R : Qred x = x) by (unfold x; apply Qred_complete, Qred_correct).
    split; [|split; [|split]].
    + change (Fin (Qred (0 + x)) = Fin x). f_equal. transitivity (Qred x); [|exact R]. apply Qred_complete. apply Qplus_0_l.
    + change (Fin (Qred (x + 0)) = Fin x). f_equal. transitivity (Qred x); [|exact R]. apply Qred_complete. apply Qplus_0_r.
    + cbn [f_cmp qarith xcmp f_0]. f_equal. apply -> Qlt_alt. unfold x. rewrite Qred_correct. unfold Qdiv. rewrite Qmult_1_l. apply Qinv_lt_0_compat, q_rank_pos.
    + apply q_number.
  - intros r r' H. change (f_1 qarith) with (Fin 1). rewrite !q_div_rank. cbn [f_cmp qarith xcmp]. f_equal. apply -> Qlt_alt.
    rewrite !Qred_correct. unfold Qdiv. rewrite !Qmult_1_l.
    apply (Qmult_lt_r _ _ (q_rank r)); [apply q_rank_pos|].
    rewrite (Qmult_comm (/ q_rank r)), Qmult_inv_r by (apply Qnot_eq_sym, Qlt_not_eq, q_rank_pos).
    apply (Qmult_lt_r _ _ (q_rank r')); [apply q_rank_pos|].
    rewrite Qmult_1_l, <- Qmult_assoc, (Qmult_comm (q_rank r)), Qmult_assoc, (Qmult_comm (/ q_rank r')), Qmult_inv_r, Qmult_1_l by (apply Qnot_eq_sym, Qlt_not_eq, q_rank_pos).
    rewrite !q_rank_val, <- Zlt_Qlt. lia.
Qed.
(** sorting by score as SQLite's ORDER BY score DESC *)
Definition q_order (l : list (Z * xq)) : list (Z * xq) := isort (desc qarith) l.
