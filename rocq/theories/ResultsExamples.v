(** Whole numbers with two infinities, an order of paths and a small index: they meet the
    hypotheses of the theorems about results. *)
From Verif Require Import Base Text FtsRank FtsRankSpec FtsRankProofs FtsText Results ResultsSpec ResultsProofs.
Open Scope nat_scope.

Inductive xz := ZNeg | ZFin (z : Z) | ZPos.
Definition zlift (op : Z -> Z -> Z) (x y : xz) : xz := match x, y with ZFin a, ZFin b => ZFin (op a b) | _, _ => ZPos end.
Definition zcmp (x y : xz) : comparison :=
  match x, y with
  | ZNeg, ZNeg => Eq | ZNeg, _ => Lt | _, ZNeg => Gt
  | ZPos, ZPos => Eq | ZPos, _ => Gt | _, ZPos => Lt
  | ZFin a, ZFin b => Z.compare a b
  end.
Definition zarith : arith := {|
  num := xz;
  f_add := zlift Z.add; f_sub := zlift Z.sub; f_mul := zlift Z.mul; f_div := zlift Z.div;
  f_min := fun x y => match zcmp y x with Lt => y | _ => x end;
  f_max := fun x y => match zcmp x y with Lt => y | _ => x end;
  f_of := fun n => ZFin (Z.of_nat n); f_0 := ZFin 0; f_1 := ZFin 1; f_inf := ZPos; f_ninf := ZNeg;
  f_cmp := fun x y => Some (zcmp x y) |}.
Lemma zcmp_eq x y : zcmp x y = Eq <-> x = y.
Proof. destruct x, y; cbn; try (split; congruence). rewrite Z.compare_eq_iff. split; congruence. Qed.
Lemma zcmp_opp x y : zcmp y x = CompOpp (zcmp x y).
Proof. destruct x, y; cbn; auto. apply Z.compare_antisym. Qed.
Lemma z_number x : is_number zarith x.
Proof. unfold is_number. cbn. f_equal. apply zcmp_eq. reflexivity. Qed.
Lemma z_not_above x y : not_above zarith x y <-> zcmp x y <> Gt.
Proof.
  unfold not_above. cbn. destruct (zcmp x y); split; intro H; try discriminate; auto.
  - destruct H; discriminate.
  - exfalso. apply H. reflexivity.
Qed.
Lemma z_good : good_order zarith.
Proof.
  constructor.
  - intros x y _ _. rewrite !z_not_above, (zcmp_opp x y). destruct (zcmp x y); cbn; [left|left|right]; intro; discriminate.
  - intros x y _ _. cbn. rewrite (zcmp_opp x y). destruct (zcmp x y); cbn; split; congruence.
  - intros x y H. cbn in *. rewrite zcmp_opp. injection H as ->. reflexivity.
  - intros x y z _ _ _. rewrite !z_not_above. destruct x as [|a|], y as [|b|], z as [|c|]; cbn; try congruence.
    intros H1 H2. change (a <= c)%Z. change (a <= b)%Z in H1. change (b <= c)%Z in H2. lia.
Qed.
Lemma z_minmax : good_minmax zarith.
Proof.
  constructor.
  - intros x y _ _. cbn [f_min zarith]. rewrite !z_not_above, (zcmp_opp x y). destruct (zcmp x y); cbn; [left|left|right]; split; auto; intro; discriminate.
  - intros x y _ _. cbn [f_max zarith]. rewrite !z_not_above, (zcmp_opp x y). destruct (zcmp x y); cbn; [left|right|left]; split; auto; intro; discriminate.
  - intros [|q|] _; reflexivity.
  - intros [|q|] _; reflexivity.
Qed.
Lemma z_equal x y : f_cmp zarith x (f_0 zarith) = Some Gt -> f_cmp zarith x y = Some Eq -> x = y.
Proof. intros _ H. injection H as H. apply zcmp_eq. exact H. Qed.
Lemma z_numbers (l : list (hit zarith)) : Forall (fun h => is_number zarith (score_of zarith h)) l.
Proof. apply Forall_forall. intros h _. apply z_number. Qed.

(** paths in the order of their characters *)
Fixpoint lex (x y : text) : comparison :=
  match x, y with
  | [], [] => Eq | [], _ => Lt | _, [] => Gt
  | a :: x', b :: y' => match Z.compare a b with Eq => lex x' y' | c => c end
  end.
Lemma lex_good : good_paths lex.
Proof.
  constructor.
  - induction x as [|a x IH]; intros [|b y]; cbn; try (split; congruence).
    destruct (Z.compare_spec a b) as [E|E|E]; [rewrite IH; subst; split; congruence|split; [discriminate|]; intro K; injection K as ->; lia|split; [discriminate|]; intro K; injection K as ->; lia].
  - induction x as [|a x IH]; intros [|b y]; cbn; auto. rewrite (Z.compare_antisym a b). destruct (a ?= b)%Z; cbn; auto.
  - induction x as [|a x IH]; intros [|b y] [|c z]; cbn; try congruence.
    destruct (Z.compare_spec a b), (Z.compare_spec b c), (Z.compare_spec a c); try congruence; try lia. apply IH.
Qed.

(** no penalty; a definition named in the query gains the best score, a file twice that *)
Definition plain_tuning : tuning zarith := Build_tuning zarith
  (fun f => ZFin 1) (map to_lower1) (fun f => f) (@length Z) (fun _ => false) false
  (ZFin 1) (ZFin 2) (ZFin 1) (ZFin 1) (fun x => match x with ZFin _ => true | _ => false end) (fun l => l).
(** an index as a table of ids, scores and units; [words]: the ids and scores of the text search *)
Definition allowed (sub : option (list Z)) (i : Z) : bool := match sub with Some l => existsb (Z.eqb i) l | None => true end.
Definition pick (rows : list (Z * xz)) (k : nat) (sub : option (list Z)) : list Z * list xz :=
  let l := firstn k (filter (fun p => allowed sub (fst p)) rows) in (map fst l, map snd l).
Definition table (rows : list (Z * (xz * option cunit))) (words : list (Z * xz)) : backend zarith := Build_backend zarith
  (length rows)
  (fun _ k sub => Ok (pick (map (fun r => (fst r, fst (snd r))) rows) k sub))
  (fun _ k sub => Ok (pick words k sub))
  (fun i => match find (fun r => Z.eqb i (fst r)) rows with Some r => Some (snd (snd r)) | None => None end).
Lemma nodup_first {X} (l : list X) k : NoDup l -> NoDup (firstn k l).
Proof. intro N. revert k. induction N as [|x l H N IH]; intros [|k]; cbn; constructor; auto. intro K. apply H. rewrite <- (firstn_skipn k l). apply in_or_app. left. exact K. Qed.
Lemma nodup_filter (f : Z * xz -> bool) l : NoDup (map fst l) -> NoDup (map fst (filter f l)).
Proof.
  induction l as [|p l IH]; cbn; [auto|]. intro N. inversion N as [|? ? H N']; subst. destruct (f p); cbn; [constructor|]; auto.
  intro K. apply H. apply in_map_iff in K. destruct K as (y & <- & Hy). apply filter_In in Hy. apply in_map. apply Hy.
Qed.
Lemma pick_good rows k sub : NoDup (map fst rows) -> good_hits zarith k sub (pick rows k sub).
Proof.
  intro N. unfold good_hits, pick. cbn [fst snd]. rewrite !map_length. split; [reflexivity|]. split; [rewrite <- firstn_map; apply nodup_first, nodup_filter, N|].
  split; [apply firstn_le_length|]. destruct sub as [l|]; [|exact Logic.I]. intros i Hi. apply in_map_iff in Hi. destruct Hi as (p & <- & Hp).
  assert (K : In p (filter (fun p => allowed (Some l) (fst p)) rows)) by (rewrite <- (firstn_skipn k (filter _ rows)); apply in_or_app; left; exact Hp).
  apply filter_In in K. apply zmem_in. apply K.
Qed.
Lemma table_good rows words : NoDup (map fst rows) -> NoDup (map fst words) -> good_backend zarith (table rows words).
Proof.
  intros N1 N2. split; intros q k sub r H; cbn in H; injection H as <-; apply pick_good; [rewrite map_map; exact N1|exact N2].
Qed.
Lemma plain_boosts : good_boosts zarith plain_tuning.
Proof.
  assert (NN : forall x, nonneg zarith x <-> match x with ZNeg => False | ZFin z => (0 <= z)%Z | ZPos => True end).
  { intro x. unfold nonneg. rewrite z_not_above. destruct x as [|z|]; cbn; (split; [intros (_ & H)|intro H; split; [apply z_number|]]); try congruence; try tauto.
    - change (0 <= z)%Z in H. exact H. }
  split.
  - apply z_number.
  - intros x y Hx Hy. apply NN in Hx, Hy. split; [apply NN|apply z_not_above]; destruct x as [|x|], y as [|y|]; cbn in *; try tauto; try congruence; try lia.
    change (x <= x + y)%Z. lia.
  - intros m f Hf Fm Hm. apply NN in Hm. destruct m as [|m|]; try discriminate. cbn in Hf. destruct Hf as [<-|[<-|[<-|[<-|[]]]]]; (split; [apply NN; cbn in *; lia|reflexivity]).
  - intros x y Hx Hy Fy. apply NN in Hx. apply z_not_above in Hy. destruct x as [|x|], y as [|y|]; cbn in *; try tauto; try congruence.
  - intros u s t Hu Fu Hs Fs Ht Ft. apply NN in Hu, Hs. destruct u as [|u|], s as [|s|], t as [|t|]; try discriminate. apply NN. cbn in *.
    injection Ht as Ht. apply Z.compare_gt_iff in Ht. apply Z.div_pos; nia.
  - intros x f Hx. apply NN in Hx. apply NN. destruct x as [|x|]; cbn in *; try tauto. lia.
Qed.
