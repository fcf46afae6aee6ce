(** Proofs about padding, masks and quantiles. *)
From Coq Require Import QArith Qround Qabs Lqa.
From Verif Require Import Base Utils.
Open Scope nat_scope.

(** ** Padding *)
Section PAD.
  Variable A : Type.
  Variable pad : A.
  Lemma row_take dim (r : list A) : length r = dim -> mapM (idx r) (seq 0 dim) = Ok r.
  Proof.
    intros <-. rewrite (mapM_Ok_map _ (fun i => nth i r pad)).
    - f_equal. apply nth_ext with (d := pad) (d' := pad); [rewrite map_length, seq_length; auto|]. intros i Hi. rewrite map_length, seq_length in Hi.
      rewrite (nth_indep _ pad (nth 0 r pad)) by (rewrite map_length, seq_length; auto). change (nth 0 r pad) with ((fun i => nth i r pad) 0). rewrite map_nth, seq_nth by auto. reflexivity.
    - intros i Hi. apply in_seq in Hi. apply idx_nth. lia.
  Qed.
  Lemma upd_app (B : Type) (l1 : list B) x v l2 : upd (l1 ++ x :: l2) (length l1) v = l1 ++ v :: l2.
  Proof. induction l1 as [|y l IH]; intros; cbn; auto. f_equal. apply IH. Qed.
  Lemma put_rows_ok dim : forall (rs pre old post : list (list A)), Forall (fun r => length r = dim) rs -> length old = length rs ->
    put_rows dim (pre ++ old ++ post) (length pre) rs = Ok (pre ++ rs ++ post).
  Proof.
    induction rs as [|r rs IH]; intros pre old post F L; destruct old as [|o old]; try discriminate; [reflexivity|].
    inversion F as [|? ? F1 F2]; subst. cbn [put_rows]. unfold put_row. rewrite row_take by auto. cbn [bind].
    replace (length pre <? length (pre ++ (o :: old) ++ post)) with true by (symmetry; apply Nat.ltb_lt; rewrite !app_length; cbn; lia).
    cbn [app bind]. rewrite upd_app. replace (pre ++ r :: old ++ post) with ((pre ++ [r]) ++ old ++ post) by (rewrite <- app_assoc; reflexivity).
    replace (S (length pre)) with (length (pre ++ [r])) by (rewrite app_length; cbn; lia). rewrite IH by (auto; cbn in L; lia). rewrite <- app_assoc. reflexivity.
  Qed.
  Definition block (dim max_len : nat) (d : array2 A) : list (list A) := snd d ++ repeat (repeat pad dim) (max_len - length (snd d)).
  Lemma put_docs_ok dim max_len : forall docs pre i, Forall (fun d => Forall (fun r => length r = dim) (snd d) /\ length (snd d) <= max_len) docs ->
    length pre = i * max_len ->
    put_docs dim max_len (pre ++ repeat (repeat pad dim) (length docs * max_len)) i docs = Ok (pre ++ concat (map (block dim max_len) docs)).
  Proof.
    induction docs as [|d docs IH]; intros pre i F L; [reflexivity|]. inversion F as [|? ? (F1 & F2) F3]; subst. cbn [put_docs length].
    replace (S (length docs) * max_len) with (length (snd d) + ((max_len - length (snd d)) + length docs * max_len)) by lia.
    rewrite !repeat_app, <- L. rewrite put_rows_ok by (rewrite ?repeat_length; auto). cbn [bind]. rewrite !app_assoc.
    rewrite IH; auto.
    - cbn [map concat]. unfold block at 2. rewrite <- !app_assoc. reflexivity.
    - rewrite !app_length, repeat_length. lia.
  Qed.
  Lemma fold_max_ge l x : In x l -> x <= fold_right Nat.max 0 l.
  Proof. induction l as [|y l IH]; intros []; cbn; [subst; lia|]. specialize (IH H). lia. Qed.
  Lemma pad_ok dim (docs : list (array2 A)) : docs <> [] -> Forall (fun d : array2 A => fst d = dim /\ Forall (fun r => length r = dim) (snd d)) docs ->
    let max_len := fold_right Nat.max 0 (map (fun d : array2 A => length (snd d)) docs) in
    pad_sequences pad docs = Ok ((dim, concat (map (block dim max_len) docs)), map (fun d : array2 A => Z.of_nat (length (snd d))) docs).
  Proof.
    intros N F max_len. unfold pad_sequences. destruct docs as [|d0 docs]; [contradiction|]. assert (fst d0 = dim) as -> by (inversion F; tauto).
    pose proof (put_docs_ok dim max_len (d0 :: docs) [] 0) as P. cbn [app] in P. cbv zeta.
    refine (f_equal (fun r => bind r (fun m => Ok (dim, m, map (fun d : array2 A => Z.of_nat (length (snd d))) (d0 :: docs)))) (P _ eq_refl)).
    rewrite Forall_forall in *. intros d Hd. split; [apply F; auto|]. apply fold_max_ge. apply (in_map (fun d : array2 A => length (snd d))). auto.
  Qed.
  (** row [i * max_len + j] of the padded array *)
  Lemma block_rows dim max_len : forall docs i j d, Forall (fun d : array2 A => length (snd d) <= max_len) docs -> nth_error docs i = Some d -> j < max_len ->
    nth_error (concat (map (block dim max_len) docs)) (i * max_len + j) = Some (nth j (snd d) (repeat pad dim)).
  Proof.
    induction docs as [|d0 docs IH]; intros i j d F H Hj; [destruct i; discriminate|]. inversion F as [|? ? F1 F2]; subst. cbn [map concat].
    assert (Lb : length (block dim max_len d0) = max_len) by (unfold block; rewrite app_length, repeat_length; lia).
    destruct i as [|i].
    - injection H as ->. cbn [Nat.mul plus]. rewrite nth_error_app1 by lia. unfold block. destruct (Nat.ltb_spec j (length (snd d))) as [L|L].
      + rewrite nth_error_app1 by auto. apply nth_error_nth'. auto.
      + rewrite nth_error_app2 by auto. rewrite nth_overflow by auto. rewrite (nth_error_nth' _ (repeat pad dim)) by (rewrite repeat_length; lia). f_equal. apply nth_repeat.
    - rewrite nth_error_app2 by (rewrite Lb; lia). rewrite Lb. replace (S i * max_len + j - max_len) with (i * max_len + j) by lia. apply IH; auto.
  Qed.
End PAD.
Lemma mask_ok lengths max_len i j len : nth_error lengths i = Some len -> (0 <= len)%Z -> j < max_len ->
  match nth_error (create_mask lengths max_len) i with Some r => nth_error r j | None => None end = Some (Z.of_nat j <? len)%Z.
Proof.
  intros H L Hj. unfold create_mask. rewrite nth_error_map, H. cbn [option_map]. rewrite nth_error_map, (nth_error_nth' _ 0) by (rewrite seq_length; auto).
  rewrite seq_nth by auto. cbn [option_map plus]. f_equal. unfold as_usize. destruct (Z.ltb_spec len 0); [lia|].
  destruct (Z.ltb_spec (Z.of_nat j) len), (Z.ltb_spec (Z.of_nat j) (Z.min len (Z.of_nat max_len))); auto; lia.
Qed.

(** ** Quantiles *)
Open Scope Q_scope.
Definition monotone (f : Q -> Q) : Prop := forall x y, x <= y -> f x <= f y.
Lemma Qsort_sorted l : StronglySorted Qle (isort Qle_bool l).
Proof.
  induction l as [|x l IH]; cbn; [constructor|]. induction IH as [|y m S1 IH1 F1]; cbn; [repeat constructor|].
  destruct (Qle_bool x y) eqn:Q.
  - apply Qle_bool_iff in Q. constructor; [constructor; auto|]. constructor; auto. apply Forall_forall. rewrite Forall_forall in F1. intros z Hz. specialize (F1 z Hz). lra.
  - assert (y <= x). { destruct (Qlt_le_dec x y) as [L|L]; auto. assert (x <= y) by lra. apply Qle_bool_iff in H. congruence. }
    constructor; auto. apply Forall_forall. intros z Hz. assert (In z (x :: m)) as [<-|Hm]; [|auto|rewrite Forall_forall in F1; auto].
    { clear -Hz. induction m as [|w m IH]; cbn in Hz; [auto|]. destruct (Qle_bool x w); [destruct Hz as [<-|[<-|Hz]]; cbn; auto|]. destruct Hz as [<-|Hz]; cbn; auto. destruct (IH Hz); auto. }
Qed.
Lemma sorted_le l : StronglySorted Qle l -> forall i j a b, (i <= j)%nat -> nth_error l i = Some a -> nth_error l j = Some b -> a <= b.
Proof.
  induction 1 as [|x l S1 IH F]; intros i j a b L Ha Hb; [destruct i; discriminate|]. rewrite Forall_forall in F. destruct i as [|i], j as [|j]; cbn in *.
  - injection Ha as <-. injection Hb as <-. lra.
  - injection Ha as <-. apply F. eapply nth_error_In; eauto.
  - lia.
  - eapply (IH i j); eauto. lia.
Qed.
Lemma Qfloor_ceiling x : (Qfloor x <= Qceiling x <= Qfloor x + 1)%Z.
Proof.
  pose proof (Qfloor_le x) as A. pose proof (Qle_ceiling x) as B. pose proof (Qlt_floor x) as C. pose proof (Qceiling_lt x) as D.
  split; [rewrite Zle_Qle; lra|]. assert (inject_Z (Qceiling x - 1) < inject_Z (Qfloor x + 1)) by lra. rewrite <- Zlt_Qlt in H. lia.
Qed.

Section QUANTILE.
  Variables rnd64 rnd32 : Q -> Q.
  Hypothesis M64 : monotone rnd64.
  (** what the result is in terms of the order statistics *)
  Lemma quantile_shape arr q : arr <> [] -> (forall z, (0 <= z < Z.of_nat (length arr))%Z -> rnd64 (inject_Z z) == inject_Z z) -> 0 <= q <= 1 ->
    exists t l u a b, rnd64 (q * rnd64 (inject_Z (Z.of_nat (length arr - 1)))) = t
      /\ (l <= u <= S l)%nat /\ (u < length arr)%nat /\ inject_Z (Z.of_nat l) <= t <= inject_Z (Z.of_nat u) /\ (l = u -> t == inject_Z (Z.of_nat l))
      /\ nth_error (isort Qle_bool arr) l = Some a /\ nth_error (isort Qle_bool arr) u = Some b
      /\ quantile rnd64 rnd32 arr q = Ok (if (l =? u)%nat then a else
           let w := rnd32 (rnd64 (t - inject_Z (Z.of_nat l))) in rnd32 (rnd32 (a * rnd32 (1 - w)) + rnd32 (b * w))).
  Proof using M64.
    intros N E (Q0 & Q1). assert (Ls : length (isort Qle_bool arr) = length arr) by apply isort_length.
    assert (Ln : (1 <= length arr)%nat) by (destruct arr; [contradiction|cbn; lia]).
    set (m := rnd64 (inject_Z (Z.of_nat (length arr - 1)))). set (t := rnd64 (q * m)).
    assert (Hm : m == inject_Z (Z.of_nat (length arr - 1))) by (apply E; lia).
    assert (Hm0 : 0 <= m) by (rewrite Hm; change 0 with (inject_Z 0); rewrite <- Zle_Qle; lia).
    assert (T0 : 0 <= t). { unfold t. assert (Z : rnd64 (inject_Z 0) == inject_Z 0) by (apply E; lia). change (inject_Z 0) with 0 in Z. rewrite <- Z. apply M64. nra. }
    assert (T1 : t <= inject_Z (Z.of_nat (length arr - 1))). { rewrite <- (E (Z.of_nat (length arr - 1))) by lia. apply M64. rewrite <- Hm. nra. }
    pose proof (Qfloor_ceiling t) as FC. pose proof (Qfloor_le t) as FL. pose proof (Qle_ceiling t) as CL.
    assert (F0 : (0 <= Qfloor t)%Z) by (change 0%Z with (Qfloor 0); apply Qfloor_resp_le; auto).
    assert (C1 : (Qceiling t <= Z.of_nat (length arr - 1))%Z). { rewrite <- (Qceiling_Z (Z.of_nat (length arr - 1))). apply Qceiling_resp_le. auto. }
    set (l := Z.to_nat (Qfloor t)). set (u := Z.to_nat (Qceiling t)).
    assert (Hl : Z.of_nat l = Qfloor t) by (unfold l; lia). assert (Hu : Z.of_nat u = Qceiling t) by (unfold u; lia).
    destruct (nth_error (isort Qle_bool arr) l) as [a|] eqn:Na; [|apply nth_error_None in Na; lia].
    destruct (nth_error (isort Qle_bool arr) u) as [b|] eqn:Nb; [|apply nth_error_None in Nb; lia].
    exists t, l, u, a, b. split; auto. split; [lia|]. split; [lia|]. split; [rewrite Hl, Hu; auto|].
    split; [intro Q; rewrite Hl; apply Qle_antisym; auto; rewrite <- Hl, Q, Hu; auto|]. split; auto. split; auto.
    assert (QE : quantile rnd64 rnd32 arr q = quantile_sorted rnd64 rnd32 (isort Qle_bool arr) q) by (destruct arr; [contradiction|reflexivity]).
    rewrite QE. unfold quantile_sorted. rewrite Ls. fold m. fold t. fold l u. unfold idx. rewrite Na, Nb. destruct (l =? u)%nat; reflexivity.
  Qed.
End QUANTILE.

(** exact arithmetic *)
Definition exact (x : Q) : Q := x.
Lemma exact_shape arr q : arr <> [] -> 0 <= q <= 1 ->
  exists l u a b w v, (l <= u <= S l)%nat /\ (u < length arr)%nat /\ q * inject_Z (Z.of_nat (length arr - 1)) == inject_Z (Z.of_nat l) + w
    /\ 0 <= w /\ (w <= 1) /\ (l = u -> w == 0) /\ nth_error (isort Qle_bool arr) l = Some a /\ nth_error (isort Qle_bool arr) u = Some b
    /\ quantile exact exact arr q = Ok v /\ v == a * (1 - w) + b * w.
Proof.
  intros N H. destruct (quantile_shape exact exact (fun x y L => L) arr q N) as (t & l & u & a & b & Ht & L1 & L2 & T & Te & Na & Nb & E); [intros; reflexivity|auto|].
  unfold exact in Ht. exists l, u, a, b, (t - inject_Z (Z.of_nat l)). eexists. split; auto. split; auto. split; [rewrite Ht; ring|]. split; [lra|].
  split; [|split; [|split; [|split; [|split]]]]; auto.
  - assert (inject_Z (Z.of_nat u) <= inject_Z (Z.of_nat l) + 1). { change 1 with (inject_Z 1). rewrite <- inject_Z_plus, <- Zle_Qle. lia. } lra.
  - intro Q. rewrite (Te Q). ring.
  - exact E.
  - destruct (Nat.eqb_spec l u) as [Q|Q]; [|reflexivity]. rewrite (Te Q). subst u. rewrite Na in Nb. injection Nb as <-. ring.
Qed.
Lemma quantile_between arr q v : arr <> [] -> 0 <= q <= 1 -> quantile exact exact arr q = Ok v ->
  exists l u a b, (l <= u <= S l)%nat /\ inject_Z (Z.of_nat l) <= q * inject_Z (Z.of_nat (length arr - 1)) <= inject_Z (Z.of_nat u)
    /\ nth_error (isort Qle_bool arr) l = Some a /\ nth_error (isort Qle_bool arr) u = Some b /\ a <= v <= b.
Proof.
  intros N H E. destruct (exact_shape arr q N H) as (l & u & a & b & w & v' & L1 & L2 & T & W0 & W1 & We & Na & Nb & E' & V). rewrite E in E'. injection E' as <-.
  exists l, u, a, b. assert (a <= b) by (eapply (sorted_le _ (Qsort_sorted arr) l u); eauto; lia).
  split; auto. split; [|split; [|split]]; auto; [|split; rewrite V; nra].
  rewrite T. split; [lra|]. destruct (Nat.eq_dec l u) as [Q|Q]; [subst; rewrite (We eq_refl); lra|].
  assert (u = S l) as -> by lia. rewrite Nat2Z.inj_succ. unfold Z.succ. rewrite inject_Z_plus. change (inject_Z 1) with 1. lra.
Qed.
Lemma quantile_monotone arr q1 q2 v1 v2 : arr <> [] -> 0 <= q1 -> q1 <= q2 -> q2 <= 1 ->
  quantile exact exact arr q1 = Ok v1 -> quantile exact exact arr q2 = Ok v2 -> v1 <= v2.
Proof.
  intros N H0 H1 H2 E1 E2.
  destruct (exact_shape arr q1 N) as (l1 & u1 & a1 & b1 & w1 & v1' & L1 & L1' & T1 & W10 & W11 & We1 & Na1 & Nb1 & E1' & V1); [lra|]. rewrite E1 in E1'. injection E1' as <-.
  destruct (exact_shape arr q2 N) as (l2 & u2 & a2 & b2 & w2 & v2' & L2 & L2' & T2 & W20 & W21 & We2 & Na2 & Nb2 & E2' & V2); [lra|]. rewrite E2 in E2'. injection E2' as <-.
  pose proof (Qsort_sorted arr) as SS.
  assert (B1 : a1 <= b1) by (eapply (sorted_le _ SS l1 u1); eauto; lia). assert (B2 : a2 <= b2) by (eapply (sorted_le _ SS l2 u2); eauto; lia).
  assert (NN : 0 <= inject_Z (Z.of_nat (length arr - 1))) by (change 0 with (inject_Z 0); rewrite <- Zle_Qle; lia).
  assert (T : inject_Z (Z.of_nat l1) + w1 <= inject_Z (Z.of_nat l2) + w2) by (rewrite <- T1, <- T2; nra).
  destruct (Nat.lt_trichotomy l1 l2) as [L|[L|L]].
  - assert (b1 <= a2) by (eapply (sorted_le _ SS u1 l2); eauto; lia). rewrite V1, V2. nra.
  - subst l2. rewrite Na1 in Na2. injection Na2 as <-. assert (w1 <= w2) by lra. rewrite V1, V2.
    destruct (Nat.eq_dec u1 u2) as [Q|Q]; [subst u2; rewrite Nb1 in Nb2; injection Nb2 as <-; nra|].
    destruct (Nat.eq_dec l1 u1) as [Q1|Q1]; [subst u1; rewrite Na1 in Nb1; injection Nb1 as <-; nra|].
    assert (l1 = u2) by lia. subst u2. rewrite Na1 in Nb2. injection Nb2 as <-. rewrite (We2 eq_refl) in *. assert (w1 == 0) as -> by lra. lra.
  - assert (inject_Z (Z.of_nat l2) + 1 <= inject_Z (Z.of_nat l1)). { change 1 with (inject_Z 1). rewrite <- inject_Z_plus, <- Zle_Qle. lia. }
    assert (w2 == 1) by lra. assert (w1 == 0) by lra. assert (l1 = S l2) by (assert (inject_Z (Z.of_nat l1) <= inject_Z (Z.of_nat l2 + 1)) by (rewrite inject_Z_plus; change (inject_Z 1) with 1; lra); rewrite <- Zle_Qle in *; lia).
    assert (u2 = l1). { destruct (Nat.eq_dec l2 u2) as [Q|Q]; [|lia]. specialize (We2 Q). exfalso. lra. }
    subst u2. rewrite Na1 in Nb2. injection Nb2 as <-. rewrite V1, V2, H3, H4. lra.
Qed.
Lemma quantile_total arr q : arr <> [] -> 0 <= q <= 1 -> exists v, quantile exact exact arr q = Ok v.
Proof. intros N H. destruct (exact_shape arr q N H) as (? & ? & ? & ? & ? & v & ? & ? & ? & ? & ? & ? & ? & ? & ? & ?). eauto. Qed.
Lemma quantiles_pointwise r64 r32 arr qs : quantiles r64 r32 arr qs = mapM (quantile r64 r32 arr) qs.
Proof.
  destruct arr as [|x arr]; [|reflexivity]. cbn [quantiles]. rewrite (mapM_Ok_map (quantile r64 r32 []) (fun _ => 0)) by reflexivity.
  f_equal. induction qs as [|q qs IH]; cbn; [auto|f_equal; auto].
Qed.

(** arithmetic with rounding: the error of the interpolation *)
Definition near (m x y : Q) : Prop := - m <= x - y <= m.
Lemma near_rel e (rnd : Q -> Q) x m : (forall x, Qabs (rnd x - x) <= e * Qabs x) -> 0 <= e -> near m x 0 -> near (e * m) (rnd x) x.
Proof.
  intros E He H. unfold near in *. specialize (E x). assert (A : Qabs x <= m) by (apply Qabs_Qle_condition; lra).
  assert (B : Qabs (rnd x - x) <= e * m) by nra. apply Qabs_Qle_condition in B. exact B.
Qed.
Lemma near_trans m1 m2 x y z : near m1 x y -> near m2 y z -> near (m1 + m2) x z.
Proof. unfold near. lra. Qed.
Lemma near_weak m m' x y : m <= m' -> near m x y -> near m' x y.
Proof. unfold near. lra. Qed.
Lemma near_plus m1 m2 x1 x2 y1 y2 : near m1 x1 y1 -> near m2 x2 y2 -> near (m1 + m2) (x1 + x2) (y1 + y2).
Proof. unfold near. lra. Qed.
Lemma near_scale M m a x y : near M a 0 -> near m x y -> near (M * m) (a * x) (a * y).
Proof. unfold near. intros. assert (0 <= m) by lra. assert (0 <= M) by lra. split; nra. Qed.
Lemma interpolation_error e rnd a b w M : (forall x, Qabs (rnd x - x) <= e * Qabs x) -> 0 <= e <= 1 # 4 -> near M a 0 -> near M b 0 -> 0 <= w <= 1 ->
  near (4 * e * M) (rnd (rnd (a * rnd (1 - w)) + rnd (b * w))) (a * (1 - w) + b * w).
Proof.
  intros E (E0 & E1) Ha Hb W. assert (M0 : 0 <= M) by (unfold near in Ha; lra).
  assert (S1 : near (e * (1 - w)) (rnd (1 - w)) (1 - w)) by (apply near_rel; auto; unfold near; lra).
  assert (S2 : near (M * (e * (1 - w))) (a * rnd (1 - w)) (a * (1 - w))) by (apply near_scale; auto).
  assert (S2' : near (M * (1 - w)) (a * (1 - w)) 0). { pose proof (near_scale M (1 - w) a (1 - w) 0 Ha) as P. unfold near in *. assert (- (1 - w) <= 1 - w - 0 <= 1 - w) by lra. specialize (P H). lra. }
  assert (S3 : near (e * (M * (e * (1 - w)) + M * (1 - w))) (rnd (a * rnd (1 - w))) (a * rnd (1 - w))) by (apply near_rel; auto; eapply near_trans; eauto).
  pose proof (near_trans _ _ _ _ _ S3 S2) as S4.
  assert (S5 : near (M * w) (b * w) 0). { pose proof (near_scale M w b w 0 Hb) as P. unfold near in *. assert (- w <= w - 0 <= w) by lra. specialize (P H). lra. }
  pose proof (near_rel e rnd (b * w) _ E E0 S5) as S6. pose proof (near_plus _ _ _ _ _ _ S4 S6) as S7.
  assert (S8 : near M (a * (1 - w) + b * w) 0). { pose proof (near_plus _ _ _ _ _ _ S2' S5) as P. unfold near in *. lra. }
  pose proof (near_trans _ _ _ _ _ S7 S8) as S9. pose proof (near_rel e rnd _ _ E E0 S9) as S10. pose proof (near_trans _ _ _ _ _ S10 S7) as S11.
  eapply near_weak; [|exact S11]. set (s := 1 - w) in *. assert (w == 1 - s) as -> by (unfold s; ring). assert (0 <= s <= 1) by (unfold s; lra). clearbody s. clear - E0 E1 M0 H.
  assert (K : e * (e * (M * (e * s) + M * s) + M * (e * s) + e * (M * (1 - s)) + M) + (e * (M * (e * s) + M * s) + M * (e * s) + e * (M * (1 - s)))
    == M * (e * (2 + e + e * s + e * e * s + s + e * s))) by ring. rewrite K. assert (2 + e + e * s + e * e * s + s + e * s <= 4).
  { assert (e * s <= 1 # 4) by nra. assert (e * e * s <= 1 # 16) by nra. lra. }
  assert (0 <= M * e) by nra. nra.
Qed.
Lemma quantile_rounded_near rnd64 rnd32 e arr q v M : monotone rnd64 -> monotone rnd32 ->
  (forall z, (0 <= z < Z.of_nat (length arr))%Z -> rnd64 (inject_Z z) == inject_Z z) -> rnd64 1 == 1 -> rnd32 0 == 0 -> rnd32 1 == 1 ->
  (forall x, Qabs (rnd32 x - x) <= e * Qabs x) -> 0 <= e <= 1 # 4 -> arr <> [] -> 0 <= q <= 1 -> (forall x, In x arr -> - M <= x <= M) ->
  quantile rnd64 rnd32 arr q = Ok v ->
  exists i a b, nth_error (isort Qle_bool arr) i = Some a /\ nth_error (isort Qle_bool arr) (Nat.min (S i) (length arr - 1)) = Some b
    /\ a - 4 * e * M <= v <= b + 4 * e * M.
Proof.
  intros M64 M32 I64 I1 Z32 O32 E He N H HM Q.
  destruct (quantile_shape rnd64 rnd32 M64 arr q N I64 H) as (t & l & u & a & b & Ht & L1 & L2 & T & Te & Na & Nb & E').
  rewrite Q in E'. injection E' as ->. pose proof (Qsort_sorted arr) as SS. assert (Ls : length (isort Qle_bool arr) = length arr) by apply isort_length.
  assert (IN : forall i x, nth_error (isort Qle_bool arr) i = Some x -> - M <= x <= M) by (intros i x Hx; apply HM; apply (isort_In Qle_bool); eapply nth_error_In; eauto).
  assert (M0 : 0 <= M) by (specialize (IN _ _ Na); lra). assert (EM : 0 <= 4 * e * M) by nra.
  destruct (nth_error (isort Qle_bool arr) (Nat.min (S l) (length arr - 1))) as [c|] eqn:Nc; [|apply nth_error_None in Nc; lia].
  exists l, a, c. split; auto. split; auto.
  assert (BC : b <= c) by (eapply (sorted_le _ SS u); [|exact Nb|exact Nc]; lia). assert (AB : a <= b) by (eapply (sorted_le _ SS l u); eauto; lia).
  destruct (Nat.eqb_spec l u) as [D|D]; [lra|].
  assert (W : 0 <= rnd32 (rnd64 (t - inject_Z (Z.of_nat l))) <= 1).
  { assert (inject_Z (Z.of_nat u) <= inject_Z (Z.of_nat l) + 1). { change 1 with (inject_Z 1). rewrite <- inject_Z_plus, <- Zle_Qle. lia. }
    assert (X0 : rnd64 0 == 0) by (apply (I64 0%Z); lia). split.
    - rewrite <- Z32. apply M32. rewrite <- X0. apply M64. lra.
    - rewrite <- O32. apply M32. rewrite <- I1. apply M64. lra. }
  set (w := rnd32 (rnd64 (t - inject_Z (Z.of_nat l)))) in *. cbv zeta.
  pose proof (interpolation_error e rnd32 a b w M E He) as P. unfold near in P. assert (Ha := IN _ _ Na). assert (Hb := IN _ _ Nb).
  specialize (P ltac:(lra) ltac:(lra) W). assert (a <= a * (1 - w) + b * w <= b) by (split; nra). lra.
Qed.

(** round to nearest, ties to even, with [p] bits (no limit on the exponent) *)
Definition half_even (x : Q) : Z :=
  let f := Qfloor x in
  match Qcompare (x - inject_Z f) (1 # 2) with Lt => f | Gt => (f + 1)%Z | Eq => if Z.even f then f else (f + 1)%Z end.
Definition pow2 (k : Z) : Q := match k with Z0 => 1 | Zpos p => inject_Z (2 ^ Zpos p) | Zneg p => 1 # (2 ^ p) end.
Definition round_to (p : Z) (x : Q) : Q :=
  match Qnum x with
  | Z0 => 0
  | n => let k0 := (Z.log2 (Z.abs n) - Z.log2 (Zpos (Qden x)))%Z in
         let k := if Qle_bool (pow2 k0) (Qabs x) then k0 else (k0 - 1)%Z in
         Qred (inject_Z (half_even (x * pow2 (p - 1 - k))) * pow2 (k - p + 1))
  end.
Lemma quantile_leaves_data :
  let f64 := round_to 53 in let f32 := round_to 24 in let q := round_to 53 (1 # 10) in
  exists v, quantile f64 f32 [3; 3] q = Ok v /\ v < 3.
Proof. eexists. split; [vm_compute; reflexivity|reflexivity]. Qed.
Lemma quantile_no_panic rnd64 rnd32 : monotone rnd64 -> forall arr q, arr <> [] ->
  (forall z, (0 <= z < Z.of_nat (length arr))%Z -> rnd64 (inject_Z z) == inject_Z z) -> 0 <= q <= 1 ->
  exists v, quantile rnd64 rnd32 arr q = Ok v.
Proof. intros M arr q N I H. destruct (quantile_shape rnd64 rnd32 M arr q N I H) as (t & l & u & a & b & _ & _ & _ & _ & _ & _ & _ & E). eauto. Qed.
Lemma order_statistics arr : Permutation (isort Qle_bool arr) arr /\ StronglySorted Qle (isort Qle_bool arr).
Proof. split; [apply isort_perm|apply Qsort_sorted]. Qed.

Open Scope nat_scope.
Lemma fold_max_in l : l <> [] -> In (fold_right Nat.max 0 l) l.
Proof.
  induction l as [|x l IH]; [contradiction|]. intros _. cbn. destruct l as [|y l]; [left; cbn; lia|].
  destruct (Nat.max_dec x (fold_right Nat.max 0 (y :: l))) as [E|E]; rewrite E; [auto|right; apply IH; discriminate].
Qed.
Lemma padding (A : Type) (pad : A) dim (docs : list (array2 A)) : docs <> [] ->
  Forall (fun d : array2 A => fst d = dim /\ Forall (fun r => length r = dim) (snd d)) docs ->
  exists rows lens max_len, pad_sequences pad docs = Ok ((dim, rows), lens)
    /\ (forall d, In d docs -> length (snd d) <= max_len) /\ (exists d, In d docs /\ length (snd d) = max_len)
    /\ length rows = length docs * max_len
    /\ lens = map (fun d : array2 A => Z.of_nat (length (snd d))) docs
    /\ (forall i j d, nth_error docs i = Some d -> j < max_len ->
          nth_error rows (i * max_len + j) = Some (match nth_error (snd d) j with Some r => r | None => repeat pad dim end)).
Proof.
  intros N F. pose proof (pad_ok A pad dim docs N F) as P. cbv zeta in P. set (max_len := fold_right Nat.max 0 (map (fun d : array2 A => length (snd d)) docs)) in *.
  assert (B : forall d : array2 A, In d docs -> length (snd d) <= max_len) by (intros d Hd; apply fold_max_ge; apply (in_map (fun d : array2 A => length (snd d))); auto).
  eexists _, _, max_len. split; [exact P|]. split; auto. split; [|split; [|split; auto]].
  - assert (I : In max_len (map (fun d : array2 A => length (snd d)) docs)) by (apply fold_max_in; destruct docs; [contradiction|discriminate]).
    apply in_map_iff in I. destruct I as (d & E & I). exists d. split; auto.
  - clear - B. clearbody max_len. induction docs as [|d docs IH]; [reflexivity|]. cbn [map concat length]. rewrite app_length, IH by (intros; apply B; right; auto).
    unfold block. rewrite app_length, repeat_length. specialize (B d (or_introl eq_refl)). lia.
  - intros i j d Hd Hj. rewrite (block_rows A pad dim max_len docs i j d); auto; [|apply Forall_forall; auto].
    f_equal. destruct (nth_error (snd d) j) as [r|] eqn:E; [apply nth_error_nth; auto|]. apply nth_overflow. apply nth_error_None. auto.
Qed.
Lemma mask_docs (A : Type) (docs : list (array2 A)) max_len i j d : nth_error docs i = Some d -> j < max_len ->
  exists row, nth_error (create_mask (map (fun d : array2 A => Z.of_nat (length (snd d))) docs) max_len) i = Some row
    /\ length row = max_len /\ (nth_error row j = Some true <-> j < length (snd d)) /\ (nth_error row j = Some false <-> length (snd d) <= j).
Proof.
  intros H Hj. pose proof (mask_ok (map (fun d : array2 A => Z.of_nat (length (snd d))) docs) max_len i j (Z.of_nat (length (snd d)))) as M.
  rewrite nth_error_map, H in M. specialize (M eq_refl (Zle_0_nat _) Hj).
  destruct (nth_error (create_mask _ max_len) i) as [row|] eqn:E; [|discriminate]. exists row. split; auto. split.
  - unfold create_mask in E. rewrite nth_error_map in E. destruct (nth_error (map _ docs) i); [|discriminate]. injection E as <-. rewrite map_length, seq_length. auto.
  - rewrite M. destruct (Z.ltb_spec (Z.of_nat j) (Z.of_nat (length (snd d)))); split; split; intros; try discriminate; auto; lia.
Qed.
