(** SIMD reductions against the plain maximum. *)
From Verif Require Import Base F32 CodecModel CodecSpec CodecProofs IndexModel IndexSpec SearchModel SearchSpec.
Open Scope nat_scope.

(** ** Numeric order and total order *)
Lemma fval_fkey a : f32_wf a -> fval a = if (fkey a <? 0)%Z then (fkey a + 1)%Z else fkey a.
Proof.
  unfold f32_wf, fval, fkey, is_neg, fabs. intro H.
  destruct (Z.leb_spec 2147483648 a).
  - destruct (Z.ltb_spec (2147483647 - a) 0); [|lia]. rewrite (Z.mod_eq a) by lia.
    replace (a / 2147483648)%Z with 1%Z; [lia|]. apply Z.div_unique with (a - 2147483648)%Z; lia.
  - destruct (Z.ltb_spec a 0); [lia|]. apply Z.mod_small; lia.
Qed.
Lemma fkey_le_fval a b : f32_wf a -> f32_wf b -> (fkey a <= fkey b)%Z -> (fval a <= fval b)%Z.
Proof.
  intros Ha Hb H. rewrite !fval_fkey by auto.
  destruct (Z.ltb_spec (fkey a) 0), (Z.ltb_spec (fkey b) 0); lia.
Qed.
Lemma finite_not_nan a : is_finite a = true -> is_nan a = false.
Proof. unfold is_finite, is_nan. intro H. apply Z.ltb_lt in H. apply Z.ltb_ge. lia. Qed.
Lemma f_lt_finite a b : is_finite a = true -> is_finite b = true -> f_lt a b = (fval a <? fval b)%Z.
Proof. intros Ha Hb. unfold f_lt. rewrite !finite_not_nan by auto. reflexivity. Qed.
Lemma is_score_better_iff a b : is_score_better a b = true <-> better a b.
Proof.
  unfold is_score_better. pose proof (cmp_better a b) as H.
  destruct (cmp_f32_for_max a b); split; intro X; try congruence; try tauto; apply H in X; congruence.
Qed.
Lemma is_score_better_false a b : is_score_better a b = false <-> ~ better a b.
Proof. rewrite <- is_score_better_iff. destruct (is_score_better a b); split; congruence. Qed.
Lemma not_better_lt a b : f32_wf a -> f32_wf b -> is_finite a = true -> is_finite b = true ->
  ~ better a b -> f_lt b a = false.
Proof.
  intros Wa Wb Fa Fb H. rewrite f_lt_finite by auto. apply Z.ltb_ge.
  apply fkey_le_fval; auto. unfold better in H. rewrite Fa, Fb in H. lia.
Qed.

(** ** max_by *)
Definition mb_step (acc : option f32) (x : f32) : option f32 :=
  match acc with None => Some x | Some a => match cmp_f32_for_max a x with Gt => Some a | _ => Some x end end.
Lemma mb_fold xs : forall a, exists m, fold_left mb_step xs (Some a) = Some m
  /\ In m (a :: xs) /\ (forall v, In v (a :: xs) -> ~ better v m).
Proof.
  induction xs as [|x xs IH]; intro a; cbn [fold_left].
  - exists a. split; auto. split; [left; auto|]. intros v [<-|[]]. apply better_irrefl.
  - cbn [mb_step]. pose proof (cmp_better a x) as H.
    destruct (cmp_f32_for_max a x) eqn:E.
    1,2: destruct (IH x) as (m & Em & Hin & Hmax); exists m; split; [exact Em|];
      split; [destruct Hin as [<-|Hin]; [right; left; auto|right; right; auto]|];
      intros v [<-|Hv]; [|auto];
      apply better_trans_neg with x; [intro X; apply H in X; congruence|apply Hmax; left; auto].
    destruct (IH a) as (m & Em & Hin & Hmax). exists m. split; [exact Em|].
    split; [destruct Hin as [<-|Hin]; [left; auto|right; right; auto]|].
    intros v [<-|[<-|Hv]]; [apply Hmax; left; auto| |apply Hmax; right; auto].
    apply better_trans_neg with a; [apply better_asym, H; reflexivity|apply Hmax; left; auto].
Qed.
Lemma max_by_val_spec l : match max_by_val l with
  | None => l = []
  | Some m => In m l /\ forall v, In v l -> ~ better v m
  end.
Proof.
  unfold max_by_val. destruct l as [|a xs]; [reflexivity|]. cbn [fold_left].
  destruct (mb_fold xs a) as (m & E & H). change (fold_left mb_step xs (Some a)) with
    (fold_left (fun acc x => match acc with
                          | None => Some x
                          | Some a => match cmp_f32_for_max a x with Gt => Some a | _ => Some x end
                          end) xs (Some a)) in E.
  rewrite E. exact H.
Qed.
Lemma scalar_max_spec l : l <> [] -> In (scalar_max l) l /\ forall v, In v l -> ~ better v (scalar_max l).
Proof.
  intro H. unfold scalar_max. pose proof (max_by_val_spec l) as S.
  destruct (max_by_val l); [exact S|contradiction].
Qed.

(** ** Lanes *)
Definition lane (v : f32) : Prop := f32_wf v /\ (is_finite v = true \/ v = f_neg_inf).
Definition le (a b : f32) : Prop := (fval a <= fval b)%Z.
Definition good_max (vmax : f32 -> f32 -> f32) : Prop :=
  forall a b, lane a -> lane b -> (vmax a b = a \/ vmax a b = b) /\ le a (vmax a b) /\ le b (vmax a b).
Lemma lane_not_nan v : lane v -> is_nan v = false.
Proof. intros (_ & [H| ->]); [apply finite_not_nan; auto|reflexivity]. Qed.
Lemma avx_good : good_max avx_max.
Proof.
  intros a b Ha Hb. unfold avx_max, f_gt, f_lt. rewrite !lane_not_nan by auto. cbn [negb andb].
  unfold le. destruct (Z.ltb_spec (fval b) (fval a)); split; auto; lia.
Qed.
Lemma neon_good : good_max neon_max.
Proof.
  intros a b Ha Hb. unfold neon_max, total_cmp. rewrite !lane_not_nan by auto.
  destruct Ha as (Wa & _), Hb as (Wb & _). unfold le.
  destruct (Z.compare_spec (fkey a) (fkey b)) as [E|L|G]; split; auto; split; try lia;
    apply fkey_le_fval; auto; lia.
Qed.
Lemma good_max_lane vmax a b : good_max vmax -> lane a -> lane b -> lane (vmax a b).
Proof. intros H Ha Hb. destruct (H a b Ha Hb) as ([-> | ->] & _); auto. Qed.

(** The accumulator [v] holds elements of [s] (or -inf) and dominates every element of [s]. *)
Definition acc_ok (w : nat) (v s : list f32) : Prop :=
  length v = w /\ Forall lane v /\ Forall (fun x => x = f_neg_inf \/ In x s) v
  /\ (forall e, In e s -> exists x, In x v /\ le e x).

Lemma le_refl a : le a a. Proof. unfold le; lia. Qed.
Lemma le_trans a b c : le a b -> le b c -> le a c. Proof. unfold le; lia. Qed.
Lemma neg_inf_lane : lane f_neg_inf. Proof. split; [unfold f32_wf, f_neg_inf; lia|auto]. Qed.
Lemma acc_init w : acc_ok w (repeat f_neg_inf w) [].
Proof.
  split; [apply repeat_length|]. split; [apply Forall_forall; intros x Hx; apply repeat_spec in Hx; subst; apply neg_inf_lane|].
  split; [apply Forall_forall; intros x Hx; apply repeat_spec in Hx; auto|]. intros e [].
Qed.
Lemma acc_self w c : length c = w -> Forall lane c -> acc_ok w c c.
Proof.
  intros L H. split; auto. split; auto. split; [apply Forall_forall; auto|].
  intros e He. exists e. split; auto. apply le_refl.
Qed.
Lemma map2_nth {A B C} (f : A -> B -> C) l m i c :
  nth_error (map2 f l m) i = Some c <-> exists a b, nth_error l i = Some a /\ nth_error m i = Some b /\ c = f a b.
Proof.
  unfold map2. rewrite nth_error_map', nth_error_combine.
  destruct (nth_error l i), (nth_error m i); cbn; split;
    try discriminate; try (intros (? & ? & ? & ? & ?); discriminate).
  - intro H; inversion H; eauto.
  - intros (a' & b' & H1 & H2 & ->). inversion H1; inversion H2; subst; auto.
Qed.
Lemma map2_length {A B C} (f : A -> B -> C) l m : length (map2 f l m) = Nat.min (length l) (length m).
Proof. unfold map2. rewrite map_length, combine_length. auto. Qed.
Lemma acc_join vmax w v s v' s' : good_max vmax -> acc_ok w v s -> acc_ok w v' s' ->
  acc_ok w (map2 vmax v v') (s ++ s').
Proof.
  intros G (L & Ln & In1 & Dm) (L' & Ln' & In1' & Dm').
  assert (Hel : forall c, In c (map2 vmax v v') -> exists a b, In a v /\ In b v' /\ c = vmax a b).
  { intros c Hc. apply In_nth_error in Hc. destruct Hc as (i & Hi). apply map2_nth in Hi.
    destruct Hi as (a & b & Ha & Hb & ->). apply nth_error_In in Ha, Hb. eauto. }
  rewrite Forall_forall in Ln, Ln', In1, In1'.
  split; [rewrite map2_length; lia|].
  split; [apply Forall_forall; intros c Hc; destruct (Hel c Hc) as (a & b & Ha & Hb & ->); apply good_max_lane; auto|].
  split.
  - apply Forall_forall. intros c Hc. destruct (Hel c Hc) as (a & b & Ha & Hb & ->).
    destruct (G a b (Ln a Ha) (Ln' b Hb)) as ([-> | ->] & _).
    + destruct (In1 a Ha); auto. right. apply in_or_app; auto.
    + destruct (In1' b Hb); auto. right. apply in_or_app; auto.
  - intros e He. apply in_app_or in He. destruct He as [He|He].
    + destruct (Dm e He) as (x & Hx & Hle). apply In_nth_error in Hx. destruct Hx as (i & Hi).
      assert (Hlt : i < length v') by (rewrite L', <- L; apply nth_error_Some; congruence).
      destruct (nth_error v' i) as [y|] eqn:Ey; [|apply nth_error_None in Ey; lia].
      exists (vmax x y). split; [eapply nth_error_In; apply map2_nth; eauto|].
      destruct (G x y) as (_ & H & _); [apply Ln; eapply nth_error_In; eauto|apply Ln'; eapply nth_error_In; eauto|].
      eapply le_trans; eauto.
    + destruct (Dm' e He) as (y & Hy & Hle). apply In_nth_error in Hy. destruct Hy as (i & Hi).
      assert (Hlt : i < length v) by (rewrite L, <- L'; apply nth_error_Some; congruence).
      destruct (nth_error v i) as [x|] eqn:Ex; [|apply nth_error_None in Ex; lia].
      exists (vmax x y). split; [eapply nth_error_In; apply map2_nth; eauto|].
      destruct (G x y) as (_ & _ & H); [apply Ln; eapply nth_error_In; eauto|apply Ln'; eapply nth_error_In; eauto|].
      eapply le_trans; eauto.
Qed.
Lemma acc_set w v s s' : (forall e, In e s <-> In e s') -> acc_ok w v s -> acc_ok w v s'.
Proof.
  intros E (L & Ln & I1 & D). split; auto. split; auto. split.
  - rewrite Forall_forall in I1 |- *. intros x Hx. destruct (I1 x Hx); auto. right; apply E; auto.
  - intros e He. apply D, E, He.
Qed.

Lemma loop8_ok vmax w : good_max vmax -> 1 <= w -> forall fuel l v s, Forall lane l -> acc_ok w v s ->
  length l <= fuel ->
  let '(v', t) := simd_loop8 vmax w fuel l v in
  exists done, l = done ++ t /\ acc_ok w v' (s ++ done) /\ length t < w.
Proof.
  intros G Hw. induction fuel as [|f IH]; intros l v s Hl Ha Hf; cbn [simd_loop8].
  - exists []. rewrite app_nil_r. split; auto. split; auto. lia.
  - destruct (Nat.leb_spec w (length l)) as [Hle|Hgt].
    + assert (Hc : acc_ok w (firstn w l) (firstn w l)).
      { apply acc_self; [rewrite firstn_length; lia|]. apply Forall_forall. rewrite Forall_forall in Hl.
        intros x Hx. apply Hl. rewrite <- (firstn_skipn w l). apply in_or_app; auto. }
      specialize (IH (skipn w l) (map2 vmax v (firstn w l)) (s ++ firstn w l)).
      destruct (simd_loop8 vmax w f (skipn w l) (map2 vmax v (firstn w l))) as (v', t).
      destruct IH as (done & E & A & T).
      * apply Forall_forall. rewrite Forall_forall in Hl. intros x Hx. apply Hl.
        rewrite <- (firstn_skipn w l). apply in_or_app; auto.
      * apply acc_join; auto.
      * rewrite skipn_length. lia.
      * exists (firstn w l ++ done). rewrite <- app_assoc, <- E, firstn_skipn. split; auto.
        rewrite app_assoc. auto.
    + exists []. rewrite app_nil_r. auto.
Qed.

Lemma In_blocks w (l : list f32) : 4 * w <= length l -> forall e,
  In e (firstn w l ++ firstn w (skipn w l) ++ firstn w (skipn (2 * w) l) ++ firstn w (skipn (3 * w) l))
  <-> In e (firstn (4 * w) l).
Proof.
  intros H e.
  replace (firstn (4 * w) l) with (firstn w l ++ firstn w (skipn w l) ++ firstn w (skipn (2 * w) l) ++ firstn w (skipn (3 * w) l)); [tauto|].
  assert (A : forall a b (m : list f32), firstn (a + b) m = firstn a m ++ firstn b (skipn a m)).
  { clear. intros a. induction a as [|a IH]; intros b m; cbn [Nat.add firstn skipn app]; auto.
    destruct m; [destruct b; reflexivity|]. cbn. rewrite IH. reflexivity. }
  assert (B : forall a b (m : list f32), skipn b (skipn a m) = skipn (a + b) m).
  { clear. intros a b m. revert a. induction m; intros [|a']; cbn; auto; try apply skipn_nil. }
  replace (4 * w) with (w + (w + (w + w))) by lia. rewrite !A, !B.
  replace (w + w) with (2 * w) by lia. replace (2 * w + w) with (3 * w) by lia. reflexivity.
Qed.

Lemma loop32_ok vmax w : good_max vmax -> 1 <= w -> forall fuel l v0 v1 v2 v3 s0 s1 s2 s3,
  Forall lane l -> acc_ok w v0 s0 -> acc_ok w v1 s1 -> acc_ok w v2 s2 -> acc_ok w v3 s3 ->
  let '(u0, u1, u2, u3, t) := simd_loop32 vmax w fuel l v0 v1 v2 v3 in
  exists done t0 t1 t2 t3, l = done ++ t /\ acc_ok w u0 t0 /\ acc_ok w u1 t1 /\ acc_ok w u2 t2 /\ acc_ok w u3 t3
    /\ forall e, In e (t0 ++ t1 ++ t2 ++ t3) <-> In e (s0 ++ s1 ++ s2 ++ s3) \/ In e done.
Proof.
  intros G Hw. induction fuel as [|f IH]; intros l v0 v1 v2 v3 s0 s1 s2 s3 Hl A0 A1 A2 A3; cbn [simd_loop32].
  - exists [], s0, s1, s2, s3. repeat (split; [auto|]). cbn; tauto.
  - destruct (Nat.leb_spec (4 * w) (length l)) as [Hle|Hgt].
    2:{ exists [], s0, s1, s2, s3. repeat (split; [auto|]). cbn; tauto. }
    assert (Hsub : forall n m, n + w <= length l -> m = n -> acc_ok w (firstn w (skipn m l)) (firstn w (skipn m l))).
    { intros n m Hn ->. apply acc_self; [rewrite firstn_length, skipn_length; lia|].
      apply Forall_forall. rewrite Forall_forall in Hl. intros x Hx. apply Hl.
      rewrite <- (firstn_skipn n l). apply in_or_app. right.
      rewrite <- (firstn_skipn w (skipn n l)). apply in_or_app; auto. }
    assert (B0 := Hsub 0 0 ltac:(lia) eq_refl). cbn [skipn] in B0.
    assert (B1 := Hsub w w ltac:(lia) eq_refl).
    assert (B2 := Hsub (2 * w) (2 * w) ltac:(lia) eq_refl).
    assert (B3 := Hsub (3 * w) (3 * w) ltac:(lia) eq_refl).
    assert (Hl' : Forall lane (skipn (4 * w) l)).
    { apply Forall_forall. rewrite Forall_forall in Hl. intros x Hx. apply Hl.
      rewrite <- (firstn_skipn (4 * w) l). apply in_or_app; auto. }
    specialize (IH (skipn (4 * w) l) _ _ _ _ _ _ _ _ Hl' (acc_join _ _ _ _ _ _ G A0 B0) (acc_join _ _ _ _ _ _ G A1 B1)
       (acc_join _ _ _ _ _ _ G A2 B2) (acc_join _ _ _ _ _ _ G A3 B3)).
    destruct (simd_loop32 _ _ _ _ _ _ _ _) as ((((u0, u1), u2), u3), t).
    destruct IH as (done & t0 & t1 & t2 & t3 & E & C0 & C1 & C2 & C3 & HS).
    exists (firstn (4 * w) l ++ done), t0, t1, t2, t3.
    split; [rewrite <- app_assoc, <- E, firstn_skipn; auto|]. do 4 (split; [assumption|]).
    intro e. rewrite HS. rewrite in_app_iff with (l := firstn (4 * w) l), <- (In_blocks w l Hle e), !in_app_iff. tauto.
Qed.

(** Horizontal maxima. *)
Definition good_hmax (w : nat) (hmax : list f32 -> f32) : Prop :=
  forall v, length v = w -> Forall lane v -> In (hmax v) v /\ forall x, In x v -> le x (hmax v).
Lemma hmax8_good : good_hmax 8 hmax8.
Proof.
  intros v L Hv.
  destruct v as [|a [|b [|c [|d [|e [|f [|g [|h [|]]]]]]]]]; try discriminate L. clear L.
  rewrite Forall_forall in Hv.
  assert (La := Hv a ltac:(cbn; tauto)). assert (Lb := Hv b ltac:(cbn; tauto)).
  assert (Lc := Hv c ltac:(cbn; tauto)). assert (Ld := Hv d ltac:(cbn; tauto)).
  assert (Le := Hv e ltac:(cbn; tauto)). assert (Lf := Hv f ltac:(cbn; tauto)).
  assert (Lg := Hv g ltac:(cbn; tauto)). assert (Lh := Hv h ltac:(cbn; tauto)).
  unfold hmax8. cbn [skipn firstn map2 combine map app fst snd nth].
  destruct (avx_good e a Le La) as (E0 & P0 & Q0). pose proof (good_max_lane _ _ _ avx_good Le La) as L0.
  destruct (avx_good f b Lf Lb) as (E1 & P1 & Q1). pose proof (good_max_lane _ _ _ avx_good Lf Lb) as L1.
  destruct (avx_good g c Lg Lc) as (E2 & P2 & Q2). pose proof (good_max_lane _ _ _ avx_good Lg Lc) as L2.
  destruct (avx_good h d Lh Ld) as (E3 & P3 & Q3). pose proof (good_max_lane _ _ _ avx_good Lh Ld) as L3.
  change (map2 avx_max [e; f; g; h] [a; b; c; d]) with [avx_max e a; avx_max f b; avx_max g c; avx_max h d].
  generalize dependent (avx_max e a). intros m0 E0 P0 Q0 L0.
  generalize dependent (avx_max f b). intros m1 E1 P1 Q1 L1.
  generalize dependent (avx_max g c). intros m2 E2 P2 Q2 L2.
  generalize dependent (avx_max h d). intros m3 E3 P3 Q3 L3.
  cbn [skipn firstn map2 combine map app fst snd nth].
  unfold map2; cbn [combine map fst snd nth].
  destruct (avx_good m0 m2 L0 L2) as (E4 & P4 & Q4). pose proof (good_max_lane _ _ _ avx_good L0 L2) as L4.
  destruct (avx_good m1 m3 L1 L3) as (E5 & P5 & Q5). pose proof (good_max_lane _ _ _ avx_good L1 L3) as L5.
  generalize dependent (avx_max m0 m2). intros m4 E4 P4 Q4 L4.
  generalize dependent (avx_max m1 m3). intros m5 E5 P5 Q5 L5.
  destruct (avx_good m4 m5 L4 L5) as (E6 & P6 & Q6).
  generalize dependent (avx_max m4 m5). intros m6 E6 P6 Q6.
  split.
  - cbn [In]. repeat match goal with H : _ = _ \/ _ = _ |- _ => destruct H end; subst; tauto.
  - unfold le in *. intros x Hx. cbn [In] in Hx.
    destruct Hx as [<-|[<-|[<-|[<-|[<-|[<-|[<-|[<-|[]]]]]]]]]; lia.
Qed.
Lemma hmax4_good : good_hmax 4 hmax4.
Proof.
  intros v L Hv.
  destruct v as [|a [|b [|c [|d [|]]]]]; try discriminate L. clear L.
  rewrite Forall_forall in Hv.
  assert (La := Hv a ltac:(cbn; tauto)). assert (Lb := Hv b ltac:(cbn; tauto)).
  assert (Lc := Hv c ltac:(cbn; tauto)). assert (Ld := Hv d ltac:(cbn; tauto)).
  unfold hmax4. unfold map2. cbn [skipn firstn combine map app fst snd nth].
  destruct (neon_good a c La Lc) as (E0 & P0 & Q0). pose proof (good_max_lane _ _ _ neon_good La Lc) as L0.
  destruct (neon_good b d Lb Ld) as (E1 & P1 & Q1). pose proof (good_max_lane _ _ _ neon_good Lb Ld) as L1.
  generalize dependent (neon_max a c). intros m0 E0 P0 Q0 L0.
  generalize dependent (neon_max b d). intros m1 E1 P1 Q1 L1.
  destruct (neon_good m0 m1 L0 L1) as (E6 & P6 & Q6).
  generalize dependent (neon_max m0 m1). intros m6 E6 P6 Q6.
  split.
  - cbn [In]. repeat match goal with H : _ = _ \/ _ = _ |- _ => destruct H end; subst; tauto.
  - unfold le in *. intros x Hx. cbn [In] in Hx.
    destruct Hx as [<-|[<-|[<-|[<-|[]]]]]; lia.
Qed.

Lemma has_non_finite_false l : has_non_finite l = false <-> Forall (fun v => is_finite v = true) l.
Proof.
  unfold has_non_finite. induction l as [|a l IH]; cbn [existsb].
  - split; auto.
  - rewrite orb_false_iff, IH. split.
    + intros (H & F). constructor; auto. destruct (is_finite a); auto; discriminate.
    + intro F. inversion F; subst. split; auto. rewrite H1; auto.
Qed.

Lemma tail_fold t : forall r, Forall lane (r :: t) -> is_finite r = true ->
  let m := fold_left (fun r v => if is_score_better v r then v else r) t r in
  In m (r :: t) /\ is_finite m = true /\ forall x, In x (r :: t) -> le x m.
Proof.
  induction t as [|v t IH]; intros r HL Hf; cbn [fold_left].
  - split; [left; auto|]. split; auto. intros x [<-|[]]. apply le_refl.
  - inversion HL as [|? ? Lr HL']; subst. inversion HL' as [|? ? Lv HL'']; subst.
    destruct (is_score_better v r) eqn:E.
    + apply is_score_better_iff in E. assert (Fv : is_finite v = true).
      { unfold better in E. destruct (is_finite v); [auto|destruct (is_finite r); tauto]. }
      destruct (IH v) as (A & B & C); [auto|auto|].
      split; [right; exact A|]. split; auto.
      intros x [<-|Hx]; [|apply C; auto].
      apply le_trans with v; [|apply C; left; auto].
      unfold better in E. rewrite Fv, Hf in E. apply fkey_le_fval; [apply Lr|apply Lv|lia].
    + apply is_score_better_false in E.
      destruct (IH r) as (A & B & C); [constructor; auto|auto|].
      split; [destruct A; [left; auto|right; right; auto]|]. split; auto.
      intros x [<-|[<-|Hx]]; [apply C; left; auto| |apply C; right; auto].
      apply le_trans with r; [|apply C; left; auto].
      destruct Lv as (Wv & [Fv| ->]).
      * unfold better in E. rewrite Fv, Hf in E. apply fkey_le_fval; [auto|apply Lr|lia].
      * unfold le. destruct Lr as (Wr & _). rewrite (fval_fkey r Wr).
        unfold f32_wf, is_finite, fabs, fkey, is_neg in *. change (fval f_neg_inf) with (-2139095040)%Z.
        apply Z.ltb_lt in Hf. destruct (Z.leb_spec 2147483648 r).
        -- destruct (Z.ltb_spec (2147483647 - r) 0); [|lia].
           rewrite (Z.mod_eq r) in Hf by lia.
           replace (r / 2147483648)%Z with 1%Z in Hf; [lia|]. apply Z.div_unique with (r - 2147483648)%Z; lia.
        -- destruct (Z.ltb_spec r 0); lia.
Qed.

(** The result of the vector code on finite input: an element, numerically maximal. *)
Lemma simd_body_spec vmax hmax w l : good_max vmax -> good_hmax w hmax -> 1 <= w <= length l ->
  Forall f32_wf l -> Forall (fun v => is_finite v = true) l ->
  let m := simd_body vmax hmax w l in
  In m l /\ is_finite m = true /\ forall x, In x l -> le x m.
Proof.
  intros G Hh (Hw & Hlen) Wl Fl.
  assert (HL : Forall lane l).
  { rewrite Forall_forall in *. intros x Hx. split; auto. }
  unfold simd_body. pose proof (loop32_ok vmax w G Hw (length l) l _ _ _ _ _ _ _ _ HL (acc_init w) (acc_init w) (acc_init w) (acc_init w)) as H.
  destruct (simd_loop32 _ _ _ _ _ _ _ _) as ((((v0, v1), v2), v3), t).
  destruct H as (done & t0 & t1 & t2 & t3 & El & A0 & A1 & A2 & A3 & HS). cbn [app In] in HS.
  assert (HLt : Forall lane t) by (rewrite El in HL; apply Forall_app in HL; tauto).
  pose proof (loop8_ok vmax w G Hw (length t) t v0 t0 HLt A0 (le_n _)) as H.
  destruct (simd_loop8 _ _ _ _ _) as (v0', t').
  destruct H as (done' & Et & A0' & Ht').
  pose proof (acc_join _ _ _ _ _ _ G (acc_join _ _ _ _ _ _ G A0' A1) (acc_join _ _ _ _ _ _ G A2 A3)) as A.
  assert (HLt' : Forall lane t') by (rewrite Et in HLt; apply Forall_app in HLt; tauto).
  set (s := (((t0 ++ done') ++ t1) ++ t2 ++ t3)) in *.
  assert (Hs : forall e, In e s <-> In e done \/ In e done').
  { intro e. unfold s. rewrite !in_app_iff. pose proof (HS e) as X. rewrite !in_app_iff in X. tauto. }
  assert (Hl : forall e, In e l <-> In e s \/ In e t').
  { intro e. rewrite El, Et, !in_app_iff, Hs. tauto. }
  set (acc := map2 vmax (map2 vmax v0' v1) (map2 vmax v2 v3)) in *.
  destruct A as (La & Lan & Ia & Da).
  destruct (Hh acc La Lan) as (Hin & Hmx).
  assert (Hne : exists e, In e s).
  { destruct s as [|e s'] eqn:Es; [|exists e; left; auto]. exfalso.
    assert (done = []) as -> by (destruct done as [|e ?]; auto; exfalso; apply (proj2 (Hs e)); left; left; auto).
    assert (done' = []) as -> by (destruct done' as [|e ?]; auto; exfalso; apply (proj2 (Hs e)); right; left; auto).
    cbn in El, Et. subst. lia. }
  assert (Hfin : is_finite (hmax acc) = true).
  { destruct Hne as (e & He). rewrite Forall_forall in Ia. destruct (Ia _ Hin) as [E|Hi].
    - exfalso. destruct (Da e He) as (x & Hx & Hle). pose proof (le_trans _ _ _ Hle (Hmx x Hx)) as C.
      rewrite E in C. unfold le in C. change (fval f_neg_inf) with (-2139095040)%Z in C.
      assert (Hel : In e l) by (apply Hl; auto).
      rewrite Forall_forall in Wl, Fl. pose proof (Wl e Hel) as W. pose proof (Fl e Hel) as F.
      rewrite (fval_fkey e W) in C. unfold f32_wf, is_finite, fabs, fkey, is_neg in *.
      apply Z.ltb_lt in F. destruct (Z.leb_spec 2147483648 e).
      + destruct (Z.ltb_spec (2147483647 - e) 0); [|lia].
        rewrite (Z.mod_eq e) in F by lia.
        replace (e / 2147483648)%Z with 1%Z in F; [lia|]. apply Z.div_unique with (e - 2147483648)%Z; lia.
      + destruct (Z.ltb_spec e 0); lia.
    - rewrite Forall_forall in Fl. apply Fl, Hl; auto. }
  pose proof (tail_fold t' (hmax acc)) as TF. cbv zeta in TF.
  assert (Hlane : lane (hmax acc)) by (rewrite Forall_forall in Lan; auto).
  specialize (TF (Forall_cons _ Hlane HLt') Hfin).
  set (m := fold_left _ t' (hmax acc)) in *. destruct TF as (M1 & M2 & M3).
  rewrite M2. rewrite (proj2 (has_non_finite_false l) Fl). cbn [negb orb]. cbv zeta.
  split; [|split; [exact M2|]].
  - apply Hl. destruct M1 as [<-|M1]; auto. left.
    rewrite Forall_forall in Ia. destruct (Ia _ Hin) as [E|]; auto. rewrite E in Hfin. discriminate.
  - intros x Hx. apply Hl in Hx. destruct Hx as [Hx|Hx]; [|apply M3; right; auto].
    destruct (Da x Hx) as (y & Hy & Hle). apply le_trans with y; auto. apply le_trans with (hmax acc); auto.
    apply M3; left; auto.
Qed.

(** [simd_max]: always an element of the slice; if some element is finite the result is
    finite and numerically maximal among the finite ones. *)
Lemma simd_max_spec a l : Forall f32_wf l -> l <> [] ->
  In (simd_max a l) l
  /\ (forall v, In v l -> is_finite v = true -> is_finite (simd_max a l) = true /\ f_lt (simd_max a l) v = false)
  /\ same_number (simd_max a l) (scalar_max l).
Proof.
  intros Wl Hne. pose proof (scalar_max_spec l Hne) as (S1 & S2).
  assert (Hs : In (scalar_max l) l
    /\ (forall v, In v l -> is_finite v = true -> is_finite (scalar_max l) = true /\ f_lt (scalar_max l) v = false)
    /\ same_number (scalar_max l) (scalar_max l)).
  { split; auto. split; [|left; auto]. intros v Hv Fv. pose proof (S2 v Hv) as B.
    assert (Fm : is_finite (scalar_max l) = true).
    { unfold better in B. rewrite Fv in B. destruct (is_finite (scalar_max l)); tauto. }
    split; auto. rewrite Forall_forall in Wl. apply not_better_lt; auto. }
  assert (Hb : forall vmax hmax w, good_max vmax -> good_hmax w hmax -> 1 <= w <= length l ->
    In (simd_body vmax hmax w l) l
    /\ (forall v, In v l -> is_finite v = true -> is_finite (simd_body vmax hmax w l) = true /\ f_lt (simd_body vmax hmax w l) v = false)
    /\ same_number (simd_body vmax hmax w l) (scalar_max l)).
  { intros vmax hmax w G Hh Hw. destruct (has_non_finite l) eqn:Enf.
    - assert (E : simd_body vmax hmax w l = scalar_max l).
      { unfold simd_body. destruct (simd_loop32 _ _ _ _ _ _ _ _) as ((((v0, v1), v2), v3), t).
        destruct (simd_loop8 _ _ _ _ _) as (v0', t'). rewrite Enf, orb_true_r. reflexivity. }
      rewrite E. exact Hs.
    - apply has_non_finite_false in Enf.
      destruct (simd_body_spec vmax hmax w l G Hh Hw Wl Enf) as (A & B & C). split; auto.
      rewrite Forall_forall in Enf, Wl.
      split.
      + intros v Hv Fv. split; auto. rewrite f_lt_finite by auto. apply Z.ltb_ge. apply C; auto.
      + right. pose proof (Enf _ S1) as Fs. unfold f_eq. rewrite !finite_not_nan by auto. cbn [negb andb].
        apply Z.eqb_eq. pose proof (C _ S1) as C1. unfold le in C1.
        pose proof (proj2 (proj2 (proj1 (conj Hs I))) ) as _.
        destruct Hs as (_ & H2 & _). destruct (H2 _ A B) as (_ & H3). rewrite f_lt_finite in H3 by auto.
        apply Z.ltb_ge in H3. lia. }
  destruct a; cbn [simd_max]; auto.
  - destruct (Nat.ltb_spec (length l) 8); auto. apply Hb; [apply avx_good|apply hmax8_good|lia].
  - destruct (Nat.ltb_spec (length l) 4); auto. apply Hb; [apply neon_good|apply hmax4_good|lia].
Qed.

Lemma simd_max_nil a : simd_max a [] = f_neg_inf.
Proof. destruct a; reflexivity. Qed.
