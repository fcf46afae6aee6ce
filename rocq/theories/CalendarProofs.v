(** Proofs about timestamps. *)
From Verif Require Import Base Text Calendar CalendarSpec.
Open Scope Z_scope.

(** ** One era of 400 years *)
Definition civ_of (a : Z) (doe : Z) : Z * (Z * Z * Z) :=
  let yoe := a / 365 in
  let doy := doe - (365 * yoe + yoe / 4 - yoe / 100) in
  let mp := (5 * doy + 2) / 153 in
  let day := doy - (153 * mp + 2) / 5 + 1 in
  let month := mp + (if mp <? 10 then 3 else -9) in
  (doy, (yoe + (if month <=? 2 then 1 else 0), month, day)).
Definition num (doe : Z) : Z := doe - doe / 1460 + doe / 36524 - doe / 146096.
Definition civ (doe : Z) : Z * Z * Z := snd (civ_of (num doe) doe).
Definition shift (e : Z) (t : Z * Z * Z) : Z * Z * Z := let '(y, m, d) := t in (y + 400 * e, m, d).
Definition date_eqb (a b : Z * Z * Z) : bool :=
  let '(y, m, d) := a in let '(y', m', d') := b in (y =? y') && (m =? m') && (d =? d').
(** from day [k], whose date is [cur]: numerators are not negative, and each date follows *)
Fixpoint follow (fuel : nat) (k : Z) (cur : Z * Z * Z) : bool :=
  match fuel with
  | O => date_eqb cur (shift 1 (civ 0))
  | S f => let a := num k in let '(doy, t) := civ_of a k in
           if (0 <=? a) && (0 <=? doy) && date_eqb cur t then follow f (k + 1) (next_day t) else false
  end.
Lemma follow_ok : forall fuel k cur, follow fuel k cur = true -> forall j, k <= j < k + Z.of_nat fuel ->
  0 <= num j /\ 0 <= fst (civ_of (num j) j) /\ date_eqb (next_day (civ j)) (if j =? k + Z.of_nat fuel - 1 then shift 1 (civ 0) else civ (j + 1)) = true
  /\ (j = k -> date_eqb cur (civ k) = true).
Proof.
  induction fuel as [|f IH]; intros k cur H j Hj; [lia|]. cbn [follow] in H. unfold civ at 1.
  destruct (civ_of (num k) k) as (doy, t) eqn:Ec. destruct (_ && _) eqn:B in H; [|discriminate]. rewrite !andb_true_iff, !Z.leb_le in B. destruct B as ((B1 & B2) & B3).
  assert (Ck : civ k = t) by (unfold civ; rewrite Ec; reflexivity).
  destruct (Z.eq_dec j k) as [->|N].
  - rewrite Ec. cbn [fst snd]. split; auto. split; auto. split; [|intros _; rewrite Ck; auto].
    destruct f as [|f].
    + cbn [follow] in H. destruct (Z.eqb_spec k (k + Z.of_nat 1 - 1)); [auto|lia].
    + destruct (Z.eqb_spec k (k + Z.of_nat (S (S f)) - 1)); [lia|]. destruct (IH (k + 1) (next_day t) H (k + 1) ltac:(lia)) as (_ & _ & _ & Q). auto.
  - destruct (IH (k + 1) (next_day t) H j ltac:(lia)) as (Q1 & Q2 & Q3 & _). split; auto. split; auto. split; [|lia].
    replace (k + Z.of_nat (S f) - 1) with (k + 1 + Z.of_nat f - 1) by lia. exact Q3.
Qed.
(** every day of an era is followed by the next day of the calendar *)
Lemma era_ok : follow (Z.to_nat 146097) 0 (civ 0) = true.
Proof. vm_cast_no_check (eq_refl true). Qed.
Lemma doe_ok k : 0 <= k < 146097 ->
  0 <= num k /\ 0 <= fst (civ_of (num k) k) /\ date_eqb (next_day (civ k)) (if k =? 146096 then shift 1 (civ 0) else civ (k + 1)) = true.
Proof.
  intro H. destruct (follow_ok _ _ _ era_ok k) as (A & B & C & _); [rewrite Z2Nat.id; lia|]. rewrite Z2Nat.id in C by lia. auto.
Qed.

Lemma date_eqb_eq a b : date_eqb a b = true -> a = b.
Proof.
  destruct a as ((y, m), d), b as ((y', m'), d'). unfold date_eqb. rewrite !andb_true_iff, !Z.eqb_eq. intros ((-> & ->) & ->). reflexivity.
Qed.
Lemma leap_shift y e : leap (y + 400 * e) = leap y.
Proof.
  unfold leap. replace (y + 400 * e) with (y + (100 * e) * 4) at 1 by lia. rewrite Z_mod_plus_full.
  replace (y + 400 * e) with (y + (4 * e) * 100) at 1 by lia. rewrite Z_mod_plus_full.
  replace (y + 400 * e) with (y + e * 400) by lia. rewrite Z_mod_plus_full. reflexivity.
Qed.
Lemma next_shift e t : next_day (shift e t) = shift e (next_day t).
Proof.
  destruct t as ((y, m), d). unfold shift, next_day, month_days. rewrite leap_shift.
  destruct (d <? _); auto. destruct (m <? 12); auto. f_equal. f_equal. lia.
Qed.
Lemma shift_shift a b t : shift a (shift b t) = shift (a + b) t.
Proof. destruct t as ((y, m), d). unfold shift. do 2 f_equal. lia. Qed.

Lemma civil_civ z : 0 <= z + 719468 -> civil_from_days z = shift ((z + 719468) / 146097) (civ ((z + 719468) mod 146097)).
Proof.
  intro H. unfold civil_from_days. cbv zeta. destruct (Z.leb_spec 0 (z + 719468)); [|lia]. rewrite (Z.quot_div_nonneg (z + 719468)) by lia.
  set (w := z + 719468) in *. replace (w - w / 146097 * 146097) with (w mod 146097) by (rewrite Z.mod_eq by lia; lia).
  pose proof (Z.mod_pos_bound w 146097 ltac:(lia)) as B. set (k := w mod 146097) in *. clearbody k. set (e := w / 146097). clearbody e.
  destruct (doe_ok k B) as (G1 & G2 & _). unfold num, civ_of in G1, G2. cbn [fst] in G2.
  rewrite (Z.quot_div_nonneg k 1460), (Z.quot_div_nonneg k 36524), (Z.quot_div_nonneg k 146096) by lia.
  rewrite (Z.quot_div_nonneg (k - k / 1460 + k / 36524 - k / 146096)) by lia. unfold civ, civ_of, num. cbn [snd]. cbv zeta.
  set (yoe := (k - k / 1460 + k / 36524 - k / 146096) / 365) in *.
  assert (0 <= yoe) by (apply Z.div_pos; lia).
  rewrite (Z.quot_div_nonneg yoe 4), (Z.quot_div_nonneg yoe 100) by lia. set (doy := k - (365 * yoe + yoe / 4 - yoe / 100)) in *.
  rewrite (Z.quot_div_nonneg (5 * doy + 2)) by lia. set (mp := (5 * doy + 2) / 153) in *. assert (0 <= mp) by (apply Z.div_pos; lia).
  rewrite Z.quot_div_nonneg by lia. unfold shift. do 2 f_equal. lia.
Qed.
Lemma civil_next z : 0 <= z + 719468 -> civil_from_days (z + 1) = next_day (civil_from_days z).
Proof.
  intro H. rewrite !civil_civ by lia. rewrite next_shift. replace (z + 1 + 719468) with (z + 719468 + 1) by lia. set (w := z + 719468) in *.
  pose proof (Z.mod_pos_bound w 146097 ltac:(lia)) as B. pose proof (Z.div_mod w 146097 ltac:(lia)) as D.
  set (k := w mod 146097) in *. set (e := w / 146097) in *.
  destruct (doe_ok k B) as (_ & _ & G). apply date_eqb_eq in G. rewrite G.
  destruct (Z.eqb_spec k 146096) as [K|K].
  - replace (w + 1) with ((e + 1) * 146097) by lia. rewrite Z_div_mult, Z_mod_mult, shift_shift by lia. reflexivity.
  - replace (w + 1) with ((k + 1) + e * 146097) by lia. rewrite Z_div_plus, Z_mod_plus_full, Z.div_small, Z.mod_small by lia. reflexivity.
Qed.
Lemma civil_date n : civil_from_days (Z.of_nat n) = date_on n.
Proof.
  induction n as [|n IH]; [vm_compute; reflexivity|]. rewrite Nat2Z.inj_succ. change (date_on (S n)) with (next_day (date_on n)).
  rewrite <- IH, <- civil_next by lia. reflexivity.
Qed.
Lemma date_valid n : let '(y, m, d) := date_on n in 1970 <= y /\ 1 <= m <= 12 /\ 1 <= d <= month_days y m.
Proof.
  induction n as [|n IH]; [vm_compute; repeat split; discriminate|]. change (date_on (S n)) with (next_day (date_on n)).
  destruct (date_on n) as ((y, m), d). unfold next_day. destruct (Z.ltb_spec d (month_days y m)); [lia|].
  destruct (Z.ltb_spec m 12).
  - split; [lia|]. split; [lia|]. unfold month_days. destruct (m + 1 =? 2); [destruct (leap y); lia|]. destruct (_ || _); lia.
  - split; [lia|]. split; [lia|]. vm_compute. split; discriminate.
Qed.
Lemma month_days_le y m : month_days y m <= 31.
Proof. unfold month_days. destruct (m =? 2); [destruct (leap y)|destruct (_ || _)]; lia. Qed.
(** ** Decimal texts *)
Lemma decimal_app a : forall l, decimal_value (l ++ [a]) = 10 * decimal_value l + (a - 48).
Proof. intro l. unfold decimal_value. rewrite fold_left_app. reflexivity. Qed.
Lemma digits_fuel_ok : forall fuel n, 0 <= n < 2 ^ Z.of_nat fuel ->
  Forall (fun c => is_digit_char c = true) (digits_fuel fuel n) /\ decimal_value (digits_fuel fuel n) = n /\ digits_fuel fuel n <> [] \/ fuel = O.
Proof.
  induction fuel as [|f IH]; intros n H; [auto|]. left. cbn [digits_fuel]. destruct (Z.ltb_spec n 10) as [L|L].
  - split; [|split; [unfold decimal_value; cbn [fold_left]; lia|discriminate]]. constructor; auto. unfold is_digit_char. apply andb_true_iff. rewrite !Z.leb_le. lia.
  - rewrite Nat2Z.inj_succ, Z.pow_succ_r in H by lia. pose proof (Z.mod_pos_bound n 10 ltac:(lia)). pose proof (Z.div_mod n 10 ltac:(lia)).
    destruct (IH (n / 10)) as [(I1 & I2 & I3)|I].
    + lia.
    + split; [apply Forall_app; split; auto; constructor; auto; unfold is_digit_char; apply andb_true_iff; rewrite !Z.leb_le; lia|].
      rewrite decimal_app, I2. split; [lia|]. intro Q. apply app_eq_nil in Q. destruct Q; discriminate.
    + subst f. cbn in H. lia.
Qed.
Lemma digits_ok n : 0 <= n -> Forall (fun c => is_digit_char c = true) (digits n) /\ decimal_value (digits n) = n.
Proof.
  intro H. destruct (digits_fuel_ok (S (Z.to_nat (Z.log2 n))) n) as [Q|Q]; [|unfold digits; tauto|discriminate].
  rewrite Nat2Z.inj_succ, Z2Nat.id by apply Z.log2_nonneg. destruct (Z.eq_dec n 0) as [->|]; [cbn; lia|]. pose proof (Z.log2_spec n ltac:(lia)). lia.
Qed.
Lemma digits_fuel_len : forall fuel n w, 0 <= n < 10 ^ Z.of_nat w -> (1 <= w)%nat -> (length (digits_fuel fuel n) <= w)%nat.
Proof.
  induction fuel as [|f IH]; intros n w H W; cbn [digits_fuel]; [cbn; lia|]. destruct (Z.ltb_spec n 10); [cbn; lia|]. rewrite app_length. cbn [length].
  destruct w as [|w]; [lia|]. rewrite Nat2Z.inj_succ, Z.pow_succ_r in H by lia.
  destruct w as [|w]; [cbn in H; lia|]. assert (0 <= n / 10 < 10 ^ Z.of_nat (S w)) by (split; [apply Z.div_pos; lia|apply Z.div_lt_upper_bound; lia]).
  specialize (IH (n / 10) (S w) ltac:(auto) ltac:(lia)). lia.
Qed.
Lemma zeros_value k t : decimal_value (repeat 48 k ++ t) = decimal_value t.
Proof. unfold decimal_value. rewrite fold_left_app. f_equal. induction k as [|k IH]; auto. Qed.
Lemma padded_ok w n : 0 <= n < 10 ^ Z.of_nat w -> (1 <= w)%nat -> decimal w n (padded w n).
Proof.
  intros H W. destruct (digits_ok n ltac:(lia)) as (D1 & D2). pose proof (digits_fuel_len (S (Z.to_nat (Z.log2 n))) n w H W) as L. fold (digits n) in L.
  unfold padded. split; [rewrite app_length, repeat_length; lia|]. split; [|rewrite zeros_value; auto].
  apply Forall_app. split; auto. apply Forall_forall. intros c Hc. apply repeat_spec in Hc. subst. reflexivity.
Qed.

(** C43 *)
Lemma rfc3339_ok n : 0 <= n -> (let '(y, _, _) := date_on (Z.to_nat (n / 86400)) in y <= 9999) -> n < 2 ^ 63 ->
  let '(y, m, d) := date_on (Z.to_nat (n / 86400)) in
  exists h mi s, rfc3339 (system_time_to_rfc3339 (Some n)) y m d h mi s
    /\ 0 <= h < 24 /\ 0 <= mi < 60 /\ 0 <= s < 60 /\ n = 86400 * (n / 86400) + 3600 * h + 60 * mi + s.
Proof.
  intros H Y B. pose proof (Z.div_pos n 86400 H ltac:(lia)) as P. pose proof (civil_date (Z.to_nat (n / 86400))) as C. rewrite Z2Nat.id in C by auto.
  pose proof (date_valid (Z.to_nat (n / 86400))) as V. unfold system_time_to_rfc3339. cbv zeta.
  assert (A : as_i64 n = n) by (unfold as_i64; destruct (Z.ltb_spec n (2 ^ 63)); lia). rewrite A, C.
  destruct (date_on (Z.to_nat (n / 86400))) as ((y, m), d). destruct V as (V1 & V2 & V3). pose proof (month_days_le y m).
  pose proof (Z.mod_pos_bound n 86400 ltac:(lia)) as M. pose proof (Z.div_mod n 86400 ltac:(lia)) as D. set (k := n mod 86400) in *.
  rewrite (Z.quot_div_nonneg k 3600), (Z.rem_mod_nonneg k 3600), (Z.rem_mod_nonneg k 60) by lia.
  pose proof (Z.mod_pos_bound k 3600 ltac:(lia)) as M1. pose proof (Z.div_mod k 3600 ltac:(lia)) as D1.
  rewrite Z.quot_div_nonneg by lia.
  pose proof (Z.mod_pos_bound (k mod 3600) 60 ltac:(lia)) as M2. pose proof (Z.div_mod (k mod 3600) 60 ltac:(lia)) as D2.
  assert (Q : k mod 60 = (k mod 3600) mod 60).
  { rewrite D1 at 1. replace (3600 * (k / 3600) + k mod 3600) with (k mod 3600 + (60 * (k / 3600)) * 60) by lia. apply Z_mod_plus_full. }
  rewrite Q. exists (k / 3600), (k mod 3600 / 60), ((k mod 3600) mod 60).
  assert (0 <= k / 3600 < 24) by lia. assert (0 <= k mod 3600 / 60 < 60) by lia.
  split; [|lia]. do 6 eexists. split; [reflexivity|]. repeat split; apply padded_ok; try lia; try (change (10 ^ Z.of_nat 4) with 10000; lia); change (10 ^ Z.of_nat 2) with 100; lia.
Qed.
Lemma date_year_mono n : let '(y, _, _) := date_on n in let '(y', _, _) := date_on (S n) in y <= y'.
Proof.
  change (date_on (S n)) with (next_day (date_on n)). destruct (date_on n) as ((y, m), d). unfold next_day.
  destruct (d <? month_days y m); [lia|]. destruct (m <? 12); lia.
Qed.
Lemma date_year_le n k : let '(y, _, _) := date_on n in let '(y', _, _) := date_on (k + n) in y <= y'.
Proof.
  induction k as [|k IH]; [destruct (date_on n) as ((y, m), d) eqn:E; cbn [plus]; rewrite E; lia|].
  pose proof (date_year_mono (k + n)) as M. change (S k + n)%nat with (S (k + n)). destruct (date_on n) as ((y, m), d), (date_on (k + n)) as ((y1, m1), d1), (date_on (S (k + n))) as ((y2, m2), d2). lia.
Qed.
Lemma year_before K k : 0 <= k <= K -> let '(y, _, _) := date_on (Z.to_nat k) in let '(y', _, _) := civil_from_days K in y <= y'.
Proof.
  intro H. pose proof (date_year_le (Z.to_nat k) (Z.to_nat (K - k))) as M.
  replace (Z.to_nat (K - k) + Z.to_nat k)%nat with (Z.to_nat K) in M by lia. rewrite <- (civil_date (Z.to_nat K)), Z2Nat.id in M by lia. exact M.
Qed.
Lemma rfc3339_until_9999 n : 0 <= n < 253402300800 ->
  let '(y, m, d) := date_on (Z.to_nat (n / 86400)) in
  exists h mi s, rfc3339 (system_time_to_rfc3339 (Some n)) y m d h mi s
    /\ 0 <= h < 24 /\ 0 <= mi < 60 /\ 0 <= s < 60 /\ n = 86400 * (n / 86400) + 3600 * h + 60 * mi + s.
Proof.
  intros (H & B). apply rfc3339_ok; [auto| |lia].
  assert (D : 0 <= n / 86400 <= 2932896) by lia. pose proof (year_before _ _ D) as M.
  assert (Q : civil_from_days 2932896 = (9999, 12, 31)) by (vm_compute; reflexivity). rewrite Q in M. exact M.
Qed.
