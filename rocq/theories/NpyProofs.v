(** Proofs about array files. *)
From Verif Require Import Base Text Calendar CalendarSpec CalendarProofs Npy NpySpec.
Open Scope nat_scope.

(** ** Bytes *)
Lemma le_bytes_length n z : length (le_bytes n z) = n.
Proof. revert z. induction n; intro z; cbn; auto. Qed.
Lemma le_value_le n : forall z, le_value (le_bytes n z) = (z mod 256 ^ Z.of_nat n)%Z.
Proof.
  induction n as [|n IH]; intro z; [cbn [le_bytes le_value fold_right]; rewrite Z.mod_1_r; reflexivity|].
  unfold le_value in *. cbn [le_bytes fold_right]. rewrite IH. rewrite Nat2Z.inj_succ, Z.pow_succ_r by lia.
  rewrite Z.rem_mul_r by (try apply Z.pow_pos_nonneg; lia). reflexivity.
Qed.
Lemma le_bytes_byte n : forall z b, In b (le_bytes n z) -> (0 <= b < 256)%Z.
Proof. induction n as [|n IH]; intros z b []; [subst; apply Z.mod_pos_bound; lia|eapply IH; eauto]. Qed.
Lemma chunks_fuel_concat {A} w (ls : list (list A)) : 1 <= w -> Forall (fun l => length l = w) ls ->
  forall fuel, length (concat ls) <= fuel -> chunks_fuel fuel w (concat ls) = ls.
Proof.
  intros W F. induction F as [|l ls F1 F2 IH]; intros fuel L; [destruct fuel; reflexivity|].
  cbn [concat] in *. rewrite app_length in L. destruct fuel as [|fuel]; [lia|].
  destruct (l ++ concat ls) as [|x r] eqn:E; [apply (f_equal (@length A)) in E; rewrite app_length in E; cbn in E; lia|].
  cbn [chunks_fuel]. rewrite <- E. rewrite firstn_app, skipn_app. replace (w - length l) with 0 by lia.
  rewrite (firstn_all2 l), (skipn_all2 l) by lia. cbn [firstn skipn app]. rewrite app_nil_r, IH by lia. reflexivity.
Qed.
Lemma elements_flat w data : 1 <= w -> elements w (flat_map (le_bytes w) data) = map (fun z => (z mod 256 ^ Z.of_nat w)%Z) data.
Proof.
  intro W. unfold elements, chunks. rewrite flat_map_concat_map. rewrite chunks_fuel_concat; auto.
  - rewrite map_map. apply map_ext. intro. apply le_value_le.
  - apply Forall_forall. intros l H. apply in_map_iff in H. destruct H as (z & <- & _). apply le_bytes_length.
Qed.
Lemma elements_patterns w data : 1 <= w -> patterns w data -> elements w (flat_map (le_bytes w) data) = data.
Proof.
  intros W P. rewrite elements_flat by auto. induction P as [|x l P1 P2 IH]; cbn; [auto|]. rewrite Z.mod_small by lia. f_equal. auto.
Qed.
Lemma flat_length w data : length (flat_map (le_bytes w) data) = length data * w.
Proof. induction data as [|x l IH]; cbn; [auto|]. rewrite app_length, le_bytes_length, IH. lia. Qed.
Lemma pow256 w : (256 ^ Z.of_nat w = 2 ^ (8 * Z.of_nat w))%Z.
Proof. change 256%Z with (2 ^ 8)%Z. rewrite <- Z.pow_mul_r by lia. reflexivity. Qed.
Lemma signed_mod w z : 1 <= w -> (- 2 ^ (8 * Z.of_nat w - 1) <= z < 2 ^ (8 * Z.of_nat w - 1))%Z -> signed w (z mod 256 ^ Z.of_nat w) = z.
Proof.
  intros W H. unfold signed. rewrite pow256. assert (P : (2 ^ (8 * Z.of_nat w) = 2 * 2 ^ (8 * Z.of_nat w - 1))%Z) by (rewrite <- Z.pow_succ_r by lia; f_equal; lia).
  set (h := (2 ^ (8 * Z.of_nat w - 1))%Z) in *. rewrite P. clearbody h. assert (0 < h)%Z by lia. destruct (Z_lt_le_dec z 0) as [L|L].
  - rewrite <- (Z.mod_add z 1 (2 * h)) by lia. rewrite Z.mod_small by lia. destruct (Z.ltb_spec (z + 1 * (2 * h)) h); lia.
  - rewrite Z.mod_small by lia. destruct (Z.ltb_spec z h); lia.
Qed.
Lemma bslice_app (a b c : bytes) : bslice (a ++ b ++ c) (size a) (size a + size b) = Ok b.
Proof.
  unfold bslice, size. rewrite !app_length. destruct (_ && _)%Z eqn:E; [|lia]. f_equal. rewrite Nat2Z.id, skipn_app.
  rewrite skipn_all2, Nat.sub_diag by lia. cbn [app skipn]. replace (Z.to_nat _) with (length b) by lia. rewrite firstn_app, Nat.sub_diag, firstn_all. cbn [firstn]. apply app_nil_r.
Qed.
Lemma wrap_small z : (0 <= z < 2 ^ 64)%Z -> wrap64 z = z.
Proof. apply Z.mod_small. Qed.
Lemma firstn_flat w data n : firstn (n * w) (flat_map (le_bytes w) data) = flat_map (le_bytes w) (firstn n data).
Proof.
  revert data. induction n as [|n IH]; intro data; [reflexivity|]. destruct data as [|x l]; [apply firstn_nil|]. cbn [flat_map firstn].
  rewrite firstn_app, le_bytes_length. replace (S n * w - w) with (n * w) by lia. rewrite IH. rewrite firstn_all2 by (rewrite le_bytes_length; lia). reflexivity.
Qed.
Lemma skipn_flat w data n : skipn (n * w) (flat_map (le_bytes w) data) = flat_map (le_bytes w) (skipn n data).
Proof.
  revert data. induction n as [|n IH]; intro data; [reflexivity|]. destruct data as [|x l]; [apply skipn_nil|]. cbn [flat_map skipn].
  rewrite skipn_app, le_bytes_length. replace (S n * w - w) with (n * w) by lia. rewrite IH. rewrite skipn_all2 by (rewrite le_bytes_length; lia). reflexivity.
Qed.
(** a slice at element boundaries *)
Lemma bslice_flat w h data a b : a <= b <= length data ->
  bslice (h ++ flat_map (le_bytes w) data) (size h + Z.of_nat (a * w)) (size h + Z.of_nat (b * w)) = Ok (flat_map (le_bytes w) (firstn (b - a) (skipn a data))).
Proof.
  intro L. unfold bslice, size. rewrite app_length, flat_length. destruct (_ && _)%Z eqn:E; [|nia]. f_equal.
  replace (Z.to_nat (Z.of_nat (length h) + Z.of_nat (a * w))) with (length h + a * w) by lia.
  rewrite skipn_app, skipn_all2 by lia. cbn [app]. replace (length h + a * w - length h) with (a * w) by lia. rewrite skipn_flat.
  replace (Z.to_nat _) with ((b - a) * w) by nia. apply firstn_flat.
Qed.
Lemma patterns_part w data a n : patterns w data -> patterns w (firstn n (skipn a data)).
Proof. intro P. apply Forall_forall. intros x H. unfold patterns in P. rewrite Forall_forall in P. apply P. rewrite <- (firstn_skipn a data). apply in_or_app. right. rewrite <- (firstn_skipn n (skipn a data)). apply in_or_app. left. exact H. Qed.

(** ** Rows of an array behind a header *)
Lemma load_rows_ok w h nrows ncols data a b : 1 <= w -> array2_ok w nrows ncols data -> (size h < 2 ^ 20)%Z -> (0 <= a <= b)%Z -> (b <= nrows)%Z ->
  load_rows w (h ++ flat_map (le_bytes w) data) (size h) ncols a b = Ok (rows_of data ncols a b).
Proof.
  intros W (R & C & L & B & P) H A1 A2. unfold load_rows.
  assert (H0 : (0 <= size h)%Z) by (unfold size; lia).
  assert (X : forall x, (0 <= x <= nrows)%Z -> (0 <= x * ncols <= nrows * ncols)%Z) by (intros; nia).
  assert (XW : forall x, (0 <= x <= nrows)%Z -> (0 <= x * ncols * Z.of_nat w <= nrows * ncols * Z.of_nat w)%Z) by (intros x Hx; specialize (X x Hx); nia).
  assert (PW : (nrows * ncols <= nrows * ncols * Z.of_nat w)%Z) by nia.
  assert (K : forall x, (0 <= x <= nrows)%Z -> wrap64 (size h + wrap64 (wrap64 (x * ncols) * Z.of_nat w)) = (size h + Z.of_nat (Z.to_nat (x * ncols) * w))%Z).
  { intros x Hx. specialize (X x Hx). specialize (XW x Hx). rewrite (wrap_small (x * ncols)) by lia. rewrite (wrap_small (x * ncols * Z.of_nat w)) by lia.
    rewrite wrap_small by lia. rewrite Nat2Z.inj_mul, Z2Nat.id by lia. reflexivity. }
  rewrite !K by lia. pose proof (X a ltac:(lia)). pose proof (X b ltac:(lia)). assert ((a * ncols <= b * ncols)%Z) by nia.
  rewrite bslice_flat by lia. cbn [bind]. unfold raw_parts.
  assert (E : wrap64 ((b - a) * ncols) = ((b - a) * ncols)%Z) by (apply wrap_small; lia). rewrite E.
  unfold size at 1. rewrite flat_length, firstn_length, skipn_length.
  replace (Nat.min (Z.to_nat (b * ncols) - Z.to_nat (a * ncols)) (length data - Z.to_nat (a * ncols))) with (Z.to_nat ((b - a) * ncols)) by lia.
  destruct (Z.leb_spec ((b - a) * ncols * Z.of_nat w) (Z.of_nat (Z.to_nat ((b - a) * ncols) * w))) as [LE|LE]; [|nia].
  rewrite elements_patterns by (auto; apply patterns_part; auto). f_equal. unfold rows_of.
  replace (Z.to_nat (b * ncols) - Z.to_nat (a * ncols)) with (Z.to_nat ((b - a) * ncols)) by lia. apply firstn_all2. rewrite firstn_length. lia.
Qed.
Lemma rows_of_all data ncols nrows : Z.of_nat (length data) = (nrows * ncols)%Z -> rows_of data ncols 0 nrows = data.
Proof. intro L. unfold rows_of. rewrite Z.mul_0_l. cbn [Z.to_nat skipn]. apply firstn_all2. rewrite Z.sub_0_r. lia. Qed.

(** ** Raw format *)
Lemma firstn_app_exact {A} (a b : list A) n : length a = n -> firstn n (a ++ b) = a.
Proof. intros <-. rewrite firstn_app, Nat.sub_diag, firstn_all. cbn. apply app_nil_r. Qed.
Lemma skipn_app_exact {A} (a b : list A) n : length a = n -> skipn n (a ++ b) = b.
Proof. intros <-. rewrite skipn_app, Nat.sub_diag, skipn_all. reflexivity. Qed.
Lemma le8 z : (0 <= z < 2 ^ 63)%Z -> le_value (le_bytes 8 z) = z.
Proof. intro H. rewrite le_value_le. apply Z.mod_small. change (256 ^ Z.of_nat 8)%Z with (2 ^ 64)%Z. lia. Qed.
Lemma raw2_shape w nrows ncols data k : 1 <= w -> array2_ok w nrows ncols data -> k <= length (write_array2 w nrows ncols data) ->
  from_raw2 w (firstn k (write_array2 w nrows ncols data)) = if k <? length (write_array2 w nrows ncols data) then Err else Ok (nrows, ncols).
Proof.
  intros W (R & C & L & B & P) K. assert (Lf : length (write_array2 w nrows ncols data) = 16 + length data * w).
  { unfold write_array2. rewrite !app_length, !le_bytes_length, flat_length. reflexivity. }
  unfold from_raw2. unfold size. rewrite firstn_length, Nat.min_l by auto. destruct (Z.ltb_spec (Z.of_nat k) 16) as [Q|Q].
  { destruct (Nat.ltb_spec k (length (write_array2 w nrows ncols data))); [reflexivity|lia]. }
  assert (F1 : firstn 8 (firstn k (write_array2 w nrows ncols data)) = le_bytes 8 nrows).
  { rewrite firstn_firstn, Nat.min_l by lia. unfold write_array2. apply firstn_app_exact, le_bytes_length. }
  assert (F2 : firstn 8 (skipn 8 (firstn k (write_array2 w nrows ncols data))) = le_bytes 8 ncols).
  { rewrite skipn_firstn_comm, firstn_firstn, Nat.min_l by lia. unfold write_array2. rewrite skipn_app_exact by apply le_bytes_length. apply firstn_app_exact, le_bytes_length. }
  rewrite F1, F2, !le8 by auto. assert (PW : (0 <= nrows * ncols <= nrows * ncols * Z.of_nat w)%Z) by nia.
  rewrite (wrap_small (nrows * ncols)) by lia. rewrite (wrap_small (nrows * ncols * Z.of_nat w)) by lia. rewrite wrap_small by lia.
  rewrite <- L in *. destruct (Z.ltb_spec (Z.of_nat k) (16 + Z.of_nat (length data) * Z.of_nat w)), (Nat.ltb_spec k (length (write_array2 w nrows ncols data))); auto; lia.
Qed.
Lemma raw2_round w nrows ncols data : 1 <= w -> array2_ok w nrows ncols data -> raw2_to_owned w (write_array2 w nrows ncols data) = Ok (nrows, ncols, data).
Proof.
  intros W A. unfold raw2_to_owned. pose proof (raw2_shape w nrows ncols data _ W A (le_n _)) as S1. rewrite firstn_all, Nat.ltb_irrefl in S1. rewrite S1. cbn [bind fst snd].
  assert (E : write_array2 w nrows ncols data = (le_bytes 8 nrows ++ le_bytes 8 ncols) ++ flat_map (le_bytes w) data) by (unfold write_array2; rewrite app_assoc; reflexivity).
  assert (H16 : size (le_bytes 8 nrows ++ le_bytes 8 ncols) = 16%Z) by (unfold size; rewrite app_length, !le_bytes_length; reflexivity).
  rewrite E. rewrite <- H16. rewrite (load_rows_ok w _ nrows); auto; try lia; [|destruct A; lia]. cbn [bind]. rewrite rows_of_all; [reflexivity|]. destruct A as (_ & _ & L & _); auto.
Qed.
Lemma raw2_row_ok w nrows ncols data i : 1 <= w -> array2_ok w nrows ncols data -> (0 <= i < nrows)%Z ->
  raw2_row w (write_array2 w nrows ncols data) i = Ok (rows_of data ncols i (i + 1)).
Proof.
  intros W A Hi. unfold raw2_row. pose proof (raw2_shape w nrows ncols data _ W A (le_n _)) as S1. rewrite firstn_all, Nat.ltb_irrefl in S1. rewrite S1. cbn [bind fst snd].
  destruct A as (R & C & L & B & P).
  assert (E : write_array2 w nrows ncols data = (le_bytes 8 nrows ++ le_bytes 8 ncols) ++ flat_map (le_bytes w) data) by (unfold write_array2; rewrite app_assoc; reflexivity).
  assert (H16 : size (le_bytes 8 nrows ++ le_bytes 8 ncols) = 16%Z) by (unfold size; rewrite app_length, !le_bytes_length; reflexivity).
  assert (X1 : (0 <= i * ncols)%Z) by nia. assert (X2 : (i * ncols + ncols <= nrows * ncols)%Z) by nia.
  assert (X3 : (i * ncols * Z.of_nat w + ncols * Z.of_nat w <= nrows * ncols * Z.of_nat w)%Z) by nia.
  assert (X4 : (0 <= i * ncols * Z.of_nat w)%Z) by nia. assert (X5 : (0 <= ncols * Z.of_nat w)%Z) by nia.
  assert (PW : (nrows * ncols <= nrows * ncols * Z.of_nat w)%Z) by nia. 
  rewrite (wrap_small (i * ncols)) by lia. rewrite (wrap_small (i * ncols * Z.of_nat w)) by lia. rewrite (wrap_small (ncols * Z.of_nat w)) by lia.
  rewrite (wrap_small (16 + i * ncols * Z.of_nat w)) by lia. rewrite wrap_small by lia.
  rewrite E. rewrite <- H16.
  replace (size (le_bytes 8 nrows ++ le_bytes 8 ncols) + i * ncols * Z.of_nat w)%Z with (size (le_bytes 8 nrows ++ le_bytes 8 ncols) + Z.of_nat (Z.to_nat (i * ncols) * w))%Z by lia.
  replace (size (le_bytes 8 nrows ++ le_bytes 8 ncols) + Z.of_nat (Z.to_nat (i * ncols) * w) + ncols * Z.of_nat w)%Z
    with (size (le_bytes 8 nrows ++ le_bytes 8 ncols) + Z.of_nat (Z.to_nat ((i + 1) * ncols) * w))%Z by (rewrite !Nat2Z.inj_mul, !Z2Nat.id by lia; ring).
  rewrite bslice_flat by lia. cbn [bind]. unfold raw_parts. unfold size. rewrite flat_length, firstn_length, skipn_length.
  replace (Nat.min (Z.to_nat ((i + 1) * ncols) - Z.to_nat (i * ncols)) (length data - Z.to_nat (i * ncols))) with (Z.to_nat ncols) by lia.
  destruct (Z.leb_spec (ncols * Z.of_nat w) (Z.of_nat (Z.to_nat ncols * w))) as [LE|LE]; [|nia].
  rewrite elements_patterns by (auto; apply patterns_part; auto). f_equal. unfold rows_of. replace (i + 1 - i)%Z with 1%Z by lia. rewrite Z.mul_1_l.
  replace (Z.to_nat ((i + 1) * ncols) - Z.to_nat (i * ncols)) with (Z.to_nat ncols) by lia. apply firstn_all2. rewrite firstn_length. lia.
Qed.
Lemma get_ok h data i : (Z.of_nat (length data) * 8 < 2 ^ 63 - 2 ^ 20)%Z -> (size h < 2 ^ 20)%Z -> numbers 8 data -> i < length data ->
  get_i64 (h ++ flat_map (le_bytes 8) data) (size h) (Z.of_nat i) = Ok (nth i data 0%Z).
Proof.
  intros B H N L. unfold get_i64. assert (0 <= size h)%Z by (unfold size; lia). rewrite (wrap_small (Z.of_nat i * 8)) by lia. rewrite (wrap_small (size h + _)) by lia. rewrite wrap_small by lia.
  replace (size h + Z.of_nat i * 8)%Z with (size h + Z.of_nat (i * 8))%Z by lia. replace (size h + Z.of_nat (i * 8) + 8)%Z with (size h + Z.of_nat (S i * 8))%Z by lia.
  rewrite bslice_flat by lia. cbn [bind]. f_equal. replace (S i - i) with 1 by lia.
  destruct (skipn i data) as [|x r] eqn:E; [apply (f_equal (@length Z)) in E; rewrite skipn_length in E; cbn in E; lia|].
  assert (Nx : nth i data 0%Z = x). { rewrite <- (firstn_skipn i data), E. rewrite app_nth2; rewrite firstn_length, Nat.min_l by lia; [|lia]. rewrite Nat.sub_diag. reflexivity. }
  rewrite Nx. cbn [firstn flat_map]. rewrite app_nil_r, le_value_le. apply signed_mod; [lia|]. unfold numbers in N. rewrite Forall_forall in N. apply N. rewrite <- Nx. apply nth_In. auto.
Qed.
Lemma raw1_shape data k : array1_ok 8 data -> k <= length (write_array1_i64 data) ->
  from_raw1 (firstn k (write_array1_i64 data)) = if k <? length (write_array1_i64 data) then Err else Ok (Z.of_nat (length data)).
Proof.
  intros A K. unfold array1_ok in A. assert (Lf : length (write_array1_i64 data) = 8 + length data * 8) by (unfold write_array1_i64; rewrite app_length, le_bytes_length, flat_length; reflexivity).
  unfold from_raw1, size. rewrite firstn_length, Nat.min_l by auto. destruct (Z.ltb_spec (Z.of_nat k) 8) as [Q|Q].
  { destruct (Nat.ltb_spec k (length (write_array1_i64 data))); [reflexivity|lia]. }
  assert (F1 : firstn 8 (firstn k (write_array1_i64 data)) = le_bytes 8 (Z.of_nat (length data))).
  { rewrite firstn_firstn, Nat.min_l by lia. unfold write_array1_i64. apply firstn_app_exact, le_bytes_length. }
  rewrite F1, le8 by lia. rewrite (wrap_small (Z.of_nat (length data) * 8)) by lia. rewrite wrap_small by lia.
  destruct (Z.ltb_spec (Z.of_nat k) (8 + Z.of_nat (length data) * 8)), (Nat.ltb_spec k (length (write_array1_i64 data))); auto; lia.
Qed.
Lemma raw1_get data i : array1_ok 8 data -> numbers 8 data -> i < length data -> get_i64 (write_array1_i64 data) 8 (Z.of_nat i) = Ok (nth i data 0%Z).
Proof.
  intros A N L. pose proof (get_ok (le_bytes 8 (Z.of_nat (length data))) data i) as G. unfold size in G. rewrite le_bytes_length in G. apply G; auto. lia.
Qed.
Lemma signed_elements data : numbers 4 data -> map (signed 4) (elements 4 (flat_map (le_bytes 4) data)) = data.
Proof.
  intro N. rewrite elements_flat by lia. rewrite map_map. induction N as [|x l N1 N2 IH]; cbn [map]; [reflexivity|]. rewrite signed_mod by (auto; lia). f_equal. exact IH.
Qed.
