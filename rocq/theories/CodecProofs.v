From Verif Require Import Base F32 CodecModel CodecSpec.
Open Scope nat_scope.

(** ** Bits of bytes, most significant first *)
Definition bits8 (b : N) : list bool := map (fun i => N.testbit b (N.of_nat (7 - i))) (seq 0 8).
Definition bitat (row : list N) (k : nat) : bool :=
  N.testbit (nth (k / 8) row 0%N) (N.of_nat (7 - k mod 8)).
Definition expand (row : list N) : list bool := flat_map bits8 row.
(** value of a segment stored least significant bit first *)
Fixpoint lsb_val (l : list bool) : nat :=
  match l with [] => 0 | b :: bs => (if b then 1 else 0) + 2 * lsb_val bs end.
Definition lsb_bits (n v : nat) : list bool :=
  map (fun b => N.testbit (N.of_nat v) (N.of_nat b)) (seq 0 n).

Lemma expand_length row : length (expand row) = 8 * length row.
Proof. induction row as [|b bs IH]; simpl; [reflexivity|]. fold (expand bs). rewrite IH; lia. Qed.

Lemma expand_bitat row : expand row = map (bitat row) (seq 0 (8 * length row)).
Proof.
  induction row as [|b bs IH]; [reflexivity|].
  cbn [expand flat_map]. fold (expand bs). rewrite IH.
  replace (8 * length (b :: bs)) with (8 + 8 * length bs) by (simpl; lia).
  rewrite seq_app, map_app. f_equal.
  replace (0 + 8) with 8 by lia.
  assert (forall n s, seq (8 + s) n = map (fun k => 8 + k) (seq s n)) as Hs.
  { induction n as [|n IHn]; intro s; cbn [seq map]; [reflexivity|].
    f_equal. rewrite <- IHn. f_equal; lia. }
  change (seq 8 (8 * length bs)) with (seq (8 + 0) (8 * length bs)).
  rewrite Hs, map_map. apply map_ext; intro k.
  unfold bitat. replace ((8 + k) / 8) with (S (k / 8)) by lia.
  replace ((8 + k) mod 8) with (k mod 8) by lia. reflexivity.
Qed.

(** ** Writing bits *)
Definition b2N (b : bool) : N := if b then 1%N else 0%N.

Lemma land_shiftr_1 n b : N.land (N.shiftr n b) 1 = b2N (N.testbit n b).
Proof.
  rewrite N.testbit_eqb.
  replace 1%N with (N.ones 1) at 1 by reflexivity.
  rewrite N.land_ones, N.shiftr_div_pow2. change (2 ^ 1)%N with 2%N.
  assert (((n / 2 ^ b) mod 2 < 2)%N) by (apply N.mod_lt; lia).
  generalize dependent ((n / 2 ^ b) mod 2)%N. intros m Hm.
  destruct (N.eqb_spec m 1); simpl; lia.
Qed.

Definition write_bits (st : list N * nat) (bs : list bool) : res (list N * nat) :=
  foldM (fun st b => put_bit st (b2N b)) bs st.

Lemma foldM_map {S X Y} (f : S -> Y -> res S) (g : X -> Y) l s :
  foldM f (map g l) s = foldM (fun s x => f s (g x)) l s.
Proof. revert s; induction l as [|x xs IH]; intro s; simpl; [reflexivity|]. destruct (f s (g x)); simpl; auto. Qed.

Lemma foldM_ext {S X} (f g : S -> X -> res S) l s :
  (forall s x, f s x = g s x) -> foldM f l s = foldM g l s.
Proof. intro H; revert s; induction l as [|x xs IH]; intro s; simpl; [reflexivity|]. rewrite H; destruct (g s x); simpl; auto. Qed.

Lemma put_value_bits nbits cutoffs st v :
  put_value nbits cutoffs st v = write_bits st (lsb_bits nbits (bucket cutoffs v)).
Proof.
  unfold put_value, write_bits, lsb_bits, bucket, f_gt.
  rewrite foldM_map. apply foldM_ext; intros s b. rewrite land_shiftr_1; reflexivity.
Qed.

Lemma foldM_put_values nbits cutoffs row st :
  foldM (put_value nbits cutoffs) row st
  = write_bits st (flat_map (fun v => lsb_bits nbits (bucket cutoffs v)) row).
Proof.
  revert st; induction row as [|v vs IH]; intro st; simpl; [reflexivity|].
  unfold write_bits. rewrite foldM_app. fold (write_bits st (lsb_bits nbits (bucket cutoffs v))).
  rewrite put_value_bits. destruct (write_bits st _); simpl; [apply IH|reflexivity|reflexivity].
Qed.

Lemma testbit_shiftl_b2N b i j : N.testbit (N.shiftl (b2N b) i) j = (N.eqb i j && b)%bool.
Proof.
  destruct (N.le_gt_cases i j) as [H|H].
  - rewrite N.shiftl_spec_high' by lia.
    destruct (N.eqb_spec i j) as [->|Hne].
    + rewrite N.sub_diag. destruct b; reflexivity.
    + destruct b; simpl b2N; [|apply N.bits_0].
      rewrite N.testbit_eqb. rewrite N.div_small; [reflexivity|].
      change 1%N with (2 ^ 0)%N at 1. apply N.pow_lt_mono_r; lia.
  - rewrite N.shiftl_spec_low by lia. destruct (N.eqb_spec i j); [lia|reflexivity].
Qed.

Lemma nth_upd {A} (l : list A) i j v d :
  nth j (upd l i v) d = if (Nat.eqb i j && (i <? length l))%bool then v else nth j l d.
Proof.
  revert i j; induction l as [|x xs IH]; intros [|i] [|j]; simpl; auto.
  - rewrite Bool.andb_false_r; reflexivity.
  - rewrite IH. reflexivity.
Qed.

Lemma put_bit_ok row k b :
  k < 8 * length row ->
  exists row', put_bit (row, k) (b2N b) = Ok (row', k + 1)
    /\ length row' = length row
    /\ (forall j, bitat row' j = if Nat.eqb j k then (bitat row k || b)%bool else bitat row j)
    /\ (Forall (fun x => x < 256)%N row -> Forall (fun x => x < 256)%N row').
Proof.
  intro Hk. unfold put_bit, or_at.
  destruct (nth_error row (k / 8)) as [x|] eqn:E.
  2:{ apply nth_error_None in E. lia. }
  cbn [bind]. eexists; split; [reflexivity|].
  assert (Hx : nth (k / 8) row 0%N = x) by (apply nth_error_nth with (d := 0%N) in E; exact E).
  split; [apply upd_length|]. split.
  - intro j. unfold bitat. rewrite nth_upd.
    assert (Hlt : (k / 8 <? length row) = true) by (apply Nat.ltb_lt; lia).
    rewrite Hlt, Bool.andb_true_r.
    destruct (Nat.eqb_spec (k / 8) (j / 8)) as [Hd|Hd].
    + rewrite N.lor_spec, testbit_shiftl_b2N.
      rewrite <- Hd, Hx.
      destruct (Nat.eqb_spec j k) as [->|Hjk].
      * rewrite N.eqb_refl. destruct b; reflexivity.
      * destruct (N.eqb_spec (N.of_nat (7 - k mod 8)) (N.of_nat (7 - j mod 8))) as [He|He].
        { exfalso. apply Nat2N.inj in He. lia. }
        simpl. rewrite Bool.orb_false_r; reflexivity.
    + destruct (Nat.eqb_spec j k) as [->|Hjk]; [lia|reflexivity].
  - intro Hf. apply Forall_forall. intros y Hy.
    apply In_nth_error in Hy. destruct Hy as [i Hi].
    destruct (Nat.eq_dec (k / 8) i) as [<-|Hne].
    + rewrite upd_nth_same in Hi by lia. assert (Hy : y = N.lor x (N.shiftl (b2N b) (N.of_nat (7 - k mod 8)))) by congruence. subst y.
      rewrite Forall_forall in Hf. assert (x < 256)%N by (apply Hf; eapply nth_error_In; eauto).
      destruct (N.eq_dec (N.lor x (N.shiftl (b2N b) (N.of_nat (7 - k mod 8)))) 0) as [->|Hnz]; [lia|].
      change 256%N with (2 ^ 8)%N. apply N.log2_lt_pow2; [lia|].
      rewrite N.log2_lor. apply N.max_lub_lt.
      * destruct (N.eq_dec x 0) as [->|]; [simpl; lia|]. apply N.log2_lt_pow2; [lia|]. exact H.
      * destruct b; simpl b2N.
        -- rewrite N.log2_shiftl by lia. simpl N.log2. lia.
        -- rewrite N.shiftl_0_l. simpl; lia.
    + rewrite upd_nth_other in Hi by assumption.
      rewrite Forall_forall in Hf. apply Hf. eapply nth_error_In; eauto.
Qed.

Lemma write_bits_ok bs : forall row k,
  k + length bs <= 8 * length row ->
  exists row', write_bits (row, k) bs = Ok (row', k + length bs)
    /\ length row' = length row
    /\ (forall j, bitat row' j =
          if ((k <=? j) && (j <? k + length bs))%bool
          then (bitat row j || nth (j - k) bs false)%bool else bitat row j)
    /\ (Forall (fun x => x < 256)%N row -> Forall (fun x => x < 256)%N row').
Proof.
  induction bs as [|b bs IH]; intros row k H; simpl in H.
  - exists row. cbn [write_bits foldM length]. rewrite Nat.add_0_r.
    repeat split; auto. intro j.
    destruct (Nat.leb_spec k j), (Nat.ltb_spec j k); simpl; auto; lia.
  - destruct (put_bit_ok row k b) as (row1 & E1 & L1 & B1 & F1); [lia|].
    destruct (IH row1 (k + 1)) as (row2 & E2 & L2 & B2 & F2); [lia|].
    exists row2. split; [|split; [lia|split; [|auto]]].
    + unfold write_bits in *. cbn [foldM]. rewrite E1. cbn [bind].
      rewrite E2. cbn [length]. f_equal. f_equal. lia.
    + intro j. rewrite B2, !B1. cbn [length].
      destruct (Nat.leb_spec (k + 1) j), (Nat.ltb_spec j (k + 1 + length bs)),
               (Nat.leb_spec k j), (Nat.ltb_spec j (k + S (length bs))), (Nat.eqb_spec j k);
        cbn [andb]; try lia; try reflexivity.
      * replace (j - k) with (S (j - (k + 1))) by lia. reflexivity.
      * subst j. rewrite Nat.sub_diag. reflexivity.
Qed.

(** A full byte row receives exactly the bits written. *)
Lemma write_bits_full bs n :
  length bs = 8 * n ->
  exists row, write_bits (repeat 0%N n, 0) bs = Ok (row, 8 * n)
    /\ length row = n /\ expand row = bs /\ Forall (fun x => x < 256)%N row.
Proof.
  intro H.
  destruct (write_bits_ok bs (repeat 0%N n) 0) as (row & E & L & B & F).
  { rewrite repeat_length. lia. }
  rewrite repeat_length in L.
  exists row. split; [rewrite E; f_equal; f_equal; lia|]. split; [assumption|]. split.
  - rewrite expand_bitat, L.
    apply list_eq_nth_error; intro i.
    destruct (Nat.lt_ge_cases i (8 * n)) as [Hi|Hi].
    + rewrite nth_error_map'. rewrite (nth_error_nth' _ 0) by (rewrite seq_length; lia).
      rewrite seq_nth by lia. simpl option_map. rewrite B.
      assert (Z : bitat (repeat 0%N n) i = false).
      { unfold bitat. rewrite nth_repeat. apply N.bits_0. }
      rewrite Z. rewrite Nat.sub_0_r.
      cbn [plus Nat.leb andb orb].
      destruct (Nat.ltb_spec i (length bs)); [|lia].
      rewrite (nth_error_nth' bs false) by lia. reflexivity.
    + rewrite (proj2 (nth_error_None _ _)) by (rewrite map_length, seq_length; lia).
      symmetry; apply nth_error_None; lia.
  - apply F. clear. induction n; simpl; constructor; [lia|assumption].
Qed.

(** ** Reading *)
Definition byte_indices (nbits : nat) (byte : N) : list nat :=
  nth (N.to_nat (nth (N.to_nat byte) (byte_reversed_bits_map nbits) 0%N))
      (bucket_weight_indices_lookup nbits) [].

Definition sweep (nbits : nat) : bool :=
  forallb (fun i =>
    let r := N.to_nat (nth i (byte_reversed_bits_map nbits) 0%N) in
    (r <? 256) &&
    (if list_eq_dec Nat.eq_dec (byte_indices nbits (N.of_nat i))
         (map lsb_val (chunks nbits (bits8 (N.of_nat i)))) then true else false))%bool
  (seq 0 256).

Lemma sweep_1 : sweep 1 = true. Proof. vm_compute; reflexivity. Qed.
Lemma sweep_2 : sweep 2 = true. Proof. vm_compute; reflexivity. Qed.
Lemma sweep_4 : sweep 4 = true. Proof. vm_compute; reflexivity. Qed.
Lemma sweep_8 : sweep 8 = true. Proof. vm_compute; reflexivity. Qed.

Definition good_nbits (n : nat) : Prop := n = 1 \/ n = 2 \/ n = 4 \/ n = 8.

Lemma new_codec_ok nbits dim cs cu w :
  (exists c, new_codec nbits dim cs cu w = Ok c) <-> good_nbits nbits.
Proof.
  unfold new_codec, good_nbits; split.
  - intros [c H]. destruct (Nat.eqb_spec nbits 0); simpl in H; [discriminate|].
    destruct (Nat.eqb_spec (8 mod nbits) 0) as [E|E]; simpl in H; [|discriminate].
    destruct (Nat.lt_ge_cases 8 nbits) as [L|L].
    { rewrite Nat.mod_small in E by lia. lia. }
    do 9 (destruct nbits as [|nbits]; [simpl in E; lia|]). lia.
  - intros [->|[->|[->| ->]]]; simpl; eauto.
Qed.

Lemma sweep_good n : good_nbits n -> sweep n = true.
Proof.
  intros [->|[->|[->| ->]]]; [apply sweep_1|apply sweep_2|apply sweep_4|apply sweep_8].
Qed.

Lemma byte_indices_spec nbits byte :
  good_nbits nbits -> (byte < 256)%N ->
  exists r idxs,
    idx (byte_reversed_bits_map nbits) (N.to_nat byte) = Ok r /\
    idx (bucket_weight_indices_lookup nbits) (N.to_nat r) = Ok idxs /\
    idxs = map lsb_val (chunks nbits (bits8 byte)).
Proof.
  intros Hn Hb. pose proof (sweep_good nbits Hn) as S.
  unfold sweep in S. rewrite forallb_forall in S.
  specialize (S (N.to_nat byte)).
  assert (Hin : In (N.to_nat byte) (seq 0 256)) by (apply in_seq; lia).
  specialize (S Hin). apply andb_true_iff in S. destruct S as [S1 S2].
  apply Nat.ltb_lt in S1.
  rewrite N2Nat.id in S2.
  destruct (list_eq_dec Nat.eq_dec (byte_indices nbits byte) _) as [E|]; [|discriminate].
  exists (nth (N.to_nat byte) (byte_reversed_bits_map nbits) 0%N), (byte_indices nbits byte).
  split; [|split].
  - apply idx_nth. unfold byte_reversed_bits_map. rewrite map_length, seq_length. lia.
  - unfold byte_indices. apply idx_nth. unfold bucket_weight_indices_lookup.
    rewrite map_length, seq_length. exact S1.
  - exact E.
Qed.

Section DECOMPRESS.
  Variable fadd : f32 -> f32 -> f32.

  Lemma foldM_decompress_bytes nbits dim centroid weights packed out :
    good_nbits nbits -> Forall (fun x => x < 256)%N packed ->
    foldM (decompress_byte fadd dim (byte_reversed_bits_map nbits)
             (bucket_weight_indices_lookup nbits) centroid weights) packed out
    = foldM (decompress_entry fadd dim centroid weights)
        (flat_map (fun b => map lsb_val (chunks nbits (bits8 b))) packed) out.
  Proof.
    intros Hn. revert out. induction packed as [|b bs IH]; intros out Hf; [reflexivity|].
    inversion Hf; subst. cbn [foldM flat_map]. rewrite foldM_app.
    unfold decompress_byte at 1.
    destruct (byte_indices_spec nbits b Hn ltac:(assumption)) as (r & ix & E1 & E2 & E3).
    rewrite E1; cbn [bind]. rewrite E2; cbn [bind]. rewrite E3.
    destruct (foldM _ _ out); cbn [bind]; auto.
  Qed.

  Lemma decompress_entries_ok dim centroid weights ixs : forall out,
    length centroid = dim ->
    length out + length ixs <= dim ->
    Forall (fun i => i < length weights) ixs ->
    foldM (decompress_entry fadd dim centroid weights) ixs out
    = Ok (out ++ map (fun ci => fadd (fst ci) (nth (snd ci) weights f_zero))
                     (combine (skipn (length out) centroid) ixs)).
  Proof.
    induction ixs as [|i ixs IH]; intros out Hc Hl Hf.
    - simpl. destruct (skipn (length out) centroid); simpl; rewrite app_nil_r; reflexivity.
    - inversion Hf; subst. cbn [length] in Hl. cbn [foldM]. unfold decompress_entry at 1.
      destruct (Nat.ltb_spec (length out) (length centroid)); [|lia].
      rewrite (idx_nth centroid _ f_zero) by lia. cbn [bind].
      rewrite (idx_nth weights i f_zero) by lia. cbn [bind].
      rewrite IH; [|lia|rewrite app_length; simpl; lia|assumption].
      rewrite <- app_assoc. f_equal. f_equal.
      rewrite app_length; simpl length.
      assert (Hs : skipn (length out) centroid
              = nth (length out) centroid f_zero :: skipn (length out + 1) centroid).
      { clear -H. revert H. generalize (length out) as k. revert centroid.
        induction centroid as [|c cs IHc]; intros [|k] Hk; simpl in *; try lia; auto.
        - rewrite <- IHc by lia. reflexivity. }
      rewrite Hs. cbn [combine map app fst snd]. reflexivity.
  Qed.
End DECOMPRESS.

(** segments of nbits survive the byte grouping *)
Lemma chunks_app_exact {A} n (a b : list A) :
  1 <= n -> length a = n -> chunks n (a ++ b) = a :: chunks n b.
Proof.
  intros Hn Ha. unfold chunks.
  assert (Hf : firstn n (a ++ b) = a)
    by (subst n; rewrite firstn_app, Nat.sub_diag, firstn_all, firstn_O, app_nil_r; reflexivity).
  assert (Hsk : skipn n (a ++ b) = b)
    by (subst n; rewrite skipn_app, Nat.sub_diag, skipn_all; reflexivity).
  destruct (a ++ b) as [|x r] eqn:Eab.
  { apply app_eq_nil in Eab. destruct Eab; subst; simpl in *; lia. }
  assert (Hlen : length b <= length r).
  { apply (f_equal (@length A)) in Eab. rewrite app_length in Eab. simpl in Eab. lia. }
  cbn [length chunks_fuel]. rewrite Hf, Hsk. f_equal.
  clear - Hn Hlen.
  (* fuel independence *)
  assert (G : forall f1 f2 (l : list A), length l <= f1 -> length l <= f2 ->
              chunks_fuel f1 n l = chunks_fuel f2 n l).
  { induction f1 as [|f1 IH]; intros f2 l H1 H2.
    - destruct l; [destruct f2; reflexivity|simpl in H1; lia].
    - destruct l as [|y l]; [destruct f2; reflexivity|].
      destruct f2 as [|f2]; [simpl in H2; lia|]. simpl. f_equal.
      apply IH; rewrite skipn_length; cbn [length] in *; lia. }
  apply G; lia.
Qed.

Lemma chunks_flat_map {A B} n (f : A -> list B) l :
  1 <= n -> (forall x, In x l -> length (f x) = n) -> chunks n (flat_map f l) = map f l.
Proof.
  intros Hn; induction l as [|x xs IH]; intro H; [reflexivity|].
  cbn [flat_map map]. rewrite chunks_app_exact; [|assumption|apply H; left; reflexivity].
  rewrite IH; [reflexivity|]. intros; apply H; right; assumption.
Qed.

Lemma chunks_app_mult {A} n m (a b : list A) :
  1 <= n -> length a = n * m -> chunks n (a ++ b) = chunks n a ++ chunks n b.
Proof.
  intro Hn. revert a; induction m as [|m IH]; intros a Ha.
  - destruct a; [reflexivity|simpl in Ha; lia].
  - rewrite <- (firstn_skipn n a) at 1. rewrite <- app_assoc.
    assert (Hf : length (firstn n a) = n) by (rewrite firstn_length; lia).
    rewrite chunks_app_exact by assumption.
    rewrite IH by (rewrite skipn_length; lia).
    rewrite <- (firstn_skipn n a) at 3.
    rewrite chunks_app_exact by assumption. reflexivity.
Qed.

Lemma good_divides nbits : good_nbits nbits -> exists m, 8 = nbits * m /\ 1 <= nbits.
Proof. intros [->|[->|[->| ->]]]; [exists 8|exists 4|exists 2|exists 1]; lia. Qed.

Lemma flat_map_chunks_bytes nbits row :
  good_nbits nbits ->
  flat_map (fun b => map lsb_val (chunks nbits (bits8 b))) row = map lsb_val (chunks nbits (expand row)).
Proof.
  intro Hn. destruct (good_divides nbits Hn) as (m & Hm & H1).
  induction row as [|b bs IH]; [reflexivity|].
  cbn [flat_map expand]. fold (expand bs).
  rewrite (chunks_app_mult nbits m) by (simpl; lia).
  rewrite map_app, IH. reflexivity.
Qed.

Lemma lsb_val_bits n : forall v, v < 2 ^ n -> lsb_val (lsb_bits n v) = v.
Proof.
  induction n as [|n IH]; intros v Hv; [simpl in *; lia|].
  unfold lsb_bits. cbn [seq map lsb_val].
  rewrite <- seq_shift, map_map.
  assert (E : map (fun x => N.testbit (N.of_nat v) (N.of_nat (S x))) (seq 0 n)
            = lsb_bits n (v / 2)).
  { unfold lsb_bits. apply map_ext; intro k.
    rewrite Nat2N.inj_succ. rewrite N.testbit_succ_r_div2 by lia.
    rewrite Nat2N.inj_div. rewrite N.div2_div. reflexivity. }
  rewrite E, IH by (rewrite Nat.pow_succ_r' in Hv; lia).
  change (N.of_nat 0) with 0%N. rewrite N.bit0_odd.
  replace (N.odd (N.of_nat v)) with (Nat.odd v).
  2:{ rewrite <- (Nat2N.id v) at 1. generalize (N.of_nat v); intro x.
      destruct x as [|p]; [reflexivity|]. simpl.
      destruct p; simpl; rewrite ?Pos2Nat.inj_xI, ?Pos2Nat.inj_xO.
      - change (S (2 * Pos.to_nat p)) with (1 + 2 * Pos.to_nat p). rewrite Nat.odd_add_mul_2; reflexivity.
      - replace (2 * Pos.to_nat p) with (0 + 2 * Pos.to_nat p) by lia. rewrite Nat.odd_add_mul_2; reflexivity.
      - reflexivity. }
  pose proof (Nat.div2_odd v) as Ho. rewrite Nat.div2_div in Ho.
  destruct (Nat.odd v); simpl Nat.b2n in Ho; lia.
Qed.

Lemma bucket_le cutoffs v : bucket cutoffs v <= length cutoffs.
Proof. unfold bucket. induction cutoffs as [|c cs IH]; simpl; [lia|]. destruct (f_lt c v); simpl; lia. Qed.

Lemma quantize_row_ok nbits cutoffs row packed_dim :
  good_nbits nbits -> length row * nbits = 8 * packed_dim ->
  exists packed, quantize_row nbits packed_dim cutoffs row = Ok packed
    /\ length packed = packed_dim
    /\ expand packed = flat_map (fun v => lsb_bits nbits (bucket cutoffs v)) row
    /\ Forall (fun x => x < 256)%N packed.
Proof.
  intros Hn Hl. unfold quantize_row. rewrite foldM_put_values.
  destruct (write_bits_full (flat_map (fun v => lsb_bits nbits (bucket cutoffs v)) row) packed_dim)
    as (r & E & L & X & F).
  { rewrite <- Hl. clear. induction row as [|v vs IH]; [reflexivity|].
    cbn [flat_map length]. rewrite app_length, IH. unfold lsb_bits. rewrite map_length, seq_length. lia. }
  exists r. rewrite E. simpl. auto.
Qed.

(** Number of bits written exceeds the row: the real code panics. *)
Lemma write_bits_panic bs : forall row k,
  k <= 8 * length row -> 8 * length row < k + length bs -> write_bits (row, k) bs = Panic.
Proof.
  induction bs as [|b bs IH]; intros row k H1 H2; [simpl in H2; lia|].
  unfold write_bits; cbn [foldM].
  destruct (Nat.eq_dec k (8 * length row)) as [->|Hne].
  - unfold put_bit, or_at.
    assert (nth_error row (8 * length row / 8) = None) as -> by (apply nth_error_None; lia).
    reflexivity.
  - destruct (put_bit_ok row k b) as (row1 & E1 & L1 & _ & _); [lia|].
    rewrite E1; cbn [bind].
    apply (IH row1 (k + 1)); cbn [length] in *; lia.
Qed.

Lemma quantize_row_panic nbits cutoffs row :
  1 <= nbits -> (length row * nbits) mod 8 <> 0 ->
  quantize_row nbits (length row * nbits / 8) cutoffs row = Panic.
Proof.
  intros Hn Hm. unfold quantize_row. rewrite foldM_put_values.
  rewrite write_bits_panic; [reflexivity|lia|].
  rewrite repeat_length.
  assert (E : length (flat_map (fun v => lsb_bits nbits (bucket cutoffs v)) row) = length row * nbits).
  { clear. induction row as [|v vs IH]; [reflexivity|].
    cbn [flat_map length]. rewrite app_length, IH. unfold lsb_bits. rewrite map_length, seq_length. lia. }
  rewrite E. lia.
Qed.

Section ROUNDTRIP.
  Variable fadd : f32 -> f32 -> f32.
  Variable normalize : list f32 -> list f32.

  Lemma decompress_row_roundtrip c nbits cutoffs weights row code centroid packed lookup :
    good_nbits nbits ->
    c_revmap c = byte_reversed_bits_map nbits ->
    lookup = bucket_weight_indices_lookup nbits ->
    length cutoffs < 2 ^ nbits -> length weights = 2 ^ nbits ->
    nth_error (c_centroids c) code = Some centroid ->
    length centroid = c_dim c -> length row = c_dim c ->
    expand packed = flat_map (fun v => lsb_bits nbits (bucket cutoffs v)) row ->
    Forall (fun x => x < 256)%N packed ->
    decompress_row fadd normalize c lookup weights code packed
    = Ok (normalize (decoded_row fadd centroid weights cutoffs row)).
  Proof.
    intros Hn Hr -> Hc Hw Hcode Hcl Hrl Hx Hf.
    unfold decompress_row. rewrite (proj2 (idx_Ok _ _ _) Hcode). cbn [bind].
    rewrite Hr, foldM_decompress_bytes by assumption.
    rewrite flat_map_chunks_bytes, Hx by assumption.
    destruct (good_divides nbits Hn) as (m & _ & Hn1).
    rewrite chunks_flat_map; [|assumption|intros; unfold lsb_bits; rewrite map_length, seq_length; reflexivity].
    rewrite map_map.
    assert (E : map (fun x => lsb_val (lsb_bits nbits (bucket cutoffs x))) row = map (bucket cutoffs) row).
    { apply map_ext; intro v. apply lsb_val_bits. pose proof (bucket_le cutoffs v); lia. }
    rewrite E.
    rewrite (decompress_entries_ok fadd (c_dim c) centroid weights (map (bucket cutoffs) row) []);
      [ | exact Hcl | rewrite map_length; simpl; lia | ].
    2:{ apply Forall_forall. intros i Hi. apply in_map_iff in Hi. destruct Hi as (v & <- & _).
        pose proof (bucket_le cutoffs v); lia. }
    cbn [bind app length skipn]. f_equal. f_equal.
    rewrite map_length, combine_length, map_length.
    rewrite Hcl, Hrl, Nat.min_id, Nat.sub_diag. cbn [repeat]. rewrite app_nil_r.
    unfold decoded_row.
    clear. revert row. induction centroid as [|c0 cs IH]; intros [|v vs]; simpl; auto.
    f_equal; apply IH.
  Qed.

  Theorem quantize_decompress nbits dim cents cutoffs weights c rows codes :
    new_codec nbits dim cents (Some cutoffs) (Some weights) = Ok c ->
    length cutoffs < 2 ^ nbits -> length weights = 2 ^ nbits ->
    Forall (fun r => length r = dim) cents -> Forall (fun r => length r = dim) rows ->
    (dim * nbits) mod 8 = 0 ->
    length codes = length rows -> Forall (fun k => k < length cents) codes ->
    exists packed, quantize_residuals c dim rows = Ok packed
      /\ Forall (fun p => length p = dim * nbits / 8) packed
      /\ decompress fadd normalize c packed codes
         = Ok (map (fun kr => normalize (decoded_row fadd (nth (fst kr) cents []) weights cutoffs (snd kr)))
                   (combine codes rows)).
  Proof.
    intros Hc Hcu Hw Hcents Hrows Hdim Hlen Hcodes.
    assert (Hn : good_nbits nbits) by (eapply new_codec_ok; eauto).
    unfold new_codec in Hc.
    destruct ((nbits =? 0) || negb (8 mod nbits =? 0))%bool; [discriminate|].
    inversion Hc; subst c; clear Hc.
    unfold quantize_residuals, decompress; cbn [c_cutoffs c_weights c_lookup c_nbits].
    revert codes Hlen Hcodes. induction rows as [|row rows IH]; intros codes Hlen Hcodes.
    - destruct codes; [|simpl in Hlen; lia]. exists []. simpl. auto.
    - destruct codes as [|code codes]; [simpl in Hlen; lia|].
      inversion Hrows; subst. inversion Hcodes; subst.
      destruct (IH ltac:(assumption) codes ltac:(simpl in Hlen; lia) ltac:(assumption)) as (ps & Q & F & D).
      destruct (quantize_row_ok nbits cutoffs row (length row * nbits / 8) Hn) as (p & Q1 & L1 & X1 & F1); [lia|].
      exists (p :: ps). cbn [mapM]. rewrite Q1. cbn [bind]. rewrite Q. cbn [bind].
      split; [reflexivity|]. split; [constructor; assumption|].
      cbn [decompress_rows combine map fst snd].
      assert (Hnth : nth_error cents code = Some (nth code cents [])) by (apply nth_error_nth'; assumption).
      assert (Hcl : length (nth code cents []) = length row).
      { rewrite Forall_forall in Hcents. apply Hcents. eapply nth_error_In; eauto. }
      erewrite (decompress_row_roundtrip _ nbits cutoffs weights row code (nth code cents []));
        eauto. cbn [bind]. rewrite D. reflexivity.
  Qed.
End ROUNDTRIP.

(** Sorted cutoffs: the bucket is the searchsorted position. *)
Lemma filter_none {A} (P : A -> bool) l : Forall (fun b => P b = false) l -> filter P l = [].
Proof. induction 1 as [|x l Hx Hl IH]; [reflexivity|]. cbn [filter]. rewrite Hx. exact IH. Qed.

Lemma bucket_searchsorted cutoffs v i c :
  StronglySorted (fun a b => f_lt a v = false -> f_lt b v = false) cutoffs ->
  nth_error cutoffs i = Some c ->
  (f_lt c v = true <-> i < bucket cutoffs v).
Proof.
  intro S. revert i; induction S as [|a cs S IH Ha]; intros [|i] Hi; simpl in Hi; try discriminate.
  - inversion Hi; subst a. unfold bucket; cbn [filter].
    assert (Hz : f_lt c v = false -> filter (fun c0 => f_lt c0 v) cs = []).
    { intro E. apply filter_none. apply Forall_impl with (2 := Ha). auto. }
    destruct (f_lt c v); cbn [length]; [split; [lia|auto]|].
    split; [discriminate|]. rewrite Hz by reflexivity; simpl; lia.
  - specialize (IH i Hi). unfold bucket in *; cbn [filter].
    assert (Hz : f_lt a v = false -> filter (fun c0 => f_lt c0 v) cs = []).
    { intro E. apply filter_none. apply Forall_impl with (2 := Ha). auto. }
    destruct (f_lt a v) eqn:E; cbn [length]; [rewrite IH; lia|].
    rewrite (Hz eq_refl) in IH |- *. simpl in *.
    split; [intro Hc; apply IH in Hc; lia|lia].
Qed.

Lemma bucket_searchsorted_fval cutoffs v i c :
  Forall (fun c => is_nan c = false) cutoffs ->
  StronglySorted (fun a b => (fval a <= fval b)%Z) cutoffs ->
  nth_error cutoffs i = Some c ->
  (f_lt c v = true <-> i < bucket cutoffs v).
Proof.
  intros Hn Hs. apply bucket_searchsorted.
  clear i c. induction Hs as [|a cs Hs IH Ha]; [constructor|].
  inversion Hn; subst. constructor; [auto|].
  rewrite Forall_forall in *. intros b Hb.
  specialize (Ha b Hb). unfold f_lt.
  rewrite (H1 : is_nan a = false), (H2 b Hb). destruct (is_nan v); [auto|].
  cbn [negb andb]. lia.
Qed.

Lemma bucket_nan cutoffs v : is_nan v = true -> bucket cutoffs v = 0.
Proof.
  intro H. unfold bucket. rewrite filter_none; [reflexivity|].
  apply Forall_forall. intros c _. unfold f_lt. rewrite H.
  destruct (is_nan c); reflexivity.
Qed.

(** ** argmax *)
Lemma cmp_better a b : cmp_f32_for_max a b = Gt <-> better a b.
Proof.
  unfold cmp_f32_for_max, better, total_cmp.
  destruct (is_finite a), (is_finite b); try (split; [discriminate|tauto]); try tauto.
  rewrite Z.compare_gt_iff. reflexivity.
Qed.

Lemma better_trans_neg a b c : ~ better a b -> ~ better b c -> ~ better a c.
Proof.
  unfold better. destruct (is_finite a), (is_finite b), (is_finite c); try tauto; lia.
Qed.
Lemma better_negl a b c : better a b -> ~ better c b -> better a c.
Proof.
  unfold better. destruct (is_finite a), (is_finite b), (is_finite c); try tauto; lia.
Qed.
Lemma better_irrefl a : ~ better a a.
Proof. unfold better. destruct (is_finite a); [lia|tauto]. Qed.
Lemma better_dec a b : better a b \/ ~ better a b.
Proof. unfold better. destruct (is_finite a), (is_finite b); try tauto. lia. Qed.
Lemma better_asym a b : better a b -> ~ better b a.
Proof. unfold better. destruct (is_finite a), (is_finite b); try tauto; lia. Qed.

Lemma fold_max_spec xs : forall n i s pre,
  length pre = n ->
  nth_error pre i = Some s ->
  (forall j t, nth_error pre j = Some t -> ~ better t s) ->
  (forall j t, nth_error pre j = Some t -> i < j -> better s t) ->
  exists i' s',
    fold_left (max_by_step cmp_f32_for_max) (combine (seq n (length xs)) xs) (Some (i, s)) = Some (i', s')
    /\ nth_error (pre ++ xs) i' = Some s'
    /\ (forall j t, nth_error (pre ++ xs) j = Some t -> ~ better t s')
    /\ (forall j t, nth_error (pre ++ xs) j = Some t -> i' < j -> better s' t).
Proof.
  induction xs as [|x xs IH]; intros n i s pre Hn Hi Hmax Hlast.
  - simpl. exists i, s. rewrite app_nil_r. auto.
  - cbn [length seq combine fold_left]. unfold max_by_step at 2. cbn [snd].
    assert (Hpre : length (pre ++ [x]) = S n) by (rewrite app_length; simpl; lia).
    replace (pre ++ x :: xs) with ((pre ++ [x]) ++ xs) by (rewrite <- app_assoc; reflexivity).
    destruct (cmp_f32_for_max s x) eqn:E.
    3:{ apply cmp_better in E. apply (IH (S n) i s (pre ++ [x])); auto.
      - rewrite nth_error_app1; [assumption|]. apply nth_error_Some; congruence.
      - intros j t Hj. destruct (Nat.lt_ge_cases j (length pre)) as [L|L].
        + rewrite nth_error_app1 in Hj by assumption. eauto.
        + rewrite nth_error_app2 in Hj by assumption.
          destruct (j - length pre) as [|k]; [|destruct k; discriminate].
          simpl in Hj; inversion Hj; subst. apply better_asym; assumption.
      - intros j t Hj Hij. destruct (Nat.lt_ge_cases j (length pre)) as [L|L].
        + rewrite nth_error_app1 in Hj by assumption. eauto.
        + rewrite nth_error_app2 in Hj by assumption.
          destruct (j - length pre) as [|k]; [|destruct k; discriminate].
          simpl in Hj; inversion Hj; subst. assumption. }
    all: assert (Hns : ~ better s x) by (rewrite <- cmp_better; congruence).
    all: apply (IH (S n) n x (pre ++ [x])); auto;
      [ rewrite nth_error_app2 by lia; replace (n - length pre) with 0 by lia; reflexivity | | ].
    all: try (intros j t Hj; destruct (Nat.lt_ge_cases j (length pre)) as [L|L];
        [ rewrite nth_error_app1 in Hj by assumption; eapply better_trans_neg; eauto
        | rewrite nth_error_app2 in Hj by assumption;
          destruct (j - length pre) as [|k]; [|destruct k; discriminate];
          simpl in Hj; inversion Hj; subst; apply better_irrefl ]).
    all: intros j t Hj Hij; exfalso;
      assert (j < length (pre ++ [x])) by (apply nth_error_Some; congruence); lia.
Qed.

Lemma argmax_row_spec scores : scores <> [] -> is_last_argmax scores (argmax_row scores).
Proof.
  destruct scores as [|x xs]; [congruence|intros _].
  unfold argmax_row. cbn [length seq combine fold_left]. unfold max_by_step at 2.
  destruct (fold_max_spec xs 1 0 x [x]) as (i & s & E & H1 & H2 & H3); auto.
  - intros [|j] t Hj; [inversion Hj; subst; apply better_irrefl|destruct j; discriminate].
  - intros [|j] t Hj Hij; [lia|destruct j; discriminate].
  - rewrite E. exists s. auto.
Qed.

Lemma is_last_argmax_unique scores i j :
  is_last_argmax scores i -> is_last_argmax scores j -> i = j.
Proof.
  intros (s & Hs & Ms & Ls) (t & Ht & Mt & Lt).
  destruct (Nat.lt_trichotomy i j) as [H|[H|H]]; auto; exfalso.
  - apply (Mt i s Hs). apply (Ls j t Ht H).
  - apply (Ms j t Ht). apply (Lt i s Hs H).
Qed.

Section COMPRESS.
  Variable dot : list f32 -> list f32 -> f32.
  Lemma compress_ok mem cents embs :
    cents <> [] ->
    exists codes, compress_into_codes dot mem cents embs = Ok codes
      /\ Forall2 (fun e k => is_last_argmax (map (dot e) cents) k) embs codes.
  Proof.
    intro Hc. exists (map (fun e => argmax_row (map (dot e) cents)) embs). split.
    - unfold compress_into_codes. destruct embs as [|e es]; [reflexivity|].
      unfold nearest_batch_size.
      destruct (Nat.eqb_spec (length cents * 4) 0) as [H|H].
      { destruct cents; [congruence|simpl in H; lia]. }
      cbn [bind]. f_equal. apply map_chunks_concat. lia.
    - induction embs as [|e es IH]; simpl; constructor; [|exact IH].
      apply argmax_row_spec. destruct cents; [congruence|discriminate].
  Qed.

  Lemma compress_batch_independent mem1 mem2 cents embs :
    compress_into_codes dot mem1 cents embs = compress_into_codes dot mem2 cents embs.
  Proof.
    unfold compress_into_codes. destruct embs as [|e es]; [reflexivity|].
    unfold nearest_batch_size. destruct (length cents * 4 =? 0); [reflexivity|].
    cbn [bind]. rewrite !map_chunks_concat by lia. reflexivity.
  Qed.
End COMPRESS.

(** ** packbits / unpackbits *)
Definition pack_chunk (chunk : list N) : N :=
  fold_left (fun byte ib => N.lor byte (N.shiftl (snd ib) (N.of_nat (7 - fst ib)) mod 256)%N)
    (combine (seq 0 (length chunk)) chunk) 0%N.
Definition unpack_byte (byte : N) : list N :=
  map (fun i => N.land (N.shiftr byte (N.of_nat i)) 1) (rev (seq 0 8)).

Fixpoint all_bits (n : nat) : list (list N) :=
  match n with
  | O => [[]]
  | S m => flat_map (fun l => [0%N :: l; 1%N :: l]) (all_bits m)
  end.

Lemma all_bits_In n : forall l, length l = n -> Forall (fun b => b = 0 \/ b = 1)%N l -> In l (all_bits n).
Proof.
  induction n as [|n IH]; intros l Hl Hf.
  - destruct l; [left; reflexivity|simpl in Hl; lia].
  - destruct l as [|b l]; [simpl in Hl; lia|].
    inversion Hf; subst. simpl. apply in_flat_map. exists l.
    split; [apply IH; [simpl in Hl; lia|assumption]|]. simpl. destruct H1 as [->| ->]; auto.
Qed.

Lemma pack_short_sweep :
  forallb (fun n => forallb (fun l =>
     if list_eq_dec N.eq_dec (unpack_byte (pack_chunk l)) (l ++ repeat 0%N (8 - n)) then true else false)
     (all_bits n)) (seq 0 9) = true.
Proof. vm_compute; reflexivity. Qed.

Lemma unpack_pack_chunk l :
  length l <= 8 -> Forall (fun b => b = 0 \/ b = 1)%N l ->
  unpack_byte (pack_chunk l) = l ++ repeat 0%N (8 - length l).
Proof.
  intros Hl Hf. pose proof pack_short_sweep as S. rewrite forallb_forall in S.
  specialize (S (length l)). assert (H : In (length l) (seq 0 9)) by (apply in_seq; lia).
  specialize (S H). rewrite forallb_forall in S.
  specialize (S l (all_bits_In _ l eq_refl Hf)).
  destruct (list_eq_dec _ _ _); [assumption|discriminate].
Qed.

Lemma chunks_cons {A} n (l : list A) :
  1 <= n -> l <> [] -> chunks n l = firstn n l :: chunks n (skipn n l).
Proof.
  intros Hn Hl. destruct (Nat.le_gt_cases n (length l)) as [H|H].
  - rewrite <- (firstn_skipn n l) at 1. apply chunks_app_exact; [assumption|].
    rewrite firstn_length; lia.
  - rewrite skipn_all2 by lia. unfold chunks. destruct l as [|x l]; [congruence|].
    simpl chunks_fuel at 1. rewrite skipn_all2 by lia.
    destruct (length l); reflexivity.
Qed.

Lemma unpack_pack bits :
  Forall (fun b => b = 0 \/ b = 1)%N bits ->
  unpackbits (packbits bits) = bits ++ repeat 0%N ((8 - length bits mod 8) mod 8).
Proof.
  intro Hf. remember (length bits) as n eqn:En.
  revert bits Hf En. induction n as [n IH] using lt_wf_ind; intros bits Hf En.
  destruct bits as [|b bs]; [subst n; reflexivity|].
  unfold packbits. rewrite chunks_cons by (try lia; discriminate).
  cbn [map unpackbits flat_map].
  change (map _ (chunks 8 (skipn 8 (b :: bs)))) with (packbits (skipn 8 (b :: bs))).
  fold (pack_chunk (firstn 8 (b :: bs))).
  fold (unpack_byte (pack_chunk (firstn 8 (b :: bs)))).
  fold (unpackbits (packbits (skipn 8 (b :: bs)))).
  assert (Hf1 : Forall (fun b => b = 0 \/ b = 1)%N (firstn 8 (b :: bs))).
  { rewrite Forall_forall in *. intros x Hx. apply Hf.
    rewrite <- (firstn_skipn 8 (b :: bs)). apply in_or_app; left; exact Hx. }
  assert (Hf2 : Forall (fun b => b = 0 \/ b = 1)%N (skipn 8 (b :: bs))).
  { rewrite Forall_forall in *. intros x Hx. apply Hf.
    rewrite <- (firstn_skipn 8 (b :: bs)). apply in_or_app; right; exact Hx. }
  rewrite unpack_pack_chunk; [|rewrite firstn_length; lia|assumption].
  destruct (Nat.le_gt_cases 8 n) as [H8|H8].
  - rewrite (IH (n - 8)); [|lia|assumption|rewrite skipn_length; lia].
    rewrite firstn_length. replace (8 - Nat.min 8 (length (b :: bs))) with 0 by lia.
    cbn [repeat]. rewrite app_nil_r, app_assoc, firstn_skipn. f_equal. f_equal. lia.
  - rewrite firstn_all2, skipn_all2 by lia.
    cbn [packbits chunks length chunks_fuel map unpackbits flat_map]. rewrite app_nil_r.
    f_equal. f_equal. cbn [length] in *. lia.
Qed.

Lemma pack_unpack_sweep :
  forallb (fun i => N.eqb (pack_chunk (unpack_byte (N.of_nat i))) (N.of_nat i)) (seq 0 256) = true.
Proof. vm_compute; reflexivity. Qed.

Lemma pack_unpack bytes :
  Forall (fun b => b < 256)%N bytes -> packbits (unpackbits bytes) = bytes.
Proof.
  intro Hf. unfold unpackbits.
  change (packbits (flat_map unpack_byte bytes) = bytes).
  unfold packbits. rewrite chunks_flat_map; [|lia|intros; reflexivity].
  rewrite map_map. induction Hf as [|b bs Hb Hf IH]; [reflexivity|].
  cbn [map]. f_equal; [|exact IH].
  pose proof pack_unpack_sweep as S. rewrite forallb_forall in S.
  specialize (S (N.to_nat b)). rewrite N2Nat.id in S.
  apply N.eqb_eq. apply S. apply in_seq. lia.
Qed.
