From Verif Require Import Base Text Base64 Base64Spec.
Open Scope nat_scope.

Lemma small_Z (n : nat) (P : Z -> bool) : forallb P (map Z.of_nat (seq 0 n)) = true -> forall z, (0 <= z < Z.of_nat n)%Z -> P z = true.
Proof.
  intros H z Hz. rewrite forallb_forall in H. apply H. apply in_map_iff. exists (Z.to_nat z). split; [lia|]. apply in_seq. lia.
Qed.
Lemma sextet_char i : (0 <= i < 64)%Z -> sextet (b64_char i) = Some i.
Proof.
  intro H. pose proof (small_Z 64 (fun i => match sextet (b64_char i) with Some j => (i =? j)%Z | None => false end) eq_refl i H) as Q.
  cbn beta in Q. destruct (sextet (b64_char i)); [|discriminate]. apply Z.eqb_eq in Q. congruence.
Qed.
Lemma byte_small (P : Z -> bool) : forallb P (map Z.of_nat (seq 0 256)) = true -> forall z, is_byte z -> P z = true.
Proof. intros H z Hz. apply (small_Z 256 P H). unfold is_byte in Hz. lia. Qed.
Lemma shiftr2 b : is_byte b -> Z.shiftr b 2 = (b / 4)%Z /\ (0 <= b / 4 < 64)%Z.
Proof.
  intro H. split; [apply Z.shiftr_div_pow2; lia|]. unfold is_byte in H. split; [apply Z.div_pos; lia|apply Z.div_lt_upper_bound; lia].
Qed.
Lemma second b0 b1 : is_byte b0 -> is_byte b1 ->
  Z.lor (Z.shiftl (Z.land b0 3) 4) (Z.shiftr b1 4) = ((b0 mod 4) * 16 + b1 / 16)%Z /\ (0 <= (b0 mod 4) * 16 + b1 / 16 < 64)%Z.
Proof.
  intros H0 H1. change 3%Z with (Z.ones 2). rewrite Z.land_ones by lia. rewrite (Z.shiftr_div_pow2 b1) by lia. change (2 ^ 2)%Z with 4%Z. change (2 ^ 4)%Z with 16%Z.
  unfold is_byte in *. assert (A : (0 <= b0 mod 4 < 4)%Z) by (apply Z.mod_pos_bound; lia).
  assert (B : (0 <= b1 / 16 < 16)%Z) by (split; [apply Z.div_pos; lia|apply Z.div_lt_upper_bound; lia]). split; [|lia].
  revert A B. generalize (b0 mod 4)%Z, (b1 / 16)%Z. intros x y A B.
  pose proof (small_Z 4 (fun x => forallb (fun y => (Z.lor (Z.shiftl x 4) y =? x * 16 + y)%Z) (map Z.of_nat (seq 0 16))) eq_refl x A) as Q.
  pose proof (small_Z 16 _ Q y B) as Q'. cbn beta in Q'. apply Z.eqb_eq. exact Q'.
Qed.
Lemma third b1 b2 : is_byte b1 -> is_byte b2 ->
  Z.lor (Z.shiftl (Z.land b1 15) 2) (Z.shiftr b2 6) = ((b1 mod 16) * 4 + b2 / 64)%Z /\ (0 <= (b1 mod 16) * 4 + b2 / 64 < 64)%Z.
Proof.
  intros H0 H1. change 15%Z with (Z.ones 4). rewrite Z.land_ones by lia. rewrite (Z.shiftr_div_pow2 b2) by lia. change (2 ^ 4)%Z with 16%Z. change (2 ^ 6)%Z with 64%Z.
  unfold is_byte in *. assert (A : (0 <= b1 mod 16 < 16)%Z) by (apply Z.mod_pos_bound; lia).
  assert (B : (0 <= b2 / 64 < 4)%Z) by (split; [apply Z.div_pos; lia|apply Z.div_lt_upper_bound; lia]). split; [|lia].
  revert A B. generalize (b1 mod 16)%Z, (b2 / 64)%Z. intros x y A B.
  pose proof (small_Z 16 (fun x => forallb (fun y => (Z.lor (Z.shiftl x 2) y =? x * 4 + y)%Z) (map Z.of_nat (seq 0 4))) eq_refl x A) as Q.
  pose proof (small_Z 4 _ Q y B) as Q'. cbn beta in Q'. apply Z.eqb_eq. exact Q'.
Qed.
Lemma fourth b2 : is_byte b2 -> Z.land b2 63 = (b2 mod 64)%Z /\ (0 <= b2 mod 64 < 64)%Z.
Proof. intro H. change 63%Z with (Z.ones 6). rewrite Z.land_ones by lia. split; auto. apply Z.mod_pos_bound. lia. Qed.
Lemma chunks_enough : forall f g (l : list Z), length l <= f -> length l <= g -> chunks_fuel f 3 l = chunks_fuel g 3 l.
Proof.
  induction f as [|f IH]; intros [|g] l Hf Hg; destruct l as [|x l]; cbn in *; auto; try lia. f_equal. apply IH.
  - destruct l as [|? [|? ?]]; cbn in *; lia.
  - destruct l as [|? [|? ?]]; cbn in *; lia.
Qed.
Lemma encode_3 a b c r : base64_encode (a :: b :: c :: r) = b64_chunk [a; b; c] ++ base64_encode r.
Proof.
  unfold base64_encode, chunks.
  rewrite (chunks_enough _ (S (length r)) r) by lia.
  transitivity (flat_map b64_chunk ([a; b; c] :: chunks_fuel (S (S (length r))) 3 r)); [reflexivity|]. cbn [flat_map]. f_equal.
  f_equal. apply chunks_enough; lia.
Qed.
Lemma pieces a b c : is_byte a -> is_byte b -> is_byte c ->
  (a / 4 * 4 + (a mod 4 * 16 + b / 16) / 16 = a
   /\ (a mod 4 * 16 + b / 16) mod 16 * 16 + (b mod 16 * 4 + c / 64) / 4 = b
   /\ (b mod 16 * 4 + c / 64) mod 4 * 64 + c mod 64 = c)%Z.
Proof. unfold is_byte. intros. split; [|split]; Z.to_euclidean_division_equations; nia. Qed.
Lemma list3_ind {A} (P : list A -> Prop) : P [] -> (forall a, P [a]) -> (forall a b, P [a; b]) -> (forall a b c r, P r -> P (a :: b :: c :: r)) -> forall l, P l.
Proof.
  intros H0 H1 H2 H3. assert (Q : forall n l, length l <= n -> P l).
  { induction n as [|n IH]; intros [|a [|b [|c r]]] L; cbn in L; auto; try lia. apply H3, IH. lia. }
  intro l. apply (Q (length l)). auto.
Qed.
Ltac expose := cbn [b64_chunk nth length Nat.ltb Nat.leb app base64_decode].
Lemma base64_inverse data : Forall is_byte data -> base64_decode (base64_encode data) = Some data.
Proof.
  induction data as [|a|a b|a b c r IH] using list3_ind; intro F; [reflexivity|..].
  - inversion F as [|? ? Fa _]; subst. change (base64_encode [a]) with (b64_chunk [a] ++ []). rewrite app_nil_r. unfold b64_chunk. expose.
    assert (F0 : is_byte 0) by (unfold is_byte; lia).
    destruct (shiftr2 a Fa) as (-> & B0), (second a 0 Fa F0) as (-> & B1). cbn [base64_decode].
    rewrite !sextet_char by auto. change (sextet b64_pad) with (@None Z). cbn [b64_pad]. change (ch "=" =? 61)%Z with true. cbn [andb length Nat.eqb].
    destruct (pieces a 0 0 Fa F0 F0) as (P1 & P2 & _). cbn beta.
    assert (((a mod 4 * 16 + 0 / 16) mod 16 =? 0)%Z = true) as ->.
    { apply Z.eqb_eq. change (0 / 16)%Z with 0%Z. rewrite Z.add_0_r. apply Z.mod_mul. lia. }
    change (b64_pad =? 61)%Z with true. cbn [andb]. rewrite P1. reflexivity.
  - inversion F as [|? ? Fa F1]; subst. inversion F1 as [|? ? Fb _]; subst.
    change (base64_encode [a; b]) with (b64_chunk [a; b] ++ []). rewrite app_nil_r. unfold b64_chunk. expose.
    assert (F0 : is_byte 0) by (unfold is_byte; lia).
    destruct (shiftr2 a Fa) as (-> & B0), (second a b Fa Fb) as (-> & B1), (third b 0 Fb F0) as (-> & B2). cbn [base64_decode].
    rewrite !sextet_char by auto. change (sextet b64_pad) with (@None Z).
    destruct (pieces a b 0 Fa Fb F0) as (P1 & P2 & _).
    assert (((b mod 16 * 4 + 0 / 64) mod 4 =? 0)%Z = true) as ->.
    { apply Z.eqb_eq. change (0 / 64)%Z with 0%Z. rewrite Z.add_0_r. apply Z.mod_mul. lia. }
    change (b64_pad =? 61)%Z with true. cbn [andb length Nat.eqb]. rewrite P1, P2. reflexivity.
  - inversion F as [|? ? Fa F1]; subst. inversion F1 as [|? ? Fb F2]; subst. inversion F2 as [|? ? Fc F3]; subst.
    rewrite encode_3. unfold b64_chunk. expose.
    destruct (shiftr2 a Fa) as (-> & B0), (second a b Fa Fb) as (-> & B1), (third b c Fb Fc) as (-> & B2), (fourth c Fc) as (-> & B3).
    rewrite !sextet_char by auto. destruct (pieces a b c Fa Fb Fc) as (-> & -> & ->). rewrite IH by auto. reflexivity.
Qed.
Lemma base64_length data : length (base64_encode data) = 4 * ((length data + 2) / 3).
Proof.
  induction data as [|a|a b|a b c r IH] using list3_ind; [reflexivity..|]. rewrite encode_3, app_length, IH.
  change (length (b64_chunk [a; b; c])) with 4. cbn [length].
  replace (S (S (S (length r))) + 2) with ((length r + 2) + 1 * 3) by lia. rewrite Nat.div_add by lia. lia.
Qed.
