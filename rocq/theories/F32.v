(** IEEE-754 binary32 values as bit patterns.
    Models the Rust operations [f32::is_finite], [f32::is_nan], [f32::total_cmp] and the
    primitive comparison operators; arithmetic is never defined here (it is a parameter
    of the theorems that need it). *)
From Verif Require Import Base.
Open Scope Z_scope.

(** A value is its [to_bits()] pattern, 0 <= b < 2^32. *)
Definition f32 : Type := Z.
Definition f32_wf (b : f32) : Prop := 0 <= b < 4294967296.

Definition fabs (b : f32) : Z := b mod 2147483648.
Definition is_finite (b : f32) : bool := fabs b <? 2139095040.        (* 0x7f800000 *)
Definition is_nan (b : f32) : bool := 2139095040 <? fabs b.
Definition is_neg (b : f32) : bool := 2147483648 <=? b.

(** [total_cmp]: library/core/src/num/f32.rs — compare [bits as i32] after flipping the
    low 31 bits of negative values; the flipped integer is [2^31 - 1 - bits]. *)
Definition fkey (b : f32) : Z := if is_neg b then 2147483647 - b else b.
Definition total_cmp (a b : f32) : comparison := fkey a ?= fkey b.

(** Numeric order of non-NaN values ([-0.0 == 0.0]). *)
Definition fval (b : f32) : Z := if is_neg b then - fabs b else fabs b.
Definition f_lt (a b : f32) : bool := negb (is_nan a) && negb (is_nan b) && (fval a <? fval b).
Definition f_gt (a b : f32) : bool := f_lt b a.
Definition f_ge (a b : f32) : bool := negb (is_nan a) && negb (is_nan b) && (fval b <=? fval a).
Definition f_eq (a b : f32) : bool := negb (is_nan a) && negb (is_nan b) && (fval a =? fval b).
(** [partial_cmp] *)
Definition partial_cmp (a b : f32) : option comparison :=
  if is_nan a || is_nan b then None else Some (fval a ?= fval b).
(** [f32::max]: the non-NaN operand wins; on ties (or a >= b) either operand may be
    returned by the platform, we return [a]. *)
Definition f_max (a b : f32) : f32 :=
  if is_nan a then b else if is_nan b then a else if fval a <? fval b then b else a.

Definition f_zero : f32 := 0.
Definition f_one : f32 := 1065353216.            (* 0x3f800000 *)
Definition f_neg_inf : f32 := 4286578688.        (* 0xff800000 *)
Definition f_inf : f32 := 2139095040.            (* 0x7f800000 *)
Definition f_quiet_nan : f32 := 2143289344.      (* 0x7fc00000 *)

(** Checks that the definition of [fkey] is the bit-twiddling one of the Rust library. *)
Definition total_cmp_key_rust (b : f32) : Z :=
  let left := if is_neg b then b - 4294967296 else b in     (* to_bits() as i32 *)
  Z.lxor left (if left <? 0 then 2147483647 else 0).        (* ^ ((left >> 31) as u32 >> 1) *)

Lemma lxor_ones31 r : 0 <= r < 2147483648 ->
  Z.lxor (r - 2147483648) 2147483647 = - 1 - r.
Proof.
  intro H.
  replace (-1 - r) with (Z.lnot r) by (unfold Z.lnot; lia).
  apply Z.bits_inj'; intros n Hn.
  rewrite Z.lxor_spec, Z.lnot_spec by assumption.
  replace 2147483647 with (Z.ones 31) by reflexivity.
  destruct (Z.ltb_spec n 31).
  - rewrite Z.ones_spec_low by lia.
    replace (r - 2147483648) with (r + (-1) * 2 ^ 31) by lia.
    rewrite <- (Z.mod_pow2_bits_low (r + -1 * 2 ^ 31) 31 n) by lia.
    rewrite Z_mod_plus_full. rewrite Z.mod_pow2_bits_low by lia.
    destruct (Z.testbit r n); reflexivity.
  - rewrite Z.ones_spec_high by lia.
    rewrite xorb_false_r.
    assert (Z.testbit r n = false) as ->.
    { destruct (Z.eq_dec r 0) as [->|]; [apply Z.bits_0|].
      apply Z.bits_above_log2; [lia|]. apply Z.log2_lt_pow2; [lia|].
      apply Z.lt_le_trans with (2 ^ 31); [lia|]. apply Z.pow_le_mono_r; lia. }
    simpl.
    destruct (Z.testbit (r - 2147483648) n) eqn:E; [reflexivity|exfalso].
    assert (Z.testbit (Z.lnot (r - 2147483648)) n = true)
      by (rewrite Z.lnot_spec by lia; rewrite E; reflexivity).
    assert (0 <= Z.lnot (r - 2147483648) < 2 ^ 31) as B by (unfold Z.lnot; lia).
    rewrite (Z.bits_above_log2 (Z.lnot (r - 2147483648)) n) in H1; [discriminate|lia|].
    destruct (Z.eq_dec (Z.lnot (r - 2147483648)) 0) as [->|]; [simpl; lia|].
    apply Z.log2_lt_pow2; [lia|].
    apply Z.lt_le_trans with (2 ^ 31); [lia|]. apply Z.pow_le_mono_r; lia.
Qed.

Lemma fkey_is_rust b : f32_wf b -> fkey b = total_cmp_key_rust b.
Proof.
  unfold f32_wf, fkey, total_cmp_key_rust, is_neg; intro H.
  destruct (Z.leb_spec 2147483648 b).
  - destruct (Z.ltb_spec (b - 4294967296) 0); [|lia].
    replace (b - 4294967296) with ((b - 2147483648) - 2147483648) by lia.
    rewrite lxor_ones31 by lia. lia.
  - destruct (Z.ltb_spec b 0); [lia|]. rewrite Z.lxor_0_r; reflexivity.
Qed.

Lemma fkey_inj a b : f32_wf a -> f32_wf b -> fkey a = fkey b -> a = b.
Proof.
  unfold f32_wf, fkey, is_neg; intros Ha Hb.
  destruct (Z.leb_spec 2147483648 a), (Z.leb_spec 2147483648 b); lia.
Qed.

(** Finite comparison order used by every ranking in the code base:
    finite values by [total_cmp], any finite above any non-finite, non-finite all equal. *)
Definition rank_key (b : f32) : Z := if is_finite b then fkey b else -4294967296.

Lemma fkey_lower b : f32_wf b -> -2147483648 <= fkey b.
Proof. unfold f32_wf, fkey, is_neg; intros; destruct (Z.leb_spec 2147483648 b); lia. Qed.

Close Scope Z_scope.
