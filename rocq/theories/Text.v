(** Text as a list of Unicode scalar values, and the character classes used by the code.
    Rust's Unicode tables are a parameter ([unicode]); [good_unicode] says what they are on
    ASCII, which is all the theorems use. *)
From Verif Require Import Base.
From Coq Require String Ascii.
Export String.StringSyntax Ascii.AsciiSyntax.
Delimit Scope string_scope with string.
Delimit Scope char_scope with char.
Open Scope list_scope.
Open Scope nat_scope.

Definition text := list Z.
(** A Coq string literal as text. *)
Fixpoint txt (s : String.string) : text :=
  match s with String.EmptyString => [] | String.String a r => Z.of_nat (Ascii.nat_of_ascii a) :: txt r end.
Arguments txt s%string.
Definition ch (a : Ascii.ascii) : Z := Z.of_nat (Ascii.nat_of_ascii a).
Arguments ch a%char.

(** [char::is_ascii_*] *)
Definition a_upper (c : Z) : bool := (65 <=? c)%Z && (c <=? 90)%Z.
Definition a_lower (c : Z) : bool := (97 <=? c)%Z && (c <=? 122)%Z.
Definition a_alpha (c : Z) : bool := a_upper c || a_lower c.
Definition a_digit (c : Z) : bool := (48 <=? c)%Z && (c <=? 57)%Z.
Definition a_alnum (c : Z) : bool := a_alpha c || a_digit c.
(** tab, line feed, vertical tab, form feed, carriage return, space *)
Definition a_ws (c : Z) : bool := ((9 <=? c)%Z && (c <=? 13)%Z) || (c =? 32)%Z.
Definition to_upper1 (c : Z) : Z := if a_lower c then (c - 32)%Z else c.
Definition to_lower1 (c : Z) : Z := if a_upper c then (c + 32)%Z else c.
Definition under (c : Z) : bool := (c =? 95)%Z.
Definition is_ascii (c : Z) : bool := (0 <=? c)%Z && (c <? 128)%Z.

Fixpoint text_eqb (a b : text) : bool :=
  match a, b with
  | [], [] => true
  | x :: a', y :: b' => (x =? y)%Z && text_eqb a' b'
  | _, _ => false
  end.
Lemma text_eqb_eq a b : text_eqb a b = true <-> a = b.
Proof.
  revert b. induction a as [|x a IH]; intros [|y b]; cbn; split; intro H; try discriminate; auto.
  - apply andb_true_iff in H. destruct H as (H1 & H2). apply Z.eqb_eq in H1. apply IH in H2. congruence.
  - injection H as -> ->. rewrite Z.eqb_refl. apply IH. reflexivity.
Qed.
Lemma text_eqb_refl a : text_eqb a a = true.
Proof. apply text_eqb_eq. reflexivity. Qed.
Lemma text_eqb_neq a b : text_eqb a b = false <-> a <> b.
Proof. rewrite <- text_eqb_eq. destruct (text_eqb a b); split; congruence. Qed.
Definition text_dec (a b : text) : {a = b} + {a <> b} := list_eq_dec Z.eq_dec a b.

(** Rust's and the regex crate's Unicode tables. *)
Record unicode := {
  u_ws : Z -> bool;             (* char::is_whitespace *)
  u_alpha : Z -> bool;          (* char::is_alphabetic *)
  u_alnum : Z -> bool;          (* char::is_alphanumeric *)
  u_digit : Z -> bool;          (* regex \d *)
  u_space : Z -> bool;          (* regex \s *)
  u_word : Z -> bool;           (* regex \w, the class behind \b *)
  u_upper : text -> text;       (* str::to_uppercase *)
  u_lower : text -> text }.     (* str::to_lowercase *)
Definition ascii_text (s : text) : Prop := forall c, In c s -> is_ascii c = true.
Record good_unicode (U : unicode) : Prop := {
  gu_ws : forall c, is_ascii c = true -> u_ws U c = a_ws c;
  gu_alpha : forall c, is_ascii c = true -> u_alpha U c = a_alpha c;
  gu_alnum : forall c, is_ascii c = true -> u_alnum U c = a_alnum c;
  gu_digit : forall c, is_ascii c = true -> u_digit U c = a_digit c;
  gu_space : forall c, is_ascii c = true -> u_space U c = a_ws c;
  gu_word : forall c, is_ascii c = true -> u_word U c = a_alnum c || under c;
  gu_upper : forall s, ascii_text s -> u_upper U s = map to_upper1 s;
  gu_lower : forall s, ascii_text s -> u_lower U s = map to_lower1 s;
  (** is_alphanumeric = is_alphabetic || is_numeric; whitespace is neither *)
  gu_alpha_alnum : forall c, u_alpha U c = true -> u_alnum U c = true;
  gu_alnum_ws : forall c, u_alnum U c = true -> u_ws U c = false;
  (** lower-casing changes letters only *)
  gu_lower_keep : forall c s, is_ascii c = true -> a_alpha c = false -> In c s -> In c (u_lower U s) }.

(** The ASCII tables themselves, as an instance for the examples. *)
Definition ascii_unicode : unicode :=
  {| u_ws := a_ws; u_alpha := a_alpha; u_alnum := a_alnum; u_digit := a_digit; u_space := a_ws;
     u_word := fun c => a_alnum c || under c; u_upper := map to_upper1; u_lower := map to_lower1 |}.
Lemma ascii_good : good_unicode ascii_unicode.
Proof.
  constructor; cbn; auto; intros c.
  - unfold a_alnum. intros ->. reflexivity.
  - unfold a_alnum, a_alpha, a_upper, a_lower, a_digit, a_ws. lia.
  - intros s Hc Ha Hi. apply in_map_iff. exists c. split; auto. unfold to_lower1.
    apply orb_false_iff in Ha. destruct Ha as (-> & _). reflexivity.
Qed.

(** [str::contains] *)
Fixpoint starts_with (p s : text) : bool :=
  match p, s with
  | [], _ => true
  | x :: p', y :: s' => (x =? y)%Z && starts_with p' s'
  | _ :: _, [] => false
  end.
Fixpoint contains (p s : text) : bool :=
  starts_with p s || match s with [] => false | _ :: s' => contains p s' end.
Lemma starts_with_spec p s : starts_with p s = true <-> exists t, s = p ++ t.
Proof.
  revert s. induction p as [|x p IH]; intros s; cbn.
  - split; auto. exists s; auto.
  - destruct s as [|y s]; [split; [discriminate|intros (t & H); discriminate]|].
    rewrite andb_true_iff, IH, Z.eqb_eq. split.
    + intros (-> & t & ->). exists t; auto.
    + intros (t & H). injection H as -> ->. split; auto. exists t; auto.
Qed.
Lemma contains_spec p s : contains p s = true <-> exists a b, s = a ++ p ++ b.
Proof.
  induction s as [|y s IH]; cbn [contains]; rewrite orb_true_iff, starts_with_spec.
  - split; [intros [(t & H)|H]; [exists [], t; auto|discriminate]|].
    intros (a & b & H). left. exists b. destruct a; [auto|discriminate].
  - rewrite IH. split.
    + intros [(t & H)|(a & b & H)]; [exists [], t; auto|exists (y :: a), b; cbn; congruence].
    + intros (a & b & H). destruct a as [|z a]; [left; exists b; auto|right; injection H as -> ->; exists a, b; auto].
Qed.
(** [str::trim] *)
Fixpoint trim_start (ws : Z -> bool) (s : text) : text :=
  match s with [] => [] | c :: r => if ws c then trim_start ws r else s end.
Definition trim (ws : Z -> bool) (s : text) : text := rev (trim_start ws (rev (trim_start ws s))).
