(** Specification: the Gregorian calendar, day by day from 1 January 1970, and RFC 3339. *)
From Verif Require Import Base Text.
Open Scope Z_scope.

Definition leap (y : Z) : bool := ((y mod 4 =? 0) && negb (y mod 100 =? 0)) || (y mod 400 =? 0).
Definition month_days (y m : Z) : Z :=
  if m =? 2 then (if leap y then 29 else 28)
  else if (m =? 4) || (m =? 6) || (m =? 9) || (m =? 11) then 30 else 31.
Definition next_day (t : Z * Z * Z) : Z * Z * Z :=
  let '(y, m, d) := t in
  if d <? month_days y m then (y, m, d + 1) else if m <? 12 then (y, m + 1, 1) else (y + 1, 1, 1).
(** the date [n] days after 1 January 1970 *)
Definition date_on (n : nat) : Z * Z * Z := Nat.iter n next_day (1970, 1, 1).

(** [t] is the number [n] in decimal with [w] digits. *)
Definition is_digit_char (c : Z) : bool := (48 <=? c) && (c <=? 57).
Definition decimal_value (t : text) : Z := fold_left (fun a c => 10 * a + (c - 48)) t 0.
Definition decimal (w : nat) (n : Z) (t : text) : Prop :=
  length t = w /\ Forall (fun c => is_digit_char c = true) t /\ decimal_value t = n.
(** [t] is the RFC 3339 date-time (UTC) with the given fields. *)
Definition rfc3339 (t : text) (y m d h mi s : Z) : Prop :=
  exists ty tm td th tmi ts, t = ty ++ txt "-" ++ tm ++ txt "-" ++ td ++ txt "T" ++ th ++ txt ":" ++ tmi ++ txt ":" ++ ts ++ txt "Z"
    /\ decimal 4 y ty /\ decimal 2 m tm /\ decimal 2 d td /\ decimal 2 h th /\ decimal 2 mi tmi /\ decimal 2 s ts.
