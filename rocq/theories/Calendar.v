(** Timestamps of the HTTP API (next-plaid-api/src/state.rs 78-104). *)
From Verif Require Import Base Text.
Open Scope Z_scope.

(** state.rs 92-104 [civil_from_days].  Rust's [/] on i64 truncates.  For the days of an i64
    number of seconds nothing overflows, so the integers are unbounded here. *)
Definition civil_from_days (days : Z) : Z * Z * Z :=
  let z := days + 719468 in
  let era := Z.quot (if 0 <=? z then z else z - 146096) 146097 in
  let doe := z - era * 146097 in
  let yoe := Z.quot (doe - Z.quot doe 1460 + Z.quot doe 36524 - Z.quot doe 146096) 365 in
  let year := yoe + era * 400 in
  let doy := doe - (365 * yoe + Z.quot yoe 4 - Z.quot yoe 100) in
  let mp := Z.quot (5 * doy + 2) 153 in
  let day := doy - Z.quot (153 * mp + 2) 5 + 1 in
  let month := mp + (if mp <? 10 then 3 else -9) in
  (year + (if month <=? 2 then 1 else 0), month, day).

(** Decimal digits of a number, most significant first (the standard library's formatting). *)
Fixpoint digits_fuel (fuel : nat) (n : Z) : text :=
  match fuel with
  | O => []
  | S f => if n <? 10 then [48 + n] else digits_fuel f (n / 10) ++ [48 + n mod 10]
  end.
Definition digits (n : Z) : text := digits_fuel (S (Z.to_nat (Z.log2 n))) n.
(** [{n:0w}]: zero-padded to a minimal width; only used for non-negative numbers *)
Definition padded (w : nat) (n : Z) : text := repeat 48 (w - length (digits n)) ++ digits n.

(** [as i64] of a u64 *)
Definition as_i64 (n : Z) : Z := if n <? 2 ^ 63 then n else n - 2 ^ 64.
(** state.rs 78-90 [system_time_to_rfc3339]; [since] is the result of [duration_since(UNIX_EPOCH)]
    in whole seconds, None for an earlier time ([unwrap_or_default]) *)
Definition system_time_to_rfc3339 (since : option Z) : text :=
  let seconds := as_i64 (match since with Some n => n | None => 0 end) in
  let days := seconds / 86400 in
  let seconds_of_day := seconds mod 86400 in
  let '(year, month, day) := civil_from_days days in
  let hour := Z.quot seconds_of_day 3600 in
  let minute := Z.quot (Z.rem seconds_of_day 3600) 60 in
  let second := Z.rem seconds_of_day 60 in
  padded 4 year ++ txt "-" ++ padded 2 month ++ txt "-" ++ padded 2 day ++ txt "T"
    ++ padded 2 hour ++ txt ":" ++ padded 2 minute ++ txt ":" ++ padded 2 second ++ txt "Z".
