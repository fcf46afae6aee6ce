(** Properties of the HTTP API. *)
From Verif Require Import Base Text Calendar CalendarSpec CalendarProofs.
Open Scope Z_scope.

(** C43. For every instant from 1970 to 9999 the text printed is the RFC 3339 date-time whose
    date is that many days after 1 January 1970 in the Gregorian calendar. *)
Theorem C43_timestamps_correct :
  forall n, 0 <= n < 253402300800 ->
    let '(y, m, d) := date_on (Z.to_nat (n / 86400)) in
    exists h mi s, rfc3339 (system_time_to_rfc3339 (Some n)) y m d h mi s
      /\ 0 <= h < 24 /\ 0 <= mi < 60 /\ 0 <= s < 60 /\ n = 86400 * (n / 86400) + 3600 * h + 60 * mi + s.
Proof. exact rfc3339_until_9999. Qed.
Print Assumptions C43_timestamps_correct.
(** The date of every later day too, without limit. *)
Theorem C43_dates_correct : forall n, civil_from_days (Z.of_nat n) = date_on n.
Proof. exact civil_date. Qed.
Print Assumptions C43_dates_correct.
Example C43_example :
  system_time_to_rfc3339 (Some 951827696) = txt "2000-02-29T12:34:56Z" /\ date_on (Z.to_nat 11016) = (2000, 2, 29)
  /\ system_time_to_rfc3339 None = txt "1970-01-01T00:00:00Z".
Proof. repeat split; vm_compute; reflexivity. Qed.
