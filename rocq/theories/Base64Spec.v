(** Specification of base64 (RFC 4648, section 4): the decoder. *)
From Verif Require Import Base Text.
Open Scope nat_scope.

(** Value of a character: A-Z are 0-25, a-z 26-51, 0-9 52-61, + is 62, / is 63. *)
Definition sextet (c : Z) : option Z :=
  if (65 <=? c)%Z && (c <=? 90)%Z then Some (c - 65)%Z
  else if (97 <=? c)%Z && (c <=? 122)%Z then Some (c - 97 + 26)%Z
  else if (48 <=? c)%Z && (c <=? 57)%Z then Some (c - 48 + 52)%Z
  else if (c =? 43)%Z then Some 62%Z
  else if (c =? 47)%Z then Some 63%Z else None.
(** Four characters carry 24 bits; the last group may carry 8 or 16, padded with = signs and
    zero bits. *)
Fixpoint base64_decode (t : text) : option (list Z) :=
  match t with
  | [] => Some []
  | a :: b :: c :: d :: r =>
    match sextet a, sextet b with
    | Some x, Some y =>
      match sextet c, sextet d with
      | Some z, Some w =>
        option_map (app [x * 4 + y / 16; (y mod 16) * 16 + z / 4; (z mod 4) * 64 + w]%Z) (base64_decode r)
      | Some z, None =>
        if (d =? 61)%Z && (z mod 4 =? 0)%Z && (length r =? 0) then Some [x * 4 + y / 16; (y mod 16) * 16 + z / 4]%Z else None
      | None, _ =>
        if (c =? 61)%Z && (d =? 61)%Z && (y mod 16 =? 0)%Z && (length r =? 0) then Some [x * 4 + y / 16]%Z else None
      end
    | _, _ => None
    end
  | _ => None
  end.
Definition is_byte (b : Z) : Prop := (0 <= b < 256)%Z.
