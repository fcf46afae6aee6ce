(** Base64 text of a byte string (filtering.rs 2399-2425), with its inverse. *)
From Verif Require Import Base Text.
Open Scope nat_scope.

(** filtering.rs 2401 [ALPHABET] *)
Definition b64_alphabet : text :=
  txt "ABCDEFGHIJKLMNOPQRSTUVWXYZabcdefghijklmnopqrstuvwxyz0123456789+/".
Definition b64_char (i : Z) : Z := nth (Z.to_nat i) b64_alphabet 0%Z.
Definition b64_pad : Z := ch "=".

(** filtering.rs 2403-2422: one chunk of at most three bytes.  Bytes are numbers 0..255;
    [>>], [<<] and [&] are the operations on Z. *)
Definition b64_chunk (c : list Z) : text :=
  let b0 := nth 0 c 0%Z in
  let b1 := nth 1 c 0%Z in
  let b2 := nth 2 c 0%Z in
  [b64_char (Z.shiftr b0 2);
   b64_char (Z.lor (Z.shiftl (Z.land b0 3) 4) (Z.shiftr b1 4));
   if 1 <? length c then b64_char (Z.lor (Z.shiftl (Z.land b1 15) 2) (Z.shiftr b2 6)) else b64_pad;
   if 2 <? length c then b64_char (Z.land b2 63) else b64_pad].
(** filtering.rs 2399-2425 [base64_encode] *)
Definition base64_encode (data : list Z) : text := flat_map b64_chunk (chunks 3 data).
