(** Properties C11-C12: hexadecimal text. *)
From Coq Require Import Strings.String.
From Verif Require Import Base Hex HexSpec HexFacts.

(** C11.  [encode] gives two lower-case digits per byte and never panics;
    [decode] gives the bytes back. *)
Theorem C11_hex_round_trip : forall bs : bytes,
  encode bs = Ok (hex_of bs) /\ decode (hex_of bs) = Ok bs /\
  length (hex_of bs) = (2 * length bs)%nat.
Proof. exact hex_round_trip. Qed.
Print Assumptions C11_hex_round_trip.

Example C11_case : hex_of [x0a; xff] = blit "0aff".
Proof. reflexivity. Qed.

(** C12.  Either all symbols are digits or white space, and the result pairs
    the digits; or the error is the position of the first other symbol. *)
Theorem C12_decode_exact : forall s : bytes,
  (Forall allowed s /\ decode s = Ok (pair_up (digits s))) \/
  (exists pre b post, s = pre ++ b :: post /\ Forall allowed pre /\ ~ allowed b /\
     decode s = Err (UnknownSymbol (N.of_nat (length pre)))).
Proof. exact decode_exact. Qed.
Print Assumptions C12_decode_exact.

Example C12_case_ok :
  decode (blit "0A f 9b") = Ok [x0a; xf9] /\
  pair_up (digits (blit "0A f 9b")) = [x0a; xf9].
Proof. split; reflexivity. Qed.
Example C12_case_err : decode (blit "0Ag1") = Err (UnknownSymbol 2).
Proof. reflexivity. Qed.
