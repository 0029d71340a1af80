(** Properties C59 and C61: the encodings that the stored data and the texts
    are made of. *)
From Coq Require Import Strings.String.
From Verif Require Import Base Str BitsSpec Base64 CodingSpec CodingFacts.
Open Scope list_scope.

(** C59.  Base64: the texts accepted for some bytes are those of the RFC (with
    the two liberties a decoder may take), and the text produced is the one
    canonical text. *)
Theorem C59_base64 :
  forall C : b64_config,
  (forall t bs : bytes,
   b64_decode C t = Some bs <-> b64_text (b64_any_trailing_bits C) (b64_short_padding C) bs t) /\
  (forall bs t : bytes, b64_text false false bs t <-> t = b64_encode bs).
Proof. exact b64_exact. Qed.
Print Assumptions C59_base64.

Example C59_cases :
  let strict := {| b64_any_trailing_bits := false; b64_short_padding := false |} in
  let lax := {| b64_any_trailing_bits := true; b64_short_padding := true |} in
  b64_encode (blit "foobar") = blit "Zm9vYmFy" /\ b64_encode (blit "fooba") = blit "Zm9vYmE=" /\
  b64_encode (blit "foob") = blit "Zm9vYg==" /\ b64_encode [xfb; xff] = blit "+/8=" /\
  b64_decode strict (blit "Zm9vYh==") = None /\ b64_decode lax (blit "Zm9vYh==") = Some (blit "foob") /\
  b64_decode strict (blit "Zm9vYg") = None /\ b64_decode lax (blit "Zm9vYg") = Some (blit "foob") /\
  b64_decode lax (blit "Zm9vY") = None /\ b64_decode lax (blit "Zg==Zg==") = None.
Proof. repeat split. Qed.

(** C61.  UTF-8. *)
Theorem C61_utf8 :
  (forall s : str, Forall scalar s -> utf8_text s (utf8 s)) /\
  (forall (bs : bytes) (s : str), of_utf8 bs = Some s <-> utf8_text s bs) /\
  (forall (s : str) (bs : bytes),
   utf8_text s bs -> Forall scalar s /\ (forall bs' : bytes, utf8_text s bs' -> bs' = bs)).
Proof. exact utf8_exact. Qed.
Print Assumptions C61_utf8.

Example C61_cases :
  utf8 [0x24; 0xA2; 0x20AC; 0x10348] = [x24; xc2; xa2; xe2; x82; xac; xf0; x90; x8d; x88] /\
  of_utf8 [xc0; x80] = None /\ of_utf8 [xed; xa0; x80] = None /\ of_utf8 [xf4; x90; x80; x80] = None /\
  of_utf8 [xe2; x82] = None.
Proof. repeat split. Qed.

(** C61.  Big-endian numbers. *)
Theorem C61_big_endian :
  forall (k : nat) (n : N),
  big_endian k n (be k n) /\
  (forall bs : bytes, big_endian k n bs -> bs = be k n) /\
  (n < 256 ^ N.of_nat k -> of_be (be k n) = n) /\
  (forall bs : bytes, List.length bs = k -> of_be bs < 256 ^ N.of_nat k /\ be k (of_be bs) = bs).
Proof. exact be_exact. Qed.
Print Assumptions C61_big_endian.

(** C61.  Decimal numerals. *)
Theorem C61_decimal : forall n : N, n <= usize_max -> forall s : str, s = dec n <-> numeral n s.
Proof. exact dec_exact. Qed.
Print Assumptions C61_decimal.

Example C61_number_cases :
  be 4 0x80000001 = [x80; x00; x00; x01] /\ of_be [x01; x00] = 256 /\
  dec 0 = lit "0" /\ dec 18446744073709551615 = lit "18446744073709551615".
Proof. repeat split. Qed.
