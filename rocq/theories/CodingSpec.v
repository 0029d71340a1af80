(** The encodings of numbers, text and bytes, by their published definitions:
    UTF-8 (RFC 3629), base64 (RFC 4648), big-endian and decimal numerals. *)
From Coq Require Import Strings.String.
From Verif Require Import Base BitsSpec.
Open Scope list_scope.

(** ** UTF-8: RFC 3629, section 3.  [x], [y], ... are the bits marked x. *)
Definition surrogate (c : N) : Prop := 0xD800 <= c <= 0xDFFF.
Definition byte_is (b : byte) (mark x : list bool) : Prop := bits 8 (b2n b) = mark ++ x.
Local Notation I := true.
Local Notation O := false.
Inductive utf8_rep : N -> bytes -> Prop :=
| rep1 b x : byte_is b [O] x -> utf8_rep (value x) [b]
| rep2 b c x y : byte_is b [I; I; O] x -> byte_is c [I; O] y ->
    0x80 <= value (x ++ y) -> utf8_rep (value (x ++ y)) [b; c]
| rep3 b c d x y z : byte_is b [I; I; I; O] x -> byte_is c [I; O] y -> byte_is d [I; O] z ->
    0x800 <= value (x ++ y ++ z) -> ~ surrogate (value (x ++ y ++ z)) ->
    utf8_rep (value (x ++ y ++ z)) [b; c; d]
| rep4 b c d e x y z w : byte_is b [I; I; I; I; O] x -> byte_is c [I; O] y -> byte_is d [I; O] z -> byte_is e [I; O] w ->
    0x10000 <= value (x ++ y ++ z ++ w) <= 0x10FFFF ->
    utf8_rep (value (x ++ y ++ z ++ w)) [b; c; d; e].
(** The UTF-8 form of a text. *)
Definition utf8_text (s : str) (bs : bytes) : Prop :=
  exists parts, Forall2 utf8_rep s parts /\ bs = concat parts.
(** Unicode scalar values. *)
Definition scalar (c : N) : Prop := c <= 0x10FFFF /\ ~ surrogate c.

(** ** Base64: RFC 4648, section 4 *)
Definition b64_alphabet : bytes := blit "ABCDEFGHIJKLMNOPQRSTUVWXYZabcdefghijklmnopqrstuvwxyz0123456789+/".
Definition symbol (g : list bool) : byte := nth (N.to_nat (value g)) b64_alphabet x00.
(** [t] stands for [bs]: groups of six bits cover the bits of [bs], with fewer
    than six bits left over, then [=].  [any]: the left-over bits may be
    anything (else zero); [short]: padding may be left out. *)
Definition b64_text (any short : bool) (bs t : bytes) : Prop :=
  exists gs rest p,
    Forall (fun g => List.length g = 6%nat) gs /\
    concat gs = bytes_bits bs ++ rest /\ (List.length rest < 6)%nat /\
    (any = false -> Forall (eq false) rest) /\
    t = List.map symbol gs ++ repeat x3d p /\
    (if short then (p <= (4 - List.length gs mod 4) mod 4)%nat
     else ((List.length gs + p) mod 4 = 0 /\ p < 4)%nat).

(** ** Big-endian numbers *)
Definition big_endian (k : nat) (n : N) (bs : bytes) : Prop :=
  List.length bs = k /\
  forall i b, nth_error bs i = Some b -> b2n b = n / 256 ^ N.of_nat (k - 1 - i) mod 256.

(** ** Decimal numerals *)
Fixpoint horner (acc : N) (ds : list N) : N :=
  match ds with [] => acc | d :: ds => horner (10 * acc + d) ds end.
(** No sign, no leading zero. *)
Definition numeral (n : N) (s : str) : Prop :=
  exists ds, s = List.map (N.add 48) ds /\ Forall (fun d => d < 10) ds /\ horner 0 ds = n /\
    (ds = [0] \/ exists d r, ds = d :: r /\ d <> 0).
