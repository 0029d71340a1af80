(** Model of bip39/src/util/hex.rs. *)
From Coq Require Import Strings.String.
From Verif Require Import Base.

(** [ALPHABET], hex.rs:15 *)
Definition ALPHABET : bytes := blit "0123456789abcdef".

(** [enum Error], hex.rs:18-24; the payload is the byte index. *)
Inductive hex_error := UnknownSymbol (idx : N).

(** [ALPHABET[i as usize]]: an out-of-bounds index would panic. *)
Definition alphabet_at (i : N) : res hex_error byte :=
  match nth_error ALPHABET (N.to_nat i) with
  | Some b => Ok b
  | None => Panic
  end.

(** [encode], hex.rs:47-55.  The result is given as its bytes (the code
    builds the [String] from the byte vector without a check). *)
Fixpoint encode (input : bytes) : res hex_error bytes :=
  match input with
  | [] => Ok []
  | byte :: rest =>
    let* h := alphabet_at (N.shiftr (b2n byte) 4) in
    let* l := alphabet_at (N.land (b2n byte) 0xf) in
    let* v := encode rest in
    Ok (h :: l :: v)
  end.

(** One iteration of the loop of [decode], hex.rs:73-94: [buf] is a u8, so
    [buf <<= 4] drops the high bits.  [None] is [continue]. *)
Definition decode_step (idx : N) (buf : byte) (b : byte)
  : res hex_error (byte * bool) :=
  let n := b2n b in
  let buf := N.shiftl (b2n buf) 4 mod 256 in
  if (0x41 <=? n) && (n <=? 0x46) then Ok (n2b (N.lor buf (n - 0x41 + 10)), true)
  else if (0x61 <=? n) && (n <=? 0x66) then Ok (n2b (N.lor buf (n - 0x61 + 10)), true)
  else if (0x30 <=? n) && (n <=? 0x39) then Ok (n2b (N.lor buf (n - 0x30)), true)
  else if (n =? 0x20) || (n =? 0x0D) || (n =? 0x0A) || (n =? 0x09)
  then Ok (n2b (N.shiftr buf 4), false)
  else Err (UnknownSymbol idx).

(** The loop of [decode], hex.rs:73-96. [half] is [modulus == 1]. *)
Fixpoint decode_loop (idx : N) (half : bool) (buf : byte) (b : bytes)
         (input : bytes) : res hex_error bytes :=
  match input with
  | [] => Ok b
  | c :: rest =>
    let* '(buf, digit) := decode_step idx buf c in
    if digit then
      if half then decode_loop (idx + 1) false buf (b ++ [buf]) rest
      else decode_loop (idx + 1) true buf b rest
    else decode_loop (idx + 1) half buf b rest
  end.

(** [decode], hex.rs:68-97, on the bytes of the input string. *)
Definition decode (input : bytes) : res hex_error bytes :=
  decode_loop 0 false x00 [] input.
