(** Common vocabulary of the model: outcomes, bytes, strings, UTF-8,
    big-endian integers, random streams.  No property of the code is stated
    here.  Proofs about these definitions are in BaseFacts.v. *)
From Coq Require Export List NArith ZArith Lia Bool.
From Coq Require Export Strings.Byte.
From Coq Require Import Strings.Ascii Strings.String.
Export ListNotations.
Open Scope list_scope.
Open Scope N_scope.

(** * Outcomes

    Every modelled Rust function returns a value, a [Result::Err], panics
    (unwinds), or has undefined behaviour. *)
Inductive res (E A : Type) : Type :=
| Ok (a : A)
| Err (e : E)
| Panic
| Undef.
Arguments Ok {E A} a.
Arguments Err {E A} e.
Arguments Panic {E A}.
Arguments Undef {E A}.

(** The [?] operator / [and_then]. *)
Definition bind {E A B} (m : res E A) (k : A -> res E B) : res E B :=
  match m with
  | Ok a => k a
  | Err e => Err e
  | Panic => Panic
  | Undef => Undef
  end.

Notation "'let*' x := m 'in' k" :=
  (bind m (fun x => k)) (at level 200, x name, m at level 100, k at level 200).
Notation "'let*' ' x := m 'in' k" :=
  (bind m (fun x => k))
  (at level 200, x strict pattern, m at level 100, k at level 200).

(** [Result::map] *)
Definition rmap {E A B} (f : A -> B) (m : res E A) : res E B :=
  bind m (fun a => Ok (f a)).

(** [Result::map_err] *)
Definition map_err {E F A} (f : E -> F) (m : res E A) : res F A :=
  match m with
  | Ok a => Ok a
  | Err e => Err (f e)
  | Panic => Panic
  | Undef => Undef
  end.

(** [Result::unwrap] / [Option::unwrap]: the error becomes a panic. *)
Definition unwrap {E F A} (m : res E A) : res F A :=
  match m with
  | Ok a => Ok a
  | Err _ => Panic
  | Panic => Panic
  | Undef => Undef
  end.

(** [Option::ok_or] *)
Definition ok_or {E A} (o : option A) (e : E) : res E A :=
  match o with Some a => Ok a | None => Err e end.

(** Build profile: overflow checks and debug assertions are on in [Debug]. *)
Inductive profile := Debug | Release.

(** * Bytes *)
Notation byte := Byte.byte.
Notation bytes := (list byte).

(** [b as u16], [b as u32], ... *)
Definition b2n (b : byte) : N := Byte.to_N b.

(** [n as u8]: truncation modulo 256. *)
Definition n2b (n : N) : byte :=
  match Byte.of_N (n mod 256) with
  | Some b => b
  | None => x00
  end.

Definition byte_eqb (a b : byte) : bool := N.eqb (b2n a) (b2n b).

Fixpoint bytes_eqb (a b : bytes) : bool :=
  match a, b with
  | [], [] => true
  | x :: a', y :: b' => byte_eqb x y && bytes_eqb a' b'
  | _, _ => false
  end.

(** The slice expression [&l[from..to]] (callers check the bounds). *)
Definition slice {A} (from to : nat) (l : list A) : list A :=
  firstn (to - from) (skipn from l).

(** * Machine integer ranges *)
Definition u8_max : N := 255.
Definition u16_max : N := 65535.
Definition u32_max : N := 4294967295.
Definition usize_max : N := 18446744073709551615. (* 64-bit targets *)
Definition is_u16 (n : N) : Prop := n <= u16_max.
Definition is_u32 (n : N) : Prop := n <= u32_max.
Definition is_usize (n : N) : Prop := n <= usize_max.

(** * Big-endian integers ([byteorder::BigEndian]) *)
Fixpoint be (k : nat) (n : N) : bytes :=
  match k with
  | O => []
  | S k' => be k' (n / 256) ++ [n2b n]
  end.

Definition of_be (bs : bytes) : N :=
  fold_left (fun acc b => acc * 256 + b2n b) bs 0.

(** * Strings

    A Rust [str]/[String] is the list of its Unicode scalar values. *)
Notation str := (list N).

Definition is_scalar (c : N) : bool :=
  (c <? 0xD800) || ((0xDFFF <? c) && (c <=? 0x10FFFF)).

Definition valid_str (s : str) : Prop := Forall (fun c => is_scalar c = true) s.

Fixpoint str_eqb (a b : str) : bool :=
  match a, b with
  | [], [] => true
  | x :: a', y :: b' => N.eqb x y && str_eqb a' b'
  | _, _ => false
  end.

(** ASCII literals. *)
Definition lit (s : string) : str :=
  List.map (fun c => N_of_ascii c) (list_ascii_of_string s).

(** Byte-string literals such as [b"Bitcoin seed"]. *)
Definition blit (s : string) : bytes := list_byte_of_string s.

(** Length in bytes of the UTF-8 encoding of one scalar value
    ([char::len_utf8]). *)
Definition len_utf8 (c : N) : nat :=
  if c <? 0x80 then 1%nat
  else if c <? 0x800 then 2%nat
  else if c <? 0x10000 then 3%nat
  else 4%nat.

(** UTF-8 encoding ([str::as_bytes]). *)
Definition utf8_char (c : N) : bytes :=
  if c <? 0x80 then [n2b c]
  else if c <? 0x800 then [n2b (0xC0 + c / 64); n2b (0x80 + c mod 64)]
  else if c <? 0x10000 then
    [n2b (0xE0 + c / 4096); n2b (0x80 + (c / 64) mod 64); n2b (0x80 + c mod 64)]
  else
    [n2b (0xF0 + c / 262144); n2b (0x80 + (c / 4096) mod 64);
     n2b (0x80 + (c / 64) mod 64); n2b (0x80 + c mod 64)].

Definition utf8 (s : str) : bytes := flat_map utf8_char s.

(** UTF-8 validation and decoding ([str::from_utf8]): rejects overlong
    forms, surrogates and values above U+10FFFF. *)
Definition is_cont (b : byte) : bool := (128 <=? b2n b) && (b2n b <? 192).
Definition cont (b : byte) : N := b2n b - 128.

Fixpoint of_utf8 (bs : bytes) : option str :=
  match bs with
  | [] => Some []
  | b0 :: r0 =>
    let n0 := b2n b0 in
    if n0 <? 0x80 then option_map (cons n0) (of_utf8 r0)
    else match r0 with
    | [] => None
    | b1 :: r1 =>
      if negb (is_cont b1) then None
      else if n0 <? 0xC2 then None
      else if n0 <? 0xE0 then
        option_map (cons ((n0 - 0xC0) * 64 + cont b1)) (of_utf8 r1)
      else match r1 with
      | [] => None
      | b2 :: r2 =>
        if negb (is_cont b2) then None
        else if n0 <? 0xF0 then
          let c := (n0 - 0xE0) * 4096 + cont b1 * 64 + cont b2 in
          if (0x800 <=? c) && is_scalar c
          then option_map (cons c) (of_utf8 r2) else None
        else match r2 with
        | [] => None
        | b3 :: r3 =>
          if negb (is_cont b3) then None
          else
            let c := (n0 - 0xF0) * 262144 + cont b1 * 4096
                     + cont b2 * 64 + cont b3 in
            if (0x10000 <=? c) && is_scalar c
            then option_map (cons c) (of_utf8 r3) else None
        end
      end
    end
  end.

(** * Random streams

    An entropy source is an arbitrary infinite stream of bytes; [fill k]
    takes the next [k] bytes ([Entropy::fill_bytes] on a [k]-byte slice,
    keychain/src/entropy.rs:5-7,19-24). *)
Definition rng := nat -> byte.
Definition fill (k : nat) (r : rng) : bytes * rng :=
  (List.map r (seq 0 k), fun i => r (k + i)%nat).
