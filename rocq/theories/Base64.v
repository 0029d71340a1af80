(** Base64 with the standard alphabet and padding ([base64::STANDARD] of the
    base64 crate, used by keychain/src/data.rs:75). *)
From Verif Require Import Base.
Local Open Scope byte_scope.

(** Alphabet: A-Z a-z 0-9 + / *)
Definition b64_sym (n : N) : byte :=
  (if n <? 26 then n2b (65 + n)
   else if n <? 52 then n2b (97 + (n - 26))
   else if n <? 62 then n2b (48 + (n - 52))
   else if n =? 62 then "+" else "/")%N.

Definition b64_val (b : byte) : option N :=
  (let c := b2n b in
   if (65 <=? c) && (c <=? 90) then Some (c - 65)
   else if (97 <=? c) && (c <=? 122) then Some (c - 97 + 26)
   else if (48 <=? c) && (c <=? 57) then Some (c - 48 + 52)
   else if c =? 43 then Some 62
   else if c =? 47 then Some 63
   else None)%N.

Definition b64_pad : byte := "=".

Fixpoint b64_encode (l : bytes) : bytes :=
  (match l with
   | [] => []
   | [a] =>
     [b64_sym (b2n a / 4); b64_sym (b2n a mod 4 * 16); b64_pad; b64_pad]
   | [a; b] =>
     [b64_sym (b2n a / 4); b64_sym (b2n a mod 4 * 16 + b2n b / 16);
      b64_sym (b2n b mod 16 * 4); b64_pad]
   | a :: b :: c :: r =>
     b64_sym (b2n a / 4) :: b64_sym (b2n a mod 4 * 16 + b2n b / 16)
     :: b64_sym (b2n b mod 16 * 4 + b2n c / 64) :: b64_sym (b2n c mod 64)
     :: b64_encode r
   end)%N.

(** Behaviour of the crate the theorems do not depend on: whether unused low
    bits of the last symbol must be zero, and whether padding may be left
    out. *)
Record b64_config := {
  b64_any_trailing_bits : bool;
  b64_short_padding : bool
}.

Section Decode.
Variable C : b64_config.

(** One and two bytes from an incomplete group. *)
Definition b64_two (a b : byte) : option bytes :=
  (match b64_val a, b64_val b with
   | Some x, Some y =>
     if b64_any_trailing_bits C || (y mod 16 =? 0) then Some [n2b (x * 4 + y / 16)] else None
   | _, _ => None
   end)%N.
Definition b64_three (a b c : byte) : option bytes :=
  (match b64_val a, b64_val b, b64_val c with
   | Some x, Some y, Some z =>
     if b64_any_trailing_bits C || (z mod 4 =? 0)
     then Some [n2b (x * 4 + y / 16); n2b (y mod 16 * 16 + z / 4)] else None
   | _, _, _ => None
   end)%N.

Definition is_pad (b : byte) : bool := byte_eqb b b64_pad.

(** The last group when it is not four symbols. *)
Definition b64_last (l : bytes) : option bytes :=
  match l with
  | [] => Some []
  | [a; b] => if b64_short_padding C then b64_two a b else None
  | [a; b; c] =>
    if b64_short_padding C then if is_pad c then b64_two a b else b64_three a b c else None
  | [a; b; c; d] =>
    if is_pad d then if is_pad c then b64_two a b else b64_three a b c else None
  | _ => None
  end.

Fixpoint b64_decode (l : bytes) : option bytes :=
  (match l with
   | a :: b :: c :: d :: r =>
     match b64_val a, b64_val b, b64_val c, b64_val d with
     | Some x, Some y, Some z, Some w =>
       option_map (fun t => n2b (x * 4 + y / 16) :: n2b (y mod 16 * 16 + z / 4)
                            :: n2b (z mod 4 * 64 + w) :: t) (b64_decode r)
     | _, _, _, _ => b64_last l
     end
   | _ => b64_last l
   end)%N.

End Decode.
