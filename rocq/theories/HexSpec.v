(** Specification of hexadecimal text, independent of the model. *)
From Coq Require Import Strings.String.
From Verif Require Import Base.

(** Value of a hexadecimal digit, either case. *)
Definition digit_value (b : byte) : option N :=
  match b with
  | "0" => Some 0 | "1" => Some 1 | "2" => Some 2 | "3" => Some 3
  | "4" => Some 4 | "5" => Some 5 | "6" => Some 6 | "7" => Some 7
  | "8" => Some 8 | "9" => Some 9
  | "a" | "A" => Some 10 | "b" | "B" => Some 11 | "c" | "C" => Some 12
  | "d" | "D" => Some 13 | "e" | "E" => Some 14 | "f" | "F" => Some 15
  | _ => None
  end%byte.

(** Space, carriage return, line feed, tabulation. *)
Definition is_space (b : byte) : Prop :=
  b = x20 \/ b = x0d \/ b = x0a \/ b = x09.

Definition is_digit (b : byte) : Prop := digit_value b <> None.

Definition allowed (b : byte) : Prop := is_digit b \/ is_space b.

(** The digit values of a text, white space ignored. *)
Definition digits (s : bytes) : list N :=
  flat_map (fun b => match digit_value b with Some v => [v] | None => [] end) s.

(** Digits taken two by two, high digit first; an unpaired last digit is
    dropped. *)
Fixpoint pair_up (ds : list N) : bytes :=
  match ds with
  | h :: l :: r => n2b (16 * h + l) :: pair_up r
  | _ => []
  end.

(** Lower-case digit of a value below 16. *)
Definition lower_digit (v : N) : byte :=
  nth (N.to_nat v) (blit "0123456789abcdef") x00.

Definition hex_of (bs : bytes) : bytes :=
  flat_map (fun b => [lower_digit (b2n b / 16); lower_digit (b2n b mod 16)]) bs.
