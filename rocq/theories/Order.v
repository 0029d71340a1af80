(** Model of the derived comparisons of the bip39 crate's other types (those of
    [Entropy], [Seed] and [Type] are in Values.v). *)
From Verif Require Import Base Str Hex Bip39 Values.

(** [PartialEq] and [Ord] of [String]: those of its bytes.  Derived for
    [MnemonicString], bip39/src/bip39.rs:524-526, and [dictionary::Error],
    bip39.rs:861-866 (one variant with a word). *)
Definition string_eqb (a b : str) : bool := bytes_eqb (utf8 a) (utf8 b).
Definition string_cmp (a b : str) : comparison := bytes_cmp (utf8 a) (utf8 b).
Definition phrase_eqb (a b : str) : bool := string_eqb a b.
Definition phrase_cmp (a b : str) : comparison := string_cmp a b.
Definition dictionary_eqb (a b : str) : bool := string_eqb a b.
Definition dictionary_cmp (a b : str) : comparison := string_cmp a b.

(** [MnemonicIndex], bip39.rs:692-693 *)
Definition index_cmp (a b : N) : comparison := N.compare a b.

(** [PartialEq] of [Mnemonics], a vector of indices, bip39.rs:769-770 *)
Fixpoint mnemonics_eqb (a b : list N) : bool :=
  match a, b with
  | [], [] => true
  | x :: a, y :: b => (x =? y) && mnemonics_eqb a b
  | _, _ => false
  end.

(** [hex::Error], bip39/src/util/hex.rs:18-24 *)
Definition hex_error_cmp (a b : hex_error) : comparison :=
  match a, b with UnknownSymbol i, UnknownSymbol j => N.compare i j end.

(** [PartialEq] of [Error], bip39.rs:60-88 *)
Definition bip39_eqb (a b : bip39_error) : bool :=
  match a, b with
  | WrongNumberOfWords n, WrongNumberOfWords m
  | WrongKeySize n, WrongKeySize m
  | MnemonicOutOfBound n, MnemonicOutOfBound m
  | InvalidSeedSize n, InvalidSeedSize m => n =? m
  | LanguageError w, LanguageError v => dictionary_eqb w v
  | InvalidChecksum n m, InvalidChecksum n' m' => (n =? n') && (m =? m')
  | _, _ => false
  end.
