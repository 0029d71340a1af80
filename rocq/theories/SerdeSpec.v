(** The JSON texts of the public types that are not wallet data. *)
From Coq Require Import Strings.String.
From Verif Require Import Base Str CodingSpec Hex Bip39 Dict Base64 Json Data DataSpec JsonSpec DocumentSpec.
Open Scope list_scope.

(** A variant that holds nothing: its name, or an object. *)
Definition unit_text (name : str) (t : bytes) : Prop :=
  string_text name t \/ object_text [(name, blit "null")] t.
(** A variant that holds one value: an object. *)
Definition holding_text (name : str) (Q : bytes -> Prop) (t : bytes) : Prop :=
  exists v, Q v /\ object_text [(name, v)] t.

Definition types : list (Type_ * str) :=
  [(Type9Words, lit "Type9Words"); (Type12Words, lit "Type12Words"); (Type15Words, lit "Type15Words");
   (Type18Words, lit "Type18Words"); (Type21Words, lit "Type21Words"); (Type24Words, lit "Type24Words")].
Definition type_text (ty : Type_) (t : bytes) : Prop := exists name, In (ty, name) types /\ unit_text name t.
Definition word_error_text (w : str) : bytes -> Prop :=
  holding_text (lit "MnemonicWordNotFoundInDictionary") (string_text w).

(** An unsigned integer; [zero]: also as "-0". *)
Definition number_of (zero : bool) (max n : N) (t : bytes) : Prop :=
  n <= max /\ ((exists s, numeral n s /\ utf8_text s t) \/ (zero = true /\ n = 0 /\ t = blit "-0")).
Definition hex_error_text (zero : bool) (e : hex_error) : bytes -> Prop :=
  match e with UnknownSymbol n => holding_text (lit "UnknownSymbol") (number_of zero usize_max n) end.

(** How the values are written. *)
Definition quoted_str (s : str) : bytes := quoted (flat_map json_char (utf8 s)).
Definition type_written (ty : Type_) : bytes :=
  match ty with
  | Type9Words => blit """Type9Words""" | Type12Words => blit """Type12Words"""
  | Type15Words => blit """Type15Words""" | Type18Words => blit """Type18Words"""
  | Type21Words => blit """Type21Words""" | Type24Words => blit """Type24Words"""
  end.
