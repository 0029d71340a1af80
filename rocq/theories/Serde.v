(** What serde's derive macros generate for the public types that are not
    wallet data, read and written with serde_json (see Json.v for what is
    modelled of that crate): the bip39 crate's types under its feature
    [generic-serialization] (bip39/Cargo.toml:26), and keychain's [Network].

    Other data formats than JSON are not modelled. *)
From Coq Require Import Strings.String.
From Verif Require Import Base Str Hex Bip39 Dict Errors Json Data.
Open Scope list_scope.
Local Open Scope byte_scope.

(** * Enums *)

(** What a variant holds: nothing, or one value. *)
Inductive content (A : Type) :=
| UnitVariant (a : A)
| NewtypeVariant (p : parser A).
Arguments UnitVariant {A} a.
Arguments NewtypeVariant {A} p.

(** [Deserializer::deserialize_enum] of serde_json and the derived visitor: a
    string alone names a variant that holds nothing; an object with one member
    names a variant and its content ([null] for nothing). *)
Definition parse_enum {A} (variant : str -> option (content A)) : parser A := fun l =>
  match skip_ws l with
  | b :: r =>
    if byte_eqb b "{" then
      let* '(s, r) := parse_str r in
      let* c := ok_or (variant s) (DUnknownVariant s) in
      let* '(_, r) := expect ":" r in
      let* '(a, r) :=
        match c with
        | UnitVariant a => let* '(_, r) := parse_null r in Ok (a, r)
        | NewtypeVariant p => p r
        end in
      let* '(_, r) := expect "}" r in
      Ok (a, r)
    else if byte_eqb b """" then
      let* '(s, r) := parse_str l in
      let* c := ok_or (variant s) (DUnknownVariant s) in
      match c with
      | UnitVariant a => Ok (a, r)
      | NewtypeVariant _ => bad
      end
    else bad
  | [] => bad
  end.
(** [serialize_unit_variant] and [serialize_newtype_variant] of serde_json *)
Definition print_unit (name : str) : bytes := print_str (utf8 name).
Definition print_newtype (name : str) (value : bytes) : bytes :=
  print_struct [print_field (utf8 name) value].

(** * MnemonicString, bip39.rs:525-526 *)

(** A newtype struct is written as its content. *)
Definition write_phrase (s : str) : bytes := print_str (utf8 s).
Definition read_phrase (t : bytes) : res data_error str := from_slice parse_str t.

(** * Type, bip39.rs:584-592 *)

Definition type_name (t : Type_) : str :=
  lit match t with
  | Type9Words => "Type9Words" | Type12Words => "Type12Words" | Type15Words => "Type15Words"
  | Type18Words => "Type18Words" | Type21Words => "Type21Words" | Type24Words => "Type24Words"
  end.
Definition type_variant (s : str) : option (content Type_) :=
  option_map UnitVariant (find (fun t => str_eqb (type_name t) s)
    [Type9Words; Type12Words; Type15Words; Type18Words; Type21Words; Type24Words]).
Definition write_type (t : Type_) : bytes := print_unit (type_name t).
Definition read_type (t : bytes) : res data_error Type_ := from_slice (parse_enum type_variant) t.

(** * dictionary::Error, bip39.rs:862-866: the word it carries *)

Definition word_error_name : str := lit "MnemonicWordNotFoundInDictionary".
Definition word_error_variant (s : str) : option (content str) :=
  if str_eqb s word_error_name then Some (NewtypeVariant parse_str) else None.
Definition write_word_error (w : str) : bytes := print_newtype word_error_name (print_str (utf8 w)).
Definition read_word_error (t : bytes) : res data_error str := from_slice (parse_enum word_error_variant) t.

Section Config.
Variable C : json_config.

(** * hex::Error, hex.rs:19-24 *)

Definition parse_hex_error : parser hex_error := fun l =>
  let* '(n, r) := parse_uint C usize_max l in
  Ok (UnknownSymbol n, r).
Definition hex_error_name : str := lit "UnknownSymbol".
Definition hex_error_variant (s : str) : option (content hex_error) :=
  if str_eqb s hex_error_name then Some (NewtypeVariant parse_hex_error) else None.
Definition write_hex_error (e : hex_error) : bytes :=
  match e with UnknownSymbol n => print_newtype hex_error_name (print_num n) end.
Definition read_hex_error (t : bytes) : res data_error hex_error := from_slice (parse_enum hex_error_variant) t.

(** * Network, keychain/src/network.rs:3-4 *)

Definition write_network (n : N) : bytes := print_num n.
Definition read_network (t : bytes) : res data_error N := from_slice (parse_uint C u32_max) t.

End Config.

(** * Language, keychain/src/mnemonic.rs:6-17 *)

Definition write_language (l : Language) : bytes := print_unit (language_name l).
Definition read_language (t : bytes) : res data_error Language := from_slice parse_language t.
