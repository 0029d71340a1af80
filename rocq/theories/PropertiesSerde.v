(** Property C81: the JSON form of the public types that are not wallet data. *)
From Coq Require Import Strings.String.
From Verif Require Import Base Str CodingSpec Hex Bip39 Dict Errors Base64 Json Data DataSpec JsonSpec DocumentSpec
  Serde SerdeSpec SerdeFacts.
Open Scope list_scope.

(** C81.  Exactly which texts are read as which values. *)
Theorem C81_read : forall (C : json_config) (l : bytes),
  (forall s, read_phrase l = Ok s <-> whole (string_text s) l) /\
  (forall ty, read_type l = Ok ty <-> whole (type_text ty) l) /\
  (forall w, read_word_error l = Ok w <-> whole (word_error_text w) l) /\
  (forall e, read_hex_error C l = Ok e <-> whole (hex_error_text (minus_zero C) e) l) /\
  (forall n, read_network C l = Ok n <-> whole (number_of (minus_zero C) u32_max n) l) /\
  (forall a, read_language l = Ok a <-> whole (language_text a) l).
Proof. exact read_exact. Qed.
Print Assumptions C81_read.

(** C81.  No text makes reading panic. *)
Theorem C81_answers : forall (C : json_config) (l : bytes),
  let answers A (r : res data_error A) := (exists a, r = Ok a) \/ (exists e, r = Err e) in
  answers _ (read_phrase l) /\ answers _ (read_type l) /\ answers _ (read_word_error l) /\
  answers _ (read_hex_error C l) /\ answers _ (read_network C l) /\ answers _ (read_language l).
Proof. exact read_never_panics. Qed.
Print Assumptions C81_answers.

(** C81.  Which rejections name an unknown variant, and which name. *)
Theorem C81_unknown : forall (C : json_config) (l : bytes) (s : str),
  let named := exists w q r, ws w /\ string_text s q /\
    (l = w ++ q ++ r \/ exists w', ws w' /\ l = w ++ blit "{" ++ w' ++ q ++ r) in
  (read_type l = Err (DUnknownVariant s) <-> ~ In s (List.map snd types) /\ named) /\
  (read_word_error l = Err (DUnknownVariant s) <-> s <> lit "MnemonicWordNotFoundInDictionary" /\ named) /\
  (read_hex_error C l = Err (DUnknownVariant s) <-> s <> lit "UnknownSymbol" /\ named).
Proof. exact unknown_names. Qed.
Print Assumptions C81_unknown.

(** C81.  The text written for each value. *)
Theorem C81_written :
  (forall s, write_phrase s = quoted_str s) /\
  (forall ty, write_type ty = type_written ty) /\
  (forall w, write_word_error w = blit "{""MnemonicWordNotFoundInDictionary"":" ++ quoted_str w ++ blit "}") /\
  (forall n s, is_usize n -> numeral n s ->
     write_hex_error (UnknownSymbol n) = blit "{""UnknownSymbol"":" ++ utf8 s ++ blit "}") /\
  (forall n s, is_u32 n -> numeral n s -> write_network n = utf8 s) /\
  (forall a, write_language a = dictionary_text (Some a)).
Proof. exact written. Qed.
Print Assumptions C81_written.

(** C81.  Every value is read back from what was written. *)
Theorem C81_round_trip : forall C : json_config,
  (forall s, valid_str s -> read_phrase (write_phrase s) = Ok s) /\
  (forall ty, read_type (write_type ty) = Ok ty) /\
  (forall w, valid_str w -> read_word_error (write_word_error w) = Ok w) /\
  (forall n, is_usize n -> read_hex_error C (write_hex_error (UnknownSymbol n)) = Ok (UnknownSymbol n)) /\
  (forall n, is_u32 n -> read_network C (write_network n) = Ok n) /\
  (forall a, read_language (write_language a) = Ok a).
Proof. exact round_trips. Qed.
Print Assumptions C81_round_trip.

(** C81.  Any string at all can be read as a [MnemonicString]. *)
Theorem C81_any_phrase : forall s, valid_str s -> exists t, read_phrase t = Ok s.
Proof. exact any_phrase. Qed.
Print Assumptions C81_any_phrase.

(** C81.  Refuted: "RAII for validated mnemonic words.  This guarantee a given
    mnemonic phrase has been safely validated against a dictionary"
    (bip39.rs:519-520).  The text read is a phrase no dictionary accepts. *)
Theorem C81_validated_refuted : exists t s, read_phrase t = Ok s /\
  forall d : dict, mnemonic_string_new d s <> Ok s.
Proof. exact unvalidated. Qed.
Print Assumptions C81_validated_refuted.

(** Texts of each type, in every shape that is read. *)
Definition C81_config : json_config := {| max_ignored_depth := None; minus_zero := true |}.
Example C81_texts :
  read_phrase (blit " ""ab\n"" ") = Ok [0x61; 0x62; 0x0a] /\
  read_type (blit """Type12Words""") = Ok Type12Words /\
  read_type (blit "{ ""Type12Words"" : null } ") = Ok Type12Words /\
  read_word_error (blit "{""MnemonicWordNotFoundInDictionary"":""zoom""}") = Ok (lit "zoom") /\
  read_hex_error C81_config (blit "{""UnknownSymbol"" : 18446744073709551615}") = Ok (UnknownSymbol 18446744073709551615) /\
  read_hex_error C81_config (blit "{""UnknownSymbol"":-0}") = Ok (UnknownSymbol 0) /\
  read_network C81_config (blit "2147483708") = Ok 2147483708 /\
  read_language (blit """Korean""") = Ok Korean.
Proof. vm_compute. repeat split. Qed.
Example C81_rejected :
  read_phrase (blit "[""a""]") = Err DMalformed /\
  read_type (blit """12""") = Err (DUnknownVariant (lit "12")) /\
  read_type (blit "{""Type12Words"":null,""Type12Words"":null}") = Err DMalformed /\
  read_type (blit "{""x"":1") = Err (DUnknownVariant (lit "x")) /\
  read_word_error (blit """MnemonicWordNotFoundInDictionary""") = Err DMalformed /\
  read_hex_error C81_config (blit "{""UnknownSymbol"":18446744073709551616}") = Err DMalformed /\
  read_network C81_config (blit "4294967296") = Err DMalformed /\
  type_from_str (type_name Type12Words) <> Ok Type12Words.
Proof. vm_compute. repeat split; discriminate. Qed.
Example C81_written_case :
  write_phrase (lit "ab""") = blit """ab\""""" /\
  write_type Type24Words = blit """Type24Words""" /\
  write_word_error (lit "zoom") = blit "{""MnemonicWordNotFoundInDictionary"":""zoom""}" /\
  write_hex_error (UnknownSymbol 17) = blit "{""UnknownSymbol"":17}" /\
  write_network 60 = blit "60".
Proof. vm_compute. repeat split. Qed.
