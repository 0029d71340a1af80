(** Model of the derived [Debug] implementations: the texts that [{:?}] gives.
    The alternate form [{:#?}] and other flags are not modelled.

    What [#[derive(Debug)]] prints is split in two: a value's [view] lists its
    names and contents, and [fmt] writes a view. *)
From Coq Require Import Strings.String.
From Verif Require Import Base Str Hex Bip39 Dict KeyPath Errors Crypt Data Keys.
Open Scope list_scope.

Inductive view :=
| VNum (n : N)
| VText (s : str)
| VList (l : list view)
| VUnit (name : str)
| VTuple (name : str) (l : list view)
| VStruct (name : str) (l : list (str * view))
(** a text written by code outside the repository *)
| VOther (text : str).

(** What depends on the version of the standard library or is written by other
    crates. *)
Record debug_config := {
  (** the tables of [char::escape_debug]: which characters are shown as they
      are *)
  plain : N -> bool;
  (** whether NUL is written [\0], not [\u{0}] *)
  short_nul : bool;
  (** whether [IntErrorKind::PosOverflow] has its old name [Overflow] *)
  old_overflow : bool;
  (** [Debug] of a custom network's error.  Simplification: it is a function
      of the error's [Display] text. *)
  boxed_debug : str -> str;
  (** [Debug] of [serde_json::Error] *)
  json_debug : data_error -> str
}.

(** Hexadecimal digits without leading zeros; a [char] has at most six. *)
Definition hex_char (n : N) : N := if n <? 10 then 48 + n else 87 + n.
Fixpoint hex_fuel (k : nat) (n : N) : str :=
  match k with
  | O => []
  | S k' => if n <? 16 then [hex_char n] else hex_fuel k' (n / 16) ++ [hex_char (n mod 16)]
  end.

Section Config.
Variable T : debug_config.

(** [char::escape_debug] inside a string: a single quote is not escaped. *)
Definition escape_debug (c : N) : str :=
  if (c =? 0) && short_nul T then lit "\0"
  else if c =? 9 then lit "\t"
  else if c =? 13 then lit "\r"
  else if c =? 10 then lit "\n"
  else if c =? 34 then lit "\"""
  else if c =? 92 then lit "\\"
  else if plain T c then [c]
  else lit "\u{" ++ hex_fuel 6 c ++ lit "}".

(** [Debug] of integers, [str], [Vec] and what the derive macro writes with
    [debug_tuple] and [debug_struct]. *)
Fixpoint fmt (v : view) : str :=
  match v with
  | VNum n => dec n
  | VText s => lit """" ++ flat_map escape_debug s ++ lit """"
  | VList l => lit "[" ++ join (lit ", ") (List.map fmt l) ++ lit "]"
  | VUnit name => name
  | VTuple name l => name ++ lit "(" ++ join (lit ", ") (List.map fmt l) ++ lit ")"
  | VStruct name l =>
    name ++ lit " { "
    ++ join (lit ", ") (List.map (fun '(f, v) => f ++ lit ": " ++ fmt v) l) ++ lit " }"
  | VOther text => text
  end.

(** ** Values *)

(** [Network], keychain/src/network.rs:3-4 *)
Definition view_network (n : N) : view := VTuple (lit "Network") [VNum n].

(** [KeyPath], networks/{bitcoin,cardano,ethereum}/key_path.rs:6-22: the
    fields kept, which are the getters with these names. *)
Definition view_btc_path (p : KeyPath) : view :=
  VStruct (lit "KeyPath")
    [(lit "purpose", VNum (purpose p)); (lit "coin", VNum (coin p));
     (lit "account", VNum (account p)); (lit "change", VNum (change p));
     (lit "address", VNum (address p))].
Definition view_ada_path (p : KeyPath) : view :=
  VStruct (lit "KeyPath")
    [(lit "account", VNum (account p)); (lit "change", VNum (change p));
     (lit "address", VNum (address p))].
Definition view_eth_path (p : KeyPath) : view :=
  VStruct (lit "KeyPath") [(lit "account", VNum (account p)); (lit "address", VNum (address p))].

(** [SeedSize], keychain/src/key_factory.rs:4-8 *)
Definition view_seed_size (s : SeedSize) : view :=
  VStruct (lit "SeedSize") [(lit "min", VNum (ss_min s)); (lit "max", VNum (ss_max s))].

(** [Language], keychain/src/mnemonic.rs:7-17 *)
Definition view_language (l : Language) : view :=
  VUnit (lit match l with
  | English => "English" | French => "French" | Japanese => "Japanese" | Korean => "Korean"
  | ChineseSimplified => "ChineseSimplified" | ChineseTraditional => "ChineseTraditional"
  | Italian => "Italian" | Spanish => "Spanish"
  end).

(** [Version] and [VersionedData], keychain/src/data.rs:9-14,38-43 *)
Definition view_version (v : version) : view :=
  VUnit (lit match v with V1 => "V1" | V2 => "V2" end).
Definition view_bytes (b : bytes) : view := VList (List.map (fun x => VNum (b2n x)) b).
Definition view_versioned (v : versioned) : view :=
  VStruct (lit "VersionedData")
    [(lit "version", view_version (v_version v)); (lit "data", view_bytes (v_data v))].

(** [MnemonicString], [Type], [MnemonicIndex] and [Mnemonics],
    bip39/src/bip39.rs:524-526,583-592,692-693,769-770 *)
Definition view_phrase (s : str) : view := VTuple (lit "MnemonicString") [VText s].
Definition view_type (t : Type_) : view :=
  VUnit (lit match t with
  | Type9Words => "Type9Words" | Type12Words => "Type12Words" | Type15Words => "Type15Words"
  | Type18Words => "Type18Words" | Type21Words => "Type21Words" | Type24Words => "Type24Words"
  end).
Definition view_index (m : N) : view := VTuple (lit "MnemonicIndex") [VNum m].
Definition view_mnemonics (ms : list N) : view :=
  VTuple (lit "Mnemonics") [VList (List.map view_index ms)].

(** ** Errors *)

(** secp256k1_bip32/src/error.rs:5-18 *)
Definition view_secp (e : secp_error) : view :=
  match e with
  | SInvalidSignature bad good => VTuple (lit "InvalidSignature") [VNum bad; VNum good]
  | SInvalidPublicKey => VUnit (lit "InvalidPublicKey")
  | SInvalidSecretKey => VUnit (lit "InvalidSecretKey")
  | SInvalidRecoveryId => VUnit (lit "InvalidRecoveryId")
  | SInvalidMessage => VUnit (lit "InvalidMessage")
  | SInvalidInputLength => VUnit (lit "InvalidInputLength")
  | STweakOutOfRange => VUnit (lit "TweakOutOfRange")
  | SInvalidDataSize bad good => VTuple (lit "InvalidDataSize") [VNum bad; VNum good]
  | SInvalidEntropySize size => VTuple (lit "InvalidEntropySize") [VNum size]
  | SDeriveDepthTooBig => VUnit (lit "DeriveDepthTooBig")
  | SInternalError => VUnit (lit "InternalError")
  end.

(** keychain/src/networks/cardano/key.rs:15-20 *)
Definition view_ada (e : ada_error) : view :=
  match e with
  | ALengthInvalid len => VTuple (lit "LengthInvalid") [VNum len]
  | AHighestBitsInvalid => VUnit (lit "HighestBitsInvalid")
  | ALowestBitsInvalid => VUnit (lit "LowestBitsInvalid")
  end.

(** bip39/src/bip39.rs:60-88, with [dictionary::Error], bip39.rs:861-866 *)
Definition view_bip39 (e : bip39_error) : view :=
  match e with
  | WrongNumberOfWords n => VTuple (lit "WrongNumberOfWords") [VNum n]
  | WrongKeySize n => VTuple (lit "WrongKeySize") [VNum n]
  | MnemonicOutOfBound n => VTuple (lit "MnemonicOutOfBound") [VNum n]
  | LanguageError w =>
    VTuple (lit "LanguageError") [VTuple (lit "MnemonicWordNotFoundInDictionary") [VText w]]
  | InvalidSeedSize n => VTuple (lit "InvalidSeedSize") [VNum n]
  | InvalidChecksum a b => VTuple (lit "InvalidChecksum") [VNum a; VNum b]
  end.

(** bip39/src/util/hex.rs:18-24; keychain/src/crypt.rs:27-31 *)
Definition view_hex (e : hex_error) : view :=
  match e with UnknownSymbol i => VTuple (lit "UnknownSymbol") [VNum i] end.
Definition view_decrypt (e : decrypt_error) : view :=
  match e with
  | DNotEnoughData => VUnit (lit "NotEnoughData")
  | DDecryptionFailed => VUnit (lit "DecryptionFailed")
  end.

(** keychain/src/mnemonic.rs:40-48 *)
Definition view_mnemonic (e : mnemonic_error) : view :=
  match e with
  | MnemonicToShort size min => VTuple (lit "MnemonicToShort") [VNum size; VNum min]
  | MnemonicToLong size max => VTuple (lit "MnemonicToLong") [VNum size; VNum max]
  | MWrongNumberOfWords n => VTuple (lit "WrongNumberOfWords") [VNum n]
  | UnsupportedWordFound w => VTuple (lit "UnsupportedWordFound") [VText w]
  | MInvalidEntropySize n => VTuple (lit "InvalidEntropySize") [VNum n]
  | UnknownError e => VTuple (lit "UnknownError") [view_bip39 e]
  end.

(** [ParseIntError] of the standard library *)
Definition view_int (e : int_error) : view :=
  VStruct (lit "ParseIntError")
    [(lit "kind", VUnit (lit match e with
      | IntEmpty => "Empty"
      | IntInvalidDigit => "InvalidDigit"
      | IntPosOverflow => if old_overflow T then "Overflow" else "PosOverflow"
      end))].

(** keychain/src/key_path.rs:12-23 *)
Definition view_kp (e : kp_error) : view :=
  match e with
  | InvalidPartsCount n => VTuple (lit "InvalidPartsCount") [VNum n]
  | InvalidPurpose p x => VTuple (lit "InvalidPurpose") [VNum p; VNum x]
  | InvalidPathMarker m => VTuple (lit "InvalidPathMarker") [VText m]
  | InvalidCoin c x => VTuple (lit "InvalidCoin") [VNum c; VNum x]
  | InvalidAccount a => VTuple (lit "InvalidAccount") [VNum a]
  | InvalidChange c => VTuple (lit "InvalidChange") [VNum c]
  | InvalidAddress a => VTuple (lit "InvalidAddress") [VNum a]
  | EmptyValueAtIndex i => VTuple (lit "EmptyValueAtIndex") [VNum i]
  | ParseErrorAtIndex i e => VTuple (lit "ParseErrorAtIndex") [VNum i; view_int e]
  end.

(** [Debug] of a boxed error is that of the error inside. *)
Definition view_boxed (e : boxed_error) : view :=
  match e with
  | BoxSecp e => view_secp e
  | BoxAda e => view_ada e
  | BoxOther t => VOther (boxed_debug T t)
  end.

(** keychain/src/key.rs:9-17 *)
Definition view_key (e : key_error) : view :=
  match e with
  | InvalidKeyPath e => VTuple (lit "InvalidKeyPath") [view_kp e]
  | InvalidMnemonic e => VTuple (lit "InvalidMnemonic") [view_mnemonic e]
  | InvalidKeySize size good => VTuple (lit "InvalidKeySize") [VNum size; VNum good]
  | InvalidKeyData e => VTuple (lit "InvalidKeyData") [view_boxed e]
  | InvalidSignatureSize size good => VTuple (lit "InvalidSignatureSize") [VNum size; VNum good]
  | SignError e => VTuple (lit "SignError") [view_boxed e]
  end.

(** keychain/src/error.rs:10-24 *)
Definition view_error (e : kc_error) : view :=
  match e with
  | WrongPassword => VUnit (lit "WrongPassword")
  | NotEnoughData => VUnit (lit "NotEnoughData")
  | SeedIsNotSaved => VUnit (lit "SeedIsNotSaved")
  | CantCalculateSeedSize min max => VTuple (lit "CantCalculateSeedSize") [VNum min; VNum max]
  | KInvalidSeedSize n => VTuple (lit "InvalidSeedSize") [VNum n]
  | KeyDoesNotExist n => VTuple (lit "KeyDoesNotExist") [view_network n]
  | KeyAlreadyExist n => VTuple (lit "KeyAlreadyExist") [view_network n]
  | NetworkIsNotSupported n => VTuple (lit "NetworkIsNotSupported") [view_network n]
  | DataError e => VTuple (lit "DataError") [VOther (json_debug T e)]
  | KeyError n e => VTuple (lit "KeyError") [view_network n; view_key e]
  | MnemonicError e => VTuple (lit "MnemonicError") [view_mnemonic e]
  | KeyPathError e => VTuple (lit "KeyPathError") [view_kp e]
  end.

End Config.
