(** Model of the [Display] implementations of the error types: the texts that
    the C bindings hand out. *)
From Coq Require Import Strings.String.
From Verif Require Import Base Str Bip39 KeyPath Errors.
Open Scope list_scope.

(** Parts of the texts that come from serde_json and depend on details not kept by the model. *)
Record texts := {
  (** [serde_json::Error] other than an unknown variant *)
  malformed_text : str;
  (** what follows the variant in serde's text "unknown variant `...`,
      expected ..." *)
  variant_rest : str
}.

(** [{:08b}] of a [u8] *)
Definition bin8 (n : N) : str :=
  List.map (fun i => if N.testbit n i then 0x31 else 0x30) [7; 6; 5; 4; 3; 2; 1; 0].

(** secp256k1_bip32/src/error.rs:20-40 *)
Definition show_secp (e : secp_error) : str :=
  match e with
  | SInvalidSignature bad good => lit "Invalid signature " ++ dec bad ++ lit ", expected " ++ dec good
  | SInvalidPublicKey => lit "Invalid public key"
  | SInvalidSecretKey => lit "Invalid secret key"
  | SInvalidRecoveryId => lit "Invalid recovery id"
  | SInvalidMessage => lit "Invalid message"
  | SInvalidInputLength => lit "Invalid input length"
  | STweakOutOfRange => lit "Tweak out of range"
  | SInvalidDataSize bad good =>
    lit "Invalid key data size " ++ dec bad ++ lit ", expected " ++ dec good
  | SInvalidEntropySize size => lit "Invalid entropy size " ++ dec size
  | SDeriveDepthTooBig => lit "Derive depth is too big"
  | SInternalError => lit "Unknown internal error"
  end.

(** keychain/src/networks/cardano/key.rs:22-30 *)
Definition show_ada (e : ada_error) : str :=
  match e with
  | ALengthInvalid len => lit "Invalid data length " ++ dec len
  | AHighestBitsInvalid => lit "Highest bits is invalid"
  | ALowestBitsInvalid => lit "Lowest bits is invalid"
  end.

(** bip39/src/bip39.rs:89-104; [SEED_SIZE] is 64 *)
Definition show_bip39 (e : bip39_error) : str :=
  match e with
  | InvalidSeedSize sz =>
    lit "Invalid Seed Size, expected " ++ dec (N.of_nat SEED_SIZE) ++ lit " bytes, but received " ++ dec sz ++ lit " bytes."
  | WrongNumberOfWords sz => lit "Unsupported number of mnemonic words: " ++ dec sz
  | WrongKeySize sz => lit "Unsupported mnemonic entropy size: " ++ dec sz
  | MnemonicOutOfBound v => lit "The given mnemonic is out of bound, " ++ dec v
  | LanguageError _ => lit "Unknown mnemonic word"
  | InvalidChecksum a b =>
    lit "Invalid Entropy's Checksum, expected " ++ bin8 a ++ lit " but found " ++ bin8 b
  end.

(** keychain/src/mnemonic.rs:50-63.  [MnemonicToLong] says "too short" in the
    code as well. *)
Definition show_mnemonic (e : mnemonic_error) : str :=
  match e with
  | MnemonicToShort size min => lit "Mnemonic " ++ dec size ++ lit " too short. Min: " ++ dec min
  | MnemonicToLong size max => lit "Mnemonic " ++ dec size ++ lit " too short. Max: " ++ dec max
  | MWrongNumberOfWords n => lit "Wrong number of words " ++ dec n
  | UnsupportedWordFound w =>
    lit "Unsupported word found '" ++ w ++ lit "'. Maybe wrong dictionary?"
  | MInvalidEntropySize n => lit "Invalid entropy size " ++ dec n
  | UnknownError e => lit "Unknown mnemonic error: " ++ show_bip39 e
  end.

(** keychain/src/network.rs:25-29 *)
Definition show_network (n : N) : str := lit "Network(" ++ dec n ++ lit ")".

(** [ParseIntError] of the standard library *)
Definition show_int (e : int_error) : str :=
  match e with
  | IntEmpty => lit "cannot parse integer from empty string"
  | IntInvalidDigit => lit "invalid digit found in string"
  | IntPosOverflow => lit "number too large to fit in target type"
  end.

(** keychain/src/key_path.rs:25-49 *)
Definition show_kp (e : kp_error) : str :=
  match e with
  | InvalidPartsCount n =>
    lit "Invalid parts count " ++ dec n ++ lit ", expected: " ++ dec (N.of_nat KEY_PATH_PARTS_COUNT)
  | InvalidPurpose p x => lit "Invalid purpose " ++ dec p ++ lit ", expected: " ++ dec x
  | InvalidPathMarker m => lit "Invalid path marker '" ++ m ++ lit "', expected: 'm'"
  | InvalidCoin c x => lit "Invalid coin " ++ dec c ++ lit ", expected: " ++ dec x
  | InvalidAccount a => lit "Invalid account " ++ dec a
  | InvalidChange c => lit "Invalid change " ++ dec c
  | InvalidAddress a => lit "Invalid address " ++ dec a
  | EmptyValueAtIndex i => lit "Found empty value at index: " ++ dec i
  | ParseErrorAtIndex i e =>
    lit "Can't parse number at index " ++ dec i ++ lit ", error: " ++ show_int e
  end.

(** [Display] of a boxed error is that of the error inside. *)
Definition show_boxed (e : boxed_error) : str :=
  match e with
  | BoxSecp e => show_secp e
  | BoxAda e => show_ada e
  | BoxOther t => t
  end.

(** keychain/src/key.rs:19-34 *)
Definition show_key (e : key_error) : str :=
  match e with
  | InvalidKeyPath e => lit "Key Path error: " ++ show_kp e
  | InvalidMnemonic e => lit "Mnemonic error: " ++ show_mnemonic e
  | InvalidKeySize size good => lit "Invalid key size " ++ dec size ++ lit ", accepts " ++ dec good
  | InvalidKeyData e => lit "Invalid key data: " ++ show_boxed e
  | InvalidSignatureSize size good =>
    lit "Invalid signature size " ++ dec size ++ lit ", accepts " ++ dec good
  | SignError e => lit "Sign error: " ++ show_boxed e
  end.

Section T.
Variable T : texts.

(** serde_json's texts: serde's [unknown_variant] repeats the string found in
    the input as it is. *)
Definition show_data (e : data_error) : str :=
  match e with
  | DMalformed => malformed_text T
  | DUnknownVariant v => lit "unknown variant `" ++ v ++ lit "`, expected " ++ variant_rest T
  end.

(** keychain/src/error.rs:26-45 *)
Definition show (e : kc_error) : str :=
  match e with
  | WrongPassword => lit "Wrong password"
  | NotEnoughData => lit "Not enough data to load keychain"
  | SeedIsNotSaved => lit "Seed is not saved"
  | CantCalculateSeedSize min max =>
    lit "Can't calculate seed size for networks: min(" ++ dec min ++ lit "), max(" ++ dec max ++ lit ")"
  | KInvalidSeedSize size => lit "Invalid seed size " ++ dec size
  | KeyDoesNotExist n => lit "Key for " ++ show_network n ++ lit " doesn't exist"
  | KeyAlreadyExist n => lit "Key for " ++ show_network n ++ lit " already exist in keychain"
  | NetworkIsNotSupported n => lit "Network " ++ show_network n ++ lit " is not supported"
  | DataError e => lit "Data parsing error " ++ show_data e
  | KeyError n e => lit "Key error " ++ show_key e ++ lit " for network " ++ show_network n
  | MnemonicError e => lit "Mnemonic error " ++ show_mnemonic e
  | KeyPathError e => lit "Key path error " ++ show_kp e
  end.

End T.
