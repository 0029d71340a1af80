(** What the texts of the errors are: the format strings of the Rust sources
    with their holes filled.  Independent of Display.v but for the texts that
    come from other libraries. *)
From Coq Require Import Strings.String Strings.Ascii.
From Verif Require Import Base Str Bip39 KeyPath Errors Display.
Open Scope list_scope.

(** Fills the holes "{}" of a format string, from left to right. *)
Fixpoint fill (format : string) (args : list str) : str :=
  match format with
  | String "{" (String "}" rest) => match args with a :: args => a ++ fill rest args | [] => [] end
  | String c rest => N_of_ascii c :: fill rest args
  | EmptyString => []
  end.

(** [{:08b}] of a byte: eight binary digits, the highest first *)
Definition binary_text (n : N) (s : str) : Prop :=
  List.length s = 8%nat /\ Forall (fun c => c = 48 \/ c = 49) s /\ fold_left (fun a c => 2 * a + (c - 48)) s 0 = n.

Section T.
Variable T : texts.

(** The text of each error; numbers in decimal (C61). *)
Definition secp_text (e : secp_error) : str :=
  match e with
  | SInvalidSignature bad good => fill "Invalid signature {}, expected {}" [dec bad; dec good]
  | SInvalidPublicKey => fill "Invalid public key" []
  | SInvalidSecretKey => fill "Invalid secret key" []
  | SInvalidRecoveryId => fill "Invalid recovery id" []
  | SInvalidMessage => fill "Invalid message" []
  | SInvalidInputLength => fill "Invalid input length" []
  | STweakOutOfRange => fill "Tweak out of range" []
  | SInvalidDataSize bad good => fill "Invalid key data size {}, expected {}" [dec bad; dec good]
  | SInvalidEntropySize size => fill "Invalid entropy size {}" [dec size]
  | SInternalError => fill "Unknown internal error" []
  | SDeriveDepthTooBig => fill "Derive depth is too big" []
  end.

Definition ada_text (e : ada_error) : str :=
  match e with
  | ALengthInvalid len => fill "Invalid data length {}" [dec len]
  | AHighestBitsInvalid => fill "Highest bits is invalid" []
  | ALowestBitsInvalid => fill "Lowest bits is invalid" []
  end.

Definition bip39_text (e : bip39_error) (t : str) : Prop :=
  match e with
  | InvalidSeedSize sz => t = fill "Invalid Seed Size, expected {} bytes, but received {} bytes." [dec 64; dec sz]
  | WrongNumberOfWords sz => t = fill "Unsupported number of mnemonic words: {}" [dec sz]
  | WrongKeySize sz => t = fill "Unsupported mnemonic entropy size: {}" [dec sz]
  | MnemonicOutOfBound v => t = fill "The given mnemonic is out of bound, {}" [dec v]
  | LanguageError _ => t = fill "Unknown mnemonic word" []
  | InvalidChecksum a b => a < 256 -> b < 256 -> exists s s', binary_text a s /\ binary_text b s' /\
      t = fill "Invalid Entropy's Checksum, expected {} but found {}" [s; s']
  end.

Definition mnemonic_text (e : mnemonic_error) (t : str) : Prop :=
  match e with
  | MnemonicToShort size min => t = fill "Mnemonic {} too short. Min: {}" [dec size; dec min]
  | MnemonicToLong size max => t = fill "Mnemonic {} too short. Max: {}" [dec size; dec max]
  | MWrongNumberOfWords n => t = fill "Wrong number of words {}" [dec n]
  | UnsupportedWordFound w => t = fill "Unsupported word found '{}'. Maybe wrong dictionary?" [w]
  | MInvalidEntropySize n => t = fill "Invalid entropy size {}" [dec n]
  | UnknownError e => exists s, bip39_text e s /\ t = fill "Unknown mnemonic error: {}" [s]
  end.

(** The standard library's texts *)
Definition int_text (e : int_error) : str :=
  match e with
  | IntEmpty => fill "cannot parse integer from empty string" []
  | IntInvalidDigit => fill "invalid digit found in string" []
  | IntPosOverflow => fill "number too large to fit in target type" []
  end.

Definition kp_text (e : kp_error) : str :=
  match e with
  | InvalidPartsCount n => fill "Invalid parts count {}, expected: {}" [dec n; dec 6]
  | InvalidPurpose p x => fill "Invalid purpose {}, expected: {}" [dec p; dec x]
  | InvalidPathMarker m => fill "Invalid path marker '{}', expected: 'm'" [m]
  | InvalidCoin c x => fill "Invalid coin {}, expected: {}" [dec c; dec x]
  | InvalidAccount a => fill "Invalid account {}" [dec a]
  | InvalidChange c => fill "Invalid change {}" [dec c]
  | InvalidAddress a => fill "Invalid address {}" [dec a]
  | EmptyValueAtIndex i => fill "Found empty value at index: {}" [dec i]
  | ParseErrorAtIndex i e => fill "Can't parse number at index {}, error: {}" [dec i; int_text e]
  end.

Definition boxed_text (e : boxed_error) : str :=
  match e with BoxSecp e => secp_text e | BoxAda e => ada_text e | BoxOther t => t end.

Definition key_text (e : key_error) (t : str) : Prop :=
  match e with
  | InvalidKeyPath e => t = fill "Key Path error: {}" [kp_text e]
  | InvalidMnemonic e => exists s, mnemonic_text e s /\ t = fill "Mnemonic error: {}" [s]
  | InvalidKeySize size good => t = fill "Invalid key size {}, accepts {}" [dec size; dec good]
  | InvalidKeyData e => t = fill "Invalid key data: {}" [boxed_text e]
  | InvalidSignatureSize size good => t = fill "Invalid signature size {}, accepts {}" [dec size; dec good]
  | SignError e => t = fill "Sign error: {}" [boxed_text e]
  end.

Definition network_text (n : N) : str := fill "Network({})" [dec n].

Definition error_text (e : kc_error) (t : str) : Prop :=
  match e with
  | WrongPassword => t = fill "Wrong password" []
  | NotEnoughData => t = fill "Not enough data to load keychain" []
  | SeedIsNotSaved => t = fill "Seed is not saved" []
  | CantCalculateSeedSize min max =>
    t = fill "Can't calculate seed size for networks: min({}), max({})" [dec min; dec max]
  | KInvalidSeedSize size => t = fill "Invalid seed size {}" [dec size]
  | KeyDoesNotExist n => t = fill "Key for {} doesn't exist" [network_text n]
  | KeyAlreadyExist n => t = fill "Key for {} already exist in keychain" [network_text n]
  | NetworkIsNotSupported n => t = fill "Network {} is not supported" [network_text n]
  | DataError DMalformed => t = fill "Data parsing error {}" [malformed_text T]
  | DataError (DUnknownVariant v) =>
    t = fill "Data parsing error {}" [fill "unknown variant `{}`, expected {}" [v; variant_rest T]]
  | KeyError n e => exists s, key_text e s /\ t = fill "Key error {} for network {}" [s; network_text n]
  | MnemonicError e => exists s, mnemonic_text e s /\ t = fill "Mnemonic error {}" [s]
  | KeyPathError e => t = fill "Key path error {}" [kp_text e]
  end.

(** Errors whose text names them: not the errors of custom networks, which
    may say anything, not the one text of bip39 that drops the word; numbers
    are in the range of their types. *)
Definition word (n : N) : Prop := n <= usize_max.
Definition named_secp (e : secp_error) : Prop :=
  match e with
  | SInvalidSignature a b | SInvalidDataSize a b => word a /\ word b
  | SInvalidEntropySize a => word a
  | _ => True
  end.
Definition named_ada (e : ada_error) : Prop := match e with ALengthInvalid n => word n | _ => True end.
Definition named_bip39 (e : bip39_error) : Prop :=
  match e with
  | LanguageError _ => False
  | InvalidChecksum a b => a < 256 /\ b < 256
  | InvalidSeedSize n | WrongNumberOfWords n | WrongKeySize n | MnemonicOutOfBound n => word n
  end.
Definition named_mnemonic (e : mnemonic_error) : Prop :=
  match e with
  | MnemonicToShort a b | MnemonicToLong a b => word a /\ word b
  | MWrongNumberOfWords n | MInvalidEntropySize n => word n
  | UnsupportedWordFound _ => True
  | UnknownError e => named_bip39 e
  end.
Definition named_kp (e : kp_error) : Prop :=
  match e with
  | InvalidPurpose a b | InvalidCoin a b => word a /\ word b
  | InvalidPartsCount n | InvalidAccount n | InvalidChange n | InvalidAddress n | EmptyValueAtIndex n
  | ParseErrorAtIndex n _ => word n
  | InvalidPathMarker _ => True
  end.
Definition named_boxed (e : boxed_error) : Prop :=
  match e with BoxSecp e => named_secp e | BoxAda e => named_ada e | BoxOther _ => False end.
Definition named_key (e : key_error) : Prop :=
  match e with
  | InvalidKeyPath e => named_kp e
  | InvalidMnemonic e => named_mnemonic e
  | InvalidKeySize a b | InvalidSignatureSize a b => word a /\ word b
  | InvalidKeyData e | SignError e => named_boxed e
  end.
Definition named (e : kc_error) : Prop :=
  match e with
  | CantCalculateSeedSize a b => word a /\ word b
  | KInvalidSeedSize n | KeyDoesNotExist n | KeyAlreadyExist n | NetworkIsNotSupported n => word n
  | KeyError n e => word n /\ named_key e
  | MnemonicError e => named_mnemonic e
  | KeyPathError e => named_kp e
  | WrongPassword | NotEnoughData | SeedIsNotSaved | DataError _ => True
  end.
(** serde_json's other texts do not look like that for an unknown variant. *)
Definition texts_differ : Prop :=
  forall v, malformed_text T <> fill "unknown variant `{}`, expected {}" [v; variant_rest T].
End T.

(** The variant of [Error], keychain/src/error.rs:10-24 *)
Definition kind (e : kc_error) : nat :=
  match e with
  | WrongPassword => 0 | NotEnoughData => 1 | SeedIsNotSaved => 2 | CantCalculateSeedSize _ _ => 3
  | KInvalidSeedSize _ => 4 | KeyDoesNotExist _ => 5 | KeyAlreadyExist _ => 6 | NetworkIsNotSupported _ => 7
  | DataError _ => 8 | KeyError _ _ => 9 | MnemonicError _ => 10 | KeyPathError _ => 11
  end.
