(** What [{:?}] prints for the public types: the syntax of Rust values, written
    out.  Independent of Debug.v but for what comes from other libraries. *)
From Coq Require Import Strings.String.
From Verif Require Import Base Str Hex Bip39 Dict KeyPath Errors Crypt FMap Data Keys TextSpec DataSpec Debug.
Open Scope list_scope.

(** Hexadecimal digits in lower case, without leading zeros, and their value *)
Definition hex_value (c v : N) : Prop := (48 <= c <= 57 /\ v = c - 48) \/ (97 <= c <= 102 /\ v = c - 87).
Definition hex_text (n : N) (t : str) : Prop :=
  exists vs, Forall2 hex_value t vs /\ fold_left (fun a v => 16 * a + v) vs 0 = n /\
  (t = [48] \/ exists c r, t = c :: r /\ c <> 48).

(** Several texts with commas between them *)
Definition listed (l : list str) : str :=
  match l with
  | [] => []
  | x :: l' => x ++ flat_map (fun y => lit ", " ++ y) l'
  end.

Section T.
Variable T : debug_config.

(** A character of a quoted string *)
Definition special (c : N) : Prop := In c [9; 10; 13; 34; 92] \/ (c = 0 /\ short_nul T = true).
Inductive shown : N -> str -> Prop :=
| shown_nul : short_nul T = true -> shown 0 (lit "\0")
| shown_tab : shown 9 (lit "\t")
| shown_newline : shown 10 (lit "\n")
| shown_return : shown 13 (lit "\r")
| shown_quote : shown 34 (lit "\""")
| shown_backslash : shown 92 (lit "\\")
| shown_plain c : ~ special c -> plain T c = true -> shown c [c]
| shown_hex c t : ~ special c -> plain T c = false -> hex_text c t -> shown c (lit "\u{" ++ t ++ lit "}").

Definition string_debug (s t : str) : Prop :=
  exists parts, Forall2 shown s parts /\ t = lit """" ++ List.concat parts ++ lit """".

(** Values *)
Definition network_debug (n : N) : str := fill "Network({})" [dec n].
Definition btc_path_debug (p : KeyPath) : str :=
  fill "KeyPath { purpose: {}, coin: {}, account: {}, change: {}, address: {} }"
    [dec (purpose p); dec (coin p); dec (account p); dec (change p); dec (address p)].
Definition ada_path_debug (p : KeyPath) : str :=
  fill "KeyPath { account: {}, change: {}, address: {} }" [dec (account p); dec (change p); dec (address p)].
Definition eth_path_debug (p : KeyPath) : str :=
  fill "KeyPath { account: {}, address: {} }" [dec (account p); dec (address p)].
Definition seed_size_debug (s : SeedSize) : str :=
  fill "SeedSize { min: {}, max: {} }" [dec (ss_min s); dec (ss_max s)].
Definition language_debug (l : Language) : str :=
  match l with
  | English => fill "English" [] | French => fill "French" [] | Japanese => fill "Japanese" []
  | Korean => fill "Korean" [] | ChineseSimplified => fill "ChineseSimplified" []
  | ChineseTraditional => fill "ChineseTraditional" [] | Italian => fill "Italian" []
  | Spanish => fill "Spanish" []
  end.
Definition type_debug (t : Type_) : str :=
  match t with
  | Type9Words => fill "Type9Words" [] | Type12Words => fill "Type12Words" []
  | Type15Words => fill "Type15Words" [] | Type18Words => fill "Type18Words" []
  | Type21Words => fill "Type21Words" [] | Type24Words => fill "Type24Words" []
  end.
Definition versioned_debug (v : versioned) : str :=
  fill "VersionedData { version: {}, data: [{}] }"
    [match v_version v with V1 => lit "V1" | V2 => lit "V2" end;
     listed (List.map (fun x => dec (b2n x)) (v_data v))].
Definition mnemonics_debug (ms : list N) : str :=
  fill "Mnemonics([{}])" [listed (List.map (fun m => fill "MnemonicIndex({})" [dec m]) ms)].
Definition phrase_debug (s t : str) : Prop :=
  exists q, string_debug s q /\ t = fill "MnemonicString({})" [q].

(** Errors *)
Definition secp_debug (e : secp_error) : str :=
  match e with
  | SInvalidSignature bad good => fill "InvalidSignature({}, {})" [dec bad; dec good]
  | SInvalidPublicKey => fill "InvalidPublicKey" []
  | SInvalidSecretKey => fill "InvalidSecretKey" []
  | SInvalidRecoveryId => fill "InvalidRecoveryId" []
  | SInvalidMessage => fill "InvalidMessage" []
  | SInvalidInputLength => fill "InvalidInputLength" []
  | STweakOutOfRange => fill "TweakOutOfRange" []
  | SInvalidDataSize bad good => fill "InvalidDataSize({}, {})" [dec bad; dec good]
  | SInvalidEntropySize size => fill "InvalidEntropySize({})" [dec size]
  | SDeriveDepthTooBig => fill "DeriveDepthTooBig" []
  | SInternalError => fill "InternalError" []
  end.
Definition ada_debug (e : ada_error) : str :=
  match e with
  | ALengthInvalid len => fill "LengthInvalid({})" [dec len]
  | AHighestBitsInvalid => fill "HighestBitsInvalid" []
  | ALowestBitsInvalid => fill "LowestBitsInvalid" []
  end.
Definition bip39_debug (e : bip39_error) (t : str) : Prop :=
  match e with
  | WrongNumberOfWords n => t = fill "WrongNumberOfWords({})" [dec n]
  | WrongKeySize n => t = fill "WrongKeySize({})" [dec n]
  | MnemonicOutOfBound n => t = fill "MnemonicOutOfBound({})" [dec n]
  | LanguageError w => exists q, string_debug w q /\
      t = fill "LanguageError(MnemonicWordNotFoundInDictionary({}))" [q]
  | InvalidSeedSize n => t = fill "InvalidSeedSize({})" [dec n]
  | InvalidChecksum a b => t = fill "InvalidChecksum({}, {})" [dec a; dec b]
  end.
Definition hex_debug (e : hex_error) : str :=
  match e with UnknownSymbol i => fill "UnknownSymbol({})" [dec i] end.
Definition decrypt_debug (e : decrypt_error) : str :=
  match e with
  | DNotEnoughData => fill "NotEnoughData" []
  | DDecryptionFailed => fill "DecryptionFailed" []
  end.
Definition mnemonic_debug (e : mnemonic_error) (t : str) : Prop :=
  match e with
  | MnemonicToShort size min => t = fill "MnemonicToShort({}, {})" [dec size; dec min]
  | MnemonicToLong size max => t = fill "MnemonicToLong({}, {})" [dec size; dec max]
  | MWrongNumberOfWords n => t = fill "WrongNumberOfWords({})" [dec n]
  | UnsupportedWordFound w => exists q, string_debug w q /\ t = fill "UnsupportedWordFound({})" [q]
  | MInvalidEntropySize n => t = fill "InvalidEntropySize({})" [dec n]
  | UnknownError e => exists s, bip39_debug e s /\ t = fill "UnknownError({})" [s]
  end.
Definition int_debug (e : int_error) : str :=
  match e with
  | IntEmpty => fill "ParseIntError { kind: Empty }" []
  | IntInvalidDigit => fill "ParseIntError { kind: InvalidDigit }" []
  | IntPosOverflow =>
    if old_overflow T then fill "ParseIntError { kind: Overflow }" []
    else fill "ParseIntError { kind: PosOverflow }" []
  end.
Definition kp_debug (e : kp_error) (t : str) : Prop :=
  match e with
  | InvalidPartsCount n => t = fill "InvalidPartsCount({})" [dec n]
  | InvalidPurpose p x => t = fill "InvalidPurpose({}, {})" [dec p; dec x]
  | InvalidPathMarker m => exists q, string_debug m q /\ t = fill "InvalidPathMarker({})" [q]
  | InvalidCoin c x => t = fill "InvalidCoin({}, {})" [dec c; dec x]
  | InvalidAccount a => t = fill "InvalidAccount({})" [dec a]
  | InvalidChange c => t = fill "InvalidChange({})" [dec c]
  | InvalidAddress a => t = fill "InvalidAddress({})" [dec a]
  | EmptyValueAtIndex i => t = fill "EmptyValueAtIndex({})" [dec i]
  | ParseErrorAtIndex i e => t = fill "ParseErrorAtIndex({}, {})" [dec i; int_debug e]
  end.
Definition box_debug (e : boxed_error) : str :=
  match e with BoxSecp e => secp_debug e | BoxAda e => ada_debug e | BoxOther t => boxed_debug T t end.
Definition key_debug (e : key_error) (t : str) : Prop :=
  match e with
  | InvalidKeyPath e => exists s, kp_debug e s /\ t = fill "InvalidKeyPath({})" [s]
  | InvalidMnemonic e => exists s, mnemonic_debug e s /\ t = fill "InvalidMnemonic({})" [s]
  | InvalidKeySize size good => t = fill "InvalidKeySize({}, {})" [dec size; dec good]
  | InvalidKeyData e => t = fill "InvalidKeyData({})" [box_debug e]
  | InvalidSignatureSize size good => t = fill "InvalidSignatureSize({}, {})" [dec size; dec good]
  | SignError e => t = fill "SignError({})" [box_debug e]
  end.
Definition error_debug (e : kc_error) (t : str) : Prop :=
  match e with
  | WrongPassword => t = fill "WrongPassword" []
  | NotEnoughData => t = fill "NotEnoughData" []
  | SeedIsNotSaved => t = fill "SeedIsNotSaved" []
  | CantCalculateSeedSize min max => t = fill "CantCalculateSeedSize({}, {})" [dec min; dec max]
  | KInvalidSeedSize n => t = fill "InvalidSeedSize({})" [dec n]
  | KeyDoesNotExist n => t = fill "KeyDoesNotExist(Network({}))" [dec n]
  | KeyAlreadyExist n => t = fill "KeyAlreadyExist(Network({}))" [dec n]
  | NetworkIsNotSupported n => t = fill "NetworkIsNotSupported(Network({}))" [dec n]
  | DataError e => t = fill "DataError({})" [json_debug T e]
  | KeyError n e => exists s, key_debug e s /\ t = fill "KeyError(Network({}), {})" [dec n; s]
  | MnemonicError e => exists s, mnemonic_debug e s /\ t = fill "MnemonicError({})" [s]
  | KeyPathError e => exists s, kp_debug e s /\ t = fill "KeyPathError({})" [s]
  end.
End T.

(** Errors whose strings are strings of Rust *)
Definition valid_bip39 (e : bip39_error) : Prop := match e with LanguageError w => valid_str w | _ => True end.
Definition valid_mnemonic (e : mnemonic_error) : Prop :=
  match e with UnsupportedWordFound w => valid_str w | UnknownError e => valid_bip39 e | _ => True end.
Definition valid_kp (e : kp_error) : Prop := match e with InvalidPathMarker m => valid_str m | _ => True end.
Definition valid_key (e : key_error) : Prop :=
  match e with InvalidKeyPath e => valid_kp e | InvalidMnemonic e => valid_mnemonic e | _ => True end.
Definition valid_error (e : kc_error) : Prop :=
  match e with
  | KeyError _ e => valid_key e
  | MnemonicError e => valid_mnemonic e
  | KeyPathError e => valid_kp e
  | _ => True
  end.

(** Strings and numbers that Rust's types allow *)
Definition typed_bip39 (e : bip39_error) : Prop :=
  match e with
  | LanguageError w => valid_str w
  | InvalidChecksum a b => word a /\ word b
  | InvalidSeedSize n | WrongNumberOfWords n | WrongKeySize n | MnemonicOutOfBound n => word n
  end.
Definition typed_mnemonic (e : mnemonic_error) : Prop :=
  match e with
  | MnemonicToShort a b | MnemonicToLong a b => word a /\ word b
  | MWrongNumberOfWords n | MInvalidEntropySize n => word n
  | UnsupportedWordFound w => valid_str w
  | UnknownError e => typed_bip39 e
  end.
Definition typed_kp (e : kp_error) : Prop :=
  match e with
  | InvalidPathMarker m => valid_str m
  | e => named_kp e
  end.
(** Errors of the crates of the repository: not those of custom networks and of
    serde_json, which may print anything *)
Definition typed_key (e : key_error) : Prop :=
  match e with
  | InvalidKeyPath e => typed_kp e
  | InvalidMnemonic e => typed_mnemonic e
  | InvalidKeySize a b | InvalidSignatureSize a b => word a /\ word b
  | InvalidKeyData e | SignError e => named_boxed e
  end.
Definition typed_error (e : kc_error) : Prop :=
  match e with
  | WrongPassword | NotEnoughData | SeedIsNotSaved => True
  | CantCalculateSeedSize a b => word a /\ word b
  | KInvalidSeedSize n | KeyDoesNotExist n | KeyAlreadyExist n | NetworkIsNotSupported n => word n
  | KeyError n e => word n /\ typed_key e
  | MnemonicError e => typed_mnemonic e
  | KeyPathError e => typed_kp e
  | DataError _ => False
  end.

(** Paths made by the constructors of the three networks *)
Definition made_btc (q : KeyPath) : Prop :=
  exists p testnet a c d, Forall is_u32 [a; c; d] /\
    (btc_bip44 p testnet a c d = Ok q \/ btc_bip49 p testnet a c d = Ok q \/ btc_bip84 p testnet a c d = Ok q).
Definition made_ada (q : KeyPath) : Prop :=
  exists p a c d, Forall is_u32 [a; c; d] /\ ada_new p a c d = Ok q.
Definition made_eth (q : KeyPath) : Prop :=
  exists p a, is_u32 a /\ (eth_new p a = Ok q \/ eth_new_metamask a = Ok q).
