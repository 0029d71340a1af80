(** Error types of the keychain crates. *)
From Verif Require Import Base Bip39 KeyPath.

(** [KeyError], secp256k1_bip32/src/error.rs:5-18 *)
Inductive secp_error :=
| SInvalidSignature (bad good : N)
| SInvalidPublicKey
| SInvalidSecretKey
| SInvalidRecoveryId
| SInvalidMessage
| SInvalidInputLength
| STweakOutOfRange
| SInvalidDataSize (bad good : N)
| SInvalidEntropySize (size : N)
| SDeriveDepthTooBig
| SInternalError.

(** [KeyError], keychain/src/networks/cardano/key.rs:15-20 *)
Inductive ada_error :=
| ALengthInvalid (len : N)
| AHighestBitsInvalid
| ALowestBitsInvalid.

(** [Error], keychain/src/mnemonic.rs:41-49.  [UnknownError] boxes a
    [bip39::Error]. *)
Inductive mnemonic_error :=
| MnemonicToShort (size min : N)
| MnemonicToLong (size max : N)
| MWrongNumberOfWords (n : N)
| UnsupportedWordFound (w : str)
| MInvalidEntropySize (n : N)
| UnknownError (e : bip39_error).

(** [From<bip39::Error>], keychain/src/mnemonic.rs:68-80 *)
Definition mnemonic_of_bip39 (e : bip39_error) : mnemonic_error :=
  match e with
  | WrongNumberOfWords n => MWrongNumberOfWords n
  | WrongKeySize n => MInvalidEntropySize n
  | LanguageError w => UnsupportedWordFound w
  | _ => UnknownError e
  end.

(** [Box<dyn std::error::Error>]: the errors boxed by this code base, or an
    error of a custom network, represented by its text. *)
Inductive boxed_error :=
| BoxSecp (e : secp_error)
| BoxAda (e : ada_error)
| BoxOther (text : str).

(** [Error], keychain/src/key.rs:9-17 *)
Inductive key_error :=
| InvalidKeyPath (e : kp_error)
| InvalidMnemonic (e : mnemonic_error)
| InvalidKeySize (size good : N)
| InvalidKeyData (e : boxed_error)
| InvalidSignatureSize (size good : N)
| SignError (e : boxed_error).

(** [Error::from_secp_sign_error], keychain/src/key.rs:36-41 *)
Definition secp_sign_error (e : secp_error) : key_error := SignError (BoxSecp e).

(** [From<SecpKeyError>], keychain/src/key.rs:55-63 *)
Definition key_of_secp (e : secp_error) : key_error :=
  match e with
  | SInvalidSignature bad good => InvalidSignatureSize bad good
  | _ => InvalidKeyData (BoxSecp e)
  end.

(** [serde_json::Error] as used by keychain/src/data.rs.  Only two classes are
    kept apart: serde's "unknown variant" error, whose text repeats the string
    found in the input, and all others (malformed JSON or base64, a value of
    another type or out of range, missing or repeated field), whose texts
    quote input only in escaped form.  Line and column are not modelled. *)
Inductive data_error :=
| DMalformed
| DUnknownVariant (v : str).

(** [Error], keychain/src/error.rs:10-24 *)
Inductive kc_error :=
| WrongPassword
| NotEnoughData
| SeedIsNotSaved
| CantCalculateSeedSize (min max : N)
| KInvalidSeedSize (n : N)
| KeyDoesNotExist (n : N)
| KeyAlreadyExist (n : N)
| NetworkIsNotSupported (n : N)
| DataError (e : data_error)
| KeyError (n : N) (e : key_error)
| MnemonicError (e : mnemonic_error)
| KeyPathError (e : kp_error).
