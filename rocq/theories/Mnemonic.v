(** Model of keychain/src/mnemonic.rs ([Language] is in Dict.v, [Error] in
    Errors.v). *)
From Verif Require Import Base Prims Bip39 Dict KeyPath Errors.

(** [generate_entropy], mnemonic.rs:82-86.  Returns the bytes and the rest of
    the random stream. *)
Definition generate_entropy (size : N) (r : rng) : res mnemonic_error (bytes * rng) :=
  let* t := map_err mnemonic_of_bip39 (from_entropy_size size) in
  let '(e, r) := entropy_generate t r in
  Ok (e_bytes e, r).

Section WithPrims.
Variable P : prims.

(** [mnemonic_from_entropy], mnemonic.rs:88-92.  Inside [map] there is no
    error to return: [to_mnemonics] and [to_string] only panic. *)
Definition mnemonic_from_entropy (bs : bytes) (language : Language) : res mnemonic_error str :=
  map_err mnemonic_of_bip39
    (let* ent := entropy_from_slice bs in
     let* ms := to_mnemonics P ent in
     mnemonics_to_string (to_dict language) ms).

(** [seed_from_mnemonic], mnemonic.rs:94-109 *)
Definition seed_from_mnemonic (mnemonic unique : str) (size : N) (language : Language)
  : res mnemonic_error bytes :=
  let* ms := map_err mnemonic_of_bip39 (mnemonics_from_string (to_dict language) mnemonic) in
  let size_words := size / 32 * 3 in
  let* t := map_err mnemonic_of_bip39 (get_type ms) in
  let words_count := N.of_nat (mnemonic_count t) in
  if words_count <? size_words then Err (MnemonicToShort words_count size_words)
  else if size_words <? words_count then Err (MnemonicToLong words_count size_words)
  else
    let* s := map_err mnemonic_of_bip39 (mnemonics_to_string (to_dict language) ms) in
    Ok (seed_from_mnemonic_string P s (utf8 unique)).

End WithPrims.
