(** Model of keychain/src/keychain.rs. *)
From Verif Require Import Base KeyPath Errors FMap Keys.

(** [struct Keychain], keychain.rs:7-9 *)
Definition Keychain := fmap Key.

(** [Keychain::new], keychain.rs:12-16 *)
Definition keychain_new (keys : list Key) : Keychain :=
  of_list (List.map (fun key => (key_network key, key)) keys).

(** [Keychain::has_network], keychain.rs:18-20 *)
Definition has_network (kc : Keychain) (n : N) : bool :=
  match get n kc with Some _ => true | None => false end.

(** [Keychain::networks], keychain.rs:22-24, for one iteration order *)
Definition networks (o : order) (kc : Keychain) : list N := List.map fst (o _ kc).

(** [Keychain::_pk], keychain.rs:45-51 *)
Definition pk (kc : Keychain) (n : N) : res kc_error Key :=
  ok_or (get n kc) (KeyDoesNotExist n).

(** [Keychain::pub_key], keychain.rs:26-28 *)
Definition kc_pub_key (kc : Keychain) (n : N) (path : KeyPath) : res kc_error bytes :=
  let* key := pk kc n in
  map_err (KeyError n) (pub_key key path).

(** [Keychain::sign], keychain.rs:30-32 *)
Definition kc_sign (kc : Keychain) (n : N) (data : bytes) (path : KeyPath)
  : res kc_error bytes :=
  let* key := pk kc n in
  map_err (KeyError n) (sign key data path).

(** [Keychain::verify], keychain.rs:34-41 *)
Definition kc_verify (kc : Keychain) (n : N) (data signature : bytes) (path : KeyPath)
  : res kc_error bool :=
  let* key := pk kc n in
  map_err (KeyError n) (verify key data signature path).
