(** Model of the cargo features of keychain/Cargo.toml:35-53 that choose the
    networks of a build. *)
From Coq Require Import Strings.String.
From Verif Require Import Base Prims Errors Keys Manager.
Open Scope list_scope.

(** The features "cardano", "ethereum" and "bitcoin".  The features "backup"
    and "custom-networks" only decide whether functions are there. *)
Record features := { with_cardano : bool; with_ethereum : bool; with_bitcoin : bool }.

(** keychain/Cargo.toml:37, keychain-c/Cargo.toml:26 *)
Definition default_features : features :=
  {| with_cardano := true; with_ethereum := true; with_bitcoin := true |}.

(** [Network::all], keychain/src/network.rs:7-22 *)
Definition built_network_all (F : features) : list N :=
  (if with_cardano F then [CARDANO] else []) ++
  (if with_ethereum F then [ETHEREUM] else []) ++
  (if with_bitcoin F then [BITCOIN] else []).

Section WithPrims.
Variable P : prims.
Variable F : features.

(** [all_networks], keychain/src/networks/mod.rs:12-27 *)
Definition built_networks : list KeyFactory :=
  (if with_cardano F then [ada_factory P] else []) ++
  (if with_ethereum F then [eth_factory P] else []) ++
  (if with_bitcoin F then [btc_factory P] else []).

(** [KeychainManager::new], manager.rs:21-23 *)
Definition built_new : res kc_error manager := with_factories built_networks.

(** [KeychainManager::with_networks], manager.rs:25-34 *)
Definition built_with_networks (ns : list N) : res kc_error manager :=
  with_factories (filter (fun f => existsb (fun n => n =? f_network f) ns) built_networks).
End WithPrims.

(** A build of the C library: the profile and the features of
    keychain-c/Cargo.toml:25-37, which switch on those of keychain.  That cargo
    may switch on more features of keychain for another crate is not modelled. *)
Record build := { b_profile : profile; b_features : features }.
Definition release_build : build := {| b_profile := Release; b_features := default_features |}.

(** [main], keychain-c/build.rs:9-33: the text of
    include/keychain_build_config.h.  The other header is made by cbindgen and
    is not modelled. *)
Definition config_header (F : features) (backup : bool) : bytes :=
  blit "/* Library built with these features: */" ++ [x0a; x0a] ++
  (if with_cardano F then blit "#define WITH_FEATURE_CARDANO" ++ [x09] ++ blit "1" ++ [x0a] else []) ++
  (if with_ethereum F then blit "#define WITH_FEATURE_ETHEREUM" ++ [x09] ++ blit "1" ++ [x0a] else []) ++
  (if with_bitcoin F then blit "#define WITH_FEATURE_BITCOIN" ++ [x09] ++ blit "1" ++ [x0a] else []) ++
  (if backup then blit "#define WITH_FEATURE_BACKUP" ++ [x09; x09] ++ blit "1" ++ [x0a] else []).
