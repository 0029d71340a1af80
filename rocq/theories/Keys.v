(** Keys and key factories of the built-in networks:
    keychain/src/{key,key_factory,network}.rs,
    keychain/src/networks/{bitcoin,ethereum,cardano}/{key,factory}.rs,
    keychain/src/networks/mod.rs. *)
From Verif Require Import Base Prims Bip39 KeyPath Errors XPrv.

(** trait [Key], keychain/src/key.rs:67-82: a key object is the record of its
    methods. *)
Record Key := {
  key_network : N;
  pub_key : KeyPath -> res key_error bytes;
  sign : bytes -> KeyPath -> res key_error bytes;
  verify : bytes -> bytes -> KeyPath -> res key_error bool
}.

(** [SeedSize], keychain/src/key_factory.rs:4-18 (sizes in bits). *)
Record SeedSize := { ss_min : N; ss_max : N }.

(** trait [KeyFactory], keychain/src/key_factory.rs:20-28 *)
Record KeyFactory := {
  f_network : N;
  f_seed_size : SeedSize;
  key_from_data : bytes -> res key_error Key;
  key_data_from_seed : bytes -> res key_error bytes
}.

(** keychain/src/networks/{bitcoin,ethereum,cardano}/mod.rs *)
Definition BITCOIN : N := BTC_COIN_TYPE.
Definition ETHEREUM : N := ETH_COIN_TYPE.
Definition CARDANO : N := ADA_COIN_TYPE.

(** Raising a key path error in a key, keychain/src/key.rs:49-53 *)
Definition path_err {A} (e : kp_error) : res key_error A := Err (InvalidKeyPath e).

(** The last three checks shared by the three [derive_private] functions:
    bitcoin/key.rs:28-36, ethereum/key.rs:34-42, cardano/key.rs:92-100 *)
Definition check_rest {A} (path : KeyPath) (k : res key_error A) : res key_error A :=
  if account path <? BIP44_SOFT_UPPER_BOUND then path_err (InvalidAccount (account path))
  else if negb (change path =? 0) && negb (change path =? 1)
  then path_err (InvalidChange (change path))
  else if BIP44_SOFT_UPPER_BOUND <=? address path then path_err (InvalidAddress (address path))
  else k.

Section WithPrims.
Variable P : prims.

(** * Bitcoin *)

(** [Key::from_data], bitcoin/key.rs:14-17 *)
Definition btc_from_data (data : bytes) : res key_error XPrv :=
  map_err key_of_secp (xprv_from_data P data).

(** [Key::data_from_seed], bitcoin/key.rs:19-22 and ethereum/key.rs:22-25 *)
Definition secp_data_from_seed (seed : bytes) : res key_error bytes :=
  let* xprv := map_err key_of_secp (xprv_from_seed P seed) in
  Ok (xprv_serialize P xprv).

(** [Key::derive_private], bitcoin/key.rs:24-45 *)
Definition btc_derive_private (xprv : XPrv) (path : KeyPath) : res key_error XPrv :=
  if negb (coin path =? BTC_COIN_TYPE)
  then path_err (InvalidCoin (coin path) BTC_COIN_TYPE)
  else check_rest path
    (map_err key_of_secp
      (let* pk := derive P xprv (purpose path) in
       let* pk := derive P pk (coin path) in
       let* pk := derive P pk (account path) in
       let* pk := derive P pk (change path) in
       derive P pk (address path))).

(** The methods common to the Bitcoin and Ethereum keys,
    bitcoin/key.rs:48-64, ethereum/key.rs:52-68 *)
Definition secp_key (network : N) (derive_private : KeyPath -> res key_error XPrv) : Key := {|
  key_network := network;
  pub_key path := rmap (fun pk => pub_serialize (public P pk)) (derive_private path);
  sign data path :=
    let* pk := derive_private path in
    map_err secp_sign_error (xprv_sign P pk data);
  verify data signature path :=
    let* pk := derive_private path in
    map_err key_of_secp (xpub_verify P (public P pk) data signature)
|}.

Definition btc_key (xprv : XPrv) : Key := secp_key BITCOIN (btc_derive_private xprv).

(** * Ethereum *)

(** [Key::from_data], ethereum/key.rs:14-20 *)
Definition eth_from_data (data : bytes) : res key_error XPrv :=
  map_err key_of_secp
    (let* pk := xprv_from_data P data in
     let* pk := derive P pk BIP44_PURPOSE in
     derive P pk ETH_COIN_TYPE).

(** [Key::derive_private], ethereum/key.rs:27-50 *)
Definition eth_derive_private (xprv : XPrv) (path : KeyPath) : res key_error XPrv :=
  if negb (purpose path =? BIP44_PURPOSE)
  then path_err (InvalidPurpose (purpose path) BIP44_PURPOSE)
  else if negb (coin path =? ETH_COIN_TYPE)
  then path_err (InvalidCoin (coin path) ETH_COIN_TYPE)
  else check_rest path
    (map_err key_of_secp
      (let* pk := derive P xprv (account path) in
       let* pk := derive P pk (change path) in
       derive P pk (address path))).

Definition eth_key (xprv : XPrv) : Key := secp_key ETHEREUM (eth_derive_private xprv).

(** * Cardano *)

Definition XPRV_SIZE : nat := 96.
Definition ADA_SIGNATURE_SIZE : nat := 64.

(** ed25519-bip32 [XPrv::from_bytes_verified] and the mapping of its errors,
    cardano/key.rs:34-42,60-63.  An extended key is its 96 bytes. *)
Definition from_bytes_verified (bs : bytes) : res key_error bytes :=
  let b0 := b2n (nth 0 bs x00) in
  let b31 := b2n (nth 31 bs x00) in
  if negb (N.land b31 0xE0 =? 0x40) then Err (InvalidKeyData (BoxAda AHighestBitsInvalid))
  else if negb (N.land b0 7 =? 0) then Err (InvalidKeyData (BoxAda ALowestBitsInvalid))
  else Ok bs.

(** [Key::from_data], cardano/key.rs:49-63; [copy_from_slice] panics when the
    lengths differ. *)
Definition ada_from_data (data : bytes) : res key_error bytes :=
  if Nat.ltb (length data) XPRV_SIZE
  then Err (InvalidKeySize (N.of_nat (length data)) (N.of_nat XPRV_SIZE))
  else if negb (Nat.eqb (length data) XPRV_SIZE) then Panic
  else
    let* xprv := from_bytes_verified data in
    Ok (ed_derive P (ed_derive P xprv BIP44_PURPOSE) ADA_COIN_TYPE).

(** Replacing one byte of an array. *)
Definition set_byte (i : nat) (f : N -> N) (bs : bytes) : bytes :=
  firstn i bs ++ match skipn i bs with
                 | [] => []
                 | b :: r => n2b (f (b2n b)) :: r
                 end.

(** [Key::data_from_seed], cardano/key.rs:65-83 *)
Definition ada_data_from_seed (seed : bytes) : res key_error bytes :=
  let out := sha512 P (slice 0 32 seed) in
  let out := set_byte 0 (fun b => N.land b 248) out in
  let out := set_byte 31 (fun b => N.land b 63) out in
  let out := set_byte 31 (fun b => N.lor b 64) out in
  let out := set_byte 31 (fun b => N.land b 0xDF) out in
  let out := out ++ slice 32 64 seed in
  from_bytes_verified out.

(** [Key::derive_private], cardano/key.rs:85-108 *)
Definition ada_derive_private (xprv : bytes) (path : KeyPath) : res key_error bytes :=
  if negb (purpose path =? BIP44_PURPOSE)
  then path_err (InvalidPurpose (purpose path) BIP44_PURPOSE)
  else if negb (coin path =? ADA_COIN_TYPE)
  then path_err (InvalidCoin (coin path) ADA_COIN_TYPE)
  else check_rest path
    (Ok (ed_derive P (ed_derive P (ed_derive P xprv (account path)) (change path))
           (address path))).

(** [impl Key], cardano/key.rs:111-139 *)
Definition ada_key (xprv : bytes) : Key := {|
  key_network := CARDANO;
  pub_key path := rmap (fun pk => ed_public P pk) (ada_derive_private xprv path);
  sign data path := rmap (fun pk => ed_sign P pk data) (ada_derive_private xprv path);
  verify data signature path :=
    if Nat.ltb (length signature) ADA_SIGNATURE_SIZE
    then Err (InvalidSignatureSize (N.of_nat (length signature)) (N.of_nat ADA_SIGNATURE_SIZE))
    else if negb (Nat.eqb (length signature) ADA_SIGNATURE_SIZE) then Panic
    else rmap (fun pk => ed_verify P pk data signature) (ada_derive_private xprv path)
|}.

(** * Factories *)

(** [Seed::from_slice] followed by the network's [data_from_seed],
    {bitcoin,ethereum,cardano}/factory.rs:28-31 *)
Definition with_seed (k : bytes -> res key_error bytes) (seed : bytes)
  : res key_error bytes :=
  let* s := map_err (fun e => InvalidMnemonic (mnemonic_of_bip39 e)) (seed_from_slice seed) in
  k s.

(** bitcoin/factory.rs:15-32 *)
Definition btc_factory : KeyFactory := {|
  f_network := BITCOIN;
  f_seed_size := {| ss_min := 128; ss_max := 256 |};
  key_from_data data := rmap btc_key (btc_from_data data);
  key_data_from_seed := with_seed secp_data_from_seed
|}.

(** ethereum/factory.rs:15-32 *)
Definition eth_factory : KeyFactory := {|
  f_network := ETHEREUM;
  f_seed_size := {| ss_min := 128; ss_max := 256 |};
  key_from_data data := rmap eth_key (eth_from_data data);
  key_data_from_seed := with_seed secp_data_from_seed
|}.

(** cardano/factory.rs:15-32 *)
Definition ada_factory : KeyFactory := {|
  f_network := CARDANO;
  f_seed_size := {| ss_min := 96; ss_max := 256 |};
  key_from_data data := rmap ada_key (ada_from_data data);
  key_data_from_seed := with_seed ada_data_from_seed
|}.

(** [all_networks], keychain/src/networks/mod.rs:12-27, with all default
    features. *)
Definition all_networks : list KeyFactory := [ada_factory; eth_factory; btc_factory].

End WithPrims.

(** [Network::all], keychain/src/network.rs:7-22 *)
Definition network_all : list N := [CARDANO; ETHEREUM; BITCOIN].
