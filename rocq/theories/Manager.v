(** Model of keychain/src/manager.rs.

    Every operation that draws random bytes takes the manager's random source
    as its last argument and returns what is left of it.  An operation that
    iterates over hash maps takes one [order] per iteration. *)
From Verif Require Import Base Str Prims Bip39 Dict KeyPath Errors FMap Crypt Data Keys
  Mnemonic Keychain.

(** [struct KeychainManager], manager.rs:14-18, without the random source *)
Record manager := {
  m_factories : fmap KeyFactory;
  m_seed_size : N
}.

(** [From<DecryptError> for Error], keychain/src/error.rs:61-68 *)
Definition kc_of_decrypt (e : decrypt_error) : kc_error :=
  match e with
  | DNotEnoughData => NotEnoughData
  | DDecryptionFailed => WrongPassword
  end.

(** [Iterator::filter_map] *)
Fixpoint filter_map {A B} (f : A -> option B) (l : list A) : list B :=
  match l with
  | [] => []
  | a :: l' => match f a with Some b => b :: filter_map f l' | None => filter_map f l' end
  end.

(** [calculate_seed_size], manager.rs:142-153 *)
Definition calculate_seed_size (fs : list KeyFactory) : res kc_error N :=
  let '(min, max) :=
    fold_left
      (fun '(min, max) f =>
         (N.max min (ss_min (f_seed_size f)), N.min max (ss_max (f_seed_size f))))
      fs (0, usize_max) in
  if min =? 0 then Err (CantCalculateSeedSize min max)
  else if max <=? min then Err (CantCalculateSeedSize min max)
  else Ok min.

(** [with_factory_objs], manager.rs:134-140, and [with_factories],
    manager.rs:36-39 (feature "custom-networks") *)
Definition with_factories (fs : list KeyFactory) : res kc_error manager :=
  let* size := calculate_seed_size fs in
  Ok {| m_factories := of_list (List.map (fun f => (f_network f, f)) fs);
        m_seed_size := size |}.

(** [has_network], manager.rs:41-43 *)
Definition m_has_network (m : manager) (n : N) : bool := mem n (m_factories m).

(** [get_key_factory], manager.rs:45-47 *)
Definition get_key_factory (m : manager) (n : N) : option KeyFactory := get n (m_factories m).

Section WithPrims.
Variable P : prims.

(** [new], manager.rs:21-23 *)
Definition manager_new : res kc_error manager := with_factories (all_networks P).

(** [with_networks], manager.rs:25-34 *)
Definition with_networks (ns : list N) : res kc_error manager :=
  with_factories
    (filter (fun f => existsb (fun n => n =? f_network f) ns) (all_networks P)).

(** [generate_mnemonic], manager.rs:49-53; [unwrap_or_default] is [Language::default]. *)
Definition generate_mnemonic (m : manager) (language : option Language) (r : rng)
  : res kc_error (str * rng) :=
  map_err MnemonicError
    (let* '(ent, r) := generate_entropy (m_seed_size m) r in
     let lang := match language with Some l => l | None => language_default end in
     let* s := mnemonic_from_entropy P ent lang in
     Ok (s, r)).

(** [seed_from_data], manager.rs:155-172 *)
Definition seed_from_data (m : manager) (seed : option bytes) (mnemonic : option str)
  (lang : option Language) : res kc_error bytes :=
  match seed with
  | None =>
    let* mnem := ok_or mnemonic SeedIsNotSaved in
    let* lang := ok_or lang SeedIsNotSaved in
    map_err MnemonicError (seed_from_mnemonic P mnem [] (m_seed_size m) lang)
  | Some seed =>
    if Nat.eqb (length seed) SEED_SIZE then Ok seed
    else Err (KInvalidSeedSize (N.of_nat (length seed)))
  end.

(** One network's key data with its errors named, manager.rs:183-186 *)
Definition data_of (seed : bytes) (f : KeyFactory) : res kc_error (N * bytes) :=
  map_err (KeyError (f_network f))
    (rmap (fun d => (f_network f, d)) (key_data_from_seed f seed)).

(** Serialising and encrypting a wallet, manager.rs:108-111 and 198-201 *)
Definition seal (o : order) (w : wallet) (password : str) (r : rng) : bytes * rng :=
  encrypt P (versioned_to_bytes (versioned_new o w)) password r.

(** [new_keychain_data], manager.rs:174-202; [o1] orders the factories, [o2]
    the keys being serialised. *)
Definition new_keychain_data (o1 o2 : order) (m : manager) (seed : option bytes)
  (password : str) (mnemonic : option str) (lang : option Language) (r : rng)
  : res kc_error (bytes * rng) :=
  let* calculated := seed_from_data m seed mnemonic lang in
  let* keys := mapM (data_of calculated) (List.map snd (o1 _ (m_factories m))) in
  let w := {| w_seed := seed; w_mnemonic := mnemonic; w_dictionary := lang;
              w_keys := of_list keys |} in
  Ok (seal o2 w password r).

(** [keychain_data_from_seed], manager.rs:55-57 *)
Definition keychain_data_from_seed (o1 o2 : order) (m : manager) (seed : bytes)
  (password : str) (r : rng) : res kc_error (bytes * rng) :=
  new_keychain_data o1 o2 m (Some seed) password None None r.

(** [keychain_data_from_mnemonic], manager.rs:59-64 *)
Definition keychain_data_from_mnemonic (o1 o2 : order) (m : manager) (mnemonic password : str)
  (language : option Language) (r : rng) : res kc_error (bytes * rng) :=
  let lang := match language with Some l => l | None => language_default end in
  new_keychain_data o1 o2 m None password (Some mnemonic) (Some lang) r.

(** [change_password], manager.rs:80-86 *)
Definition change_password (encrypted : bytes) (old_password new_password : str) (r : rng)
  : res kc_error (bytes * rng) :=
  let* decrypted := map_err kc_of_decrypt (decrypt P encrypted old_password) in
  Ok (encrypt P decrypted new_password r).

Section WithConfig.
Variable C : data_config.

(** [keychain_data_from_bytes], manager.rs:204-209 *)
Definition keychain_data_from_bytes (data : bytes) (password : str) : res kc_error wallet :=
  let* decrypted := map_err kc_of_decrypt (decrypt P data password) in
  map_err DataError
    (let* v := versioned_from_bytes C decrypted in get_data C v).

(** [keychain_from_data], manager.rs:66-78; [o] orders the stored keys. *)
Definition keychain_from_data (o : order) (m : manager) (data : bytes) (password : str)
  : res kc_error Keychain :=
  let* v2 := keychain_data_from_bytes data password in
  let known :=
    filter_map (fun '(network, key) =>
      option_map (fun factory => (network, factory, key)) (get network (m_factories m)))
      (o _ (w_keys v2)) in
  let* keys :=
    mapM (fun '(network, factory, key) => map_err (KeyError network) (key_from_data factory key))
      known in
  Ok (keychain_new keys).

(** [add_network], manager.rs:88-112; [o] orders the keys being serialised. *)
Definition add_network (o : order) (m : manager) (encrypted : bytes) (password : str)
  (network : N) (r : rng) : res kc_error (bytes * rng) :=
  let* factory := ok_or (get network (m_factories m)) (NetworkIsNotSupported network) in
  let* data := keychain_data_from_bytes encrypted password in
  match get network (w_keys data) with
  | Some _ => Err (KeyAlreadyExist network)
  | None =>
    let* seed := seed_from_data m (w_seed data) (w_mnemonic data) (w_dictionary data) in
    let* key_data := map_err (KeyError network) (key_data_from_seed factory seed) in
    let w := {| w_seed := w_seed data; w_mnemonic := w_mnemonic data;
                w_dictionary := w_dictionary data;
                w_keys := ins network key_data (w_keys data) |} in
    Ok (seal o w password r)
  end.

(** [retrieve_mnemonic], manager.rs:114-122 (feature "backup") *)
Definition retrieve_mnemonic (encrypted : bytes) (password : str)
  : res kc_error (str * Language) :=
  let* data := keychain_data_from_bytes encrypted password in
  let* mnemonic := ok_or (w_mnemonic data) SeedIsNotSaved in
  let* lang := ok_or (w_dictionary data) SeedIsNotSaved in
  Ok (mnemonic, lang).

(** [get_keys_data], manager.rs:124-129 (feature "backup"); [o] is the order
    of the returned list. *)
Definition get_keys_data (o : order) (encrypted : bytes) (password : str)
  : res kc_error (list (N * bytes)) :=
  rmap (fun data => o _ (w_keys data)) (keychain_data_from_bytes encrypted password).

End WithConfig.
End WithPrims.
