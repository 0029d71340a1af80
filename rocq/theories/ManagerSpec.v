(** What managers and wallets are expected to do. *)
From Coq Require Import Strings.String.
From Verif Require Import Base Prims Bip39Spec Dict Errors FMap CryptSpec Data DataSpec
  KeyPath Keys Keychain Manager.
Open Scope list_scope.

(** A factory stays within its types: the network number is a [u32] and the
    keys it makes belong to its network. *)
Definition factory_ok (f : KeyFactory) : Prop :=
  is_u32 (f_network f) /\
  is_usize (ss_min (f_seed_size f)) /\ is_usize (ss_max (f_seed_size f)) /\
  forall data K, key_from_data f data = Ok K -> key_network K = f_network f.

(** A manager as its constructors build it: every factory is registered under
    its own network. *)
Definition manager_ok (m : manager) : Prop :=
  wf_map (m_factories m) /\
  forall n f, get n (m_factories m) = Some f -> f_network f = n /\ factory_ok f.

(** All factories can work with seeds of [s] bits and [s] is the largest
    minimum. *)
Definition common_size (fs : list KeyFactory) (s : N) : Prop :=
  0 < s /\ (exists f, In f fs /\ ss_min (f_seed_size f) = s) /\
  (forall f, In f fs -> ss_min (f_seed_size f) <= s < ss_max (f_seed_size f)).

(** [f] is the last factory for [n] in the list. *)
Definition last_for (n : N) (fs : list KeyFactory) (f : KeyFactory) : Prop :=
  exists pre post, fs = pre ++ f :: post /\ f_network f = n /\
    (forall g, In g post -> f_network g <> n).

(** [data] holds the wallet [w] encrypted under [pw]. *)
Definition stored (P : prims) (pw : str) (w : wallet) (data : bytes) : Prop :=
  exists entries salt nonce,
    Permutation entries (w_keys w) /\ List.length salt = 32%nat /\ List.length nonce = 12%nat /\
    is_sealed P pw salt nonce (envelope 2 (wallet_text w entries)) data.

(** [t] is a phrase of the right length in language [l] and [s] its seed. *)
Definition phrase_seed (P : prims) (l : Language) (size : N) (t : str) (s : bytes) : Prop :=
  exists ws, phrase_of ws t /\ Forall (fun w => In w (to_dict l)) ws /\
    word_count (List.length ws) /\ N.of_nat (List.length ws) = size / 32 * 3 /\
    s = pbkdf2 P (utf8 t) (blit "mnemonic") 2048 64.

(** [s] is the seed that manager [m] gets from the stored secret. *)
Definition secret (P : prims) (m : manager) (seed : option bytes) (mnemonic : option str)
  (lang : option Language) (s : bytes) : Prop :=
  match seed with
  | Some s' => s = s' /\ List.length s = 64%nat
  | None => exists t l, mnemonic = Some t /\ lang = Some l /\ phrase_seed P l (m_seed_size m) t s
  end.
Definition wallet_secret (P : prims) (m : manager) (w : wallet) (s : bytes) : Prop :=
  secret P m (w_seed w) (w_mnemonic w) (w_dictionary w) s.

(** [keys] are the keys of exactly the manager's networks, made from [s]. *)
Definition keys_from (m : manager) (s : bytes) (keys : fmap bytes) : Prop :=
  wf_map keys /\
  forall n, match get n (m_factories m) with
            | None => get n keys = None
            | Some f => exists d, key_data_from_seed f s = Ok d /\ get n keys = Some d
            end.

(** [kc] has exactly the networks that both the wallet and the manager have,
    each with the key its factory loads. *)
Definition opens_to (m : manager) (w : wallet) (kc : fmap Key) : Prop :=
  wf_map kc /\
  forall n, match get n (w_keys w), get n (m_factories m) with
            | Some d, Some f => exists K, key_from_data f d = Ok K /\ get n kc = Some K
            | _, _ => get n kc = None
            end.

(** The outcome of a failed factory call for network [n], as the manager
    reports it. *)
Definition fails_as {A B} (n : N) (r : res key_error A) (r' : res kc_error B) : Prop :=
  match r with
  | Ok _ => False
  | Err e => r' = Err (KeyError n e)
  | Panic => r' = Panic
  | Undef => r' = Undef
  end.

(** [w'] is [w] with the key [d] for network [n] added. *)
Definition extended (w : wallet) (n : N) (d : bytes) (w' : wallet) : Prop :=
  w_seed w' = w_seed w /\ w_mnemonic w' = w_mnemonic w /\ w_dictionary w' = w_dictionary w /\
  wf_map (w_keys w') /\
  forall k, get k (w_keys w') = if k =? n then Some d else get k (w_keys w).

(** The keychain answers for [n] exactly as the key [K], naming the network
    in its errors. *)
Definition answers_as (kc : Keychain) (n : N) (K : Key) : Prop :=
  has_network kc n = true /\
  forall path data signature,
    kc_pub_key kc n path = map_err (KeyError n) (pub_key K path) /\
    kc_sign kc n data path = map_err (KeyError n) (sign K data path) /\
    kc_verify kc n data signature path = map_err (KeyError n) (verify K data signature path).

(** The keychain has nothing for [n]. *)
Definition lacks (kc : Keychain) (n : N) : Prop :=
  has_network kc n = false /\
  forall path data signature,
    kc_pub_key kc n path = Err (KeyDoesNotExist n) /\
    kc_sign kc n data path = Err (KeyDoesNotExist n) /\
    kc_verify kc n data signature path = Err (KeyDoesNotExist n).

(** The three built-in networks. *)
Definition builtin_factory (P : prims) (n : N) (f : KeyFactory) : Prop :=
  (n = 2 ^ 31 + 1815 /\ f = ada_factory P) \/
  (n = 2 ^ 31 + 60 /\ f = eth_factory P) \/
  (n = 2 ^ 31 /\ f = btc_factory P).

(** BIP-32 has a master key for the seed. *)
Definition usable_seed (P : prims) (seed : bytes) : Prop :=
  0 < of_be (firstn 32 (hmac_sha512 P (blit "Bitcoin seed") seed)) < secp_n.

(** A wallet holding a seed, and a wallet holding a phrase. *)
Definition seed_wallet (s : bytes) (keys : fmap bytes) : wallet :=
  {| w_seed := Some s; w_mnemonic := None; w_dictionary := None; w_keys := keys |}.
Definition phrase_wallet (t : str) (l : Language) (keys : fmap bytes) : wallet :=
  {| w_seed := None; w_mnemonic := Some t; w_dictionary := Some l; w_keys := keys |}.

(** The language used when none is given. *)
Definition or_english (l : option Language) : Language :=
  match l with Some l => l | None => English end.

(** The seed has keys for all of the networks [ns]. *)
Definition usable_for (P : prims) (ns : list N) (s : bytes) : Prop :=
  In (2 ^ 31) ns \/ In (2 ^ 31 + 60) ns -> usable_seed P s.

(** [kc] has exactly the manager's networks and answers for each as the key
    its factory makes from the seed [s]. *)
Definition holds_keys_of (m : manager) (s : bytes) (kc : Keychain) : Prop :=
  wf_map kc /\
  forall n, match get_key_factory m n with
            | None => lacks kc n
            | Some f => exists d K, key_data_from_seed f s = Ok d /\ key_from_data f d = Ok K /\
                          get n kc = Some K /\ answers_as kc n K
            end.
