(** Managers and keychains of a caller's own networks (the feature
    "custom-networks"), and encryption with a caller's own random source:
    implementations of the traits [KeyFactory] (keychain/src/key_factory.rs:20-28),
    [Key] (keychain/src/key.rs:67-82) and [Entropy] (keychain/src/entropy.rs:5-7)
    may be any code, which answers differently from call to call, fails or
    panics.  Manager.v and Keychain.v have factories and keys that are
    functions.

    Simplification: dropping an object runs no code. *)
From Verif Require Import Base Str Prims Bip39 Dict KeyPath Errors FMap Crypt Data Keys
  Mnemonic Keychain Manager.

(** Names of key objects. *)
Definition key_name : Set := nat * bytes.

(** A call of a method of a factory [f], of a key [k], or of a source of
    random bytes, with its arguments.  Factories are named by numbers. *)
Inductive question :=
| AskSize (f : nat)
| AskNetwork (f : nat)
| AskKey (f : nat) (data : bytes)
| AskData (f : nat) (seed : bytes)
| AskKeyNetwork (k : key_name)
| AskPub (k : key_name) (path : KeyPath)
| AskSign (k : key_name) (data : bytes) (path : KeyPath)
| AskVerify (k : key_name) (data signature : bytes) (path : KeyPath)
| AskFill (len : nat).

(** What a method returns: its error type and its type.  [key_from_data]
    returns the name of the new key. *)
Definition fault (q : question) : Type :=
  match q with
  | AskSize _ | AskNetwork _ | AskKeyNetwork _ | AskFill _ => Empty_set
  | _ => key_error
  end.
Definition value (q : question) : Type :=
  match q with
  | AskSize _ => SeedSize
  | AskNetwork _ | AskKeyNetwork _ => N
  | AskKey _ _ => key_name
  | AskVerify _ _ _ _ => bool
  | AskData _ _ | AskPub _ _ | AskSign _ _ _ | AskFill _ => bytes
  end.

(** What happens: a method of the caller's code is called, or bytes are drawn
    from the manager's own source, whose mutex is held meanwhile. *)
Inductive event :=
| Asked (q : question)
| Drawn (len : nat).

(** The caller's code: its answer to the next question, given all that has
    happened, the oldest first. *)
Definition world := list event -> forall q : question, res (fault q) (value q).

(** A computation that calls the caller's code. *)
Definition calling (E A : Type) := list event -> res E A * list event.

Definition pure {E A} (r : res E A) : calling E A := fun h => (r, h).
Definition chain {E A B} (m : calling E A) (k : A -> calling E B) : calling E B := fun h =>
  match m h with
  | (Ok a, h') => k a h'
  | (Err e, h') => (Err e, h')
  | (Panic, h') => (Panic, h')
  | (Undef, h') => (Undef, h')
  end.
Notation "'do!' x := m 'in' k" := (chain m (fun x => k))
  (at level 200, x pattern, m at level 100, k at level 200, right associativity).

(** [Result::map_err] with calls in the closure. *)
Definition on_err {E F A} (m : calling E A) (k : E -> calling F A) : calling F A := fun h =>
  match m h with
  | (Ok a, h') => (Ok a, h')
  | (Err e, h') => k e h'
  | (Panic, h') => (Panic, h')
  | (Undef, h') => (Undef, h')
  end.

(** A lazy iterator collected into a [Result]: stops at the first error. *)
Fixpoint each {E A B} (f : A -> calling E B) (l : list A) : calling E (list B) :=
  match l with
  | [] => pure (Ok [])
  | a :: l' =>
    do! b := f a in
    do! bs := each f l' in
    pure (Ok (b :: bs))
  end.

(** Bytes drawn by [crypt::encrypt] from the manager's source, crypt.rs:49-50 *)
Definition drawing {E A} (r : res E A) : calling E A := fun h =>
  (r, h ++ [Drawn SALT_SIZE; Drawn NONCE_SIZE]).

Section WithWorld.
Variable W : world.

(** Calling a method, and one that has no error to return. *)
Definition call (q : question) : calling (fault q) (value q) := fun h =>
  (W h q, h ++ [Asked q]).
Definition no_fault {E} (x : Empty_set) : E := match x with end.
Definition call_size {E} (f : nat) : calling E SeedSize := fun h =>
  (map_err no_fault (W h (AskSize f)), h ++ [Asked (AskSize f)]).
Definition call_network {E} (f : nat) : calling E N := fun h =>
  (map_err no_fault (W h (AskNetwork f)), h ++ [Asked (AskNetwork f)]).
Definition call_key_network {E} (k : key_name) : calling E N := fun h =>
  (map_err no_fault (W h (AskKeyNetwork k)), h ++ [Asked (AskKeyNetwork k)]).
Definition call_fill {E} (len : nat) : calling E bytes := fun h =>
  (map_err no_fault (W h (AskFill len)), h ++ [Asked (AskFill len)]).

(** [struct KeychainManager], manager.rs:14-18, without the random source *)
Record cmanager := {
  cm_factories : fmap nat;
  cm_seed_size : N
}.

(** The fold of [calculate_seed_size], manager.rs:143-146 *)
Fixpoint c_sizes {E} (fs : list nat) (min max : N) : calling E (N * N) :=
  match fs with
  | [] => pure (Ok (min, max))
  | f :: fs' =>
    do! s := call_size f in
    c_sizes fs' (N.max min (ss_min s)) (N.min max (ss_max s))
  end.

(** [calculate_seed_size], manager.rs:142-153 *)
Definition c_calculate_seed_size (fs : list nat) : calling kc_error N :=
  do! b := c_sizes fs 0 usize_max in
  let '(min, max) := b in
  pure (if min =? 0 then Err (CantCalculateSeedSize min max)
        else if max <=? min then Err (CantCalculateSeedSize min max)
        else Ok min).

(** [with_factories] and [with_factory_objs], manager.rs:36-39,134-140 *)
Definition c_with_factories (fs : list nat) : calling kc_error cmanager :=
  do! size := c_calculate_seed_size fs in
  do! map := each (fun f => do! n := call_network f in pure (Ok (n, f))) fs in
  pure (Ok {| cm_factories := of_list map; cm_seed_size := size |}).

(** [Keychain::new], keychain.rs:12-16 *)
Definition c_keychain_new (keys : list key_name) : calling kc_error (fmap key_name) :=
  do! map := each (fun k => do! n := call_key_network k in pure (Ok (n, k))) keys in
  pure (Ok (of_list map)).

(** [Keychain::pub_key], [sign], [verify] and [_pk], keychain.rs:26-51 *)
Definition c_pk (kc : fmap key_name) (n : N) : calling kc_error key_name :=
  pure (ok_or (get n kc) (KeyDoesNotExist n)).
Definition c_kc_pub_key (kc : fmap key_name) (n : N) (path : KeyPath) : calling kc_error bytes :=
  do! k := c_pk kc n in
  on_err (call (AskPub k path)) (fun e => pure (Err (KeyError n e))).
Definition c_kc_sign (kc : fmap key_name) (n : N) (data : bytes) (path : KeyPath) : calling kc_error bytes :=
  do! k := c_pk kc n in
  on_err (call (AskSign k data path)) (fun e => pure (Err (KeyError n e))).
Definition c_kc_verify (kc : fmap key_name) (n : N) (data signature : bytes) (path : KeyPath)
  : calling kc_error bool :=
  do! k := c_pk kc n in
  on_err (call (AskVerify k data signature path)) (fun e => pure (Err (KeyError n e))).

Section WithPrims.
Variable P : prims.

(** [encrypt], crypt.rs:44-70, with any source of random bytes *)
Definition c_encrypt (data : bytes) (password : str) : calling kc_error bytes :=
  do! salt := call_fill SALT_SIZE in
  do! nonce := call_fill NONCE_SIZE in
  let key := crypt_key P password salt in
  let (encrypted, tag) := aead_encrypt P key nonce data in
  pure (Ok (salt ++ nonce ++ tag ++ encrypted)).

(** [bip39::Entropy::generate], bip39/src/bip39.rs:167-177, with any closure *)
Definition c_generate (t : Type_) : calling bip39_error Entropy :=
  do! bs := call_fill (to_key_size t / 8) in
  pure (Ok {| e_type := t; e_bytes := bs |}).

(** [seed_from_data], manager.rs:155-172: of the manager it uses the seed
    size only. *)
Definition c_seed_from_data (m : cmanager) (seed : option bytes) (mnemonic : option str)
  (lang : option Language) : res kc_error bytes :=
  seed_from_data P {| m_factories := []; m_seed_size := cm_seed_size m |} seed mnemonic lang.

(** One network's key data, manager.rs:182-187: the network is asked for
    after the data, and again to name an error. *)
Definition c_data_of (seed : bytes) (f : nat) : calling kc_error (N * bytes) :=
  on_err
    (do! d := call (AskData f seed) in
     do! n := call_network f in
     pure (Ok (n, d)))
    (fun e => do! n := call_network f in pure (Err (KeyError n e))).

(** [new_keychain_data], manager.rs:174-202 *)
Definition c_new_keychain_data (o1 o2 : order) (m : cmanager) (seed : option bytes)
  (password : str) (mnemonic : option str) (lang : option Language) (r : rng)
  : calling kc_error (bytes * rng) :=
  do! calculated := pure (c_seed_from_data m seed mnemonic lang) in
  do! keys := each (c_data_of calculated) (List.map snd (o1 _ (cm_factories m))) in
  let w := {| w_seed := seed; w_mnemonic := mnemonic; w_dictionary := lang;
              w_keys := of_list keys |} in
  drawing (Ok (seal P o2 w password r)).

(** [keychain_data_from_seed], [keychain_data_from_mnemonic], manager.rs:55-64 *)
Definition c_keychain_data_from_seed (o1 o2 : order) (m : cmanager) (seed : bytes)
  (password : str) (r : rng) : calling kc_error (bytes * rng) :=
  c_new_keychain_data o1 o2 m (Some seed) password None None r.
Definition c_keychain_data_from_mnemonic (o1 o2 : order) (m : cmanager) (mnemonic password : str)
  (language : option Language) (r : rng) : calling kc_error (bytes * rng) :=
  let lang := match language with Some l => l | None => language_default end in
  c_new_keychain_data o1 o2 m None password (Some mnemonic) (Some lang) r.

Section WithConfig.
Variable C : data_config.

(** [keychain_from_data], manager.rs:66-78 *)
Definition c_keychain_from_data (o : order) (m : cmanager) (data : bytes) (password : str)
  : calling kc_error (fmap key_name) :=
  do! v2 := pure (keychain_data_from_bytes P C data password) in
  let known :=
    filter_map (fun '(network, key) =>
      option_map (fun factory => (network, factory, key)) (get network (cm_factories m)))
      (o _ (w_keys v2)) in
  do! keys :=
    each (fun '(network, factory, key) =>
            on_err (call (AskKey factory key)) (fun e => pure (Err (KeyError network e))))
      known in
  c_keychain_new keys.

(** [add_network], manager.rs:88-112 *)
Definition c_add_network (o : order) (m : cmanager) (encrypted : bytes) (password : str)
  (network : N) (r : rng) : calling kc_error (bytes * rng) :=
  do! factory := pure (ok_or (get network (cm_factories m)) (NetworkIsNotSupported network)) in
  do! data := pure (keychain_data_from_bytes P C encrypted password) in
  match get network (w_keys data) with
  | Some _ => pure (Err (KeyAlreadyExist network))
  | None =>
    do! seed := pure (c_seed_from_data m (w_seed data) (w_mnemonic data) (w_dictionary data)) in
    do! key_data :=
      on_err (call (AskData factory seed)) (fun e => pure (Err (KeyError network e))) in
    let w := {| w_seed := w_seed data; w_mnemonic := w_mnemonic data;
                w_dictionary := w_dictionary data;
                w_keys := ins network key_data (w_keys data) |} in
    drawing (Ok (seal P o w password r))
  end.

End WithConfig.
End WithPrims.
End WithWorld.
