(** Model of the raw arguments of keychain-c: pointers into the library's and
    the caller's memory, lengths, numbers of enums, references.  Ffi has the
    functions behind it, with contents in place of pointers.

    The bytes of network lists and backup lists and of the boxed objects are
    not modelled: reading them as bytes or as a string counts as undefined. *)
From Verif Require Import Base Str Prims Bip39 Dict KeyPath Errors FMap Data Keys Mnemonic Keychain Manager Features
  Display Ffi.

(** The caller's own memory: blocks of bytes. *)
Notation own := (fmap bytes).

(** A pointer as the caller passes it: null, a non-null pointer to nothing (as
    an empty [Vec] has), or a place in an allocation of the library or of the
    caller. *)
Inductive raw := RNull | RNothing | RLib (i off : N) | ROwn (i off : N).

(** The pointer that the caller finds in a handle. *)
Definition raw_of (p : addr) : raw :=
  match p with Null => RNull | Dangling => RNothing | At i => RLib i 0 end.

(** The bytes from a place to the end of its allocation; a [CString] includes
    its terminator. *)
Definition from_off (off : N) (b : bytes) : option bytes :=
  if off <=? N.of_nat (length b) then Some (skipn (N.to_nat off) b) else None.
Definition memory (h : heap) (c : own) (p : raw) : option bytes :=
  match p with
  | RNull => None
  | RNothing => None
  | RLib i off =>
    match get i (live h) with
    | Some (BBytes b) => from_off off b
    | Some (BText b) => from_off off (b ++ [x00])
    | _ => None
    end
  | ROwn i off => match get i c with Some b => from_off off b | None => None end
  end.

(** [std::slice::from_raw_parts]: the pointer must not be null and not lead
    to released memory, even for the length zero. *)
Definition slice {E} (h : heap) (c : own) (p : raw) (len : N) : res E bytes :=
  match p with
  | RNull => Undef
  | RNothing => if len =? 0 then Ok [] else Undef
  | _ =>
    match memory h c p with
    | Some b => if len <=? N.of_nat (length b) then Ok (firstn (N.to_nat len) b) else Undef
    | None => Undef
    end
  end.

(** [CStr::from_ptr]: the bytes before the first NUL. *)
Definition c_string {E} (h : heap) (c : own) (p : raw) : res E bytes :=
  match memory h c p with
  | Some b => if has_nul b then Ok (firstn (N.to_nat (strlen b)) b) else Undef
  | None => Undef
  end.

(** [rust_ref] of a C string, utils/string.rs:8-10 *)
Definition rust_text {E} (h : heap) (c : own) (p : raw) : res E str :=
  let* b := c_string h c p in rust_str b.

(** A [&T] or [&mut T] parameter: null is undefined. *)
Definition reference {E} (v : option var) : res E var :=
  match v with Some v => Ok v | None => Undef end.

(** An enum or [bool] parameter: a number without meaning is undefined. *)
Definition raw_language {E} (n : N) : res E CLanguage :=
  match c_language_from n with Some l => Ok l | None => Undef end.
Definition raw_bool {E} (n : N) : res E bool :=
  match n with 0 => Ok false | 1 => Ok true | _ => Undef end.

(** The functions with their C parameters, without results: manager.rs,
    backup.rs, keychain_c.rs, key_path.rs, bitcoin.rs, cardano.rs,
    ethereum.rs of keychain-c/src. *)
Inductive raw_api : ty -> Type :=
| RManagerNew : raw_api TManager
| RManagerHasNetwork (m : option var) (n : N) : raw_api TBool
| RGenerateMnemonic (m : option var) (lang : N) : raw_api TString
| RKeychainDataFromSeed (m : option var) (seed : raw) (seed_len : N) (password : raw) : raw_api TData
| RKeychainDataFromMnemonic (m : option var) (mnemonic password : raw) (lang : N) : raw_api TData
| RKeychainFromData (m : option var) (data : raw) (data_len : N) (password : raw) : raw_api TKeychain
| RAddNetwork (m : option var) (data : raw) (data_len : N) (password : raw) (n : N) : raw_api TData
| RChangePassword (m : option var) (data : raw) (data_len : N) (old_password new_password : raw) : raw_api TData
| RGetKeysData (m : option var) (data : raw) (data_len : N) (password : raw) : raw_api TBackup
| RRetrieveMnemonic (m : option var) (data : raw) (data_len : N) (password : raw) : raw_api TInfo
| RKeychainNetworks (k : option var) : raw_api TNetworks
| RPubKey (k : option var) (n : N) (path : KeyPath) : raw_api TData
| RSign (k : option var) (n : N) (data : raw) (data_len : N) (path : KeyPath) : raw_api TData
| RVerify (k : option var) (n : N) (data : raw) (data_len : N) (signature : raw) (signature_len : N)
    (path : KeyPath) : raw_api TBool
| RKeypathFromString (string : raw) : raw_api TPath
| RKeypathBitcoin44 (testnet account change address : N) : raw_api TPath
| RKeypathBitcoin49 (testnet account change address : N) : raw_api TPath
| RKeypathBitcoin84 (testnet account change address : N) : raw_api TPath
| RKeypathCardano (account change address : N) : raw_api TPath
| RKeypathEthereum (account : N) : raw_api TPath
| RKeypathMetamask (account : N) : raw_api TPath.

Section Api.
Variable P : prims.
Variable C : data_config.
Variable T : texts.
Variable bd : build.

(** Parameters and closure of each function, in the order of evaluation.
    References, enums and flags are looked at when the function is entered;
    slices are made before the object is looked at, C strings after it. *)
Definition raw_body {t : ty} (a : raw_api t) (s : store) (e : env) (h : heap) (c : own)
  : res kc_error (val t * heap) :=
  match a in raw_api t return res kc_error (val t * heap) with
  | RManagerNew => (* manager.rs:62-70 *)
    let* m := built_new P (b_features bd) in
    Ok (alloc (BManager m) h)
  | RManagerHasNetwork m n => (* manager.rs:72-77 *)
    let* m := reference m in
    let* m := rust_manager h (s TManager m) in
    Ok (m_has_network m n, h)
  | RGenerateMnemonic m lang => (* manager.rs:79-87 *)
    let* m := reference m in
    let* lang := raw_language lang in
    let* m := rust_manager h (s TManager m) in
    let* '(phrase, _) := generate_mnemonic P m (language_rust lang) (env_rng e) in
    to_cstr phrase h
  | RKeychainDataFromSeed m seed seed_len password => (* manager.rs:89-102 *)
    let* m := reference m in
    let* seed := slice h c seed seed_len in
    let* m := rust_manager h (s TManager m) in
    let* password := rust_text h c password in
    let* '(data, _) := keychain_data_from_seed P (env_o1 e) (env_o2 e) m seed password (env_rng e) in
    Ok (data_ptr data h)
  | RKeychainDataFromMnemonic m mnemonic password lang => (* manager.rs:104-116 *)
    let* m := reference m in
    let* lang := raw_language lang in
    let* m := rust_manager h (s TManager m) in
    let* mnemonic := rust_text h c mnemonic in
    let* password := rust_text h c password in
    let* '(data, _) := keychain_data_from_mnemonic P (env_o1 e) (env_o2 e) m mnemonic password
                         (language_rust lang) (env_rng e) in
    Ok (data_ptr data h)
  | RKeychainFromData m data data_len password => (* manager.rs:118-131 *)
    let* m := reference m in
    let* data := slice h c data data_len in
    let* m := rust_manager h (s TManager m) in
    let* password := rust_text h c password in
    let* kc := keychain_from_data P C (env_o1 e) m data password in
    Ok (alloc (BKeychain kc) h)
  | RAddNetwork m data data_len password n => (* manager.rs:133-146 *)
    let* m := reference m in
    let* data := slice h c data data_len in
    let* m := rust_manager h (s TManager m) in
    let* password := rust_text h c password in
    let* '(data, _) := add_network P C (env_o1 e) m data password n (env_rng e) in
    Ok (data_ptr data h)
  | RChangePassword m data data_len old_password new_password => (* manager.rs:148-161 *)
    let* m := reference m in
    let* data := slice h c data data_len in
    let* m := rust_manager h (s TManager m) in
    let* old_password := rust_text h c old_password in
    let* new_password := rust_text h c new_password in
    let* '(data, _) := change_password P data old_password new_password (env_rng e) in
    Ok (data_ptr data h)
  | RGetKeysData m data data_len password => (* backup.rs:83-96 *)
    let* m := reference m in
    let* data := slice h c data data_len in
    let* m := rust_manager h (s TManager m) in
    let* password := rust_text h c password in
    let* keys := get_keys_data P C (env_o1 e) data password in
    Ok (backup_ptr keys h)
  | RRetrieveMnemonic m data data_len password => (* backup.rs:98-111 *)
    let* m := reference m in
    let* data := slice h c data data_len in
    let* m := rust_manager h (s TManager m) in
    let* password := rust_text h c password in
    let* '(mnemonic, lang) := retrieve_mnemonic P C data password in
    info_ptr mnemonic lang h
  | RKeychainNetworks k => (* keychain_c.rs:34-39 *)
    let* k := reference k in
    let* kc := rust_keychain h (s TKeychain k) in
    Ok (networks_ptr (networks (env_o1 e) kc) h)
  | RPubKey k n path => (* keychain_c.rs:41-49 *)
    let* k := reference k in
    let* kc := rust_keychain h (s TKeychain k) in
    let* data := kc_pub_key kc n path in
    Ok (data_ptr data h)
  | RSign k n data data_len path => (* keychain_c.rs:51-61 *)
    let* k := reference k in
    let* data := slice h c data data_len in
    let* kc := rust_keychain h (s TKeychain k) in
    let* data := kc_sign kc n data path in
    Ok (data_ptr data h)
  | RVerify k n data data_len signature signature_len path => (* keychain_c.rs:63-75 *)
    let* k := reference k in
    let* data := slice h c data data_len in
    let* signature := slice h c signature signature_len in
    let* kc := rust_keychain h (s TKeychain k) in
    let* result := kc_verify kc n data signature path in
    Ok (result, h)
  | RKeypathFromString string => (* key_path.rs:48-58 *)
    let* string := rust_text h c string in
    let* path := map_err KeyPathError (generic_from (b_profile bd) string) in
    Ok (path, h)
  | RKeypathBitcoin44 testnet account change address => (* bitcoin.rs:17-27 *)
    let* testnet := raw_bool testnet in
    let* path := map_err KeyPathError (btc_bip44 (b_profile bd) testnet account change address) in
    Ok (path, h)
  | RKeypathBitcoin49 testnet account change address => (* bitcoin.rs:29-39 *)
    let* testnet := raw_bool testnet in
    let* path := map_err KeyPathError (btc_bip49 (b_profile bd) testnet account change address) in
    Ok (path, h)
  | RKeypathBitcoin84 testnet account change address => (* bitcoin.rs:41-51 *)
    let* testnet := raw_bool testnet in
    let* path := map_err KeyPathError (btc_bip84 (b_profile bd) testnet account change address) in
    Ok (path, h)
  | RKeypathCardano account change address => (* cardano.rs:17-27 *)
    let* path := map_err KeyPathError (ada_new (b_profile bd) account change address) in
    Ok (path, h)
  | RKeypathEthereum account => (* ethereum.rs:17-25 *)
    let* path := map_err KeyPathError (eth_new (b_profile bd) account) in
    Ok (path, h)
  | RKeypathMetamask account => (* ethereum.rs:27-37 *)
    let* path := map_err KeyPathError (eth_new_metamask account) in
    Ok (path, h)
  end.

(** An exported function called from C.  Both results are references, too. *)
Definition raw_entry {t} (a : raw_api t) (out err : option var) (e : env) (s : store) (h : heap) (c : own)
  : res Empty_set (bool * store * heap) :=
  let* out := reference out in
  let* err := reference err in
  let* '(r, h) := handle T (env_panic e) (raw_body a s e h c) h in
  let '(b, s) := response r out err s in
  Ok (b, s, h).

(** A C program: calls, deletes, and changes of its own memory (a block is
    written, or released). *)
Inductive raw_step :=
| RCall {t : ty} (a : raw_api t) (out err : option var)
| RDelete (t : ty) (v : option var)
| RWrite (i : N) (b : bytes)
| RRelease (i : N).

Definition raw_run_step (x : env * raw_step) (st : store * heap * own)
  : res Empty_set (store * heap * own) :=
  let '(s, h, c) := st in
  match snd x with
  | RCall a out err => let* '(_, s, h) := raw_entry a out err (fst x) s h c in Ok (s, h, c)
  | RDelete t v =>
    let* v := reference v in
    let* '(s, h) := delete t v s h in Ok (s, h, c)
  | RWrite i b => Ok (s, h, (i, b) :: filter (fun x => negb (fst x =? i)) c)
  | RRelease i => Ok (s, h, filter (fun x => negb (fst x =? i)) c)
  end.

Fixpoint raw_run (l : list (env * raw_step)) (st : store * heap * own)
  : res Empty_set (store * heap * own) :=
  match l with
  | [] => Ok st
  | x :: l' => let* st := raw_run_step x st in raw_run l' st
  end.
End Api.
