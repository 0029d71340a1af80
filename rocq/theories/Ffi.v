(** Model of keychain-c: pointers and allocations handed to the caller, the
    panic guard, and the exported functions.

    Simplifications.  Addresses are names that are never reused, so that every
    use of released memory is visible ([Undef]).  Memory owned by the caller
    that a call only reads (byte slices with their length, C strings) is passed
    as the bytes it holds; such pointers are taken to be valid, and enum
    arguments to be one of the listed values, as the functions' contracts
    demand (Raw has the pointers themselves).  Random numbers and hash map orders of a call come from its [env],
    as does the text of a panic. *)
From Coq Require Import Strings.String.
From Verif Require Import Base Str Prims Bip39 Dict KeyPath Errors FMap Crypt Data Keys Mnemonic
  Keychain Manager Features Display.
Open Scope list_scope.

(** * Memory *)

(** A raw pointer: null, the non-null pointer of an empty allocation, or the
    address of an allocation. *)
Inductive addr := Null | Dangling | At (i : N).

(** [std::alloc::Layout] *)
Record layout := { l_size : N; l_align : N }.

Definition layout_eqb (a b : layout) : bool :=
  (l_size a =? l_size b) && (l_align a =? l_align b).

(** [DataPtr], keychain-c/src/utils/data.rs:3-8 *)
Record DataPtr := { d_ptr : addr; d_len : N }.

(** What an allocation holds: [Box<[u8]>], the bytes of a [CString] without
    its terminator, [Box<[Network]>], [Box<[KeyBackupElem]>],
    [Box<RKeychain>], [Box<RKeychainManager>]. *)
Inductive block :=
| BBytes (b : bytes)
| BText (b : bytes)
| BNets (ns : list N)
| BBackup (es : list (N * DataPtr))
| BKeychain (kc : Keychain)
| BManager (m : manager).

(** Layouts on a 64-bit platform.  [KeyBackupElem] is a [u32], padding, a
    pointer and a [usize] (backup.rs:11-16).  The sizes of the boxed Rust
    structures only matter in being the same at both ends. *)
Definition bytes_layout (n : N) : layout := {| l_size := n; l_align := 1 |}.
Definition nets_layout (n : N) : layout := {| l_size := 4 * n; l_align := 4 |}.
Definition backup_layout (n : N) : layout := {| l_size := 24 * n; l_align := 8 |}.
Definition keychain_layout : layout := {| l_size := 48; l_align := 8 |}.
Definition manager_layout : layout := {| l_size := 72; l_align := 8 |}.

Definition layout_of (b : block) : layout :=
  match b with
  | BBytes b => bytes_layout (N.of_nat (List.length b))
  | BText b => bytes_layout (N.of_nat (List.length b) + 1)
  | BNets ns => nets_layout (N.of_nat (List.length ns))
  | BBackup es => backup_layout (N.of_nat (List.length es))
  | BKeychain _ => keychain_layout
  | BManager _ => manager_layout
  end.

(** The live allocations, and the next name. *)
Record heap := { live : fmap block; next : N }.
Definition empty_heap : heap := {| live := []; next := 0 |}.

(** The global allocator; nothing is allocated for size zero. *)
Definition alloc (b : block) (h : heap) : addr * heap :=
  if l_size (layout_of b) =? 0 then (Dangling, h)
  else (At (next h), {| live := (next h, b) :: live h; next := next h + 1 |}).

Definition read (h : heap) (p : addr) : option block :=
  match p with At i => get i (live h) | _ => None end.

Definition del (i : N) (m : fmap block) : fmap block :=
  filter (fun e => negb (fst e =? i)) m.

(** Releasing with a layout: undefined unless the pointer is a live
    allocation made with that layout.  Nothing is released for size zero. *)
Definition dealloc {E} (p : addr) (l : layout) (h : heap) : res E heap :=
  if l_size l =? 0 then Ok h
  else
    match p, read h p with
    | At i, Some b =>
      if layout_eqb l (layout_of b) then Ok {| live := del i (live h); next := next h |} else Undef
    | _, _ => Undef
    end.

Definition is_null (p : addr) : bool := match p with Null => true | _ => false end.

(** * Handles *)

(** [NetworksPtr], network.rs:20-25; [KeyBackupPtr], backup.rs:18-23 *)
Record NetworksPtr := { n_ptr : addr; n_count : N }.
Record KeyBackupPtr := { k_ptr : addr; k_count : N }.

(** [Language], manager.rs:37-48, with its discriminants *)
Inductive CLanguage :=
| CEnglish | CFrench | CJapanese | CKorean
| CChineseSimplified | CChineseTraditional | CItalian | CSpanish.
Definition c_language_code (l : CLanguage) : N :=
  match l with
  | CEnglish => 0 | CFrench => 1 | CJapanese => 2 | CKorean => 3
  | CChineseSimplified => 4 | CChineseTraditional => 5 | CItalian => 6 | CSpanish => 7
  end.

(** [FromPrimitive::from_i64], derived for both enums: the variant with the
    discriminant, if any. *)
Definition c_language_from (n : N) : option CLanguage :=
  match n with
  | 0 => Some CEnglish | 1 => Some CFrench | 2 => Some CJapanese | 3 => Some CKorean
  | 4 => Some CChineseSimplified | 5 => Some CChineseTraditional | 6 => Some CItalian
  | 7 => Some CSpanish
  | _ => None
  end.
Definition language_from (n : N) : option Language :=
  match n with
  | 0 => Some English | 1 => Some French | 2 => Some Japanese | 3 => Some Korean
  | 4 => Some ChineseSimplified | 5 => Some ChineseTraditional | 6 => Some Italian
  | 7 => Some Spanish
  | _ => None
  end.

(** [Language::rust], manager.rs:50-54 *)
Definition language_rust (l : CLanguage) : option Language := language_from (c_language_code l).

(** [From<RLanguage>], manager.rs:56-60 *)
Definition language_c {E} (l : Language) : res E CLanguage :=
  match c_language_from (language_code l) with Some c => Ok c | None => Panic end.

(** [MnemonicInfoPtr], backup.rs:57-62 *)
Record MnemonicInfoPtr := { i_mnemonic : addr; i_language : CLanguage }.

(** [ErrorType], error.rs:5-21 *)
Inductive ErrorType :=
| EPanic | EWrongPassword | ENotEnoughData | ESeedIsNotSaved | ECantCalculateSeedSize
| EDataError | EInvalidSeedSize | EKeyDoesNotExist | EKeyAlreadyExist
| ENetworkIsNotSupported | EKeyError | EKeyPathError | EMnemonicError.
Definition error_code (t : ErrorType) : Z :=
  match t with
  | EPanic => -1
  | EWrongPassword => 0
  | ENotEnoughData => 1
  | ESeedIsNotSaved => 2
  | ECantCalculateSeedSize => 3
  | EDataError => 4
  | EInvalidSeedSize => 5
  | EKeyDoesNotExist => 6
  | EKeyAlreadyExist => 7
  | ENetworkIsNotSupported => 8
  | EKeyError => 9
  | EKeyPathError => 10
  | EMnemonicError => 11
  end%Z.

(** [ErrorPtr], error.rs:23-28 *)
Record ErrorPtr := { e_type : ErrorType; e_message : addr }.

(** [ErrorPtr::error_type], error.rs:44-59 *)
Definition error_type (e : kc_error) : ErrorType :=
  match e with
  | WrongPassword => EWrongPassword
  | NotEnoughData => ENotEnoughData
  | SeedIsNotSaved => ESeedIsNotSaved
  | CantCalculateSeedSize _ _ => ECantCalculateSeedSize
  | DataError _ => EDataError
  | KInvalidSeedSize _ => EInvalidSeedSize
  | KeyDoesNotExist _ => EKeyDoesNotExist
  | KeyAlreadyExist _ => EKeyAlreadyExist
  | NetworkIsNotSupported _ => ENetworkIsNotSupported
  | KeyError _ _ => EKeyError
  | KeyPathError _ => EKeyPathError
  | MnemonicError _ => EMnemonicError
  end.

(** * Strings *)

Definition has_nul (b : bytes) : bool := existsb (Byte.eqb x00) b.

(** [to_cstr], utils/string.rs:27-37: [CString::new] fails on a NUL byte and
    the error is unwrapped. *)
Definition to_cstr {E} (s : str) (h : heap) : res E (addr * heap) :=
  if has_nul (utf8 s) then Panic else Ok (alloc (BText (utf8 s)) h).

(** [rust_ref] of a C string, utils/string.rs:8-10 *)
Definition rust_str {E} (b : bytes) : res E str :=
  match of_utf8 b with Some s => Ok s | None => Panic end.

(** [strlen] *)
Fixpoint strlen (b : bytes) : N :=
  match b with
  | [] => 0
  | c :: r => if Byte.eqb c x00 then 0 else 1 + strlen r
  end.

(** * Making handles *)

(** [From<Vec<u8>>], utils/data.rs:30-38 *)
Definition data_ptr (b : bytes) (h : heap) : DataPtr * heap :=
  let '(p, h) := alloc (BBytes b) h in
  ({| d_ptr := p; d_len := N.of_nat (List.length b) |}, h).

(** [From<Vec<Network>>], network.rs:41-55 *)
Definition networks_ptr (ns : list N) (h : heap) : NetworksPtr * heap :=
  let '(p, h) := alloc (BNets ns) h in
  ({| n_ptr := p; n_count := N.of_nat (List.length ns) |}, h).

(** The elements of a backup, backup.rs:44-47 *)
Fixpoint backup_elems (l : list (N * bytes)) (h : heap) : list (N * DataPtr) * heap :=
  match l with
  | [] => ([], h)
  | (n, b) :: l' =>
    let '(d, h) := data_ptr b h in
    let '(es, h) := backup_elems l' h in
    ((n, d) :: es, h)
  end.

(** [KeyBackupPtr::from], backup.rs:43-54 *)
Definition backup_ptr (l : list (N * bytes)) (h : heap) : KeyBackupPtr * heap :=
  let '(es, h) := backup_elems l h in
  let '(p, h) := alloc (BBackup es) h in
  ({| k_ptr := p; k_count := N.of_nat (List.length es) |}, h).

(** [MnemonicInfoPtr::new], backup.rs:65-67, after converting the language *)
Definition info_ptr {E} (mnemonic : str) (lang : Language) (h : heap)
  : res E (MnemonicInfoPtr * heap) :=
  let* l := language_c lang in
  let* '(p, h) := to_cstr mnemonic h in
  Ok ({| i_mnemonic := p; i_language := l |}, h).

(** [rust_ref] of a keychain and a manager: keychain_c.rs:16-18,
    manager.rs:18-20.  Null panics; anything but a live object is undefined. *)
Definition rust_keychain {E} (h : heap) (p : addr) : res E Keychain :=
  if is_null p then Panic
  else match read h p with Some (BKeychain kc) => Ok kc | _ => Undef end.
Definition rust_manager {E} (h : heap) (p : addr) : res E manager :=
  if is_null p then Panic
  else match read h p with Some (BManager m) => Ok m | _ => Undef end.

(** * Releasing handles *)

(** [DataPtr::free], utils/data.rs:15-21 *)
Definition data_free {E} (d : DataPtr) (h : heap) : res E (DataPtr * heap) :=
  if is_null (d_ptr d) then Ok (d, h)
  else
    let* h := dealloc (d_ptr d) (bytes_layout (d_len d)) h in
    Ok ({| d_ptr := Null; d_len := d_len d |}, h).

(** [CharPtr::free], utils/string.rs:12-15: [CString::from_raw] measures the
    string. *)
Definition char_free {E} (p : addr) (h : heap) : res E (addr * heap) :=
  match read h p with
  | Some (BText b) =>
    let* h := dealloc p (bytes_layout (strlen b + 1)) h in
    Ok (Null, h)
  | _ => Undef
  end.

(** [NetworksPtr::free], network.rs:32-38: the elements are taken to be slices
    (16 bytes) instead of networks. *)
Definition networks_free {E} (n : NetworksPtr) (h : heap) : res E (NetworksPtr * heap) :=
  if is_null (n_ptr n) then Ok (n, h)
  else
    let* h := dealloc (n_ptr n) {| l_size := 16 * n_count n; l_align := 8 |} h in
    Ok ({| n_ptr := Null; n_count := n_count n |}, h).

(** [KeyBackupPtr::free], backup.rs:30-39: the elements' data, then the list. *)
Fixpoint elems_free {E} (es : list (N * DataPtr)) (h : heap) : res E heap :=
  match es with
  | [] => Ok h
  | (_, d) :: es' =>
    let* '(_, h) := data_free d h in
    elems_free es' h
  end.
Definition backup_free {E} (k : KeyBackupPtr) (h : heap) : res E (KeyBackupPtr * heap) :=
  if is_null (k_ptr k) then Ok (k, h)
  else if k_count k =? 0 then Ok ({| k_ptr := Null; k_count := k_count k |}, h)
  else
    match read h (k_ptr k) with
    | Some (BBackup es) =>
      if N.of_nat (List.length es) =? k_count k then
        let* h := elems_free es h in
        let* h := dealloc (k_ptr k) (backup_layout (k_count k)) h in
        Ok ({| k_ptr := Null; k_count := k_count k |}, h)
      else Undef
    | _ => Undef
    end.

(** [MnemonicInfoPtr::free], backup.rs:75-80; [ErrorPtr::free], error.rs:35-40 *)
Definition info_free {E} (i : MnemonicInfoPtr) (h : heap) : res E (MnemonicInfoPtr * heap) :=
  if is_null (i_mnemonic i) then Ok (i, h)
  else
    let* '(p, h) := char_free (i_mnemonic i) h in
    Ok ({| i_mnemonic := p; i_language := i_language i |}, h).
Definition error_free {E} (e : ErrorPtr) (h : heap) : res E (ErrorPtr * heap) :=
  if is_null (e_message e) then Ok (e, h)
  else
    let* '(p, h) := char_free (e_message e) h in
    Ok ({| e_type := e_type e; e_message := p |}, h).

(** [KeychainPtr::free], keychain_c.rs:19-25; [KeychainManagerPtr::free],
    manager.rs:22-28 *)
Definition keychain_free {E} (p : addr) (h : heap) : res E (addr * heap) :=
  if is_null p then Ok (p, h)
  else
    match read h p with
    | Some (BKeychain _) => let* h := dealloc p keychain_layout h in Ok (Null, h)
    | _ => Undef
    end.
Definition manager_free {E} (p : addr) (h : heap) : res E (addr * heap) :=
  if is_null p then Ok (p, h)
  else
    match read h p with
    | Some (BManager _) => let* h := dealloc p manager_layout h in Ok (Null, h)
    | _ => Undef
    end.

(** * The caller's variables *)

(** Types of out-parameters. *)
Inductive ty :=
| TManager | TKeychain | TData | TString | TNetworks | TBackup | TInfo | TBool | TPath | TError.
Definition val (t : ty) : Type :=
  match t with
  | TManager => addr
  | TKeychain => addr
  | TData => DataPtr
  | TString => addr
  | TNetworks => NetworksPtr
  | TBackup => KeyBackupPtr
  | TInfo => MnemonicInfoPtr
  | TBool => bool
  | TPath => KeyPath
  | TError => ErrorPtr
  end.

Notation var := N.
Definition store := forall t : ty, var -> val t.

Definition ty_eq_dec (a b : ty) : {a = b} + {a <> b}.
Proof. decide equality. Defined.

(** Assigning a variable. *)
Definition upd (s : store) (t : ty) (v : var) (x : val t) : store :=
  fun t' v' =>
    match ty_eq_dec t t' with
    | left E => if v' =? v then eq_rect t val x t' E else s t' v'
    | right _ => s t' v'
    end.

(** * The exported functions *)

Section Api.
Variable P : prims.
Variable C : data_config.
Variable T : texts.
(** Build profile. *)
Variable bd : build.

(** What a call gets from its surroundings: hash map orders, random bytes,
    the text of its panic if it panics. *)
Record env := { env_o1 : order; env_o2 : order; env_rng : rng; env_panic : str }.

(** The functions with a result and their arguments.  Managers and keychains
    are the caller's variables holding them; passwords, phrases and paths are
    C strings. *)
Inductive api : ty -> Type :=
| ManagerNew : api TManager
| ManagerHasNetwork (m : var) (n : N) : api TBool
| GenerateMnemonic (m : var) (lang : CLanguage) : api TString
| KeychainDataFromSeed (m : var) (seed password : bytes) : api TData
| KeychainDataFromMnemonic (m : var) (mnemonic password : bytes) (lang : CLanguage) : api TData
| KeychainFromData (m : var) (data password : bytes) : api TKeychain
| AddNetwork (m : var) (data password : bytes) (n : N) : api TData
| ChangePassword (m : var) (data old_password new_password : bytes) : api TData
| GetKeysData (m : var) (data password : bytes) : api TBackup
| RetrieveMnemonic (m : var) (data password : bytes) : api TInfo
| KeychainNetworks (k : var) : api TNetworks
| PubKey (k : var) (n : N) (path : KeyPath) : api TData
| Sign (k : var) (n : N) (data : bytes) (path : KeyPath) : api TData
| Verify (k : var) (n : N) (data signature : bytes) (path : KeyPath) : api TBool
| KeypathFromString (s : bytes) : api TPath
| KeypathBitcoin44 (testnet : bool) (account change address : N) : api TPath
| KeypathBitcoin49 (testnet : bool) (account change address : N) : api TPath
| KeypathBitcoin84 (testnet : bool) (account change address : N) : api TPath
| KeypathCardano (account change address : N) : api TPath
| KeypathEthereum (account : N) : api TPath
| KeypathMetamask (account : N) : api TPath.

(** The closure that each function runs under the panic guard. *)
Definition body {t : ty} (a : api t) (s : store) (e : env) (h : heap) : res kc_error (val t * heap) :=
  match a in api t return res kc_error (val t * heap) with
  | ManagerNew => (* manager.rs:66-68 *)
    let* m := built_new P (b_features bd) in
    Ok (alloc (BManager m) h)
  | ManagerHasNetwork m n => (* manager.rs:76 *)
    let* m := rust_manager h (s TManager m) in
    Ok (m_has_network m n, h)
  | GenerateMnemonic m lang => (* manager.rs:83-85 *)
    let* m := rust_manager h (s TManager m) in
    let* '(phrase, _) := generate_mnemonic P m (language_rust lang) (env_rng e) in
    to_cstr phrase h
  | KeychainDataFromSeed m seed password => (* manager.rs:94-100 *)
    let* m := rust_manager h (s TManager m) in
    let* password := rust_str password in
    let* '(data, _) := keychain_data_from_seed P (env_o1 e) (env_o2 e) m seed password (env_rng e) in
    Ok (data_ptr data h)
  | KeychainDataFromMnemonic m mnemonic password lang => (* manager.rs:109-114 *)
    let* m := rust_manager h (s TManager m) in
    let* mnemonic := rust_str mnemonic in
    let* password := rust_str password in
    let* '(data, _) := keychain_data_from_mnemonic P (env_o1 e) (env_o2 e) m mnemonic password
                         (language_rust lang) (env_rng e) in
    Ok (data_ptr data h)
  | KeychainFromData m data password => (* manager.rs:123-129 *)
    let* m := rust_manager h (s TManager m) in
    let* password := rust_str password in
    let* kc := keychain_from_data P C (env_o1 e) m data password in
    Ok (alloc (BKeychain kc) h)
  | AddNetwork m data password n => (* manager.rs:138-144 *)
    let* m := rust_manager h (s TManager m) in
    let* password := rust_str password in
    let* '(data, _) := add_network P C (env_o1 e) m data password n (env_rng e) in
    Ok (data_ptr data h)
  | ChangePassword m data old_password new_password => (* manager.rs:153-159 *)
    let* m := rust_manager h (s TManager m) in
    let* old_password := rust_str old_password in
    let* new_password := rust_str new_password in
    let* '(data, _) := change_password P data old_password new_password (env_rng e) in
    Ok (data_ptr data h)
  | GetKeysData m data password => (* backup.rs:88-94 *)
    let* m := rust_manager h (s TManager m) in
    let* password := rust_str password in
    let* keys := get_keys_data P C (env_o1 e) data password in
    Ok (backup_ptr keys h)
  | RetrieveMnemonic m data password => (* backup.rs:103-109 *)
    let* m := rust_manager h (s TManager m) in
    let* password := rust_str password in
    let* '(mnemonic, lang) := retrieve_mnemonic P C data password in
    info_ptr mnemonic lang h
  | KeychainNetworks k => (* keychain_c.rs:38 *)
    let* kc := rust_keychain h (s TKeychain k) in
    Ok (networks_ptr (networks (env_o1 e) kc) h)
  | PubKey k n path => (* keychain_c.rs:45-47 *)
    let* kc := rust_keychain h (s TKeychain k) in
    let* data := kc_pub_key kc n path in
    Ok (data_ptr data h)
  | Sign k n data path => (* keychain_c.rs:56-59 *)
    let* kc := rust_keychain h (s TKeychain k) in
    let* data := kc_sign kc n data path in
    Ok (data_ptr data h)
  | Verify k n data signature path => (* keychain_c.rs:68-73 *)
    let* kc := rust_keychain h (s TKeychain k) in
    let* result := kc_verify kc n data signature path in
    Ok (result, h)
  | KeypathFromString s => (* key_path.rs:52-56 *)
    let* s := rust_str s in
    let* path := map_err KeyPathError (generic_from (b_profile bd) s) in
    Ok (path, h)
  | KeypathBitcoin44 testnet account change address => (* bitcoin.rs:21-25 *)
    let* path := map_err KeyPathError (btc_bip44 (b_profile bd) testnet account change address) in
    Ok (path, h)
  | KeypathBitcoin49 testnet account change address => (* bitcoin.rs:33-37 *)
    let* path := map_err KeyPathError (btc_bip49 (b_profile bd) testnet account change address) in
    Ok (path, h)
  | KeypathBitcoin84 testnet account change address => (* bitcoin.rs:45-49 *)
    let* path := map_err KeyPathError (btc_bip84 (b_profile bd) testnet account change address) in
    Ok (path, h)
  | KeypathCardano account change address => (* cardano.rs:21-25 *)
    let* path := map_err KeyPathError (ada_new (b_profile bd) account change address) in
    Ok (path, h)
  | KeypathEthereum account => (* ethereum.rs:21-23 *)
    let* path := map_err KeyPathError (eth_new (b_profile bd) account) in
    Ok (path, h)
  | KeypathMetamask account => (* ethereum.rs:31-35 *)
    let* path := map_err KeyPathError (eth_new_metamask account) in
    Ok (path, h)
  end.

(** The outcome of an exported function is a value, a panic that leaves the
    function, or undefined behaviour: there are no errors. *)
Notation outcome := (res Empty_set).

(** [ErrorPtr::new] and [ErrorPtr::panic], error.rs:61-67 *)
Definition error_new (e : kc_error) (h : heap) : outcome (ErrorPtr * heap) :=
  let* '(p, h) := to_cstr (show T e) h in
  Ok ({| e_type := error_type e; e_message := p |}, h).
Definition error_panic (msg : str) (h : heap) : outcome (ErrorPtr * heap) :=
  let* '(p, h) := to_cstr msg h in
  Ok ({| e_type := EPanic; e_message := p |}, h).

(** [handle_exception_result], utils/panic.rs:9-23, given the closure's
    outcome.  A failing closure has not allocated anything by then.  The text
    of a panic is the payload (or "Reason: ...").  Errors are converted
    outside of [catch_unwind]. *)
Definition handle {A} (msg : str) (r : res kc_error (A * heap)) (h : heap)
  : outcome ((A + ErrorPtr) * heap) :=
  match r with
  | Ok (a, h) => Ok (inl a, h)
  | Err e => let* '(p, h) := error_new e h in Ok (inr p, h)
  | Panic => let* '(p, h) := error_panic msg h in Ok (inr p, h)
  | Undef => Undef
  end.

(** [response], utils/result.rs:7-20, writing the caller's variables *)
Definition response {t} (r : val t + ErrorPtr) (out err : var) (s : store) : bool * store :=
  match r with
  | inl x => (true, upd s t out x)
  | inr p => (false, upd s TError err p)
  end.

(** An exported function called with the variables [out] and [err]. *)
Definition entry {t} (a : api t) (out err : var) (e : env) (s : store) (h : heap)
  : outcome (bool * store * heap) :=
  let* '(r, h) := handle (env_panic e) (body a s e h) h in
  let '(b, s) := response r out err s in
  Ok (b, s, h).

(** The [free] behind each [delete_...] function; there is none for plain
    values. *)
Definition free (t : ty) : val t -> heap -> outcome (val t * heap) :=
  match t return val t -> heap -> outcome (val t * heap) with
  | TManager => manager_free
  | TKeychain => keychain_free
  | TData => data_free
  | TString => char_free
  | TNetworks => networks_free
  | TBackup => backup_free
  | TInfo => info_free
  | TError => error_free
  | TBool => fun x h => Ok (x, h)
  | TPath => fun x h => Ok (x, h)
  end.

(** [delete_keychain_manager] (manager.rs:163-166), [delete_keychain]
    (keychain_c.rs:77-80), [delete_data] (utils/data.rs:40-43),
    [delete_networks] (network.rs:57-60), [delete_key_backup],
    [delete_mnemonic_info] (backup.rs:113-121) and [delete_error]
    (error.rs:70-73) get a reference to the caller's variable;
    [delete_string] (utils/string.rs:18-21) gets a copy, so the variable keeps
    its value. *)
Definition delete (t : ty) (v : var) (s : store) (h : heap) : outcome (store * heap) :=
  let* '(x, h) := free t (s t v) h in
  Ok (match t with TString => s | _ => upd s t v x end, h).

(** One step of a C program, and a whole program. *)
Inductive step :=
| Call {t : ty} (a : api t) (out err : var)
| Delete (t : ty) (v : var).

Definition run_step (x : env * step) (st : store * heap) : outcome (store * heap) :=
  match snd x with
  | Call a out err =>
    let* '(_, s, h) := entry a out err (fst x) (fst st) (snd st) in Ok (s, h)
  | Delete t v => delete t v (fst st) (snd st)
  end.

Fixpoint run (l : list (env * step)) (st : store * heap) : outcome (store * heap) :=
  match l with
  | [] => Ok st
  | x :: l' => let* st := run_step x st in run l' st
  end.
End Api.

(** All handles null, nothing allocated. *)
Definition null_value (t : ty) : val t :=
  match t return val t with
  | TManager => Null
  | TKeychain => Null
  | TData => {| d_ptr := Null; d_len := 0 |}
  | TString => Null
  | TNetworks => {| n_ptr := Null; n_count := 0 |}
  | TBackup => {| k_ptr := Null; k_count := 0 |}
  | TInfo => {| i_mnemonic := Null; i_language := CEnglish |}
  | TBool => false
  | TPath => {| purpose := 0; coin := 0; account := 0; change := 0; address := 0 |}
  | TError => {| e_type := EPanic; e_message := Null |}
  end.
Definition start : store * heap := (fun t _ => null_value t, empty_heap).
