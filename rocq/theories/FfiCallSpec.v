(** What each exported function is expected to compute, in terms of the Rust
    interface and without memory. *)
From Coq Require Import Strings.String.
From Verif Require Import Base Prims Bip39 Dict KeyPath Errors FMap Data Keys Keychain Manager Features Ffi FfiSpec.
Open Scope list_scope.

(** The C and Rust names of one language. *)
Inductive same_language : CLanguage -> Language -> Prop :=
| sl_english : same_language CEnglish English
| sl_french : same_language CFrench French
| sl_japanese : same_language CJapanese Japanese
| sl_korean : same_language CKorean Korean
| sl_chinese_simplified : same_language CChineseSimplified ChineseSimplified
| sl_chinese_traditional : same_language CChineseTraditional ChineseTraditional
| sl_italian : same_language CItalian Italian
| sl_spanish : same_language CSpanish Spanish.

(** The numbers of the error classes in the C header. *)
Definition class_number (e : kc_error) : Z :=
  match e with
  | WrongPassword => 0
  | NotEnoughData => 1
  | SeedIsNotSaved => 2
  | CantCalculateSeedSize _ _ => 3
  | DataError _ => 4
  | KInvalidSeedSize _ => 5
  | KeyDoesNotExist _ => 6
  | KeyAlreadyExist _ => 7
  | NetworkIsNotSupported _ => 8
  | KeyError _ _ => 9
  | KeyPathError _ => 10
  | MnemonicError _ => 11
  end%Z.

(** The Rust value that a result stands for. *)
Definition content (t : ty) : Type :=
  match t with
  | TManager => manager
  | TKeychain => Keychain
  | TData => bytes
  | TString => str
  | TNetworks => list N
  | TBackup => list (N * bytes)
  | TInfo => str * Language
  | TBool => bool
  | TPath => KeyPath
  | TError => Empty_set
  end.

(** A handle stands for a value: its pointer leads to it and its length or
    count is right. *)
Definition holds_data (h : heap) (d : DataPtr) (b : bytes) : Prop :=
  d_len d = N.of_nat (List.length b) /\
  match d_ptr d with
  | Null => False
  | Dangling => b = []
  | At i => get i (live h) = Some (BBytes b)
  end.
Definition holds (h : heap) (t : ty) : val t -> content t -> Prop :=
  match t return val t -> content t -> Prop with
  | TManager => fun x m => exists i, x = At i /\ get i (live h) = Some (BManager m)
  | TKeychain => fun x kc => exists i, x = At i /\ get i (live h) = Some (BKeychain kc)
  | TData => holds_data h
  | TString => fun x s => points_to_text h x (utf8 s)
  | TNetworks => fun x ns =>
      n_count x = N.of_nat (List.length ns) /\
      match n_ptr x with
      | Null => False
      | Dangling => ns = []
      | At i => get i (live h) = Some (BNets ns)
      end
  | TBackup => fun x l =>
      k_count x = N.of_nat (List.length l) /\
      match k_ptr x with
      | Null => False
      | Dangling => l = []
      | At i => exists es, get i (live h) = Some (BBackup es) /\
                  Forall2 (fun e c => fst e = fst c /\ holds_data h (snd e) (snd c)) es l
      end
  | TInfo => fun x c => points_to_text h (i_mnemonic x) (utf8 (fst c)) /\ same_language (i_language x) (snd c)
  | TBool => fun x c => x = c
  | TPath => fun x c => x = c
  | TError => fun _ _ => False
  end.

(** The manager or keychain in a variable; the null pointer is refused by a
    panic.  (Anything else does not occur, C51.) *)
Definition with_manager {A} (s : store) (h : heap) (v : var) (k : manager -> res kc_error A) : res kc_error A :=
  match s TManager v with
  | At i => match get i (live h) with Some (BManager m) => k m | _ => Undef end
  | Null => Panic
  | Dangling => Undef
  end.
Definition with_keychain {A} (s : store) (h : heap) (v : var) (k : Keychain -> res kc_error A) : res kc_error A :=
  match s TKeychain v with
  | At i => match get i (live h) with Some (BKeychain kc) => k kc | _ => Undef end
  | Null => Panic
  | Dangling => Undef
  end.
(** C strings that are not UTF-8 are refused by a panic. *)
Definition with_text {A} (b : bytes) (k : str -> res kc_error A) : res kc_error A :=
  match of_utf8 b with Some s => k s | None => Panic end.
(** So are results that can not be C strings. *)
Definition as_text {A} (s : str) (r : A) : res kc_error A :=
  if in_dec Byte.byte_eq_dec x00 (utf8 s) then Panic else Ok r.
Definition path_result (r : res kp_error KeyPath) : res kc_error KeyPath :=
  match r with Ok p => Ok p | Err e => Err (KeyPathError e) | Panic => Panic | Undef => Undef end.
Definition the_language (c : CLanguage) : Language :=
  match c with
  | CEnglish => English | CFrench => French | CJapanese => Japanese | CKorean => Korean
  | CChineseSimplified => ChineseSimplified | CChineseTraditional => ChineseTraditional
  | CItalian => Italian | CSpanish => Spanish
  end.

Section P.
Variable P : prims.
Variable C : data_config.
Variable bd : build.

(** The result of the Rust function behind each C function. *)
Definition rust_call {t : ty} (a : api t) (s : store) (h : heap) (e : env) : res kc_error (content t) :=
  match a in api t return res kc_error (content t) with
  | ManagerNew => built_new P (b_features bd)
  | ManagerHasNetwork m n => with_manager s h m (fun m => Ok (m_has_network m n))
  | GenerateMnemonic m lang =>
    with_manager s h m (fun m =>
    bind (generate_mnemonic P m (Some (the_language lang)) (env_rng e)) (fun p => as_text (fst p) (fst p)))
  | KeychainDataFromSeed m seed password =>
    with_manager s h m (fun m => with_text password (fun password =>
    rmap fst (keychain_data_from_seed P (env_o1 e) (env_o2 e) m seed password (env_rng e))))
  | KeychainDataFromMnemonic m mnemonic password lang =>
    with_manager s h m (fun m => with_text mnemonic (fun mnemonic => with_text password (fun password =>
    rmap fst (keychain_data_from_mnemonic P (env_o1 e) (env_o2 e) m mnemonic password
                (Some (the_language lang)) (env_rng e)))))
  | KeychainFromData m data password =>
    with_manager s h m (fun m => with_text password (fun password =>
    keychain_from_data P C (env_o1 e) m data password))
  | AddNetwork m data password n =>
    with_manager s h m (fun m => with_text password (fun password =>
    rmap fst (add_network P C (env_o1 e) m data password n (env_rng e))))
  | ChangePassword m data old_password new_password =>
    with_manager s h m (fun _ => with_text old_password (fun old => with_text new_password (fun new =>
    rmap fst (change_password P data old new (env_rng e)))))
  | GetKeysData m data password =>
    with_manager s h m (fun _ => with_text password (fun password =>
    get_keys_data P C (env_o1 e) data password))
  | RetrieveMnemonic m data password =>
    with_manager s h m (fun _ => with_text password (fun password =>
    bind (retrieve_mnemonic P C data password) (fun p => as_text (fst p) p)))
  | KeychainNetworks k => with_keychain s h k (fun kc => Ok (networks (env_o1 e) kc))
  | PubKey k n path => with_keychain s h k (fun kc => kc_pub_key kc n path)
  | Sign k n data path => with_keychain s h k (fun kc => kc_sign kc n data path)
  | Verify k n data signature path => with_keychain s h k (fun kc => kc_verify kc n data signature path)
  | KeypathFromString s => with_text s (fun s => path_result (generic_from (b_profile bd) s))
  | KeypathBitcoin44 testnet account change address =>
    path_result (btc_bip44 (b_profile bd) testnet account change address)
  | KeypathBitcoin49 testnet account change address =>
    path_result (btc_bip49 (b_profile bd) testnet account change address)
  | KeypathBitcoin84 testnet account change address =>
    path_result (btc_bip84 (b_profile bd) testnet account change address)
  | KeypathCardano account change address => path_result (ada_new (b_profile bd) account change address)
  | KeypathEthereum account => path_result (eth_new (b_profile bd) account)
  | KeypathMetamask account => path_result (eth_new_metamask account)
  end.
End P.
