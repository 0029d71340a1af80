(** Properties C35-C40 and C46: managers, phrases, creating and opening
    wallets, keychains. *)
From Coq Require Import Strings.String.
From Verif Require Import Base Str Prims Bip39 Bip39Spec Dict KeyPath Errors FMap FMapFacts CryptSpec
  Data DataSpec XPrv XPrvSpec Keys KeysSpec Mnemonic Keychain Manager ManagerSpec
  MnemonicFacts ManagerFacts WalletFacts LifeFacts StoryFacts KeysFacts PropertiesData Toy.
Open Scope list_scope.

(** C35.  Decoding any data under any password. *)
Theorem C35_decoding : forall (P : prims) (C : data_config) (data : bytes) (pw : str), prims_ok P ->
  (exists w, keychain_data_from_bytes P C data pw = Ok w /\ wallet_ok w) \/
  ((List.length data <= 60)%nat /\ keychain_data_from_bytes P C data pw = Err NotEnoughData) \/
  ((60 < List.length data)%nat /\
   (forall d salt nonce, List.length salt = 32%nat -> List.length nonce = 12%nat ->
      ~ is_sealed P pw salt nonce d data) /\
   keychain_data_from_bytes P C data pw = Err WrongPassword) \/
  (exists d salt nonce e, List.length salt = 32%nat /\ List.length nonce = 12%nat /\
     is_sealed P pw salt nonce d data /\
     keychain_data_from_bytes P C data pw = Err (DataError e)).
Proof. intros P C data pw HP. exact (decode_cases P HP C data pw). Qed.
Print Assumptions C35_decoding.

(** A concrete wallet, made with the simple primitives. *)
Definition case_seed : bytes := repeat x11 64.
Definition case_manager : manager :=
  match manager_new toy with Ok m => m | _ => {| m_factories := []; m_seed_size := 0 |} end.
Definition case_rng : rng := fun i => n2b (N.of_nat (i mod 256)).
Definition made (r : res kc_error (bytes * rng)) : bytes :=
  match r with Ok (d, _) => d | _ => [] end.
Definition case_data : bytes :=
  made (keychain_data_from_seed toy sorted_order reverse_order case_manager case_seed
          (lit "pw") case_rng).

Example C35_case :
  keychain_data_from_bytes toy C33_config (repeat x00 60) (lit "pw") = Err NotEnoughData /\
  keychain_data_from_bytes toy C33_config case_data (lit "other") = Err WrongPassword /\
  (exists w, keychain_data_from_bytes toy C33_config case_data (lit "pw") = Ok w) /\
  keychain_data_from_bytes toy C33_config (fst (Crypt.encrypt toy [x7b] (lit "pw") case_rng)) (lit "pw")
  = Err (DataError DMalformed).
Proof.
  split; [reflexivity|]. split; [vm_compute; reflexivity|]. split; [|vm_compute; reflexivity].
  eexists. vm_compute. reflexivity.
Qed.

(** C36.  Which lists of factories make a manager, and its seed size. *)
Theorem C36_seed_size : forall fs : list KeyFactory, Forall factory_ok fs ->
  (forall s, (exists m, with_factories fs = Ok m /\ m_seed_size m = s) <-> common_size fs s) /\
  (forall m, with_factories fs = Ok m -> manager_ok m /\
     forall n f, get_key_factory m n = Some f <-> last_for n fs f) /\
  ((forall s, ~ common_size fs s) -> exists lo hi,
     with_factories fs = Err (CantCalculateSeedSize lo hi) /\
     (forall f, In f fs -> ss_min (f_seed_size f) <= lo /\ hi <= ss_max (f_seed_size f)) /\
     (lo = 0 \/ exists f, In f fs /\ ss_min (f_seed_size f) = lo) /\
     ((hi = usize_max /\ forall f, In f fs -> ss_max (f_seed_size f) = usize_max) \/
      exists f, In f fs /\ ss_max (f_seed_size f) = hi)).
Proof. exact manager_sizes. Qed.
Print Assumptions C36_seed_size.

Theorem C36_unordered : forall (fs fs' : list KeyFactory) (s : N),
  Forall factory_ok fs -> Permutation fs fs' ->
  (exists m, with_factories fs = Ok m /\ m_seed_size m = s) <->
  (exists m, with_factories fs' = Ok m /\ m_seed_size m = s).
Proof. exact sizes_unordered. Qed.
Print Assumptions C36_unordered.

Theorem C36_builtin : forall (P : prims) (ns : list N),
  (forall m, with_networks P ns = Ok m -> manager_ok m /\
     (forall n f, get_key_factory m n = Some f <-> In n ns /\ builtin_factory P n f) /\
     (forall n, m_has_network m n = true <-> In n ns /\ exists f, builtin_factory P n f)) /\
  (In (2 ^ 31) ns \/ In (2 ^ 31 + 60) ns ->
     exists m, with_networks P ns = Ok m /\ m_seed_size m = 128) /\
  (~ In (2 ^ 31) ns -> ~ In (2 ^ 31 + 60) ns -> In (2 ^ 31 + 1815) ns ->
     exists m, with_networks P ns = Ok m /\ m_seed_size m = 96) /\
  (~ In (2 ^ 31) ns -> ~ In (2 ^ 31 + 60) ns -> ~ In (2 ^ 31 + 1815) ns ->
     with_networks P ns = Err (CantCalculateSeedSize 0 usize_max)) /\
  manager_new P = with_networks P [2 ^ 31 + 1815; 2 ^ 31 + 60; 2 ^ 31].
Proof. exact builtin_summary. Qed.
Print Assumptions C36_builtin.

Theorem C36_factory_sizes : forall P : prims,
  (f_network (btc_factory P), ss_min (f_seed_size (btc_factory P)), ss_max (f_seed_size (btc_factory P))) = (2 ^ 31, 128, 256) /\
  (f_network (eth_factory P), ss_min (f_seed_size (eth_factory P)), ss_max (f_seed_size (eth_factory P))) = (2 ^ 31 + 60, 128, 256) /\
  (f_network (ada_factory P), ss_min (f_seed_size (ada_factory P)), ss_max (f_seed_size (ada_factory P))) = (2 ^ 31 + 1815, 96, 256).
Proof. exact factory_sizes. Qed.
Print Assumptions C36_factory_sizes.

Example C36_case : Forall factory_ok [ada_factory toy; btc_factory toy] /\
  (exists m, with_factories [ada_factory toy; btc_factory toy] = Ok m /\ m_seed_size m = 128) /\
  with_factories [{| f_network := 1; f_seed_size := {| ss_min := 128; ss_max := 128 |};
                     key_from_data := fun _ => Panic; key_data_from_seed := fun _ => Panic |}]
  = Err (CantCalculateSeedSize 128 128).
Proof.
  split.
  - apply Forall_forall. intros f Hf. pose proof (builtin_ok toy) as H. rewrite Forall_forall in H.
    apply H. destruct Hf as [<-|[<-|[]]]; cbn; auto.
  - split; [eexists; split; reflexivity|reflexivity].
Qed.

(** C37.  Generated phrases.  The exceptional seeds are those for which BIP-32
    has no master key; only Bitcoin and Ethereum need one. *)
Theorem C37_generated : forall (P : prims) (ns : list N) (m : manager) (lang : option Language) (r : rng),
  prims_ok P -> with_networks P ns = Ok m ->
  let k := N.to_nat (m_seed_size m / 8) in
  let ent := List.map r (seq 0 k) in
  exists ms ws t s,
    sentence_of ent (sha256 P ent) ms /\
    Forall2 (fun i w => nth_error (to_dict (or_english lang)) (N.to_nat i) = Some w) ms ws /\
    phrase_of ws t /\ N.of_nat (List.length ws) = m_seed_size m / 32 * 3 /\
    generate_mnemonic P m lang r = Ok (t, fun i => r (k + i)%nat) /\
    phrase_seed P (or_english lang) (m_seed_size m) t s /\
    forall o1 o2 pw r', order_ok o1 -> order_ok o2 ->
      (usable_for P ns s -> exists data r'' keys, keys_from m s keys /\
         keychain_data_from_mnemonic P o1 o2 m t pw lang r' = Ok (data, r'') /\
         stored P pw (phrase_wallet t (or_english lang) keys) data) /\
      (~ usable_for P ns s -> exists n,
         (n = 2 ^ 31 \/ n = 2 ^ 31 + 60) /\
         keychain_data_from_mnemonic P o1 o2 m t pw lang r'
         = Err (KeyError n (key_of_secp SInvalidSecretKey))).
Proof. intros P ns m lang r HP. exact (generated P HP ns m lang r). Qed.
Print Assumptions C37_generated.

Example C37_case :
  (exists m, with_networks toy [2 ^ 31 + 1815; 7] = Ok m /\ m_seed_size m = 96) /\
  match generate_mnemonic toy case_manager (Some English) (fun _ => x00) with
  | Ok (t, _) => t = lit "abandon abandon abandon abandon abandon abandon abandon abandon abandon abandon abandon abandon"
  | _ => False
  end.
Proof. split; [eexists; split; reflexivity|vm_compute; reflexivity]. Qed.

(** C38.  Which phrases are accepted. *)
Theorem C38_accepted : forall (P : prims) (u : str) (l : Language) (size : N) (t : str),
  exists ws, phrase_of ws t /\
  ((exists pre w post, ws = pre ++ w :: post /\ Forall (fun w => In w (to_dict l)) pre /\
      ~ In w (to_dict l) /\
      seed_from_mnemonic P t u size l = Err (UnsupportedWordFound w)) \/
   (Forall (fun w => In w (to_dict l)) ws /\
    let n := N.of_nat (List.length ws) in
    let k := size / 32 * 3 in
    (~ word_count (List.length ws) /\
       seed_from_mnemonic P t u size l = Err (MWrongNumberOfWords n)) \/
    (word_count (List.length ws) /\
       (n < k /\ seed_from_mnemonic P t u size l = Err (MnemonicToShort n k) \/
        k < n /\ seed_from_mnemonic P t u size l = Err (MnemonicToLong n k) \/
        n = k /\ seed_from_mnemonic P t u size l
                 = Ok (pbkdf2 P (utf8 t) (blit "mnemonic" ++ utf8 u) 2048 64))))).
Proof. exact seed_from_phrase_with. Qed.
Print Assumptions C38_accepted.

Theorem C38_refused : forall (P : prims) o1 o2 (m : manager) (t : str) (lang : option Language) pw r e,
  seed_from_mnemonic P t [] (m_seed_size m) (or_english lang) = Err e ->
  keychain_data_from_mnemonic P o1 o2 m t pw lang r = Err (MnemonicError e).
Proof. exact phrase_refused. Qed.
Print Assumptions C38_refused.

(** C38: whatever the hash, every size and language has phrases with a wrong
    checksum that are accepted. *)
Theorem C38_checksum_not_checked : forall (P : prims) (l : Language) (t : Type_), prims_ok P ->
  exists s ms, mnemonics_from_string (to_dict l) s = Ok ms /\
    (exists a b, entropy_from_mnemonics P ms = Err (InvalidChecksum a b)) /\
    exists seed, seed_from_mnemonic P s [] (N.of_nat (to_key_size t)) l = Ok seed.
Proof. intros P l t HP. exact (wrong_checksum_accepted P HP l t). Qed.
Print Assumptions C38_checksum_not_checked.

(** C38, expectation refuted: a phrase with a wrong checksum is refused. *)
Theorem C38_checksum_checked_refuted : exists (P : prims) s ms a b seed,
  prims_ok P /\ mnemonics_from_string (to_dict English) s = Ok ms /\
  entropy_from_mnemonics P ms = Err (InvalidChecksum a b) /\
  seed_from_mnemonic P s [] 128 English = Ok seed.
Proof. exact checksum_case. Qed.
Print Assumptions C38_checksum_checked_refuted.

Example C38_case :
  seed_from_mnemonic toy (lit "abandon ability") [] 128 English = Err (MWrongNumberOfWords 2) /\
  seed_from_mnemonic toy (lit "abandon abilit") [] 128 English
  = Err (UnsupportedWordFound (lit "abilit")) /\
  seed_from_mnemonic toy (join [0x20] (repeat (lit "zoo") 9)) [] 128 English
  = Err (MnemonicToShort 9 12) /\
  seed_from_mnemonic toy (join [0x20] (repeat (lit "zoo") 12)) [] 96 English
  = Err (MnemonicToLong 12 9) /\
  exists s, seed_from_mnemonic toy (join [0x20] (repeat (lit "zoo") 12)) [] 128 English = Ok s.
Proof.
  repeat (split; [vm_compute; reflexivity|]). eexists. vm_compute. reflexivity.
Qed.

(** C39.  Creating a wallet from a seed and opening it. *)
Theorem C39_created : forall (P : prims) (C : data_config) o1 o2 (m : manager) (s : bytes) pw r,
  prims_ok P -> order_ok o1 -> order_ok o2 -> manager_ok m -> List.length s = 64%nat ->
  (forall keys, keys_from m s keys -> exists data r',
     keychain_data_from_seed P o1 o2 m s pw r = Ok (data, r') /\
     (forall i, r' i = r (44 + i)%nat) /\ stored P pw (seed_wallet s keys) data /\
     forall o kc, order_ok o ->
       (keychain_from_data P C o m data pw = Ok kc <-> holds_keys_of m s kc)) /\
  ((forall keys, ~ keys_from m s keys) -> exists n f, get_key_factory m n = Some f /\
     fails_as n (key_data_from_seed f s) (keychain_data_from_seed P o1 o2 m s pw r)).
Proof. intros P C o1 o2 m s pw r HP. exact (created_opens P HP C o1 o2 m s pw r). Qed.
Print Assumptions C39_created.

Theorem C39_seed_size : forall (P : prims) o1 o2 (m : manager) (s : bytes) pw r,
  List.length s <> 64%nat ->
  keychain_data_from_seed P o1 o2 m s pw r = Err (KInvalidSeedSize (N.of_nat (List.length s))).
Proof. exact seed_wrong_size. Qed.
Print Assumptions C39_seed_size.

(** C39 for the built-in networks: Cardano needs nothing, Bitcoin a BIP-32
    master key, Ethereum also the two hardened steps it derives on loading. *)
Theorem C39_builtin : forall (P : prims) (C : data_config) ns o1 o2 o (m : manager) (s : bytes) pw r,
  prims_ok P -> order_ok o1 -> order_ok o2 -> order_ok o ->
  with_networks P ns = Ok m -> List.length s = 64%nat -> usable_for P ns s ->
  (In (2 ^ 31 + 60) ns -> forall x, xprv_from_seed P s = Ok x ->
     exists y, derive_along P x [2 ^ 31 + 44; 2 ^ 31 + 60] = Ok y) ->
  exists data r' kc, keychain_data_from_seed P o1 o2 m s pw r = Ok (data, r') /\
    keychain_from_data P C o m data pw = Ok kc /\ holds_keys_of m s kc /\
    forall n, has_network kc n = true <-> In n ns /\ exists f, builtin_factory P n f.
Proof. intros P C ns o1 o2 o m s pw r HP. exact (builtin_created P HP C ns o1 o2 o m s pw r). Qed.
Print Assumptions C39_builtin.

Example C39_case : usable_seed toy case_seed /\
  rmap (networks reverse_order)
    (keychain_from_data toy C33_config reverse_order case_manager case_data (lit "pw"))
  = Ok [2 ^ 31 + 1815; 2 ^ 31 + 60; 2 ^ 31].
Proof.
  split; [split; vm_compute; reflexivity|]. vm_compute. reflexivity.
Qed.

(** C40.  A phrase wallet holds the keys of the phrase's seed. *)
Theorem C40_same_keys : forall (P : prims) (C : data_config) o1 o2 o1' o2' (m : manager) (t : str)
    (lang : option Language) (s : bytes) pw pw' r r',
  prims_ok P -> order_ok o1 -> order_ok o2 -> order_ok o1' -> order_ok o2' -> manager_ok m ->
  phrase_seed P (or_english lang) (m_seed_size m) t s ->
  (forall keys, keys_from m s keys -> exists data r1 data' r1',
     keychain_data_from_mnemonic P o1 o2 m t pw lang r = Ok (data, r1) /\
     stored P pw (phrase_wallet t (or_english lang) keys) data /\
     keychain_data_from_seed P o1' o2' m s pw' r' = Ok (data', r1') /\
     stored P pw' (seed_wallet s keys) data' /\
     forall o m', keychain_from_data P C o m' data pw = keychain_from_data P C o m' data' pw') /\
  ((forall keys, ~ keys_from m s keys) ->
     (exists n f, get_key_factory m n = Some f /\
       fails_as n (key_data_from_seed f s) (keychain_data_from_mnemonic P o1 o2 m t pw lang r)) /\
     (exists n f, get_key_factory m n = Some f /\
       fails_as n (key_data_from_seed f s) (keychain_data_from_seed P o1' o2' m s pw' r'))).
Proof. intros P C o1 o2 o1' o2' m t lang s pw pw' r r' HP. exact (phrase_and_seed P HP C o1 o2 o1' o2' m t lang s pw pw' r r'). Qed.
Print Assumptions C40_same_keys.

(** C40: what [stored] data decodes to. *)
Theorem C40_stored : forall (P : prims) (C : data_config) pw w data, prims_ok P -> wallet_ok w ->
  stored P pw w data -> keychain_data_from_bytes P C data pw = Ok w.
Proof. intros P C pw w data HP. exact (stored_read P HP C pw w data). Qed.
Print Assumptions C40_stored.

Example C40_case :
  match keychain_data_from_mnemonic toy sorted_order sorted_order case_manager
          (join [0x20] (repeat (lit "zoo") 12)) (lit "pw") None case_rng with
  | Ok (d, _) => match keychain_data_from_bytes toy C33_config d (lit "pw") with
                 | Ok w => w_dictionary w = Some English /\ w_seed w = None /\
                           w_mnemonic w = Some (join [0x20] (repeat (lit "zoo") 12)) /\
                           List.length (w_keys w) = 3%nat
                 | _ => False
                 end
  | _ => False
  end.
Proof. vm_compute. repeat split; reflexivity. Qed.

(** C46.  Keychains. *)
Theorem C46_dispatch : forall (keys : list Key) (n : N),
  (forall K pre post, keys = pre ++ K :: post -> key_network K = n ->
     (forall K', In K' post -> key_network K' <> n) -> answers_as (keychain_new keys) n K) /\
  ((forall K, In K keys -> key_network K <> n) -> lacks (keychain_new keys) n).
Proof. exact dispatch. Qed.
Print Assumptions C46_dispatch.

Theorem C46_networks : forall (keys : list Key) (o : order), order_ok o ->
  NoDup (networks o (keychain_new keys)) /\
  forall n, In n (networks o (keychain_new keys)) <-> exists K, In K keys /\ key_network K = n.
Proof. exact network_list. Qed.
Print Assumptions C46_networks.

Example C46_case :
  let kc := keychain_new [ada_key toy []; btc_key toy toy_xprv; ada_key toy [x01]] in
  networks reverse_order kc = [2 ^ 31 + 1815; 2 ^ 31] /\
  kc_pub_key kc (2 ^ 31 + 60) {| purpose := 0; coin := 0; account := 0; change := 0; address := 0 |}
  = Err (KeyDoesNotExist (2 ^ 31 + 60)) /\
  kc_pub_key kc (2 ^ 31) {| purpose := 0; coin := 0; account := 0; change := 0; address := 0 |}
  = Err (KeyError (2 ^ 31) (InvalidKeyPath (InvalidCoin 0 (2 ^ 31)))).
Proof. repeat split. Qed.
