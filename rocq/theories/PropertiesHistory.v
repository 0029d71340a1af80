(** Properties C41-C45, C47, C48, C56 and C58: histories of wallet operations,
    backup, independence of iteration orders and panics. *)
From Coq Require Import Strings.String.
From Verif Require Import Base Str Prims Bip39 Bip39Spec Dict KeyPath Errors FMap FMapFacts Crypt CryptSpec
  Data DataSpec XPrv XPrvSpec Keys KeysSpec Mnemonic Keychain Manager ManagerSpec HistorySpec
  MnemonicFacts ManagerFacts WalletFacts HistoryFacts LifeFacts StoryFacts KeysFacts PropertiesData PropertiesManager Toy.
Open Scope list_scope.

(** C41.  Changing the password: the new data decrypts and decodes under the new
    password to exactly what the old data did under the old one; otherwise
    nothing is produced. *)
Theorem C41_cases :
  forall P : prims,
  prims_ok P ->
  forall (C : data_config) (data : bytes) (old new : str) (r : rng),
  (exists (data' : bytes) (r' : rng),
     change_password P data old new r = Ok (data', r') /\
     keychain_data_from_bytes P C data' new = keychain_data_from_bytes P C data old /\
     (exists d : bytes, decrypt P data old = Ok d /\ decrypt P data' new = Ok d) /\
     (forall i : nat, r' i = r (44 + i)%nat)) \/
  (List.length data <= 60)%nat /\ change_password P data old new r = Err NotEnoughData \/
  (60 < List.length data)%nat /\
  (forall d salt nonce : bytes,
   List.length salt = 32%nat ->
   List.length nonce = 12%nat -> ~ is_sealed P old salt nonce d data) /\
  change_password P data old new r = Err WrongPassword.
Proof. exact change_cases. Qed.
Print Assumptions C41_cases.

(** C41 for stored wallets: it always succeeds with the right password. *)
Theorem C41_stored :
  forall P : prims,
  prims_ok P ->
  forall (data : bytes) (pw new : str) (w : wallet) (r : rng),
  stored P pw w data ->
  exists (data' : bytes) (r' : rng),
    change_password P data pw new r = Ok (data', r') /\ stored P new w data'.
Proof. exact change_stored. Qed.
Print Assumptions C41_stored.

Example C41_case : prims_ok toy /\
  change_password toy case_data (lit "bad") (lit "new") case_rng = Err WrongPassword /\
  change_password toy [] (lit "bad") (lit "new") case_rng = Err NotEnoughData /\
  (let d := made (change_password toy case_data (lit "pw") (lit "new") case_rng) in
   exists w, keychain_data_from_bytes toy C33_config d (lit "new") = Ok w /\ List.length (w_keys w) = 3%nat).
Proof.
  split; [exact toy_ok|]. split; [vm_compute; reflexivity|]. split; [reflexivity|].
  eexists. vm_compute. split; reflexivity.
Qed.

(** C42.  Adding a network: the outcome, case by case, in the order of checks. *)
Theorem C42_cascade :
  forall P : prims,
  prims_ok P ->
  forall (C : data_config) (o : order) (m : manager) (data : bytes) (pw : str) (n : N) (r : rng),
  order_ok o ->
  manager_ok m ->
  (get_key_factory m n = None -> add_network P C o m data pw n r = Err (NetworkIsNotSupported n)) /\
  (forall f : KeyFactory,
   get_key_factory m n = Some f ->
   (forall e : kc_error,
    keychain_data_from_bytes P C data pw = Err e -> add_network P C o m data pw n r = Err e) /\
   (forall w : wallet,
    keychain_data_from_bytes P C data pw = Ok w ->
    (get n (w_keys w) <> None -> add_network P C o m data pw n r = Err (KeyAlreadyExist n)) /\
    (get n (w_keys w) = None ->
     (w_seed w = None ->
      w_mnemonic w = None \/ w_dictionary w = None ->
      add_network P C o m data pw n r = Err SeedIsNotSaved) /\
     (forall (t : str) (l : Language) (e : mnemonic_error),
      w_seed w = None ->
      w_mnemonic w = Some t ->
      w_dictionary w = Some l ->
      seed_from_mnemonic P t [] (m_seed_size m) l = Err e ->
      add_network P C o m data pw n r = Err (MnemonicError e)) /\
     (forall s : bytes,
      w_seed w = Some s ->
      List.length s <> 64%nat ->
      add_network P C o m data pw n r = Err (KInvalidSeedSize (N.of_nat (List.length s)))) /\
     (forall s : bytes,
      wallet_secret P m w s ->
      (forall d : bytes,
       key_data_from_seed f s = Ok d ->
       exists (data' : bytes) (r' : rng) (w' : wallet),
         add_network P C o m data pw n r = Ok (data', r') /\
         extended w n d w' /\
         wallet_ok w' /\ stored P pw w' data' /\ (forall i : nat, r' i = r (44 + i)%nat)) /\
      ((forall d : bytes, key_data_from_seed f s <> Ok d) ->
       fails_as n (key_data_from_seed f s) (add_network P C o m data pw n r)))))).
Proof. exact add_cascade. Qed.
Print Assumptions C42_cascade.

(** C42: the cases for the stored secret above are exhaustive. *)
Theorem C42_complete :
  forall (P : prims) (m : manager) (w : wallet),
  (exists s : bytes, wallet_secret P m w s) \/
  w_seed w = None /\ (w_mnemonic w = None \/ w_dictionary w = None) \/
  (exists (t : str) (l : Language) (e : mnemonic_error),
     w_seed w = None /\
     w_mnemonic w = Some t /\
     w_dictionary w = Some l /\ seed_from_mnemonic P t [] (m_seed_size m) l = Err e) \/
  (exists s : bytes, w_seed w = Some s /\ List.length s <> 64%nat).
Proof. exact secret_decided. Qed.
Print Assumptions C42_complete.

(** C42: what a success implies. *)
Theorem C42_success :
  forall P : prims,
  prims_ok P ->
  forall (C : data_config) (o : order) (m : manager) (data : bytes) (pw : str)
    (n : N) (r : rng) (x : bytes * rng),
  order_ok o ->
  manager_ok m ->
  add_network P C o m data pw n r = Ok x ->
  exists (f : KeyFactory) (w : wallet) (s d : bytes) (w' : wallet),
    get_key_factory m n = Some f /\
    keychain_data_from_bytes P C data pw = Ok w /\
    get n (w_keys w) = None /\
    wallet_secret P m w s /\
    key_data_from_seed f s = Ok d /\
    extended w n d w' /\
    wallet_ok w' /\ stored P pw w' (fst x) /\ (forall i : nat, snd x i = r (44 + i)%nat).
Proof. exact add_inv. Qed.
Print Assumptions C42_success.

(** A wallet of Cardano only, holding a seed, and one holding nine words. *)
Definition ada_manager : manager :=
  match with_networks toy [2 ^ 31 + 1815] with Ok m => m | _ => {| m_factories := []; m_seed_size := 0 |} end.
Definition ada_data : bytes :=
  made (keychain_data_from_seed toy sorted_order sorted_order ada_manager case_seed (lit "pw") case_rng).
Definition nine_words : str := join [0x20] (repeat (lit "zoo") 9).
Definition nine_data : bytes :=
  made (keychain_data_from_mnemonic toy sorted_order sorted_order ada_manager nine_words (lit "pw") None case_rng).
Definition add_case (m : manager) (data : bytes) (pw : string) (n : N) : res kc_error bytes :=
  rmap fst (add_network toy C33_config reverse_order m data (lit pw) n case_rng).

Example C42_case :
  add_case ada_manager ada_data "bad" (2 ^ 31) = Err (NetworkIsNotSupported (2 ^ 31)) /\
  add_case case_manager ada_data "bad" (2 ^ 31) = Err WrongPassword /\
  add_case case_manager ada_data "pw" (2 ^ 31 + 1815) = Err (KeyAlreadyExist (2 ^ 31 + 1815)) /\
  exists d, add_case case_manager ada_data "pw" (2 ^ 31) = Ok d /\
    rmap (fun w => List.map fst (w_keys w)) (keychain_data_from_bytes toy C33_config d (lit "pw"))
    = Ok [2 ^ 31; 2 ^ 31 + 1815].
Proof.
  split; [reflexivity|]. split; [vm_compute; reflexivity|]. split; [vm_compute; reflexivity|].
  eexists. split; [vm_compute; reflexivity|vm_compute; reflexivity].
Qed.

(** C43.  [ma] has the networks at the start, [mb] those added later, [mall] all
    of them; [l] lists the networks to add, in any order. *)
Theorem C43_seed :
  forall P : prims,
  prims_ok P ->
  forall (C : data_config) (ma mb mall : manager) (o1 o2 o1' o2' : order)
    (l : list (order * N)) (s : bytes) (pw : str) (r r' : rng),
  manager_ok ma ->
  manager_ok mb ->
  manager_ok mall ->
  order_ok o1 ->
  order_ok o2 ->
  order_ok o1' ->
  order_ok o2' ->
  Forall (fun x : order * N => order_ok (fst x)) l ->
  NoDup (List.map snd l) ->
  (forall n : N,
   get_key_factory mall n =
   match get_key_factory ma n with
   | Some f => Some f
   | None => get_key_factory mb n
   end) ->
  (forall n : N, In n (List.map snd l) <-> get_key_factory ma n = None /\ get_key_factory mb n <> None) ->
  List.length s = 64%nat ->
  (exists (keys : fmap bytes) (s1 s2 s3 : bytes * rng),
     keychain_data_from_seed P o1 o2 ma s pw r = Ok s1 /\
     add_all P C mb l pw s1 = Ok s2 /\
     keychain_data_from_seed P o1' o2' mall s pw r' = Ok s3 /\
     stored P pw (seed_wallet s keys) (fst s2) /\ stored P pw (seed_wallet s keys) (fst s3)) \/
  (forall s1 s2 : bytes * rng,
   keychain_data_from_seed P o1 o2 ma s pw r = Ok s1 -> add_all P C mb l pw s1 <> Ok s2) /\
  (forall s3 : bytes * rng, keychain_data_from_seed P o1' o2' mall s pw r' <> Ok s3).
Proof. exact added_seed. Qed.
Print Assumptions C43_seed.

(** C43 for phrases: the managers must agree about the length of phrases. *)
Theorem C43_phrase :
  forall P : prims,
  prims_ok P ->
  forall (C : data_config) (ma mb mall : manager) (o1 o2 o1' o2' : order)
    (l : list (order * N)) (t : str) (lang : option Language) (pw : str)
    (r r' : rng),
  manager_ok ma ->
  manager_ok mb ->
  manager_ok mall ->
  order_ok o1 ->
  order_ok o2 ->
  order_ok o1' ->
  order_ok o2' ->
  Forall (fun x : order * N => order_ok (fst x)) l ->
  NoDup (List.map snd l) ->
  (forall n : N,
   get_key_factory mall n =
   match get_key_factory ma n with
   | Some f => Some f
   | None => get_key_factory mb n
   end) ->
  (forall n : N, In n (List.map snd l) <-> get_key_factory ma n = None /\ get_key_factory mb n <> None) ->
  m_seed_size mb = m_seed_size ma ->
  m_seed_size mall = m_seed_size ma ->
  (exists (keys : fmap bytes) (s1 s2 s3 : bytes * rng),
     keychain_data_from_mnemonic P o1 o2 ma t pw lang r = Ok s1 /\
     add_all P C mb l pw s1 = Ok s2 /\
     keychain_data_from_mnemonic P o1' o2' mall t pw lang r' = Ok s3 /\
     stored P pw (phrase_wallet t (or_english lang) keys) (fst s2) /\
     stored P pw (phrase_wallet t (or_english lang) keys) (fst s3)) \/
  (forall s1 s2 : bytes * rng,
   keychain_data_from_mnemonic P o1 o2 ma t pw lang r = Ok s1 -> add_all P C mb l pw s1 <> Ok s2) /\
  (forall s3 : bytes * rng, keychain_data_from_mnemonic P o1' o2' mall t pw lang r' <> Ok s3).
Proof. exact added_phrase. Qed.
Print Assumptions C43_phrase.

Example C43_case :
  (forall n : N,
   get_key_factory case_manager n =
   match get_key_factory ada_manager n with
   | Some f => Some f
   | None => get_key_factory case_manager n
   end) /\
  (forall n : N, In n [2 ^ 31 + 60; 2 ^ 31] <->
   get_key_factory ada_manager n = None /\ get_key_factory case_manager n <> None) /\
  rmap (fun s => rmap w_keys (keychain_data_from_bytes toy C33_config (fst s) (lit "pw")))
    (add_all toy C33_config case_manager [(sorted_order, 2 ^ 31 + 60); (reverse_order, 2 ^ 31)] (lit "pw")
       (ada_data, case_rng))
  = Ok (rmap w_keys (keychain_data_from_bytes toy C33_config case_data (lit "pw"))).
Proof.
  split; [|split].
  - intros n. destruct (N.eqb_spec n CARDANO) as [->|Hn]; [reflexivity|].
    unfold get_key_factory. cbn. now destruct (N.eqb_spec n CARDANO).
  - intros n. change (2 ^ 31 + 60) with ETHEREUM. change (2 ^ 31) with BITCOIN.
    unfold get_key_factory. cbn. split.
    + intros [<-|[<-|[]]]; cbn; split; congruence.
    + intros [H1 H2]. destruct (N.eqb_spec n CARDANO); [discriminate|].
      destruct (N.eqb_spec n BITCOIN); [auto|]. destruct (N.eqb_spec n ETHEREUM); [auto|congruence].
  - vm_compute. reflexivity.
Qed.

(** C44.  Histories start from created wallets. *)
Theorem C44_created_seed :
  forall P : prims,
  prims_ok P ->
  forall (o1 o2 : order) (m : manager) (s : bytes) (pw : str) (r : rng) (x : bytes * rng),
  order_ok o1 ->
  order_ok o2 ->
  manager_ok m ->
  keychain_data_from_seed P o1 o2 m s pw r = Ok x ->
  exists keys : fmap bytes,
    List.length s = 64%nat /\
    keys_from m s keys /\
    wallet_ok (seed_wallet s keys) /\ stored P pw (seed_wallet s keys) (fst x).
Proof. exact seed_created_inv. Qed.
Print Assumptions C44_created_seed.

(** C44: the same for phrases. *)
Theorem C44_created_phrase :
  forall P : prims,
  prims_ok P ->
  forall (o1 o2 : order) (m : manager) (t : str) (lang : option Language)
    (pw : str) (r : rng) (x : bytes * rng),
  order_ok o1 ->
  order_ok o2 ->
  manager_ok m ->
  keychain_data_from_mnemonic P o1 o2 m t pw lang r = Ok x ->
  exists (s : bytes) (keys : fmap bytes),
    phrase_seed P (or_english lang) (m_seed_size m) t s /\
    keys_from m s keys /\
    wallet_ok (phrase_wallet t (or_english lang) keys) /\
    stored P pw (phrase_wallet t (or_english lang) keys) (fst x).
Proof. exact phrase_created_inv. Qed.
Print Assumptions C44_created_phrase.

(** C44.  Any history, with right and wrong passwords, follows the abstract
    wallet, provided that the authentication tells the passwords involved
    apart. *)
Theorem C44_history :
  forall P : prims,
  prims_ok P ->
  forall (C : data_config) (l : list (order * op)) (s : bytes * rng) (pw : str)
    (w : wallet) (pws : dict),
  Forall
    (fun x : order * op => order_ok (fst x) /\ op_ok (snd x) /\ incl (op_passwords (snd x)) pws) l ->
  wallet_ok w ->
  stored P pw w (fst s) ->
  In pw pws ->
  told_apart P C pws l s ->
  exists (pw' : str) (w' : wallet),
    effects P (pw, w) (List.map snd l) (pw', w') /\
    wallet_ok w' /\
    In pw' pws /\
    stored P pw' w' (fst (perform_all P C l s)) /\
    keychain_data_from_bytes P C (fst (perform_all P C l s)) pw' = Ok w' /\
    (forall x : str,
     In x pws ->
     x <> pw' -> keychain_data_from_bytes P C (fst (perform_all P C l s)) x = Err WrongPassword).
Proof. exact history. Qed.
Print Assumptions C44_history.

(** C44: histories with right passwords need no such assumption. *)
Theorem C44_right_passwords :
  forall P : prims,
  prims_ok P ->
  forall (C : data_config) (l : list (order * op)) (s : bytes * rng) (pw : str) (w : wallet),
  Forall (fun x : order * op => order_ok (fst x) /\ op_ok (snd x)) l ->
  wallet_ok w ->
  stored P pw w (fst s) ->
  follows pw (List.map snd l) ->
  exists (pw' : str) (w' : wallet),
    effects P (pw, w) (List.map snd l) (pw', w') /\
    wallet_ok w' /\
    stored P pw' w' (fst (perform_all P C l s)) /\
    keychain_data_from_bytes P C (fst (perform_all P C l s)) pw' = Ok w'.
Proof. exact history_right. Qed.
Print Assumptions C44_right_passwords.

(** C44: the abstract wallet has one outcome for every history. *)
Theorem C44_deterministic :
  forall (P : prims) (a : str * wallet) (l : list op) (b : str * wallet),
  effects P a l b -> forall c : str * wallet, effects P a l c -> b = c.
Proof. exact effects_deterministic. Qed.
Print Assumptions C44_deterministic.

(** C44: what opening the tracked wallet gives. *)
Theorem C44_opening :
  forall (P : prims) (C : data_config) (o : order) (m : manager) (data : bytes)
    (pw : str) (w : wallet),
  order_ok o ->
  manager_ok m ->
  wallet_ok w ->
  keychain_data_from_bytes P C data pw = Ok w ->
  (forall kc : Keychain, keychain_from_data P C o m data pw = Ok kc <-> opens_to m w kc) /\
  ((forall kc : fmap Key, ~ opens_to m w kc) ->
   exists (n : N) (f : KeyFactory) (d : bytes),
     get n (w_keys w) = Some d /\
     get n (m_factories m) = Some f /\
     fails_as n (key_from_data f d) (keychain_from_data P C o m data pw)).
Proof. exact opening. Qed.
Print Assumptions C44_opening.

(** A history with wrong and right passwords. *)
Definition case_history : list (order * op) :=
  [(sorted_order, Change (lit "bad") (lit "b")); (sorted_order, Change (lit "pw") (lit "b"));
   (reverse_order, Add case_manager (lit "pw") (2 ^ 31)); (reverse_order, Add case_manager (lit "b") (2 ^ 31));
   (sorted_order, Open ada_manager (lit "b"))].
Definition case_passwords : list str := [lit "bad"; lit "pw"; lit "b"].
(** Whether [data] decrypts under the passwords. *)
Definition opened_by (data : bytes) : list bool :=
  List.map (fun pw => match decrypt toy data pw with Ok _ => true | _ => false end) case_passwords.

Lemma opened_by_apart data k : opened_by data = List.map (Nat.eqb k) (seq 0 3) ->
  forall pw pw' d d', In pw case_passwords -> In pw' case_passwords ->
     decrypt toy data pw = Ok d -> decrypt toy data pw' = Ok d' -> pw = pw'.
Proof.
  intros H pw pw' d d' Hi Hi' E E'. unfold opened_by, case_passwords in H. cbn [List.map seq] in H.
  injection H as H0 H1 H2.
  repeat (destruct Hi as [<-|Hi]); try destruct Hi; repeat (destruct Hi' as [<-|Hi']); try destruct Hi'; try reflexivity;
    rewrite E in *; rewrite E' in *; destruct k as [|[|[|k]]]; cbn in *; congruence.
Qed.

Example C44_case : told_apart toy C33_config case_passwords case_history (ada_data, case_rng) /\
  Forall (fun x : order * op => order_ok (fst x) /\ op_ok (snd x) /\ incl (op_passwords (snd x)) case_passwords)
    case_history /\
  rmap (fun w => List.map fst (w_keys w))
    (keychain_data_from_bytes toy C33_config
       (fst (perform_all toy C33_config case_history (ada_data, case_rng))) (lit "b"))
  = Ok [2 ^ 31; 2 ^ 31 + 1815].
Proof.
  split; [|split].
  - unfold case_history. cbn [told_apart].
    split; [apply (opened_by_apart _ 1); vm_compute; reflexivity|].
    split; [apply (opened_by_apart _ 1); vm_compute; reflexivity|].
    split; [apply (opened_by_apart _ 2); vm_compute; reflexivity|].
    split; [apply (opened_by_apart _ 2); vm_compute; reflexivity|].
    split; [apply (opened_by_apart _ 2); vm_compute; reflexivity|].
    split; [apply (opened_by_apart _ 2); vm_compute; reflexivity|exact I].
  - assert (manager_ok case_manager) as H1
      by (apply (builtin_manager_ok toy [2 ^ 31 + 1815; 2 ^ 31 + 60; 2 ^ 31]); reflexivity).
    assert (manager_ok ada_manager) as H2 by (apply (builtin_manager_ok toy [2 ^ 31 + 1815]); reflexivity).
    unfold case_history.
    repeat (constructor; [cbn [fst snd op_ok op_passwords]; split; [auto using sorted_order_ok, reverse_order_ok|];
      split; [auto|]; unfold case_passwords; intros x Hx; repeat (destruct Hx as [<-|Hx]; [cbn; tauto|]); destruct Hx|]).
    constructor.
  - vm_compute. reflexivity.
Qed.

(** C45.  Opening with a manager that lacks some of the wallet's networks. *)
Theorem C45_hidden :
  forall P : prims,
  prims_ok P ->
  forall (C : data_config) (o : order) (m : manager) (data : bytes) (pw : str) (w : wallet),
  order_ok o ->
  manager_ok m ->
  keychain_data_from_bytes P C data pw = Ok w ->
  (forall kc : Keychain,
   keychain_from_data P C o m data pw = Ok kc ->
   forall n : N,
   (get n (w_keys w) = None \/ get_key_factory m n = None -> lacks kc n) /\
   (forall (d : bytes) (f : KeyFactory),
    get n (w_keys w) = Some d ->
    get_key_factory m n = Some f -> exists K : Key, key_from_data f d = Ok K /\ answers_as kc n K)) /\
  ((forall (n : N) (d : bytes) (f : KeyFactory),
    get n (w_keys w) = Some d ->
    get_key_factory m n = Some f -> exists K : Key, key_from_data f d = Ok K) ->
   exists kc : Keychain, keychain_from_data P C o m data pw = Ok kc) /\
  ((forall kc : Keychain, keychain_from_data P C o m data pw <> Ok kc) ->
   exists (n : N) (d : bytes) (f : KeyFactory),
     get n (w_keys w) = Some d /\
     get_key_factory m n = Some f /\
     fails_as n (key_from_data f d) (keychain_from_data P C o m data pw)).
Proof. exact hidden_keys. Qed.
Print Assumptions C45_hidden.

(** C45: no history loses or changes a key. *)
Theorem C45_kept :
  forall (P : prims) (a : str * wallet) (l : list op) (b : str * wallet),
  effects P a l b ->
  w_seed (snd b) = w_seed (snd a) /\
  w_mnemonic (snd b) = w_mnemonic (snd a) /\
  w_dictionary (snd b) = w_dictionary (snd a) /\
  (forall (n : N) (d : bytes), get n (w_keys (snd a)) = Some d -> get n (w_keys (snd b)) = Some d).
Proof. exact effects_secret. Qed.
Print Assumptions C45_kept.

Example C45_case :
  rmap (networks reverse_order) (keychain_from_data toy C33_config sorted_order ada_manager case_data (lit "pw"))
  = Ok [2 ^ 31 + 1815] /\
  rmap (fun w => List.map fst (w_keys w)) (keychain_data_from_bytes toy C33_config case_data (lit "pw"))
  = Ok [2 ^ 31; 2 ^ 31 + 60; 2 ^ 31 + 1815].
Proof. split; vm_compute; reflexivity. Qed.

(** C47.  Backup of readable data. *)
Theorem C47_backup :
  forall (P : prims) (C : data_config) (o : order) (data : bytes) (pw : str) (w : wallet),
  order_ok o ->
  keychain_data_from_bytes P C data pw = Ok w ->
  (forall (t : str) (l : Language),
   w_mnemonic w = Some t -> w_dictionary w = Some l -> retrieve_mnemonic P C data pw = Ok (t, l)) /\
  (w_mnemonic w = None \/ w_dictionary w = None ->
   retrieve_mnemonic P C data pw = Err SeedIsNotSaved) /\
  (exists entries : list (N * bytes),
     get_keys_data P C o data pw = Ok entries /\ Permutation entries (w_keys w)).
Proof. exact backup. Qed.
Print Assumptions C47_backup.

(** C47: backup of unreadable data. *)
Theorem C47_fails :
  forall (P : prims) (C : data_config) (o : order) (data : bytes) (pw : str) (e : kc_error),
  keychain_data_from_bytes P C data pw = Err e ->
  retrieve_mnemonic P C data pw = Err e /\ get_keys_data P C o data pw = Err e.
Proof. exact backup_fails. Qed.
Print Assumptions C47_fails.

(** C47: after any history. *)
Theorem C47_history :
  forall P : prims,
  prims_ok P ->
  forall (C : data_config) (l : list (order * op)) (s : bytes * rng) (pw : str)
    (w : wallet) (pws : dict) (o : order),
  order_ok o ->
  Forall
    (fun x : order * op => order_ok (fst x) /\ op_ok (snd x) /\ incl (op_passwords (snd x)) pws) l ->
  wallet_ok w ->
  stored P pw w (fst s) ->
  In pw pws ->
  told_apart P C pws l s ->
  exists (pw' : str) (w' : wallet) (entries : list (N * bytes)),
    effects P (pw, w) (List.map snd l) (pw', w') /\
    (forall (t : str) (lang : Language),
     w_mnemonic w = Some t ->
     w_dictionary w = Some lang ->
     retrieve_mnemonic P C (fst (perform_all P C l s)) pw' = Ok (t, lang)) /\
    (w_mnemonic w = None \/ w_dictionary w = None ->
     retrieve_mnemonic P C (fst (perform_all P C l s)) pw' = Err SeedIsNotSaved) /\
    get_keys_data P C o (fst (perform_all P C l s)) pw' = Ok entries /\
    Permutation entries (w_keys w') /\
    (forall (n : N) (d : bytes), get n (w_keys w) = Some d -> get n (w_keys w') = Some d).
Proof. exact backup_history. Qed.
Print Assumptions C47_history.

(** C47: old data. *)
Theorem C47_version1 :
  forall (P : prims) (C : data_config) (o : order) (data : bytes) (pw : str)
    (entries m : list (N * bytes)),
  order_ok o ->
  decrypt P data pw = Ok (envelope 1 (v1_text entries)) ->
  Permutation entries m ->
  wf_map m /\ Forall (fun e : N * bytes => is_u32 (fst e)) m ->
  retrieve_mnemonic P C data pw = Err SeedIsNotSaved /\
  (exists es : list (N * bytes), get_keys_data P C o data pw = Ok es /\ Permutation es m).
Proof. exact backup_v1. Qed.
Print Assumptions C47_version1.

Example C47_case :
  retrieve_mnemonic toy C33_config nine_data (lit "pw") = Ok (nine_words, English) /\
  retrieve_mnemonic toy C33_config case_data (lit "pw") = Err SeedIsNotSaved /\
  rmap (List.map fst) (get_keys_data toy C33_config reverse_order case_data (lit "pw"))
  = Ok [2 ^ 31 + 1815; 2 ^ 31 + 60; 2 ^ 31] /\
  (let old := fst (encrypt toy (envelope 1 (v1_text [(7, [x01]); (3, [])])) (lit "pw") case_rng) in
   retrieve_mnemonic toy C33_config old (lit "pw") = Err SeedIsNotSaved /\
   get_keys_data toy C33_config sorted_order old (lit "pw") = Ok [(3, []); (7, [x01])]).
Proof.
  split; [vm_compute; reflexivity|]. split; [vm_compute; reflexivity|]. split; [vm_compute; reflexivity|].
  split; vm_compute; reflexivity.
Qed.

(** C48.  A nine-word phrase and a network that needs twelve. *)
Theorem C48_short :
  forall P : prims,
  prims_ok P ->
  forall (C : data_config) (ns : str) (o : order) (m : manager) (data : bytes)
    (pw : str) (n : N) (r : rng) (w : wallet) (t : str) (l : Language)
    (ws : dict),
  order_ok o ->
  with_networks P ns = Ok m ->
  In n ns ->
  n = 2 ^ 31 \/ n = 2 ^ 31 + 60 ->
  keychain_data_from_bytes P C data pw = Ok w ->
  get n (w_keys w) = None ->
  w_seed w = None ->
  w_mnemonic w = Some t ->
  w_dictionary w = Some l ->
  phrase_of ws t ->
  List.length ws = 9%nat ->
  Forall (fun x : str => In x (to_dict l)) ws ->
  add_network P C o m data pw n r = Err (MnemonicError (MnemonicToShort 9 12)).
Proof. exact short_phrase. Qed.
Print Assumptions C48_short.

(** C48: a phrase wallet of a manager without Bitcoin and Ethereum never gets
    them. *)
Theorem C48_never :
  forall P : prims,
  prims_ok P ->
  forall (C : data_config) (ns : str) (o1 o2 : order) (m0 : manager) (t : str)
    (lang : option Language) (pw : str) (r : rng) (x : bytes * rng) (l : list (order * op))
    (pws : dict),
  order_ok o1 ->
  order_ok o2 ->
  with_networks P ns = Ok m0 ->
  ~ In (2 ^ 31) ns ->
  ~ In (2 ^ 31 + 60) ns ->
  keychain_data_from_mnemonic P o1 o2 m0 t pw lang r = Ok x ->
  Forall
    (fun x0 : order * op =>
     order_ok (fst x0) /\
     op_ok (snd x0) /\ builtin_op P (snd x0) /\ incl (op_passwords (snd x0)) pws) l ->
  In pw pws ->
  told_apart P C pws l x ->
  exists (keys : fmap bytes) (pw' : str) (w' : wallet),
    effects P (pw, phrase_wallet t (or_english lang) keys) (List.map snd l) (pw', w') /\
    keychain_data_from_bytes P C (fst (perform_all P C l x)) pw' = Ok w' /\
    get (2 ^ 31) (w_keys w') = None /\ get (2 ^ 31 + 60) (w_keys w') = None.
Proof. exact short_never. Qed.
Print Assumptions C48_never.

Example C48_case :
  add_case case_manager nine_data "pw" (2 ^ 31) = Err (MnemonicError (MnemonicToShort 9 12)) /\
  told_apart toy C33_config [lit "pw"] [(sorted_order, Add case_manager (lit "pw") (2 ^ 31))] (nine_data, case_rng) /\
  with_networks toy [2 ^ 31 + 1815] = Ok ada_manager.
Proof.
  split; [vm_compute; reflexivity|]. split; [|reflexivity].
  assert (forall data pw pw' d d', In pw [lit "pw"] -> In pw' [lit "pw"] ->
     decrypt toy data pw = Ok d -> decrypt toy data pw' = Ok d' -> pw = pw') as H.
  { intros data pw pw' d d' [<-|[]] [<-|[]] _ _. reflexivity. }
  split; [apply H|]. split; [apply H|exact I].
Qed.

(** C56.  Creating. *)
Theorem C56_create :
  forall P : prims,
  prims_ok P ->
  forall (o1 o2 o1' o2' : order) (m : manager) (seed : option bytes) (mn : option str)
    (lang : option Language) (pw : str) (r : rng),
  order_ok o1 ->
  order_ok o2 ->
  order_ok o1' ->
  order_ok o2' ->
  manager_ok m ->
  let a := new_keychain_data P o1 o2 m seed pw mn lang r in
  let b := new_keychain_data P o1' o2' m seed pw mn lang r in
  (exists (w : wallet) (data data' : bytes) (r1 r2 : rng),
     a = Ok (data, r1) /\
     b = Ok (data', r2) /\
     stored P pw w data /\ stored P pw w data' /\ (forall i : nat, r1 i = r2 i)) \/
  (exists e : kc_error, a = Err e /\ b = Err e) \/
  (exists (s : bytes) (n : N) (f : KeyFactory) (n' : N) (f' : KeyFactory),
     secret P m seed mn lang s /\
     get_key_factory m n = Some f /\
     get_key_factory m n' = Some f' /\
     fails_as n (key_data_from_seed f s) a /\ fails_as n' (key_data_from_seed f' s) b).
Proof. exact create_unordered. Qed.
Print Assumptions C56_create.

(** C56: opening. *)
Theorem C56_open :
  forall P : prims,
  prims_ok P ->
  forall (C : data_config) (o o' : order) (m : manager) (data : bytes) (pw : str),
  order_ok o ->
  order_ok o' ->
  manager_ok m ->
  let a := keychain_from_data P C o m data pw in
  let b := keychain_from_data P C o' m data pw in
  (exists kc : Keychain, a = Ok kc /\ b = Ok kc) \/
  (exists e : kc_error, a = Err e /\ b = Err e) \/
  (exists
     (w : wallet) (n : N) (f : KeyFactory) (d : bytes) (n' : N) (f' : KeyFactory)
   (d' : bytes),
     keychain_data_from_bytes P C data pw = Ok w /\
     get n (w_keys w) = Some d /\
     get_key_factory m n = Some f /\
     get n' (w_keys w) = Some d' /\
     get_key_factory m n' = Some f' /\
     fails_as n (key_from_data f d) a /\ fails_as n' (key_from_data f' d') b).
Proof. exact open_unordered. Qed.
Print Assumptions C56_open.

(** C56: adding a network. *)
Theorem C56_add :
  forall P : prims,
  prims_ok P ->
  forall (C : data_config) (o o' : order) (m : manager) (data : bytes)
    (pw : str) (n : N) (r : rng),
  order_ok o ->
  order_ok o' ->
  manager_ok m ->
  let a := add_network P C o m data pw n r in
  let b := add_network P C o' m data pw n r in
  (exists (w : wallet) (data1 data2 : bytes) (r1 r2 : rng),
     a = Ok (data1, r1) /\
     b = Ok (data2, r2) /\
     stored P pw w data1 /\ stored P pw w data2 /\ (forall i : nat, r1 i = r2 i)) \/
  (forall x : bytes * rng, a <> Ok x) /\ a = b.
Proof. exact add_unordered. Qed.
Print Assumptions C56_add.

(** C56: backup. *)
Theorem C56_backup :
  forall P : prims,
  prims_ok P ->
  forall (C : data_config) (o o' : order) (data : bytes) (pw : str),
  order_ok o ->
  order_ok o' ->
  (exists l l' : list (N * bytes),
     get_keys_data P C o data pw = Ok l /\
     get_keys_data P C o' data pw = Ok l' /\ Permutation l l') \/
  (exists e : kc_error,
     get_keys_data P C o data pw = Err e /\ get_keys_data P C o' data pw = Err e).
Proof. exact backup_unordered. Qed.
Print Assumptions C56_backup.

Example C56_case :
  get_keys_data toy C33_config sorted_order case_data (lit "pw")
  <> get_keys_data toy C33_config reverse_order case_data (lit "pw") /\
  keychain_data_from_seed toy sorted_order sorted_order case_manager case_seed (lit "pw") case_rng
  <> keychain_data_from_seed toy sorted_order reverse_order case_manager case_seed (lit "pw") case_rng /\
  keychain_data_from_seed toy_left sorted_order sorted_order
    (match manager_new toy_left with Ok m => m | _ => case_manager end) (repeat x08 64) (lit "pw") case_rng
  = Err (KeyError (2 ^ 31) (key_of_secp SInvalidSecretKey)) /\
  keychain_data_from_seed toy_left reverse_order sorted_order
    (match manager_new toy_left with Ok m => m | _ => case_manager end) (repeat x08 64) (lit "pw") case_rng
  = Err (KeyError (2 ^ 31 + 60) (key_of_secp SInvalidSecretKey)).
Proof.
  split; [|split; [|split]].
  - vm_compute. discriminate.
  - intros H.
    assert (of_be (made (keychain_data_from_seed toy sorted_order sorted_order case_manager case_seed (lit "pw") case_rng))
      =? of_be (made (keychain_data_from_seed toy sorted_order reverse_order case_manager case_seed (lit "pw") case_rng))
      = false) as E by (vm_compute; reflexivity).
    rewrite H, N.eqb_refl in E. discriminate E.
  - vm_compute. reflexivity.
  - vm_compute. reflexivity.
Qed.

(** A wallet whose Cardano key has 97 bytes. *)
Definition long_case : bytes * rng :=
  encrypt toy (envelope 2 (wallet_text (seed_wallet case_seed [(2 ^ 31 + 1815, repeat x00 97)])
                             [(2 ^ 31 + 1815, repeat x00 97)])) (lit "pw") case_rng.

(** C58.  Built-in managers: the only panic, in opening. *)
Theorem C58_panics :
  forall P : prims,
  prims_ok P ->
  forall (C : data_config) (ns : str) (m : manager),
  with_networks P ns = Ok m ->
  (forall (o1 o2 : order) (seed : option bytes) (pw : str) (mn : option str)
     (lang : option Language) (r : rng),
   order_ok o1 ->
   order_ok o2 ->
   new_keychain_data P o1 o2 m seed pw mn lang r <> Panic /\
   new_keychain_data P o1 o2 m seed pw mn lang r <> Undef) /\
  (forall (o : order) (data : bytes) (pw : str) (n : N) (r : rng),
   order_ok o ->
   add_network P C o m data pw n r <> Panic /\ add_network P C o m data pw n r <> Undef) /\
  (forall (o : order) (data : bytes) (pw : str),
   order_ok o ->
   keychain_from_data P C o m data pw <> Undef /\
   (keychain_from_data P C o m data pw = Panic ->
    In (2 ^ 31 + 1815) ns /\
    (exists (w : wallet) (d : bytes),
       keychain_data_from_bytes P C data pw = Ok w /\
       get (2 ^ 31 + 1815) (w_keys w) = Some d /\ (96 < List.length d)%nat))) /\
  (forall (o : order) (data : bytes) (pw : str) (w : wallet) (d : bytes),
   order_ok o ->
   keychain_data_from_bytes P C data pw = Ok w ->
   In (2 ^ 31 + 1815) ns ->
   get (2 ^ 31 + 1815) (w_keys w) = Some d ->
   (96 < List.length d)%nat ->
   (forall (n : N) (f : KeyFactory) (d' : bytes),
    n <> 2 ^ 31 + 1815 ->
    get n (w_keys w) = Some d' ->
    get_key_factory m n = Some f -> exists K : Key, key_from_data f d' = Ok K) ->
   keychain_from_data P C o m data pw = Panic).
Proof. exact builtin_calm. Qed.
Print Assumptions C58_panics.

Example C58_case :
  keychain_from_data toy C33_config sorted_order case_manager (fst long_case) (lit "pw") = Panic.
Proof. vm_compute. reflexivity. Qed.

(** C58: opening arbitrary data never panics - false. *)
Theorem C58_opening_never_panics_refuted :
  exists (P : prims) (C : data_config) (o : order) (m : manager) (data : bytes) (pw : str),
    prims_ok P /\ order_ok o /\ manager_new P = Ok m /\ keychain_from_data P C o m data pw = Panic.
Proof.
  exists toy, C33_config, sorted_order, case_manager, (fst long_case), (lit "pw").
  exact (conj toy_ok (conj sorted_order_ok (conj eq_refl C58_case))).
Qed.
Print Assumptions C58_opening_never_panics_refuted.
