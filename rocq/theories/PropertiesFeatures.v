(** C69: builds with some of the networks. *)
From Coq Require Import Strings.String.
From Verif Require Import Base Str Prims Dict Errors FMap FMapFacts Data Keys Manager ManagerSpec InteropSpec
  Features FeatureSpec FeatureFacts Toy PropertiesData PropertiesManager PropertiesHistory.
Open Scope list_scope.

(** C69.  [Network::all] lists each network of the build once, in the order of
    its factories. *)
Theorem C69_all : forall (P : prims) (F : features),
  List.map f_network (built_networks P F) = built_network_all F /\
  NoDup (built_network_all F) /\
  forall n, In n (built_network_all F) <-> built F n.
Proof. exact built_table. Qed.
Print Assumptions C69_all.

(** C69.  A manager of a build is the manager that a build with all networks
    makes when it is asked for the networks of the smaller build only. *)
Theorem C69_restricted : forall (P : prims) (F : features) (ns ns' : list N),
  (forall n, In n ns' <-> In n ns /\ built F n) ->
  built_with_networks P F ns = with_networks P ns'.
Proof. exact built_restricted. Qed.
Print Assumptions C69_restricted.

Theorem C69_managers : forall (P : prims) (F : features) (ns : list N),
  (forall m, built_with_networks P F ns = Ok m -> manager_ok m /\
     forall n f, get_key_factory m n = Some f <-> In n ns /\ built F n /\ builtin_factory P n f) /\
  (twelve_words F ns -> exists m, built_with_networks P F ns = Ok m /\ m_seed_size m = 128) /\
  (~ twelve_words F ns -> In (2 ^ 31 + 1815) ns -> with_cardano F = true ->
     exists m, built_with_networks P F ns = Ok m /\ m_seed_size m = 96) /\
  ((forall n, In n ns -> ~ built F n) ->
     built_with_networks P F ns = Err (CantCalculateSeedSize 0 usize_max)) /\
  built_new P F = built_with_networks P F (built_network_all F).
Proof. exact built_managers. Qed.
Print Assumptions C69_managers.

(** C69.  The default features. *)
Theorem C69_default : forall P : prims,
  built_networks P default_features = all_networks P /\
  built_network_all default_features = network_all /\
  built_new P default_features = manager_new P /\
  forall ns, built_with_networks P default_features ns = with_networks P ns.
Proof. exact built_default. Qed.
Print Assumptions C69_default.

(** C69.  The header of the C library defines exactly the macros of the features
    it is built with. *)
Theorem C69_header : forall (F : features) (backup : bool) (name : bytes),
  defines (config_header F backup) name <->
  (name = blit "WITH_FEATURE_CARDANO" /\ with_cardano F = true) \/
  (name = blit "WITH_FEATURE_ETHEREUM" /\ with_ethereum F = true) \/
  (name = blit "WITH_FEATURE_BITCOIN" /\ with_bitcoin F = true) \/
  (name = blit "WITH_FEATURE_BACKUP" /\ backup = true).
Proof. exact header_defines. Qed.
Print Assumptions C69_header.
Example C69_header_case :
  config_header {| with_cardano := false; with_ethereum := true; with_bitcoin := false |} true
  = blit "/* Library built with these features: */" ++ [x0a; x0a] ++
    blit "#define WITH_FEATURE_ETHEREUM" ++ [x09] ++ blit "1" ++ [x0a] ++
    blit "#define WITH_FEATURE_BACKUP" ++ [x09; x09] ++ blit "1" ++ [x0a].
Proof. reflexivity. Qed.

(** C69.  A network that the program which made a wallet did not have is added
    by another build: from a phrase this works exactly between programs with
    phrases of the same length. *)
Theorem C69_phrase_across : forall (P : prims) (C : data_config), prims_ok P ->
  forall (F G : features) (ns ns' : list N) (m m' : manager) (o1 o2 o : order) (t : str)
    (lang : option Language) (pw : str) (r r' : rng) (x : bytes * rng) (n : N) (f : KeyFactory),
  built_with_networks P F ns = Ok m -> built_with_networks P G ns' = Ok m' ->
  order_ok o1 -> order_ok o2 -> order_ok o ->
  keychain_data_from_mnemonic P o1 o2 m t pw lang r = Ok x ->
  get_key_factory m n = None -> get_key_factory m' n = Some f ->
  ((twelve_words F ns <-> twelve_words G ns') ->
     (usable_for P [n] (bip39_seed P t) -> exists x', add_network P C o m' (fst x) pw n r' = Ok x') /\
     (~ usable_for P [n] (bip39_seed P t) ->
        add_network P C o m' (fst x) pw n r' = Err (KeyError n (key_of_secp SInvalidSecretKey)))) /\
  (~ twelve_words F ns -> twelve_words G ns' ->
     add_network P C o m' (fst x) pw n r' = Err (MnemonicError (MnemonicToShort 9 12))) /\
  (twelve_words F ns -> ~ twelve_words G ns' ->
     add_network P C o m' (fst x) pw n r' = Err (MnemonicError (MnemonicToLong 12 9))).
Proof. exact added_across. Qed.
Print Assumptions C69_phrase_across.

(** C69.  From a seed it always works. *)
Theorem C69_seed_across : forall (P : prims) (C : data_config), prims_ok P ->
  forall (F G : features) (ns ns' : list N) (m m' : manager) (o1 o2 o : order) (s : bytes)
    (pw : str) (r r' : rng) (x : bytes * rng) (n : N) (f : KeyFactory),
  built_with_networks P F ns = Ok m -> built_with_networks P G ns' = Ok m' ->
  order_ok o1 -> order_ok o2 -> order_ok o ->
  keychain_data_from_seed P o1 o2 m s pw r = Ok x ->
  get_key_factory m n = None -> get_key_factory m' n = Some f ->
  (usable_for P [n] s -> exists x', add_network P C o m' (fst x) pw n r' = Ok x') /\
  (~ usable_for P [n] s ->
     add_network P C o m' (fst x) pw n r' = Err (KeyError n (key_of_secp SInvalidSecretKey))).
Proof. exact added_across_seed. Qed.
Print Assumptions C69_seed_across.

(** A build for Cardano, one for Bitcoin and Ethereum and the default one; a
    build without networks makes no manager. *)
Definition C69_cardano : features :=
  {| with_cardano := true; with_ethereum := false; with_bitcoin := false |}.
Definition C69_others : features :=
  {| with_cardano := false; with_ethereum := true; with_bitcoin := true |}.

Example C69_case :
  built_new toy C69_cardano = Ok ada_manager /\
  built_with_networks toy C69_cardano [2 ^ 31; 2 ^ 31 + 1815] = Ok ada_manager /\
  ~ twelve_words C69_cardano [2 ^ 31; 2 ^ 31 + 1815] /\ twelve_words C69_others [2 ^ 31] /\
  built_new toy {| with_cardano := false; with_ethereum := false; with_bitcoin := false |}
  = Err (CantCalculateSeedSize 0 usize_max) /\
  usable_for toy [2 ^ 31] (bip39_seed toy nine_words) /\
  (let* m := built_with_networks toy C69_others [2 ^ 31] in
   let* m' := built_new toy C69_cardano in
   let* x := keychain_data_from_mnemonic toy sorted_order reverse_order m (join [0x20] (repeat (lit "zoo") 12))
               (lit "pw") None case_rng in
   add_network toy C33_config sorted_order m' (fst x) (lit "pw") (2 ^ 31 + 1815) case_rng)
  = Err (MnemonicError (MnemonicToLong 12 9)) /\
  exists x,
  (let* m := built_with_networks toy C69_others [2 ^ 31] in
   let* m' := built_new toy default_features in
   let* x := keychain_data_from_mnemonic toy sorted_order reverse_order m (join [0x20] (repeat (lit "zoo") 12))
               (lit "pw") None case_rng in
   add_network toy C33_config sorted_order m' (fst x) (lit "pw") (2 ^ 31 + 1815) case_rng) = Ok x.
Proof.
  split; [reflexivity|]. split; [reflexivity|].
  split; [intros (n & [->| ->] & Hin & [[E _]|[[E B]|[E B]]]); discriminate|].
  split; [exists (2 ^ 31); split; [now left|]; split; [now left|]; right; right; split; reflexivity|].
  split; [reflexivity|].
  split; [intros _; split; vm_compute; reflexivity|].
  split; [vm_compute; reflexivity|]. eexists. vm_compute. reflexivity.
Qed.
