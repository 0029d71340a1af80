(** C67: wallets interoperate with other wallets that follow the standards. *)
From Coq Require Import Strings.String.
From Verif Require Import Base Str Prims Dict Bip39 KeyPath KeyPathSpec Errors FMap FMapFacts Crypt Data Keys KeysSpec KeysFacts
  XPrv XPrvSpec Keychain Manager ManagerSpec HistorySpec LifeFacts InteropSpec InteropFacts Toy
  PropertiesData PropertiesManager.
Open Scope list_scope.

(** C67 for phrases. *)
Theorem C67_phrase : forall (P : prims) (C : data_config) ns o1 o2 (m : manager) (t : str)
    (lang : option Language) pw r x (l : list (order * op)),
  prims_ok P -> with_networks P ns = Ok m -> order_ok o1 -> order_ok o2 ->
  keychain_data_from_mnemonic P o1 o2 m t pw lang r = Ok x ->
  Forall (fun x : order * op => order_ok (fst x) /\ op_ok (snd x) /\ builtin_op P (snd x)) l ->
  follows pw (List.map snd l) ->
  interoperable P C (bip39_seed P t) ns (fst (perform_all P C l x)) (final_password pw (List.map snd l)).
Proof. intros P C ns o1 o2 m t lang pw r x l HP. exact (interop_phrase P HP C ns o1 o2 m t lang pw r x l). Qed.
Print Assumptions C67_phrase.

(** C67 for seeds. *)
Theorem C67_seed : forall (P : prims) (C : data_config) ns o1 o2 (m : manager) (s : bytes)
    pw r x (l : list (order * op)),
  prims_ok P -> with_networks P ns = Ok m -> order_ok o1 -> order_ok o2 ->
  keychain_data_from_seed P o1 o2 m s pw r = Ok x ->
  Forall (fun x : order * op => order_ok (fst x) /\ op_ok (snd x) /\ builtin_op P (snd x)) l ->
  follows pw (List.map snd l) ->
  interoperable P C s ns (fst (perform_all P C l x)) (final_password pw (List.map snd l)).
Proof. intros P C ns o1 o2 m s pw r x l HP. exact (interop_seed P HP C ns o1 o2 m s pw r x l). Qed.
Print Assumptions C67_seed.

(** C67 with wrong passwords in the history, when no data made by it decrypts
    under two of the passwords. *)
Theorem C67_wrong_passwords : forall (P : prims) (C : data_config) ns o1 o2 (m : manager) (t : str)
    (lang : option Language) pw r x (l : list (order * op)) pws,
  prims_ok P -> with_networks P ns = Ok m -> order_ok o1 -> order_ok o2 ->
  keychain_data_from_mnemonic P o1 o2 m t pw lang r = Ok x ->
  Forall (fun x : order * op => order_ok (fst x) /\ op_ok (snd x) /\ builtin_op P (snd x) /\
            incl (op_passwords (snd x)) pws) l ->
  In pw pws -> told_apart P C pws l x ->
  exists pw', In pw' pws /\
    (forall x', In x' pws -> x' <> pw' ->
       keychain_data_from_bytes P C (fst (perform_all P C l x)) x' = Err WrongPassword) /\
    interoperable P C (bip39_seed P t) ns (fst (perform_all P C l x)) pw'.
Proof.
  intros P C ns o1 o2 m t lang pw r x l pws HP. exact (interop_wrong P HP C ns o1 o2 m t lang pw r x l pws).
Qed.
Print Assumptions C67_wrong_passwords.

(** A wallet of twelve words with Cardano and Bitcoin, whose password is
    changed and to which Ethereum is added.  BIP-32 defines its Ethereum key at
    m/44'/60'/0'/0/3, and the wallet opens with all three networks. *)
Definition interop_words : str := join [0x20] (repeat (lit "zoo") 12).
Definition interop_data : res kc_error (bytes * rng) :=
  let* m := with_networks toy [2 ^ 31; 2 ^ 31 + 1815] in
  keychain_data_from_mnemonic toy sorted_order reverse_order m interop_words (lit "pw") (Some English) case_rng.
Definition interop_ops : list (order * op) :=
  [(sorted_order, Change (lit "pw") (lit "new")); (reverse_order, Add case_manager (lit "new") (2 ^ 31 + 60));
   (sorted_order, Open case_manager (lit "pw"))].

Example C67_case :
  Forall (fun x : order * op => order_ok (fst x) /\ op_ok (snd x) /\ builtin_op toy (snd x)) interop_ops /\
  follows (lit "pw") (List.map snd interop_ops) /\
  final_password (lit "pw") (List.map snd interop_ops) = lit "new" /\
  let s := bip39_seed toy interop_words in
  (exists y, derives toy (bip32_master toy s) [2 ^ 31 + 44; 2 ^ 31 + 60] y) /\
  (exists z, derives toy (bip32_master toy s) [2 ^ 31 + 44; 2 ^ 31 + 60; 2 ^ 31; 0; 3] z) /\
  (let* x := interop_data in
   let* kc := keychain_from_data toy C33_config reverse_order case_manager
                (fst (perform_all toy C33_config interop_ops x)) (lit "new") in
   Ok (networks sorted_order kc)) = Ok [2 ^ 31; 2 ^ 31 + 60; 2 ^ 31 + 1815].
Proof.
  assert (with_networks toy [2 ^ 31 + 1815; 2 ^ 31 + 60; 2 ^ 31] = Ok case_manager) as Em by reflexivity.
  pose proof (builtin_manager_ok toy _ _ Em) as Hm.
  split; [|split; [|split; [|cbv zeta]]].
  - unfold interop_ops. repeat (constructor; [cbn [fst snd op_ok builtin_op];
      split; [auto using sorted_order_ok, reverse_order_ok|]; split; auto; now eexists; exact Em|]). constructor.
  - repeat split.
  - reflexivity.
  - split; [eexists; apply derivesb_derives; [exact toy_ok|vm_compute; reflexivity]|].
    split; [eexists; apply derivesb_derives; [exact toy_ok|vm_compute; reflexivity]|].
    vm_compute. reflexivity.
Qed.
