(** Property C79: networks of a caller's own code. *)
From Coq Require Import Strings.String.
From Verif Require Import Base Str Prims Bip39 Bip39Spec Dict KeyPath Errors FMap FMapFacts Crypt CryptSpec
  Data DataSpec Keys Mnemonic Keychain Manager ManagerSpec Custom CustomSpec CustomFacts PropertiesData PropertiesManager Toy.
Open Scope list_scope.
Local Strategy 1000 [XPrv.derive XPrv.derive_loop XPrv.derive_step XPrv.xprv_from_data].

(** C79.  Making a manager: every factory is asked once for its sizes and then
    once for its network, in the order given. *)
Theorem C79_built : forall W, world_ok W -> forall (fs : list nat) (h : list event),
  let out := c_with_factories W fs h in built W h fs (fst out) (snd out).
Proof. exact builds. Qed.
Print Assumptions C79_built.

(** Creating a wallet: without a secret nothing is asked; otherwise every
    registered factory is asked for its data and then for its network, and the
    wallet has for each network answered the last data given for it. *)
Theorem C79_created : forall W, world_ok W -> forall P, prims_ok P ->
  forall o1 o2 (m : cmanager) seed pw mn lang (r : rng) (h : list event), order_ok o1 -> order_ok o2 ->
  let out := c_new_keychain_data W P o1 o2 m seed pw mn lang r h in
  ((forall s, ~ c_secret P m seed mn lang s) ->
     exists e, out = (Err e, h) /\
       forall fm o1' o2', m_seed_size fm = cm_seed_size m ->
         new_keychain_data P o1' o2' fm seed pw mn lang r = Err e) /\
  (forall s, c_secret P m seed mn lang s ->
     exists fs got h', Permutation fs (List.map snd (cm_factories m)) /\ collected W s h fs got h' /\
       match got with
       | Ok ds => exists data rest keys, out = (Ok (data, rest), h' ++ [Drawn 32; Drawn 12]) /\
           filled ds keys /\
           stored P pw {| w_seed := seed; w_mnemonic := mn; w_dictionary := lang; w_keys := keys |} data /\
           (forall i, rest i = r (44 + i)%nat)
       | Err e => out = (Err e, h')
       | Panic => out = (Panic, h')
       | Undef => False
       end).
Proof. exact creates_all. Qed.
Print Assumptions C79_created.

(** The two ways to create one, from a seed and from a phrase, in English
    unless another language is given. *)
Theorem C79_creation_forms : forall W P o1 o2 (m : cmanager) pw (r : rng),
  (forall seed, c_keychain_data_from_seed W P o1 o2 m seed pw r
     = c_new_keychain_data W P o1 o2 m (Some seed) pw None None r) /\
  (forall mn lang, c_keychain_data_from_mnemonic W P o1 o2 m mn pw lang r
     = c_new_keychain_data W P o1 o2 m None pw (Some mn) (Some (or_english lang)) r).
Proof. exact creation_forms. Qed.
Print Assumptions C79_creation_forms.

(** Opening a wallet: only what the password opens reaches the caller's code;
    the factory registered for each entry makes the key, which is filed under
    the network it answers itself. *)
Theorem C79_opened : forall W, world_ok W -> forall P, prims_ok P ->
  forall C o (m : cmanager) data pw (h : list event), order_ok o ->
  let out := c_keychain_from_data W P C o m data pw h in
  match keychain_data_from_bytes P C data pw with
  | Ok w => exists entries items, Permutation entries (w_keys w) /\ registered m entries items /\
              opened W h items (fst out) (snd out)
  | Err e => out = (Err e, h)
  | Panic | Undef => False
  end.
Proof. exact opens_all. Qed.
Print Assumptions C79_opened.

(** Adding a network asks the one factory registered for it for data, once,
    and only when nothing else is wrong. *)
Theorem C79_added : forall W, world_ok W -> forall P, prims_ok P ->
  forall C o (m : cmanager) data pw n (r : rng) (h : list event), order_ok o ->
  let out := c_add_network W P C o m data pw n r h in
  match get n (cm_factories m), keychain_data_from_bytes P C data pw with
  | None, _ => out = (Err (NetworkIsNotSupported n), h)
  | Some f, Ok w =>
    match get n (w_keys w) with
    | Some _ => out = (Err (KeyAlreadyExist n), h)
    | None =>
      ((forall s, ~ c_secret P m (w_seed w) (w_mnemonic w) (w_dictionary w) s) -> exists e, out = (Err e, h)) /\
      (forall s, c_secret P m (w_seed w) (w_mnemonic w) (w_dictionary w) s ->
        match W h (AskData f s) with
        | Ok d => exists data' rest w', out = (Ok (data', rest), h ++ [Asked (AskData f s); Drawn 32; Drawn 12]) /\
            extended w n d w' /\ stored P pw w' data' /\ (forall i, rest i = r (44 + i)%nat)
        | Err e => out = (Err (KeyError n e), h ++ [Asked (AskData f s)])
        | Panic => out = (Panic, h ++ [Asked (AskData f s)])
        | Undef => False
        end)
    end
  | Some f, Err e => out = (Err e, h)
  | Some f, _ => False
  end.
Proof. exact adds_all. Qed.
Print Assumptions C79_added.

(** Using a keychain: one question to the key of the network, or none. *)
Theorem C79_keychain : forall W (kc : fmap key_name) n (h : list event),
  match get n kc with
  | None =>
    (forall path, c_kc_pub_key W kc n path h = (Err (KeyDoesNotExist n), h)) /\
    (forall data path, c_kc_sign W kc n data path h = (Err (KeyDoesNotExist n), h)) /\
    (forall data sig path, c_kc_verify W kc n data sig path h = (Err (KeyDoesNotExist n), h))
  | Some k =>
    (forall path, c_kc_pub_key W kc n path h
       = (map_err (KeyError n) (W h (AskPub k path)), h ++ [Asked (AskPub k path)])) /\
    (forall data path, c_kc_sign W kc n data path h
       = (map_err (KeyError n) (W h (AskSign k data path)), h ++ [Asked (AskSign k data path)])) /\
    (forall data sig path, c_kc_verify W kc n data sig path h
       = (map_err (KeyError n) (W h (AskVerify k data sig path)), h ++ [Asked (AskVerify k data sig path)]))
  end.
Proof. exact keychain_asks. Qed.
Print Assumptions C79_keychain.

(** Who learns what: the seed goes only to registered factories, a stored key
    only to the factory of its network; nothing is asked once random bytes are
    drawn, and none are drawn unless the operation succeeds.  A panic is always
    that of the method called last. *)
Theorem C79_build_asks : forall W, world_ok W -> forall fs h,
  let out := c_with_factories W fs h in
  asks_only (fun q => exists f, In f fs /\ (q = AskSize f \/ q = AskNetwork f)) h out /\ panics_with W h out.
Proof. exact build_asks. Qed.
Print Assumptions C79_build_asks.

Theorem C79_create_asks : forall W, world_ok W -> forall P, prims_ok P ->
  forall o1 o2 (m : cmanager) seed pw mn lang (r : rng) h, order_ok o1 -> order_ok o2 ->
  let out := c_new_keychain_data W P o1 o2 m seed pw mn lang r h in
  asks_only (fun q => exists f s, In f (List.map snd (cm_factories m)) /\ c_secret P m seed mn lang s /\
                        (q = AskData f s \/ q = AskNetwork f)) h out /\
  panics_with W h out.
Proof. exact create_asks. Qed.
Print Assumptions C79_create_asks.

Theorem C79_open_asks : forall W, world_ok W -> forall P, prims_ok P ->
  forall C o (m : cmanager) data pw h, order_ok o ->
  let out := c_keychain_from_data W P C o m data pw h in
  asks_only (fun q =>
    (exists w n f d, keychain_data_from_bytes P C data pw = Ok w /\ get n (cm_factories m) = Some f /\
       get n (w_keys w) = Some d /\ q = AskKey f d) \/
    exists k, q = AskKeyNetwork k) h out /\
  panics_with W h out.
Proof. exact open_asks. Qed.
Print Assumptions C79_open_asks.

Theorem C79_add_asks : forall W, world_ok W -> forall P, prims_ok P ->
  forall C o (m : cmanager) data pw n (r : rng) h, order_ok o ->
  let out := c_add_network W P C o m data pw n r h in
  asks_only (fun q => exists w f s, keychain_data_from_bytes P C data pw = Ok w /\ get n (w_keys w) = None /\
    get n (cm_factories m) = Some f /\
    c_secret P m (w_seed w) (w_mnemonic w) (w_dictionary w) s /\ q = AskData f s) h out /\
  panics_with W h out.
Proof. exact add_asks. Qed.
Print Assumptions C79_add_asks.

(** Encryption and entropy with a caller's own source take exactly the bytes
    it answers: 32 and then 12, or those of the entropy's type. *)
Theorem C79_encrypt : forall W, world_ok W -> forall P, prims_ok P -> forall d pw h,
  match W h (AskFill 32) with
  | Ok salt =>
    match W (h ++ [Asked (AskFill 32)]) (AskFill 12) with
    | Ok nonce => exists out, c_encrypt W P d pw h = (Ok out, h ++ [Asked (AskFill 32); Asked (AskFill 12)]) /\
        is_sealed P pw salt nonce d out /\ (d <> [] -> decrypt P out pw = Ok d)
    | _ => c_encrypt W P d pw h = (Panic, h ++ [Asked (AskFill 32); Asked (AskFill 12)])
    end
  | _ => c_encrypt W P d pw h = (Panic, h ++ [Asked (AskFill 32)])
  end.
Proof. exact encrypts. Qed.
Print Assumptions C79_encrypt.

Theorem C79_generate : forall W t h, world_ok W ->
  let n := (to_key_size t / 8)%nat in
  match W h (AskFill n) with
  | Ok bs => c_generate W t h = (Ok {| e_type := t; e_bytes := bs |}, h ++ [Asked (AskFill n)]) /\
      List.length bs = n
  | _ => c_generate W t h = (Panic, h ++ [Asked (AskFill n)])
  end.
Proof. exact generates. Qed.
Print Assumptions C79_generate.

(** Objects that always answer as functions do behave as the managers and
    keychains of C35-C48, and there are such objects for any factories. *)
Theorem C79_functions : forall W (P : prims) C,
  (forall fs Fs h, Forall2 (plays W) fs Fs ->
     same_result (plays_manager W) (fst (c_with_factories W fs h)) (with_factories Fs)) /\
  (forall m m', plays_manager W m m' ->
     (forall o1, order_ok o1 -> exists o1', order_ok o1' /\ forall o2 seed pw mn lang r h,
        fst (c_new_keychain_data W P o1 o2 m seed pw mn lang r h) = new_keychain_data P o1' o2 m' seed pw mn lang r) /\
     (forall o data pw h,
        same_result (same_map (plays_key W)) (fst (c_keychain_from_data W P C o m data pw h))
          (keychain_from_data P C o m' data pw)) /\
     (forall o data pw n r h, fst (c_add_network W P C o m data pw n r h) = add_network P C o m' data pw n r)) /\
  (forall kc kc' n h, same_map (plays_key W) kc kc' ->
     (forall path, fst (c_kc_pub_key W kc n path h) = kc_pub_key kc' n path) /\
     (forall data path, fst (c_kc_sign W kc n data path h) = kc_sign kc' n data path) /\
     (forall data sig path, fst (c_kc_verify W kc n data sig path h) = kc_verify kc' n data sig path)).
Proof.
  exact (fun W P C => conj (plays_build W) (conj (fun m m' H => conj (fun o Ho => plays_create W P m m' o H Ho)
    (conj (fun o data pw h => plays_open W P C m m' o data pw h H) (fun o data pw n r h => plays_add W P C m m' o data pw n r h H)))
    (plays_keychain W))).
Qed.
Print Assumptions C79_functions.

Theorem C79_functions_exist : forall Fs : list KeyFactory,
  exists W, Forall2 (plays W) (seq 0 (List.length Fs)) Fs.
Proof. exact plays_exist. Qed.
Print Assumptions C79_functions_exist.

(** Caller's code: the factory [f] is of network [f + 5] until it has been
    asked for data, and then [late f]; number 2 has no data, number 3 panics. *)
Definition is_data (e : event) : bool := match e with Asked (AskData _ _) => true | _ => false end.
Definition case_world (late : nat -> N) : world := fun h q =>
  match q return res (fault q) (value q) with
  | AskSize f => Ok {| ss_min := 128; ss_max := 512 + N.of_nat (f mod 8) |}
  | AskNetwork f => Ok (if existsb is_data h then late f mod 100 else N.of_nat (f mod 8) + 5)
  | AskKey f d => if Nat.eqb (List.length d) 2 then Ok (f, d) else Err (InvalidKeySize (N.of_nat (List.length d)) 2)
  | AskData f s => match f with
                   | 2%nat => Err (SignError (BoxOther (lit "no")))
                   | 3%nat => Panic
                   | _ => Ok [n2b (N.of_nat f); nth 0 s x00]
                   end
  | AskKeyNetwork (f, _) => Ok (late f mod 100)
  | AskPub (f, d) _ => Ok (n2b (N.of_nat f) :: d)
  | AskSign _ data _ => Ok data
  | AskVerify _ _ _ _ => Ok true
  | AskFill len => Ok (repeat x07 len)
  end.

Lemma ok_same {E A} (x y : A) : @Ok E A x = Ok y -> x = y.
Proof. congruence. Qed.

Lemma case_world_ok late : world_ok (case_world late).
Proof.
  assert (forall f, (f mod 8 < 8)%nat) as H8 by (intros f; now apply Nat.mod_upper_bound).
  assert (forall f, late f mod 100 < 100) as H100 by (intros f; now apply N.mod_upper_bound).
  split; unfold case_world.
  - intros h f s E. apply ok_same in E. subst. cbn [ss_min ss_max]. unfold is_usize, usize_max. specialize (H8 f). lia.
  - intros h f n E. apply ok_same in E. subst. unfold is_u32, u32_max. specialize (H8 f). specialize (H100 f).
    destruct (existsb is_data h); lia.
  - intros h [f d] n E. apply ok_same in E. subst. unfold is_u32, u32_max. specialize (H100 f). lia.
  - intros h len bs E. apply ok_same in E. subst. apply repeat_length.
  - intros h q. destruct q as [f|f|f d|f s|[f d]|[f d] p|k d p|k d s p|n]; try discriminate.
    + destruct (Nat.eqb _ _); discriminate.
    + destruct f as [|[|[|[|f]]]]; discriminate.
Qed.

(** Building, creating, opening and extending with well-behaved factories: all
    that is asked. *)
Definition steady (f : nat) : N := N.of_nat f + 5.
Definition case_custom : cmanager := {| cm_factories := [(5, 0%nat); (6, 1%nat)]; cm_seed_size := 128 |}.
Definition case_custom_data : bytes :=
  made (fst (c_keychain_data_from_seed (case_world steady) toy reverse_order sorted_order
               {| cm_factories := [(5, 0%nat)]; cm_seed_size := 128 |} case_seed (lit "pw") case_rng [])).
Example C79_case :
  let W := case_world steady in
  c_with_factories W [1%nat; 0%nat] []
  = (Ok case_custom, List.map Asked [AskSize 1; AskSize 0; AskNetwork 1; AskNetwork 0]) /\
  snd (c_keychain_data_from_seed W toy reverse_order sorted_order case_custom case_seed (lit "pw") case_rng [])
  = [Asked (AskData 1 case_seed); Asked (AskNetwork 1); Asked (AskData 0 case_seed); Asked (AskNetwork 0); Drawn 32; Drawn 12] /\
  (let added := c_add_network W toy C33_config sorted_order case_custom case_custom_data (lit "pw") 6 case_rng [] in
   snd added = [Asked (AskData 1 case_seed); Drawn 32; Drawn 12] /\
   c_keychain_from_data W toy C33_config reverse_order case_custom (made (fst added)) (lit "pw") []
   = (Ok [(5, (0%nat, [x00; x11])); (6, (1%nat, [x01; x11]))],
      [Asked (AskKey 1 [x01; x11]); Asked (AskKey 0 [x00; x11]);
       Asked (AskKeyNetwork (1%nat, [x01; x11])); Asked (AskKeyNetwork (0%nat, [x00; x11]))])) /\
  c_keychain_from_data W toy C33_config sorted_order case_custom case_custom_data (lit "PW") [] = (Err WrongPassword, []).
Proof. repeat split; vm_compute; reflexivity. Qed.

(** Failing factories. *)
Example C79_failing :
  let W := case_world steady in
  let m fs := {| cm_factories := fs; cm_seed_size := 128 |} in
  let create o fs := c_keychain_data_from_seed W toy o sorted_order (m fs) case_seed (lit "pw") case_rng [] in
  create sorted_order [(5, 0%nat); (7, 2%nat); (8, 3%nat)]
  = (Err (KeyError 7 (SignError (BoxOther (lit "no")))),
     List.map Asked [AskData 0 case_seed; AskNetwork 0; AskData 2 case_seed; AskNetwork 2]) /\
  create reverse_order [(5, 0%nat); (7, 2%nat); (8, 3%nat)] = (Panic, [Asked (AskData 3 case_seed)]) /\
  c_add_network W toy C33_config sorted_order (m [(7, 2%nat)]) case_custom_data (lit "pw") 7 case_rng []
  = (Err (KeyError 7 (SignError (BoxOther (lit "no")))), [Asked (AskData 2 case_seed)]) /\
  c_keychain_data_from_seed W toy sorted_order sorted_order case_custom [x00] (lit "pw") case_rng []
  = (Err (KInvalidSeedSize 1), []).
Proof. repeat split; vm_compute; reflexivity. Qed.

Example C79_fill :
  fst (c_encrypt (case_world steady) toy [x01] (lit "pw") []) = Ok (fst (encrypt toy [x01] (lit "pw") (fun _ => x07))) /\
  c_generate (case_world steady) Type12Words [] = (Ok {| e_type := Type12Words; e_bytes := repeat x07 16 |}, [Asked (AskFill 16)]).
Proof. split; vm_compute; reflexivity. Qed.

(** A wallet that a manager has just made may open, with the same manager, to
    a keychain without any network: its factories' answers are not compared. *)
Theorem C79_networks_refuted : exists W P C fs m h1 data rest h2 h3,
  world_ok W /\ prims_ok P /\ fs <> [] /\
  c_with_factories W fs [] = (Ok m, h1) /\
  c_keychain_data_from_seed W P sorted_order sorted_order m case_seed (lit "pw") case_rng h1 = (Ok (data, rest), h2) /\
  c_keychain_from_data W P C sorted_order m data (lit "pw") h2 = (Ok [], h3).
Proof.
  exists (case_world (fun _ => 9)), toy, C33_config, [0%nat; 1%nat]. do 6 eexists.
  split; [apply case_world_ok|]. split; [exact toy_ok|]. split; [discriminate|].
  split; [vm_compute; reflexivity|]. split; [vm_compute; reflexivity|]. vm_compute. reflexivity.
Qed.
Print Assumptions C79_networks_refuted.

(** Which key a new wallet has may depend on the order of a hash map, when
    factories answer the same number as they are asked again. *)
Theorem C79_order_refuted : exists W P m o o' w w' data data' rest rest' h h',
  world_ok W /\ prims_ok P /\ order_ok o /\ order_ok o' /\
  c_keychain_data_from_seed W P o sorted_order m case_seed (lit "pw") case_rng [] = (Ok (data, rest), h) /\
  c_keychain_data_from_seed W P o' sorted_order m case_seed (lit "pw") case_rng [] = (Ok (data', rest'), h') /\
  keychain_data_from_bytes P C33_config data (lit "pw") = Ok w /\
  keychain_data_from_bytes P C33_config data' (lit "pw") = Ok w' /\
  w_keys w <> w_keys w'.
Proof.
  exists (case_world (fun _ => 9)), toy, case_custom, sorted_order, reverse_order. do 8 eexists.
  split; [apply case_world_ok|]. split; [exact toy_ok|]. split; [exact sorted_order_ok|]. split; [exact reverse_order_ok|].
  split; [vm_compute; reflexivity|]. split; [vm_compute; reflexivity|].
  split; [vm_compute; reflexivity|]. split; [vm_compute; reflexivity|]. cbn. discriminate.
Qed.
Print Assumptions C79_order_refuted.
