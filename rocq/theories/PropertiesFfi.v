(** Properties C49-C54: the C bindings. *)
From Coq Require Import Strings.String.
From Verif Require Import Base Str Prims Bip39 Dict KeyPath Errors FMap FMapFacts Crypt Data DataSpec Keys Mnemonic
  Keychain Manager Features ManagerSpec Display Ffi FfiSpec FfiCallSpec FfiTheorems FfiCallFacts FfiCheck PropertiesData PropertiesManager Toy.
Open Scope list_scope.

(** C49.  Codes are the same exactly for errors of one class; -1 is no error's code. *)
Theorem C49_codes :
  (forall e e' : kc_error,
   error_code (error_type e) = error_code (error_type e') <-> same_class e e') /\
  (forall e : kc_error, error_code (error_type e) <> (-1)%Z) /\
  (forall t : ErrorType, error_code t = (-1)%Z <-> t = EPanic) /\
  (forall t t' : ErrorType, error_code t = error_code t' -> t = t').
Proof. exact codes_classes. Qed.
Print Assumptions C49_codes.

(** C49: the numbers of the C header. *)
Theorem C49_numbers :
  (forall e : kc_error, error_code (error_type e) = class_number e) /\ error_code EPanic = (-1)%Z.
Proof. exact codes_table. Qed.
Print Assumptions C49_numbers.

(** C49: a call that reports -1 has panicked, and a panic is reported as -1. *)
Theorem C49_panic :
  forall (P : prims) (C : data_config) (T : texts) (bd : build) (t : ty) 
    (a : api t) (out err : var) (e : env) (s : store) (h : heap) (b : bool) 
    (s' : store) (h' : heap),
  entry P C T bd a out err e s h = Ok (b, s', h') ->
  b = false -> error_code (e_type (s' TError err)) = (-1)%Z <-> body P C bd a s e h = Panic.
Proof. exact panic_code. Qed.
Print Assumptions C49_panic.

Example C49_case :
  error_code (error_type (KInvalidSeedSize 3)) = error_code (error_type (KInvalidSeedSize 4)) /\
  error_code (error_type (KInvalidSeedSize 3)) <> error_code (error_type (KeyDoesNotExist 3)).
Proof. split; [reflexivity|discriminate]. Qed.

(** A C program: it makes a manager, a wallet and a keychain, uses them, makes
    mistakes, and cleans up. *)
Definition case_texts : texts := {| malformed_text := lit "expected value"; variant_rest := lit ", expected ..." |}.
Definition case_env : env :=
  {| env_o1 := sorted_order; env_o2 := reverse_order; env_rng := case_rng; env_panic := lit "panic" |}.
Definition case_path : KeyPath :=
  {| purpose := 2147483692; coin := 2147483708; account := 2147483648; change := 0; address := 0 |}.
Definition case_program : list step := [
  Call ManagerNew 0 0;
  Call (KeychainDataFromSeed 0 case_seed (blit "pw")) 0 0;
  Call (KeychainFromData 0 case_data (blit "pw")) 0 0;
  Call (KeychainFromData 0 case_data (blit "other")) 1 1;
  Call (PubKey 0 ETHEREUM case_path) 1 2;
  Call (GenerateMnemonic 0 CFrench) 0 3;
  Call (GetKeysData 0 case_data (blit "pw")) 0 4;
  Delete TManager 0;
  Delete TManager 0;
  Call (GenerateMnemonic 0 CFrench) 1 5;
  Call (Sign 0 1 (repeat x00 32) case_path) 3 6;
  Call (KeypathFromString (blit "m/44'/60'/0'/0/7")) 0 7;
  Delete TString 0; Delete TKeychain 0; Delete TData 0; Delete TData 1; Delete TBackup 0].
Definition errors_program : list step := [
  Delete TError 1; Delete TError 5; Delete TError 6; Delete TError 7].
Definition after (l : list step) : Ffi.store * heap :=
  match run toy C33_config case_texts release_build (List.map (pair case_env) l) start with
  | Ok st => st | _ => start
  end.
Definition finished (l : list step) : bool :=
  match run toy C33_config case_texts release_build (List.map (pair case_env) l) start with
  | Ok _ => true | _ => false
  end.
Definition codes (st : Ffi.store * heap) (l : list var) : list (Z * list str) :=
  List.map (fun v => let e := fst st TError v in
    (error_code (e_type e),
     match read (snd st) (e_message e) with
     | Some (BText b) => match of_utf8 b with Some s => [s] | None => [] end | _ => [] end)) l.

(** C50.  A call writes one variable: its result, or the error. *)
Theorem C50_one_output :
  forall (P : prims) (C : data_config) (T : texts) (bd : build) (t : ty) 
    (a : api t) (out err : var) (e : env) (s : store) (h : heap) (b : bool) 
    (s' : store) (h' : heap),
  entry P C T bd a out err e s h = Ok (b, s', h') ->
  b = true /\ (exists x : val t, body P C bd a s e h = Ok (x, h') /\ assigned s t out x s') \/
  b = false /\
  (exists p : val TError,
     assigned s TError err p s' /\
     ((exists ke : kc_error,
         body P C bd a s e h = Err ke /\
         e_type p = error_type ke /\ points_to_text h' (e_message p) (utf8 (show T ke))) \/
      body P C bd a s e h = Panic /\
      e_type p = EPanic /\ points_to_text h' (e_message p) (utf8 (env_panic e)))).
Proof. exact one_output. Qed.
Print Assumptions C50_one_output.

Example C50_case :
  finished case_program = true /\
  codes (after case_program) [0; 1; 2; 3; 4; 5; 6; 7] =
  [(-1, []); (0, [lit "Wrong password"]); (-1, []); (-1, []); (-1, []);
   (-1, [lit "panic"]); (6, [lit "Key for Network(1) doesn't exist"]); (-1, [])]%Z /\
  fst (after case_program) TPath 0 =
  {| purpose := 2147483692; coin := 2147483708; account := 2147483648; change := 0; address := 7 |}.
Proof. split; [vm_compute; reflexivity|]. split; vm_compute; reflexivity. Qed.

(** C51.  A program that respects the contract never has undefined behaviour;
    its handles always describe live memory, each its own. *)
Theorem C51_safe :
  forall P : prims,
  prims_ok P ->
  forall (C : data_config) (T : texts) (bd : build) (l : list (env * step)),
  along P C T bd permitted l start ->
  run P C T bd l start <> Undef /\
  (forall st : store * heap,
   run P C T bd l start = Ok st ->
   exclusive st /\ (forall (t : ty) (v : var), val_ok (snd st) t (fst st t v))).
Proof. exact program_safe. Qed.
Print Assumptions C51_safe.

(** C51: a program that also does not overwrite handles in use can release
    everything. *)
Theorem C51_no_leak :
  forall P : prims,
  prims_ok P ->
  forall (C : data_config) (T : texts) (bd : build) (l : list (env * step))
    (st : store * heap),
  along P C T bd permitted l start ->
  along P C T bd careful l start ->
  run P C T bd l start = Ok st ->
  (forall i : N,
   get i (live (snd st)) <> None -> exists (t : ty) (v : var), In i (refs (snd st) t (fst st t v))) /\
  ((forall (t : ty) (v : var), refs (snd st) t (fst st t v) = []) -> live (snd st) = []).
Proof. exact no_leak. Qed.
Print Assumptions C51_no_leak.

Definition whole_program : list (env * step) := List.map (pair case_env) (case_program ++ errors_program).
Example C51_case :
  along toy C33_config case_texts release_build permitted whole_program start /\
  along toy C33_config case_texts release_build careful whole_program start /\
  finished (case_program ++ errors_program) = true /\
  List.map fst (live (snd (after case_program))) = [11; 10; 3] /\
  next (snd (after case_program)) = 12 /\
  live (snd (after (case_program ++ errors_program))) = [].
Proof.
  assert (env_ok case_env) as He by (split; [exact sorted_order_ok|exact reverse_order_ok]).
  assert (u32_path case_path) as Hp by (repeat split; unfold is_u32, u32_max; cbn; lia).
  assert (Forall args_ok whole_program) as Ha.
  { unfold whole_program, case_program, errors_program. cbn [List.map app].
    repeat (apply Forall_cons; [split; [exact He|try exact I]|]); try apply Forall_nil;
      (split; [vm_compute; intros; discriminate|exact Hp]). }
  destruct (check_along toy C33_config case_texts release_build whole_program Ha start) as [A B];
    [vm_compute; reflexivity|].
  split; [exact A|]. split; [exact B|].
  split; [vm_compute; reflexivity|]. split; [vm_compute; reflexivity|]. split; vm_compute; reflexivity.
Qed.

(** C51: what a delete function releases. *)
Theorem C51_released :
  forall P : prims,
  prims_ok P ->
  forall (C : data_config) (T : texts) (bd : build) (t : ty) (v : var) (s : store) (h : heap),
  reached P C T bd (s, h) ->
  (t = TString -> refs h t (s t v) <> []) ->
  (t = TNetworks -> refs h t (s t v) = []) ->
  exists (s' : store) (h' : heap),
    delete t v s h = Ok (s', h') /\
    (forall i : N,
     get i (live h') = (if in_dec N.eq_dec i (refs h t (s t v)) then None else get i (live h))) /\
    (forall i : N, In i (refs h t (s t v)) -> get i (live h) <> None) /\
    refs h' t (s' t v) = [] /\
    (t <> TString -> pointer (s' t v) = Null) /\
    (forall (t' : ty) (v' : var),
     (t', v') <> (t, v) -> s' t' v' = s t' v' /\ refs h' t' (s' t' v') = refs h t' (s t' v')).
Proof. exact delete_exact. Qed.
Print Assumptions C51_released.

(** C51: the other functions release nothing, and everything they allocate
    belongs to their result. *)
Theorem C51_calls :
  forall P : prims,
  prims_ok P ->
  forall (C : data_config) (T : texts) (bd : build) (t : ty) (a : api t) 
    (out err : var) (e : env) (s : store) (h : heap) (b : bool) (s' : store) 
    (h' : heap),
  reached P C T bd (s, h) ->
  api_ok a ->
  env_ok e ->
  entry P C T bd a out err e s h = Ok (b, s', h') ->
  (forall (i : N) (bl : block), get i (live h) = Some bl -> get i (live h') = Some bl) /\
  (forall i : N,
   get i (live h') <> None ->
   get i (live h) = None ->
   In i (if b then refs h' t (s' t out) else refs h' TError (s' TError err))).
Proof. exact call_keeps. Qed.
Print Assumptions C51_calls.

(** C51: deleting twice. *)
Theorem C51_twice :
  forall (t : ty) (v : var) (s : store) (h : heap) (s' : store) (h' : heap),
  t <> TString ->
  delete t v s h = Ok (s', h') ->
  exists s'' : store,
    delete t v s' h' = Ok (s'', h') /\ (forall (t' : ty) (v' : var), s'' t' v' = s' t' v').
Proof. exact delete_twice. Qed.
Print Assumptions C51_twice.

(** C51: strings are different.  The variable keeps its value, and deleting the
    string again is undefined. *)
Theorem C51_string_twice :
  forall (v : var) (s : store) (h : heap) (s' : store) (h' : heap),
  delete TString v s h = Ok (s', h') -> delete TString v s' h' = Undef.
Proof. exact string_twice. Qed.
Print Assumptions C51_string_twice.

(** C51: so is deleting the null string. *)
Theorem C51_string_null :
  forall (v : var) (s : store) (h : heap), s TString v = Null -> delete TString v s h = Undef.
Proof. exact string_null. Qed.
Print Assumptions C51_string_null.

Definition string_program : list step := [Call ManagerNew 0 0; Call (GenerateMnemonic 0 CEnglish) 0 0; Delete TString 0].
Example C51_string_case :
  finished string_program = true /\ finished (string_program ++ [Delete TString 0]) = false /\
  finished [Delete TString 0] = false.
Proof. split; [vm_compute; reflexivity|]. split; vm_compute; reflexivity. Qed.

(** C51: using a deleted manager or keychain. *)
Theorem C51_deleted :
  forall (P : prims) (C : data_config) (T : texts) (bd : build) (t : ty) 
    (a : api t) (ot : ty) (ov out err : var) (e : env) (s : store)
    (h : heap),
  object a = Some (ot, ov) ->
  pointer (s ot ov) = Null ->
  ~ In x00 (utf8 (env_panic e)) ->
  exists (s' : store) (h' : heap) (p : val TError),
    entry P C T bd a out err e s h = Ok (false, s', h') /\
    assigned s TError err p s' /\
    e_type p = EPanic /\
    points_to_text h' (e_message p) (utf8 (env_panic e)) /\
    (forall i : N, i <> next h -> get i (live h') = get i (live h)).
Proof. exact deleted_use. Qed.
Print Assumptions C51_deleted.

(** C52.  Network lists. *)
Theorem C52_layout :
  forall (ns : list N) (h : heap) (x : NetworksPtr) (h' : heap),
  networks_ptr ns h = (x, h') ->
  (ns <> [] -> networks_free (E := Empty_set) x h' = Undef) /\
  (ns = [] ->
   h' = h /\ (exists x' : NetworksPtr, networks_free (E := Empty_set) x h' = Ok (x', h') /\ n_ptr x' = Null)).
Proof. exact networks_layout. Qed.
Print Assumptions C52_layout.

(** C52: [delete_networks] after [keychain_networks]. *)
Theorem C52_deleted :
  forall (P : prims) (C : data_config) (T : texts) (bd : build) (k out err : var) 
    (e : env) (s : store) (h : heap) (s' : store) (h' : heap) (kc : Keychain),
  entry P C T bd (KeychainNetworks k) out err e s h = Ok (true, s', h') ->
  env_ok e ->
  rust_keychain (E := kc_error) h (s TKeychain k) = Ok kc ->
  (kc <> [] -> delete TNetworks out s' h' = Undef) /\
  (kc = [] ->
   h' = h /\
   (exists s'' : store,
      delete TNetworks out s' h' = Ok (s'', h) /\ n_ptr (s'' TNetworks out) = Null)).
Proof. exact networks_deleted. Qed.
Print Assumptions C52_deleted.

Definition empty_wallet : wallet :=
  {| w_seed := Some case_seed; w_mnemonic := None; w_dictionary := None; w_keys := [] |}.
Definition networks_program (data : bytes) : list step := [
  Call ManagerNew 0 0; Call (KeychainFromData 0 data (blit "pw")) 0 0; Call (KeychainNetworks 0) 0 1].
Definition empty_data : bytes := fst (seal toy sorted_order empty_wallet (lit "pw") case_rng).
Example C52_case :
  finished (networks_program case_data) = true /\
  n_count (fst (after (networks_program case_data)) TNetworks 0) = 3 /\
  finished (networks_program case_data ++ [Delete TNetworks 0]) = false /\
  finished (networks_program empty_data) = true /\
  n_count (fst (after (networks_program empty_data)) TNetworks 0) = 0 /\
  finished (networks_program empty_data ++ [Delete TNetworks 0]) = true.
Proof. repeat (split; [vm_compute; reflexivity|]). vm_compute. reflexivity. Qed.

(** C53.  Languages. *)
Theorem C53_languages :
  (forall c : CLanguage, exists l : Language, language_rust c = Some l /\ language_c (E := Empty_set) l = Ok c) /\
  (forall l : Language, exists c : CLanguage, language_c (E := Empty_set) l = Ok c /\ language_rust c = Some l) /\
  (forall c c' : CLanguage, language_rust c = language_rust c' -> c = c').
Proof. exact languages_agree. Qed.
Print Assumptions C53_languages.

(** C53: each language is converted to the one of the same name. *)
Theorem C53_names :
  (forall (c : CLanguage) (l : Language), language_rust c = Some l <-> same_language c l) /\
  (forall (c : CLanguage) (l : Language), language_c (E := Empty_set) l = Ok c <-> same_language c l).
Proof. exact languages_named. Qed.
Print Assumptions C53_names.

(** C54.  When a panic leaves an exported function. *)
Theorem C54_escapes :
  forall P : prims,
  prims_ok P ->
  forall (C : data_config) (T : texts) (bd : build) (t : ty) (a : api t) 
    (out err : var) (e : env) (s : store) (h : heap),
  reached P C T bd (s, h) ->
  api_ok a ->
  env_ok e ->
  (entry P C T bd a out err e s h = Panic <->
   (exists ke : kc_error, body P C bd a s e h = Err ke /\ In x00 (utf8 (show T ke))) \/
   body P C bd a s e h = Panic /\ In x00 (utf8 (env_panic e))) /\
  entry P C T bd a out err e s h <> Undef.
Proof. exact escapes. Qed.
Print Assumptions C54_escapes.

(** C54: which errors have a NUL in their text. *)
Theorem C54_texts :
  forall P : prims,
  prims_ok P ->
  forall (C : data_config) (T : texts) (bd : build) (t : ty) (a : api t) 
    (e : env) (s : store) (h : heap) (ke : kc_error),
  texts_ok T ->
  reached P C T bd (s, h) ->
  api_ok a ->
  env_ok e ->
  c_strings a ->
  body P C bd a s e h = Err ke ->
  In x00 (utf8 (show T ke)) -> nul_phrase P C a \/ nul_variant ke.
Proof. exact text_clean. Qed.
Print Assumptions C54_texts.

(** C54: otherwise only unknown names in the data are left. *)
Theorem C54_exactly :
  forall P : prims,
  prims_ok P ->
  forall (C : data_config) (T : texts) (bd : build) (t : ty) (a : api t) 
    (out err : var) (e : env) (s : store) (h : heap),
  texts_ok T ->
  reached P C T bd (s, h) ->
  api_ok a ->
  env_ok e ->
  c_strings a ->
  no_nul (utf8 (env_panic e)) ->
  ~ nul_phrase P C a ->
  entry P C T bd a out err e s h = Panic <->
  (exists v : str,
     body P C bd a s e h = Err (DataError (DUnknownVariant v)) /\ In x00 (utf8 v)).
Proof. exact escapes_exactly. Qed.
Print Assumptions C54_exactly.

(** C54: both exceptions happen.  The state is the one after making a manager. *)
Definition C54_state : Ffi.store * heap :=
  (upd (fst start) TManager 0 (At 0), {| live := [(0, BManager case_manager)]; next := 1 |}).
(** A wallet whose dictionary has the name "\u0000". *)
Definition C54_variant : bytes := fst (encrypt toy
  (envelope 2 (blit "{""seed"":null,""mnemonic"":null,""dictionary"":""\u0000"",""keys"":[]}"))
  (lit "pw") case_rng).
(** A wallet whose phrase is a NUL. *)
Definition C54_phrase : bytes := fst (seal toy sorted_order
  {| w_seed := None; w_mnemonic := Some [0]; w_dictionary := Some English; w_keys := [] |} (lit "pw") case_rng).

Theorem C54_guard_refuted : exists P C T bd s h e,
  prims_ok P /\ texts_ok T /\ reached P C T bd (s, h) /\ env_ok e /\ no_nul (utf8 (env_panic e)) /\
  (exists data pw, let a := KeychainFromData 0 data pw in
     api_ok a /\ c_strings a /\ forall out err, entry P C T bd a out err e s h = Panic) /\
  (exists data pw n, let a := AddNetwork 0 data pw n in
     api_ok a /\ c_strings a /\ (forall out err, entry P C T bd a out err e s h = Panic) /\
     exists ke, body P C bd a s e h = Err (MnemonicError ke)).
Proof.
  exists toy, C33_config, case_texts, release_build, (fst C54_state), (snd C54_state), case_env.
  assert (env_ok case_env) as He by (split; [exact sorted_order_ok|exact reverse_order_ok]).
  split; [exact toy_ok|].
  split; [repeat split; intros H; vm_compute in H; intuition discriminate|].
  split.
  { exists [(case_env, Call ManagerNew 0 0)]. split; [|reflexivity].
    split; [split; [exact He|exact I]|]. intros; exact I. }
  split; [exact He|]. split; [intros H; vm_compute in H; intuition discriminate|].
  split.
  - exists C54_variant, (blit "pw"). split; [exact I|]. split; [intros H; vm_compute in H; intuition discriminate|].
    intros out err. vm_compute. reflexivity.
  - exists C54_phrase, (blit "pw"), BITCOIN. split; [vm_compute; discriminate|].
    split; [intros H; vm_compute in H; intuition discriminate|]. split; [intros out err; vm_compute; reflexivity|].
    eexists. vm_compute. reflexivity.
Qed.
Print Assumptions C54_guard_refuted.
