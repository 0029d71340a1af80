(** C programs with threads and raw arguments: Threads.v with the pointers,
    lengths, numbers and references of Raw.v, and with changes of the caller's
    own memory.

    Simplifications.  Those of Raw.v and Threads.v.  All arguments are looked at
    when the call begins, even those that the function would not get to because
    the object is null.  Until the call ends, its pointers must lead to
    allocations, of the library or of the caller, that are there, and no thread
    may write or release the caller's memory they point into: a call may read
    its arguments at any time. *)
From Verif Require Import Base Str Prims Dict KeyPath Errors FMap Data Manager Features Display Conc Ffi Failing Raw Threads.

(** A call with its raw arguments, and what a thread may do. *)
Record raw_call := {
  r_ty : ty; r_api : raw_api r_ty; r_out : option var; r_err : option var; r_env : env; r_src : source
}.
Inductive raw_action :=
| RACall (c : raw_call)
| RADelete (t : ty) (v : option var)
| RAWrite (i : N) (b : bytes)
| RARelease (i : N).
Inductive raw_event :=
| RBegin (i : nat) (x : raw_action)
| RGo (i : nat).

(** What the arguments of a call lead to: the parameters of the functions in
    manager.rs, backup.rs, keychain_c.rs, key_path.rs, bitcoin.rs, cardano.rs and
    ethereum.rs of keychain-c/src, as in [raw_body]. *)
Definition given {t : ty} (a : raw_api t) (h : heap) (c : own) : res Empty_set (api t) :=
  match a in raw_api t return res Empty_set (api t) with
  | RManagerNew => Ok ManagerNew
  | RManagerHasNetwork m n => let* m := reference m in Ok (ManagerHasNetwork m n)
  | RGenerateMnemonic m lang =>
    let* m := reference m in let* lang := raw_language lang in Ok (GenerateMnemonic m lang)
  | RKeychainDataFromSeed m seed seed_len password =>
    let* m := reference m in let* seed := slice h c seed seed_len in let* password := c_string h c password in
    Ok (KeychainDataFromSeed m seed password)
  | RKeychainDataFromMnemonic m mnemonic password lang =>
    let* m := reference m in let* lang := raw_language lang in
    let* mnemonic := c_string h c mnemonic in let* password := c_string h c password in
    Ok (KeychainDataFromMnemonic m mnemonic password lang)
  | RKeychainFromData m data data_len password =>
    let* m := reference m in let* data := slice h c data data_len in let* password := c_string h c password in
    Ok (KeychainFromData m data password)
  | RAddNetwork m data data_len password n =>
    let* m := reference m in let* data := slice h c data data_len in let* password := c_string h c password in
    Ok (AddNetwork m data password n)
  | RChangePassword m data data_len old_password new_password =>
    let* m := reference m in let* data := slice h c data data_len in
    let* old_password := c_string h c old_password in let* new_password := c_string h c new_password in
    Ok (ChangePassword m data old_password new_password)
  | RGetKeysData m data data_len password =>
    let* m := reference m in let* data := slice h c data data_len in let* password := c_string h c password in
    Ok (GetKeysData m data password)
  | RRetrieveMnemonic m data data_len password =>
    let* m := reference m in let* data := slice h c data data_len in let* password := c_string h c password in
    Ok (RetrieveMnemonic m data password)
  | RKeychainNetworks k => let* k := reference k in Ok (KeychainNetworks k)
  | RPubKey k n path => let* k := reference k in Ok (PubKey k n path)
  | RSign k n data data_len path =>
    let* k := reference k in let* data := slice h c data data_len in Ok (Sign k n data path)
  | RVerify k n data data_len signature signature_len path =>
    let* k := reference k in let* data := slice h c data data_len in
    let* signature := slice h c signature signature_len in Ok (Verify k n data signature path)
  | RKeypathFromString string => let* string := c_string h c string in Ok (KeypathFromString string)
  | RKeypathBitcoin44 testnet account change address =>
    let* testnet := raw_bool testnet in Ok (KeypathBitcoin44 testnet account change address)
  | RKeypathBitcoin49 testnet account change address =>
    let* testnet := raw_bool testnet in Ok (KeypathBitcoin49 testnet account change address)
  | RKeypathBitcoin84 testnet account change address =>
    let* testnet := raw_bool testnet in Ok (KeypathBitcoin84 testnet account change address)
  | RKeypathCardano account change address => Ok (KeypathCardano account change address)
  | RKeypathEthereum account => Ok (KeypathEthereum account)
  | RKeypathMetamask account => Ok (KeypathMetamask account)
  end.

(** The pointers among the arguments. *)
Definition pointers {t} (a : raw_api t) : list raw :=
  match a with
  | RKeychainDataFromSeed _ p _ q => [p; q]
  | RKeychainDataFromMnemonic _ p q _ => [p; q]
  | RKeychainFromData _ p _ q => [p; q]
  | RAddNetwork _ p _ q _ => [p; q]
  | RChangePassword _ p _ q q' => [p; q; q']
  | RGetKeysData _ p _ q => [p; q]
  | RRetrieveMnemonic _ p _ q => [p; q]
  | RSign _ _ p _ _ => [p]
  | RVerify _ _ p _ q _ _ => [p; q]
  | RKeypathFromString p => [p]
  | _ => []
  end.
(** The allocation that a pointer leads to is there. *)
Definition there (h : heap) (c : own) (p : raw) : bool :=
  match p with
  | RNothing => true
  | _ => match memory h c p with Some _ => true | None => false end
  end.

(** In addition to Threads: the caller's memory, and the raw call of each thread. *)
Record rstate := { r_state : tstate; r_own : own; r_calls : list (option raw_call) }.
Definition r_start (n : nat) : rstate := {| r_state := t_start n; r_own := []; r_calls := repeat None n |}.

(** The pointers of the calls that are going on. *)
Definition in_use (st : rstate) : list raw :=
  flat_map (fun o => match o with Some c => pointers (r_api c) | None => [] end) (r_calls st).
Definition own_used (st : rstate) (i : N) : bool :=
  existsb (fun p => match p with ROwn k _ => k =? i | _ => false end) (in_use st).

Definition is_outside (st : tstate) (i : nat) : bool :=
  match nth_error (t_places st) i with Some Outside => true | _ => false end.

Section Run.
Variable P : prims.
Variable C : data_config.
Variable T : texts.
Variable bd : build.

(** A thread that is in a call does not begin anything. *)
Definition r_step (ev : raw_event) (st : rstate) : res Empty_set rstate :=
  let h := t_heap (r_state st) in
  match ev with
  | RBegin i x =>
    if negb (is_outside (r_state st) i) then Ok st
    else
      match x with
      | RACall rc =>
        let* out := reference (r_out rc) in
        let* err := reference (r_err rc) in
        let* a := given (r_api rc) h (r_own st) in
        let c := {| c_api := a; c_out := out; c_err := err; c_env := r_env rc; c_src := r_src rc |} in
        let* t := t_step P C T bd (Begin i (ACall c)) (r_state st) in
        Ok {| r_state := t; r_own := r_own st; r_calls := put i (Some rc) (r_calls st) |}
      | RADelete ty v =>
        let* v := reference v in
        let* t := t_step P C T bd (Begin i (ADelete ty v)) (r_state st) in
        Ok {| r_state := t; r_own := r_own st; r_calls := r_calls st |}
      | RAWrite k b =>
        if own_used st k then Undef
        else Ok {| r_state := r_state st; r_own := (k, b) :: filter (fun x => negb (fst x =? k)) (r_own st); r_calls := r_calls st |}
      | RARelease k =>
        if own_used st k then Undef
        else Ok {| r_state := r_state st; r_own := filter (fun x => negb (fst x =? k)) (r_own st); r_calls := r_calls st |}
      end
  | RGo i =>
    match nth_error (r_calls st) i with
    | Some (Some rc) =>
      if forallb (there h (r_own st)) (pointers (r_api rc)) then
        let* t := t_step P C T bd (Go i) (r_state st) in
        Ok {| r_state := t; r_own := r_own st;
              r_calls := if is_outside t i then put i None (r_calls st) else r_calls st |}
      else Undef
    | _ => Ok st
    end
  end.

Fixpoint r_run (l : list raw_event) (st : rstate) : res Empty_set rstate :=
  match l with
  | [] => Ok st
  | ev :: l' => let* st := r_step ev st in r_run l' st
  end.
End Run.
