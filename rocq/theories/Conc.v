(** Model of threads sharing one manager: keychain/src/entropy.rs (the random
    source behind a mutex) and the operations that draw from it.

    Simplifications.  The source is the sequence of bytes that the operating
    system gives to this process; [None] is a failure.  A panic ends the call
    and not the thread (the C bindings catch it); other panics of a call, which
    happen outside of the lock, are part of its result.  Calls of one thread
    follow one another.  Between two accesses to the source a call only
    computes on its own data, so this takes no step of its own. *)
From Verif Require Import Base Str Prims Bip39 Dict Errors FMap Crypt Data Keys Mnemonic Manager.

(** A call as seen from the source: a result, or a request for bytes and what
    to do with them. *)
Inductive proc (A : Type) :=
| Ret (a : A)
| Draw (n : nat) (k : bytes -> proc A).
Arguments Ret {A}.
Arguments Draw {A}.

Section Threads.
Variable A : Type.

(** A thread runs no call, is about to go on with a call, or is inside
    [OsEntropy::fill_bytes] (entropy.rs:20-23) with the lock, some bytes
    missing and some bytes received. *)
Inductive phase :=
| Idle
| Ready (p : proc A)
| Filling (n : nat) (acc : bytes) (k : bytes -> proc A).

(** The current call, the calls to follow, and the results so far: [None] is
    a panic in [fill_bytes]. *)
Record thread := { cur : phase; rest : list (proc A); done : list (option A) }.

(** [std::sync::Mutex]: poisoned when its holder panics. *)
Inductive lock := Free | Held | Poisoned.

(** The threads, the mutex and the number of bytes taken from the source. *)
Record sys := { threads : list thread; mutex : lock; pos : nat }.

Definition begin_next (l : list (proc A)) (r : list (option A)) : thread :=
  {| cur := match l with [] => Idle | p :: _ => Ready p end; rest := tl l; done := r |}.
Definition finish (t : thread) (o : option A) : thread := begin_next (rest t) (done t ++ [o]).
Definition goto (t : thread) (c : phase) : thread := {| cur := c; rest := rest t; done := done t |}.

Variable src : nat -> option byte.

(** One step of one thread: return from the call; [lock().unwrap()] when the
    mutex is free, or poisoned; receive a byte; the source fails
    ([RngCore::fill_bytes] of [OsRng] panics); release the lock. *)
Inductive lstep : thread -> lock -> nat -> thread -> lock -> nat -> Prop :=
| l_return t a l q : cur t = Ready (Ret a) ->
    lstep t l q (finish t (Some a)) l q
| l_lock t n k q : cur t = Ready (Draw n k) ->
    lstep t Free q (goto t (Filling n [] k)) Held q
| l_poisoned t n k q : cur t = Ready (Draw n k) ->
    lstep t Poisoned q (finish t None) Poisoned q
| l_byte t n acc k q b : cur t = Filling (S n) acc k -> src q = Some b ->
    lstep t Held q (goto t (Filling n (acc ++ [b]) k)) Held (S q)
| l_fail t n acc k q : cur t = Filling (S n) acc k -> src q = None ->
    lstep t Held q (finish t None) Poisoned q
| l_unlock t acc k q : cur t = Filling 0 acc k ->
    lstep t Held q (goto t (Ready (k acc))) Free q.

(** Any thread makes a step. *)
Inductive sys_step : sys -> sys -> Prop :=
| s_step before t after t' l l' q q' :
    lstep t l q t' l' q' ->
    sys_step {| threads := before ++ t :: after; mutex := l; pos := q |}
             {| threads := before ++ t' :: after; mutex := l'; pos := q' |}.

Definition init (calls : list (list (proc A))) : sys :=
  {| threads := map (fun l => begin_next l []) calls; mutex := Free; pos := 0 |}.
End Threads.
Arguments Idle {A}.
Arguments Ready {A}.
Arguments Filling {A}.

(** * The operations *)

Section Ops.
Variable P : prims.

(** [encrypt], crypt.rs:44-70, as in Crypt.v *)
Definition encrypt_proc (data : bytes) (password : str) : proc bytes :=
  Draw SALT_SIZE (fun salt =>
  Draw NONCE_SIZE (fun nonce =>
  let key := crypt_key P password salt in
  let (encrypted, tag) := aead_encrypt P key nonce data in
  Ret (salt ++ nonce ++ tag ++ encrypted))).

Fixpoint pmap {A B} (f : A -> B) (p : proc A) : proc B :=
  match p with
  | Ret a => Ret (f a)
  | Draw n k => Draw n (fun b => pmap f (k b))
  end.
Definition lift {A B} (r : res kc_error A) (k : A -> proc (res kc_error B)) : proc (res kc_error B) :=
  match r with
  | Ok a => k a
  | Err e => Ret (Err e)
  | Panic => Ret Panic
  | Undef => Ret Undef
  end.

(** The operations of a manager that use the source. *)
Inductive op :=
| OpGenerate (m : manager) (language : option Language)
| OpFromSeed (o1 o2 : order) (m : manager) (seed : bytes) (password : str)
| OpFromMnemonic (o1 o2 : order) (m : manager) (mnemonic password : str) (language : option Language)
| OpChange (data : bytes) (old_password new_password : str)
| OpAdd (C : data_config) (o : order) (m : manager) (data : bytes) (password : str) (network : N).
Inductive output := OText (s : str) | OData (b : bytes).

(** [generate_mnemonic], manager.rs:49-53 and mnemonic.rs:82-92; the bytes are
    drawn in one go by [bip39::Entropy::generate] (bip39.rs:167-177). *)
Definition generate_proc (m : manager) (language : option Language) : proc (res kc_error output) :=
  lift (map_err MnemonicError (map_err mnemonic_of_bip39 (from_entropy_size (m_seed_size m)))) (fun t =>
  Draw (to_key_size t / 8) (fun b =>
  let lang := match language with Some l => l | None => language_default end in
  lift (map_err MnemonicError (mnemonic_from_entropy P b lang)) (fun s => Ret (Ok (OText s))))).

(** Serialising and encrypting, manager.rs:108-111 and 198-201 *)
Definition seal_proc (o : order) (w : wallet) (password : str) : proc (res kc_error output) :=
  pmap (fun b => Ok (OData b)) (encrypt_proc (versioned_to_bytes (versioned_new o w)) password).

(** [new_keychain_data], manager.rs:174-202 *)
Definition new_keychain_proc (o1 o2 : order) (m : manager) (seed : option bytes)
  (password : str) (mnemonic : option str) (lang : option Language) : proc (res kc_error output) :=
  lift (seed_from_data P m seed mnemonic lang) (fun calculated =>
  lift (mapM (data_of calculated) (map snd (o1 _ (m_factories m)))) (fun keys =>
  seal_proc o2 {| w_seed := seed; w_mnemonic := mnemonic; w_dictionary := lang;
                  w_keys := of_list keys |} password)).

(** manager.rs:49-64, 80-112 *)
Definition op_proc (x : op) : proc (res kc_error output) :=
  match x with
  | OpGenerate m language => generate_proc m language
  | OpFromSeed o1 o2 m seed password => new_keychain_proc o1 o2 m (Some seed) password None None
  | OpFromMnemonic o1 o2 m mnemonic password language =>
    new_keychain_proc o1 o2 m None password (Some mnemonic)
      (Some match language with Some l => l | None => language_default end)
  | OpChange data old_password new_password =>
    lift (map_err kc_of_decrypt (decrypt P data old_password)) (fun decrypted =>
    pmap (fun b => Ok (OData b)) (encrypt_proc decrypted new_password))
  | OpAdd C o m data password network =>
    lift (ok_or (get network (m_factories m)) (NetworkIsNotSupported network)) (fun factory =>
    lift (keychain_data_from_bytes P C data password) (fun w =>
    match get network (w_keys w) with
    | Some _ => Ret (Err (KeyAlreadyExist network))
    | None =>
      lift (seed_from_data P m (w_seed w) (w_mnemonic w) (w_dictionary w)) (fun seed =>
      lift (map_err (KeyError network) (key_data_from_seed factory seed)) (fun key_data =>
      seal_proc o {| w_seed := w_seed w; w_mnemonic := w_mnemonic w; w_dictionary := w_dictionary w;
                     w_keys := ins network key_data (w_keys w) |} password))
    end))
  end.
End Ops.
