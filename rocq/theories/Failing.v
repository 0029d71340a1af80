(** The C bindings when the operating system's random source can fail:
    keychain/src/entropy.rs (the source behind a mutex), the five functions of
    keychain-c/src/manager.rs that use it, and programs of them with the other
    functions of Ffi.v.

    Simplifications are those of Ffi.v and Conc.v; calls follow one another. *)
From Coq Require Import Strings.String.
From Verif Require Import Base Str Prims Bip39 Dict KeyPath Errors FMap Crypt Data Keys Mnemonic
  Keychain Manager Features Display Conc Ffi.
Open Scope list_scope.

(** What the operating system gives during a call: bytes in order; [None] is a
    failure, on which [RngCore::fill_bytes] of [OsRng] panics. *)
Definition source := nat -> option byte.

(** [n] bytes from position [q] on. *)
Fixpoint receive (src : source) (q n : nat) : option bytes :=
  match n with
  | O => Some []
  | S n =>
    match src q, receive src (S q) n with
    | Some b, Some r => Some (b :: r)
    | _, _ => None
    end
  end.

(** A call that has got [q] bytes, with a manager whose mutex is poisoned or
    not: [None] when [OsEntropy::fill_bytes], entropy.rs:20-23, panics, either
    in [lock().unwrap()] or in the source. *)
Fixpoint attempt {A} (p : proc A) (src : source) (q : nat) (poisoned : bool) : option A :=
  match p with
  | Ret a => Some a
  | Draw n k =>
    if poisoned then None
    else match receive src q n with
         | Some b => attempt (k b) src (q + n)%nat poisoned
         | None => None
         end
  end.

(** The addresses of the managers whose mutex is poisoned. *)
Definition poisoned (bad : list N) (p : addr) : bool :=
  match p with At i => existsb (N.eqb i) bad | _ => false end.
(** The mutex is poisoned when its holder panics. *)
Definition poison (bad : list N) (p : addr) : list N :=
  if poisoned bad p then bad else match p with At i => i :: bad | _ => bad end.

Section Api.
Variable P : prims.
Variable C : data_config.
Variable T : texts.
Variable bd : build.

(** A closure that takes the manager at [p], converts its other arguments and
    calls the manager. *)
Definition with_source (p : addr) (f : manager -> res kc_error op) (src : source) (h : heap) (bad : list N)
  : res kc_error output * list N :=
  match (let* m := rust_manager h p in f m) with
  | Ok x =>
    match attempt (op_proc P x) src 0 (poisoned bad p) with
    | Some r => (r, bad)
    | None => (Panic, poison bad p)
    end
  | Err e => (Err e, bad)
  | Panic => (Panic, bad)
  | Undef => (Undef, bad)
  end.
(** The functions that use the source: the pointer to the manager, and what
    their closure asks of the manager. *)
Definition asks {t : ty} (a : api t) (s : store) (e : env) : option (addr * (manager -> res kc_error op)) :=
  match a with
  | GenerateMnemonic m lang => (* manager.rs:83-85 *)
    Some (s TManager m, fun m => Ok (OpGenerate m (language_rust lang)))
  | KeychainDataFromSeed m seed password => (* manager.rs:94-100 *)
    Some (s TManager m, fun m =>
      let* password := rust_str password in
      Ok (OpFromSeed (env_o1 e) (env_o2 e) m seed password))
  | KeychainDataFromMnemonic m mnemonic password lang => (* manager.rs:109-114 *)
    Some (s TManager m, fun m =>
      let* mnemonic := rust_str mnemonic in
      let* password := rust_str password in
      Ok (OpFromMnemonic (env_o1 e) (env_o2 e) m mnemonic password (language_rust lang)))
  | AddNetwork m data password n => (* manager.rs:138-144 *)
    Some (s TManager m, fun m =>
      let* password := rust_str password in
      Ok (OpAdd C (env_o1 e) m data password n))
  | ChangePassword m data old_password new_password => (* manager.rs:153-159 *)
    Some (s TManager m, fun m =>
      let* old_password := rust_str old_password in
      let* new_password := rust_str new_password in
      Ok (OpChange data old_password new_password))
  | _ => None
  end.
(** The result as the caller gets it.  The phrase of a new wallet is a text,
    everything else is data. *)
Definition give {t : ty} (r : res kc_error output) (h : heap) : res kc_error (val t * heap) :=
  let* o := r in
  match t return res kc_error (val t * heap) with
  | TString => match o with OText s => to_cstr s h | OData _ => Undef end
  | TData => match o with OData b => Ok (data_ptr b h) | OText _ => Undef end
  | _ => Undef
  end.

(** The closures of the functions, with the managers poisoned afterwards. *)
Definition f_body {t : ty} (a : api t) (s : store) (e : env) (src : source) (h : heap) (bad : list N)
  : res kc_error (val t * heap) * list N :=
  match asks a s e with
  | Some (p, f) => let w := with_source p f src h bad in (give (fst w) h, snd w)
  | None => (body P C bd a s e h, bad)
  end.

(** [entry] and [run_step] of Ffi.v with this closure. *)
Definition f_entry {t} (a : api t) (out err : var) (e : env) (src : source) (s : store) (h : heap) (bad : list N)
  : res Empty_set (bool * store * heap * list N) :=
  let '(r, bad) := f_body a s e src h bad in
  let* '(r, h) := handle T (env_panic e) r h in
  let '(b, s) := response r out err s in
  Ok (b, s, h, bad).

Definition f_step (x : env * source * step) (st : store * heap * list N) : res Empty_set (store * heap * list N) :=
  let '(e, src, c) := x in
  let '(s, h, bad) := st in
  match c with
  | Call a out err =>
    let* '(_, s, h, bad) := f_entry a out err e src s h bad in Ok (s, h, bad)
  | Delete t v => let* st := delete t v s h in Ok (st, bad)
  end.

Fixpoint f_run (l : list (env * source * step)) (st : store * heap * list N) : res Empty_set (store * heap * list N) :=
  match l with
  | [] => Ok st
  | x :: l' => let* st := f_step x st in f_run l' st
  end.
End Api.
