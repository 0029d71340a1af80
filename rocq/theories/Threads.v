(** C programs with threads: the exported functions of keychain-c called by
    threads that share variables, managers and keychains.

    A call takes place in steps: it begins, reading the handle of its manager or
    keychain; it locks the mutex in the manager and gets bytes from the random
    source, keychain/src/entropy.rs:20-23; it ends, allocating its result and
    writing the caller's variables (keychain-c/src/utils).  Steps of different
    threads come in any order.

    Simplifications.  Those of Ffi.v and Failing.v.  Between these steps a call
    reads its arguments, its manager or its keychain, none of which it changes,
    and its own data, so that nothing else can be noticed by others; that the
    manager is still there is checked at every step.  The allocator is that of
    the standard library and may be used by all threads at once.  A [delete_...]
    function is one step.  Each call has a source of its own ([c_src]), the bytes
    that the operating system will give to it.  How a program creates its threads
    and makes them wait for each other is left open: any thread may begin any
    call at any time. *)
From Coq Require Import Strings.String.
From Verif Require Import Base Str Prims Dict KeyPath Errors FMap Data Manager Features Display Conc Ffi Failing.
Open Scope list_scope.

(** A call with its arguments and surroundings, and what a thread may do. *)
Record call := { c_ty : ty; c_api : api c_ty; c_out : var; c_err : var; c_env : env; c_src : source }.
Inductive action :=
| ACall (c : call)
| ADelete (t : ty) (v : var).

(** Where a thread is: in no call; in a call that needs no random bytes, with
    the variables as they were at its beginning; in a call with the manager [p]
    that has got [q] bytes; in [OsEntropy::fill_bytes] with the lock, about to
    get [n] bytes; unwinding from a panic in [fill_bytes]. *)
Inductive place :=
| Outside
| Plain (c : call) (s : store)
| Between (c : call) (p : addr) (q : nat) (k : proc (res kc_error output))
| Locked (c : call) (p : addr) (q n : nat) (k : bytes -> proc (res kc_error output))
| Unwinding (c : call) (p : addr).

(** What has been done, by which thread; [f_cut] is the manager in whose
    [fill_bytes] the call has panicked. *)
Record finished := { f_thread : nat; f_action : action; f_cut : option addr }.

(** The variables, the memory, the managers whose mutex is poisoned or held, the
    threads, and, for reference, the actions in the order of their ends. *)
Record tstate := {
  t_store : store; t_heap : heap; t_bad : list N; t_held : list N;
  t_places : list place; t_done : list finished
}.
Definition t_start (n : nat) : tstate :=
  {| t_store := fst start; t_heap := snd start; t_bad := []; t_held := [];
     t_places := repeat Outside n; t_done := [] |}.

Fixpoint put {A} (i : nat) (x : A) (l : list A) : list A :=
  match l, i with
  | [], _ => []
  | _ :: l, O => x :: l
  | y :: l, S i => y :: put i x l
  end.
Definition move (i : nat) (x : place) (st : tstate) : tstate :=
  {| t_store := t_store st; t_heap := t_heap st; t_bad := t_bad st; t_held := t_held st;
     t_places := put i x (t_places st); t_done := t_done st |}.

(** The mutex of the manager at [p]. *)
Definition lock_of (p : addr) : list N := match p with At i => [i] | _ => [] end.
Definition locked (held : list N) (p : addr) : bool := poisoned held p.
Definition locking (p : addr) (st : tstate) : tstate :=
  {| t_store := t_store st; t_heap := t_heap st; t_bad := t_bad st; t_held := lock_of p ++ t_held st;
     t_places := t_places st; t_done := t_done st |}.
Definition unlocking (p : addr) (st : tstate) : tstate :=
  {| t_store := t_store st; t_heap := t_heap st; t_bad := t_bad st;
     t_held := filter (fun i => negb (existsb (N.eqb i) (lock_of p))) (t_held st);
     t_places := t_places st; t_done := t_done st |}.
Definition poisoning (p : addr) (st : tstate) : tstate :=
  {| t_store := t_store st; t_heap := t_heap st; t_bad := poison (t_bad st) p; t_held := t_held st;
     t_places := t_places st; t_done := t_done st |}.

(** The manager that a call uses has not been released; null is not used. *)
Definition alive (h : heap) (p : addr) : bool :=
  match p with
  | At _ => match read h p with Some (BManager _) => true | _ => false end
  | _ => true
  end.

(** A thread begins something, or goes on. *)
Inductive event :=
| Begin (i : nat) (x : action)
| Go (i : nat).

Section Run.
Variable P : prims.
Variable C : data_config.
Variable T : texts.
Variable bd : build.

Definition record (i : nat) (x : action) (cut : option addr) (s : store) (h : heap) (st : tstate) : tstate :=
  {| t_store := s; t_heap := h; t_bad := t_bad st; t_held := t_held st; t_places := t_places st;
     t_done := t_done st ++ [{| f_thread := i; f_action := x; f_cut := cut |}] |}.

(** The end of a call: [handle_exception_result] and [response], as in [entry] *)
Definition finish (i : nat) (c : call) (cut : option addr) (r : res kc_error (val (c_ty c) * heap)) (st : tstate)
  : res Empty_set tstate :=
  let* '(x, h) := handle T (env_panic (c_env c)) r (t_heap st) in
  let '(_, s) := response x (c_out c) (c_err c) (t_store st) in
  Ok (move i Outside (record i (ACall c) cut s h st)).

(** The beginning of an action. *)
Definition begin (i : nat) (x : action) (st : tstate) : res Empty_set tstate :=
  match x with
  | ADelete t v =>
    let* '(s, h) := delete t v (t_store st) (t_heap st) in
    Ok (record i x None s h st)
  | ACall c =>
    match asks C (c_api c) (t_store st) (c_env c) with
    | None => Ok (move i (Plain c (t_store st)) st)
    | Some (p, f) =>
      match (let* m := rust_manager (t_heap st) p in f m) with
      | Undef => Undef
      | r => Ok (move i (Between c p 0 (lift r (op_proc P))) st)
      end
    end
  end.

(** One step of a call.  A thread that finds the mutex held waits. *)
Definition go (i : nat) (x : place) (st : tstate) : res Empty_set tstate :=
  match x with
  | Outside => Ok st
  | Plain c s => finish i c None (body P C bd (c_api c) s (c_env c) (t_heap st)) st
  | Between c p q (Ret r) =>
    if alive (t_heap st) p then finish i c None (give r (t_heap st)) st else Undef
  | Between c p q (Draw n k) =>
    if negb (alive (t_heap st) p) then Undef
    else if locked (t_held st) p then Ok st
    else if poisoned (t_bad st) p then Ok (move i (Unwinding c p) st)
    else Ok (move i (Locked c p q n k) (locking p st))
  | Locked c p q n k =>
    if negb (alive (t_heap st) p) then Undef
    else match receive (c_src c) q n with
         | Some b => Ok (move i (Between c p (q + n)%nat (k b)) (unlocking p st))
         | None => Ok (move i (Unwinding c p) (poisoning p (unlocking p st)))
         end
  | Unwinding c p => finish i c (Some p) Panic st
  end.

(** A thread that is in a call does not begin anything. *)
Definition t_step (ev : event) (st : tstate) : res Empty_set tstate :=
  match ev with
  | Begin i x =>
    match nth_error (t_places st) i with
    | Some Outside => begin i x st
    | _ => Ok st
    end
  | Go i =>
    match nth_error (t_places st) i with
    | Some x => go i x st
    | None => Ok st
    end
  end.

Fixpoint t_run (l : list event) (st : tstate) : res Empty_set tstate :=
  match l with
  | [] => Ok st
  | ev :: l' => let* st := t_step ev st in t_run l' st
  end.
End Run.
