(** What is expected of C programs with threads. *)
From Coq Require Import Strings.String.
From Verif Require Import Base Prims Errors FMap Data Manager Features Display Ffi FfiSpec Failing FailingSpec Threads.
Open Scope list_scope.

(** ** The contract *)

(** The variables that an action writes, and the one from which it takes its
    manager or keychain. *)
Definition writes (x : action) : list (ty * var) :=
  match x with
  | ACall c => [(c_ty c, c_out c); (TError, c_err c)]
  | ADelete t v => [(t, v)]
  end.
Definition uses (x : action) : list (ty * var) :=
  match x with
  | ACall c => match object (c_api c) with Some w => [w] | None => [] end
  | ADelete _ _ => []
  end.
(** One of them writes what the other uses or writes. *)
Definition clash (x y : action) : Prop :=
  exists w, (In w (writes x) /\ (In w (writes y) \/ In w (uses y))) \/ (In w (uses x) /\ In w (writes y)).

(** The call that a thread is in. *)
Definition call_at (x : place) : option call :=
  match x with
  | Outside => None
  | Plain c _ => Some c
  | Between c _ _ _ => Some c
  | Locked c _ _ _ _ => Some c
  | Unwinding c _ => Some c
  end.
Definition running (st : tstate) (j : nat) (c : call) : Prop :=
  exists x, nth_error (t_places st) j = Some x /\ call_at x = Some c.

(** A thread in no call begins a call, or a deletion, that the contract for one
    thread permits (FfiSpec) and that does not clash with the calls that are
    going on. *)
Definition may (ev : event) (st : tstate) : Prop :=
  match ev with
  | Begin i x =>
    nth_error (t_places st) i = Some Outside /\
    match x with
    | ACall c => env_ok (c_env c) /\ api_ok (c_api c)
    | ADelete TString v => refs (t_heap st) TString (t_store st TString v) <> []
    | ADelete TNetworks v => refs (t_heap st) TNetworks (t_store st TNetworks v) = []
    | ADelete _ _ => True
    end /\
    forall j c, running st j c -> ~ clash x (ACall c)
  | Go _ => True
  end.
(** In addition, the variables to be written are not responsible for anything. *)
Definition with_care (ev : event) (st : tstate) : Prop :=
  match ev with
  | Begin _ (ACall c) =>
    refs (t_heap st) (c_ty c) (t_store st (c_ty c) (c_out c)) = [] /\
    refs (t_heap st) TError (t_store st TError (c_err c)) = []
  | _ => True
  end.

(** ** What has been begun *)

(** The actions that thread [i] begins in [l]. *)
Fixpoint begun (i : nat) (l : list event) : list action :=
  match l with
  | [] => []
  | Begin j x :: l => if (j =? i)%nat then x :: begun i l else begun i l
  | Go _ :: l => begun i l
  end.
(** The actions that it has finished, and the one it has not. *)
Definition done_by (i : nat) (st : tstate) : list action :=
  List.map f_action (filter (fun f => (f_thread f =? i)%nat) (t_done st)).
Definition under_way (i : nat) (st : tstate) : list action :=
  match nth_error (t_places st) i with
  | Some x => match call_at x with Some c => [ACall c] | None => [] end
  | None => []
  end.

(** No thread is in a call. *)
Definition quiet (st : tstate) : Prop := forall j x, nth_error (t_places st) j = Some x -> x = Outside.
(** What there is without threads, and an action as a step of a program without
    threads (Failing.v); deletions need no surroundings. *)
Definition seen (st : tstate) : store * heap * list N := (t_store st, t_heap st, t_bad st).
Definition step_of (x : action) : env * source * step :=
  match x with
  | ACall c => (c_env c, c_src c, Call (c_api c) (c_out c) (c_err c))
  | ADelete t v => ({| env_o1 := fun _ l => l; env_o2 := fun _ l => l; env_rng := fun _ => x00; env_panic := [] |}, fun _ => None, Delete t v)
  end.

Section P.
Variable P : prims.
Variable C : data_config.
Variable T : texts.
Variable bd : build.

(** Every event of an execution satisfies [ok] in the state it happens in. *)
Fixpoint t_along (ok : event -> tstate -> Prop) (l : list event) (st : tstate) : Prop :=
  match l with
  | [] => True
  | ev :: l' => ok ev st /\ forall st', t_step P C T bd ev st = Ok st' -> t_along ok l' st'
  end.

(** The states of programs with [n] threads that respect the contract. *)
Definition t_reached (n : nat) (l : list event) (st : tstate) : Prop :=
  t_along may l (t_start n) /\ t_run P C T bd l (t_start n) = Ok st.

(** The actions [l] without threads, one after the other, each call with the
    bytes that it has got, lead to the variables and the memory [st]; a call
    that has panicked in [fill_bytes] reports so and does nothing else. *)
Inductive serial : list finished -> store * heap -> Prop :=
| serial_none : serial [] start
| serial_call l s h i c b s' h' :
    serial l (s, h) ->
    (forall r : rng, (forall q b, c_src c q = Some b -> r q = b) ->
       entry P C T bd (c_api c) (c_out c) (c_err c) (with_rng (c_env c) r) s h = Ok (b, s', h')) ->
    serial (l ++ [{| f_thread := i; f_action := ACall c; f_cut := None |}]) (s', h')
| serial_cut l s h i c p s' h' :
    serial l (s, h) ->
    reports_panic (c_err c) (c_env c) s h [] (Ok (false, s', h', [])) ->
    serial (l ++ [{| f_thread := i; f_action := ACall c; f_cut := Some p |}]) (s', h')
| serial_delete l s h i t v s' h' :
    serial l (s, h) -> delete t v s h = Ok (s', h') ->
    serial (l ++ [{| f_thread := i; f_action := ADelete t v; f_cut := None |}]) (s', h').

(** Thread [j] began the call [c] with the manager at [p]. *)
Definition began (n : nat) (l : list event) (j : nat) (c : call) (p : addr) : Prop :=
  exists l1 l2 st v, l = l1 ++ Begin j (ACall c) :: l2 /\ t_run P C T bd l1 (t_start n) = Ok st /\
    object (c_api c) = Some (TManager, v) /\ t_store st TManager v = p.
(** The source fails before it has given what a call may need. *)
Definition fails (c : call) : Prop :=
  exists v n q, needs bd (c_api c) = Some (v, n) /\ (q < n)%nat /\ c_src c q = None.
End P.
