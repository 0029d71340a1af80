(** What is expected of C programs with threads and raw arguments. *)
From Verif Require Import Base Prims Errors FMap Data Manager Features Display Ffi FfiSpec Failing FailingSpec Raw RawSpec
  Threads ThreadsSpec RawThreads.

(** The raw call [rc] is the call [c] on what its arguments lead to. *)
Definition stands_for (h : heap) (o : own) (rc : raw_call) (c : call) : Prop :=
  exists a out err, leads h o (r_api rc) a /\ r_out rc = Some out /\ r_err rc = Some err /\
    c = {| c_api := a; c_out := out; c_err := err; c_env := r_env rc; c_src := r_src rc |}.

(** The contract: valid arguments, the contract of ThreadsSpec, and nothing is
    deleted, written or released that the arguments of a call that is going on
    point into. *)
Definition raw_may (ev : raw_event) (st : rstate) : Prop :=
  let t := r_state st in
  match ev with
  | RBegin i x =>
    match x with
    | RACall rc => exists c, stands_for (t_heap t) (r_own st) rc c /\ may (Begin i (ACall c)) t
    | RADelete ty v => exists v', v = Some v' /\ may (Begin i (ADelete ty v')) t /\
        forall k off, In (RLib k off) (in_use st) -> ~ In k (refs (t_heap t) ty (t_store t ty v'))
    | RAWrite k _ => forall off, ~ In (ROwn k off) (in_use st)
    | RARelease k => forall off, ~ In (ROwn k off) (in_use st)
    end
  | RGo _ => True
  end.
Definition raw_with_care (ev : raw_event) (st : rstate) : Prop :=
  let t := r_state st in
  match ev with
  | RBegin _ (RACall rc) => forall out err, r_out rc = Some out -> r_err rc = Some err ->
      refs (t_heap t) (r_ty rc) (t_store t (r_ty rc) out) = [] /\ refs (t_heap t) TError (t_store t TError err) = []
  | _ => True
  end.

Section P.
Variable P : prims.
Variable C : data_config.
Variable T : texts.
Variable bd : build.

Fixpoint r_along (ok : raw_event -> rstate -> Prop) (l : list raw_event) (st : rstate) : Prop :=
  match l with
  | [] => True
  | ev :: l' => ok ev st /\ forall st', r_step P C T bd ev st = Ok st' -> r_along ok l' st'
  end.
Definition r_reached (n : nat) (l : list raw_event) (st : rstate) : Prop :=
  r_along raw_may l (r_start n) /\ r_run P C T bd l (r_start n) = Ok st.

(** The events [l'] of Threads.v are the raw events [l], each call with what its
    arguments lead to when it begins; the caller's own memory is left out. *)
Inductive decoded (n : nat) : list raw_event -> list event -> Prop :=
| dc_none : decoded n [] []
| dc_call l l' st i rc c : decoded n l l' -> r_run P C T bd l (r_start n) = Ok st ->
    stands_for (t_heap (r_state st)) (r_own st) rc c ->
    decoded n (l ++ [RBegin i (RACall rc)]) (l' ++ [Begin i (ACall c)])
| dc_delete l l' i t v : decoded n l l' -> decoded n (l ++ [RBegin i (RADelete t (Some v))]) (l' ++ [Begin i (ADelete t v)])
| dc_write l l' i k b : decoded n l l' -> decoded n (l ++ [RBegin i (RAWrite k b)]) l'
| dc_release l l' i k : decoded n l l' -> decoded n (l ++ [RBegin i (RARelease k)]) l'
| dc_go l l' i : decoded n l l' -> decoded n (l ++ [RGo i]) (l' ++ [Go i]).
End P.
