(** Property C78: C programs with threads and raw arguments. *)
From Coq Require Import Strings.String.
From Verif Require Import Base Str Prims Toy Dict KeyPath Errors FMap Data Manager Features ManagerSpec Display Ffi FfiSpec FfiWalletSpec
  Raw RawSpec RawCheck Failing FailingSpec.
From Verif Require Import Threads ThreadsSpec RawThreads RawThreadsSpec ThreadsTheorems RawThreadsTheorems.
From Verif Require Import FMapFacts PropertiesData PropertiesManager PropertiesFfi PropertiesFailing.
Open Scope list_scope.

(** C78.  Threads that pass raw arguments do what threads do that pass the values
    to which the arguments lead when the call begins, so that C77 is about them. *)
Theorem C78_threads :
  forall P : prims, prims_ok P -> forall (C : data_config) (T : texts) (bd : build) (n : nat) (l : list raw_event) (st : rstate),
  r_reached P C T bd n l st ->
  exists l', decoded P C T bd n l l' /\ t_reached P C T bd n l' (r_state st) /\
    (r_along P C T bd raw_with_care l (r_start n) -> t_along P C T bd with_care l' (t_start n)).
Proof. exact r_threads. Qed.
Print Assumptions C78_threads.
Theorem C78_decoded :
  forall (P : prims) (C : data_config) (T : texts) (bd : build) (n : nat) (l : list raw_event) (l1 l2 : list event),
  decoded P C T bd n l l1 -> decoded P C T bd n l l2 -> l1 = l2.
Proof. exact decoded_one. Qed.
Print Assumptions C78_decoded.

(** They cause neither undefined behaviour nor leaks, and lead to no states that
    programs without threads do not reach. *)
Theorem C78_safe :
  forall P : prims, prims_ok P -> forall (C : data_config) (T : texts) (bd : build) (n : nat) (l : list raw_event),
  r_along P C T bd raw_may l (r_start n) ->
  r_run P C T bd l (r_start n) <> Undef /\
  forall st, r_run P C T bd l (r_start n) = Ok st ->
    let s := t_store (r_state st) in let h := t_heap (r_state st) in
    reached P C T bd (s, h) /\
    (r_along P C T bd raw_with_care l (r_start n) ->
       (forall i, get i (live h) <> None -> exists t v, In i (refs h t (s t v))) /\
       ((forall t v, refs h t (s t v) = []) -> live h = [])).
Proof. exact r_safe. Qed.
Print Assumptions C78_safe.

(** At any time, the arguments of the calls that are going on lead to what they
    led to at the beginning; without such calls the program may do with its
    memory what it likes. *)
Theorem C78_stable :
  forall P : prims, prims_ok P -> forall (C : data_config) (T : texts) (bd : build) (n : nat) (l : list raw_event) (st : rstate),
  r_reached P C T bd n l st ->
  (forall j c, running (r_state st) j c -> exists rc, nth_error (r_calls st) j = Some (Some rc) /\
     stands_for (t_heap (r_state st)) (r_own st) rc c) /\
  (quiet (r_state st) -> in_use st = []).
Proof. exact r_stable. Qed.
Print Assumptions C78_stable.

(** What is undefined: arguments that lead to nothing, changes of memory that a
    call may read, and the next step of a call after the library's memory that it
    may read has been released. *)
Theorem C78_undefined :
  forall P : prims, prims_ok P -> forall (C : data_config) (T : texts) (bd : build) (n : nat) (l : list raw_event) (st : rstate) (i : nat),
  r_reached P C T bd n l st -> nth_error (t_places (r_state st)) i = Some Outside ->
  (forall rc, r_step P C T bd (RBegin i (RACall rc)) st = Undef <->
     r_out rc = None \/ r_err rc = None \/ forall a, ~ leads (t_heap (r_state st)) (r_own st) (r_api rc) a) /\
  (forall k b, r_step P C T bd (RBegin i (RAWrite k b)) st = Undef <-> exists off, In (ROwn k off) (in_use st)) /\
  (forall k, r_step P C T bd (RBegin i (RARelease k)) st = Undef <-> exists off, In (ROwn k off) (in_use st)) /\
  (forall t v st' j rc k off, may (Begin i (ADelete t v)) (r_state st) ->
     r_step P C T bd (RBegin i (RADelete t (Some v))) st = Ok st' ->
     nth_error (r_calls st) j = Some (Some rc) -> In (RLib k off) (pointers (r_api rc)) ->
     In k (refs (t_heap (r_state st)) t (t_store (r_state st) t v)) -> r_step P C T bd (RGo j) st' = Undef).
Proof. exact r_undefined. Qed.
Print Assumptions C78_undefined.

(** All the calls that have been begun can always be finished. *)
Theorem C78_complete :
  forall P : prims, prims_ok P -> forall (C : data_config) (T : texts) (bd : build) (n : nat) (l : list raw_event) (st : rstate),
  r_reached P C T bd n l st ->
  exists l', Forall (fun ev => exists i, ev = RGo i) l' /\
    (r_run P C T bd (l ++ l') (r_start n) = Panic \/ exists st', r_reached P C T bd n (l ++ l') st' /\ quiet (r_state st')).
Proof. exact r_complete. Qed.
Print Assumptions C78_complete.

(** Two threads make a wallet; then the second changes its password from "pw" to
    "w", the end of the same text, while the first opens it; meanwhile the memory
    of the seed is released.  Then the old data is deleted and the password
    overwritten, and the new data is opened with what remains of it. *)
Definition rc {t} (a : raw_api t) (out err : var) : raw_action :=
  RACall {| r_api := a; r_out := Some out; r_err := Some err; r_env := case_env; r_src := good |}.
Definition C78_begin : list raw_event := [
  RBegin 0 (RAWrite 0 (blit "pw" ++ [x00])); RBegin 1 (RAWrite 1 case_seed);
  RBegin 0 (rc RManagerNew 0 0); RGo 0;
  RBegin 1 (rc (RKeychainDataFromSeed (Some 0) (ROwn 1 0) 64 (ROwn 0 0)) 0 1);
  RGo 1; RGo 1; RGo 1; RGo 1; RGo 1;
  RBegin 0 (rc (RKeychainFromData (Some 0) (RLib 1 0) 787 (ROwn 0 0)) 0 2);
  RBegin 1 (rc (RChangePassword (Some 0) (RLib 1 0) 787 (ROwn 0 0) (ROwn 0 1)) 1 3); RGo 1].
Definition C78_events : list raw_event := C78_begin ++ [
  RGo 0; RBegin 0 (RARelease 1); RGo 1; RGo 1; RGo 1; RGo 1;
  RBegin 0 (RADelete TData (Some 0)); RBegin 0 (RAWrite 0 (blit "-w" ++ [x00]));
  RBegin 1 (rc (RKeychainFromData (Some 0) (RLib 3 0) 787 (ROwn 0 1)) 1 4); RGo 1].
Definition C78_view (st : rstate) :=
  let t := r_state st in
  (codes (t_store t, t_heap t) [0; 1; 2; 3; 4], List.map (t_store t TData) [0; 1], List.map (t_store t TKeychain) [0; 1],
   List.map fst (r_own st), List.map f_thread (t_done t)).
Example C78_case :
  r_along toy C33_config case_texts release_build raw_may C78_events (r_start 2) /\
  r_along toy C33_config case_texts release_build raw_with_care C78_events (r_start 2) /\
  rmap C78_view (r_run toy C33_config case_texts release_build C78_events (r_start 2))
  = Ok ([(-1, []); (-1, []); (-1, []); (-1, []); (-1, [])]%Z,
        [{| d_ptr := Null; d_len := 787 |}; {| d_ptr := At 3; d_len := 787 |}], [At 2; At 4], [0],
        [0; 1; 0; 1; 0; 1]%nat).
Proof.
  assert (env_ok case_env) as He by (split; [exact sorted_order_ok|exact reverse_order_ok]).
  assert (Forall raw_event_ok C78_events) as Ha by (repeat (constructor; [first [exact I|split; [exact He|exact I]]|]); constructor).
  split; [|split; [|vm_compute; reflexivity]].
  - apply (r_alongb_ok _ _ _ _ raw_may raw_mayb raw_mayb_ok); [exact Ha|vm_compute; reflexivity].
  - apply (r_alongb_ok _ _ _ _ raw_with_care raw_careb raw_careb_ok); [exact Ha|vm_compute; reflexivity].
Qed.

(** While the second thread changes the password, the first may neither overwrite
    it nor, without consequences, delete the data. *)
Example C78_raced :
  r_run toy C33_config case_texts release_build (C78_begin ++ [RGo 0; RBegin 0 (RAWrite 0 [x00])]) (r_start 2) = Undef /\
  r_run toy C33_config case_texts release_build (C78_begin ++ [RGo 0; RBegin 0 (RADelete TData (Some 0)); RGo 1]) (r_start 2) = Undef.
Proof. split; vm_compute; reflexivity. Qed.
