(** Property C77: C programs with threads. *)
From Coq Require Import Strings.String.
From Verif Require Import Base Str Prims Toy Dict KeyPath Errors FMap Data Manager Features ManagerSpec Display Conc Ffi FfiSpec FfiWalletSpec Failing FailingSpec.
From Verif Require Import Threads ThreadsSpec ThreadsFacts ThreadsTheorems.
From Verif Require Import FMapFacts PropertiesData PropertiesManager PropertiesFfi PropertiesFailing.
Open Scope list_scope.

(** C77.  Whatever the threads do and in whichever order their steps come, the
    variables and the memory are those of the finished actions without threads,
    one after the other in the order in which they have ended. *)
Theorem C77_serial :
  forall P : prims, prims_ok P -> forall (C : data_config) (T : texts) (bd : build) (n : nat) (l : list event) (st : tstate),
  t_reached P C T bd n l st -> serial P C T bd (t_done st) (t_store st, t_heap st).
Proof. exact t_serial. Qed.
Print Assumptions C77_serial.

(** The finished actions are those that the threads have begun, except the calls
    they are in; those of each thread are in its order. *)
Theorem C77_order :
  forall (P : prims) (C : data_config) (T : texts) (bd : build) (n : nat) (l : list event) (st : tstate),
  t_reached P C T bd n l st ->
  List.length (t_places st) = n /\ forall i, done_by i st ++ under_way i st = begun i l.
Proof. exact all_begun. Qed.
Print Assumptions C77_order.

(** What is finished stays so, before what is finished later. *)
Theorem C77_grows :
  forall (P : prims) (C : data_config) (T : texts) (bd : build) (l : list event) (st st' : tstate),
  t_run P C T bd l st = Ok st' -> exists d, t_done st' = t_done st ++ d.
Proof. exact done_grows. Qed.
Print Assumptions C77_grows.

(** Threads lead to no states that programs without threads do not reach. *)
Theorem C77_states :
  forall P : prims, prims_ok P -> forall (C : data_config) (T : texts) (bd : build) (n : nat) (l : list event) (st : tstate),
  t_reached P C T bd n l st -> reached P C T bd (t_store st, t_heap st).
Proof. exact t_program. Qed.
Print Assumptions C77_states.

(** They cause neither undefined behaviour nor leaks. *)
Theorem C77_safe :
  forall P : prims, prims_ok P -> forall (C : data_config) (T : texts) (bd : build) (n : nat) (l : list event),
  t_along P C T bd may l (t_start n) ->
  t_run P C T bd l (t_start n) <> Undef /\
  forall st, t_run P C T bd l (t_start n) = Ok st ->
    let sh := (t_store st, t_heap st) in
    exclusive sh /\ (forall t v, val_ok (t_heap st) t (t_store st t v)) /\
    (t_along P C T bd with_care l (t_start n) ->
       (forall i, get i (live (t_heap st)) <> None -> exists t v, In i (refs (t_heap st) t (t_store st t v))) /\
       ((forall t v, refs (t_heap st) t (t_store st t v) = []) -> live (t_heap st) = [])).
Proof. exact t_safe. Qed.
Print Assumptions C77_safe.

(** At most one thread at a time gets bytes for the same manager. *)
Theorem C77_exclusion :
  forall P : prims, prims_ok P -> forall (C : data_config) (T : texts) (bd : build) (n : nat) (l : list event) (st : tstate),
  t_reached P C T bd n l st -> forall j c p q m k j' c' q' m' k',
  nth_error (t_places st) j = Some (Locked c p q m k) -> nth_error (t_places st) j' = Some (Locked c' p q' m' k') -> j = j'.
Proof. exact one_holder. Qed.
Print Assumptions C77_exclusion.

(** A call panics in [fill_bytes] only if the source has failed in some call with
    the same manager. *)
Theorem C77_cut :
  forall P : prims, prims_ok P -> forall (C : data_config) (T : texts) (bd : build) (n : nat) (l : list event) (st : tstate)
    (f : Threads.finished) (p : addr),
  t_reached P C T bd n l st -> In f (t_done st) -> f_cut f = Some p ->
  exists c j c', f_action f = ACall c /\ began P C T bd n l (f_thread f) c p /\ began P C T bd n l j c' p /\ fails bd c'.
Proof. exact cut_blamed. Qed.
Print Assumptions C77_cut.
Theorem C77_works :
  forall P : prims, prims_ok P -> forall (C : data_config) (T : texts) (bd : build) (n : nat) (l : list event) (st : tstate),
  t_reached P C T bd n l st -> (forall j c p, began P C T bd n l j c p -> ~ fails bd c) ->
  forall f, In f (t_done st) -> f_cut f = None.
Proof. exact not_cut. Qed.
Print Assumptions C77_works.

(** An action that meets no other does what C76 says. *)
Theorem C77_alone :
  forall P : prims, prims_ok P -> forall (C : data_config) (T : texts) (bd : build) (n : nat) (l : list event) (st : tstate)
    (i : nat) (x : action),
  t_reached P C T bd n l st -> quiet st -> (i < n)%nat ->
  exists m, rmap seen (t_run P C T bd (Begin i x :: repeat (Go i) m) st) = f_step P C T bd (step_of x) (seen st).
Proof. exact alone. Qed.
Print Assumptions C77_alone.

(** There are no deadlocks: while some thread is in a call, some thread can go on
    (or the program is aborted, C54). *)
Theorem C77_progress :
  forall P : prims, prims_ok P -> forall (C : data_config) (T : texts) (bd : build) (n : nat) (l : list event) (st : tstate),
  t_reached P C T bd n l st ->
  quiet st \/ exists j, t_step P C T bd (Go j) st = Panic \/
    exists st', t_step P C T bd (Go j) st = Ok st' /\ t_places st' <> t_places st.
Proof. exact progress. Qed.
Print Assumptions C77_progress.

(** A thread waits only while another is in the source of the same manager. *)
Theorem C77_waits :
  forall P : prims, prims_ok P -> forall (C : data_config) (T : texts) (bd : build) (n : nat) (l : list event) (st : tstate)
    (j : nat) (x : Threads.place),
  t_reached P C T bd n l st -> nth_error (t_places st) j = Some x -> x <> Outside -> t_step P C T bd (Go j) st = Ok st ->
  exists c p q m k j' c' q' m' k', x = Between c p q (Draw m k) /\ nth_error (t_places st) j' = Some (Locked c' p q' m' k').
Proof. exact waits. Qed.
Print Assumptions C77_waits.

(** Calls do not go on for ever. *)
Theorem C77_ends :
  forall (P : prims) (C : data_config) (T : texts) (bd : build) (st : tstate),
  Acc (fun st' st => (exists i, t_step P C T bd (Go i) st = Ok st') /\ st' <> st) st.
Proof. exact calls_end. Qed.
Print Assumptions C77_ends.

(** Hence all the calls that have been begun can always be finished. *)
Theorem C77_complete :
  forall P : prims, prims_ok P -> forall (C : data_config) (T : texts) (bd : build) (n : nat) (l : list event) (st : tstate),
  t_reached P C T bd n l st ->
  exists l', Forall (fun ev => exists i, ev = Go i) l' /\
    (t_run P C T bd (l ++ l') (t_start n) = Panic \/ exists st', t_reached P C T bd n (l ++ l') st' /\ quiet st').
Proof. exact complete. Qed.
Print Assumptions C77_complete.

(** Three threads and one manager.  The second changes a password; it gets the
    first 32 bytes while the first waits, then waits while the first gets 16 for a
    new phrase, then the source fails.  The first ends with its phrase although
    the manager is unusable by then; the third, which has begun to generate a
    phrase while the second held the lock, is refused.  The third has opened a
    wallet before. *)
Definition late : source := fun q => if (q <? 32)%nat then Some (case_rng q) else None.
Definition case_call {t} (a : api t) (out err : var) (src : source) : action :=
  ACall {| c_api := a; c_out := out; c_err := err; c_env := case_env; c_src := src |}.
Definition C77_events : list event := [
  Begin 0 (case_call ManagerNew 0 0 late); Go 0;
  Begin 0 (case_call (GenerateMnemonic 0 CEnglish) 0 1 good);
  Begin 1 (case_call (ChangePassword 0 case_data (blit "pw") (blit "new")) 1 2 late);
  Begin 2 (case_call (KeychainFromData 0 case_data (blit "pw")) 0 3 late);
  Go 1; Go 0; Go 1; Go 0; Go 1; Go 0; Go 2; Go 1;
  Begin 2 (case_call (GenerateMnemonic 0 CEnglish) 1 4 good); Go 2; Go 1; Go 0; Go 2; Go 1; Go 2].
Definition case_view (st : tstate) :=
  (codes (t_store st, t_heap st) [0; 1; 2; 3; 4], is_null (t_store st TString 0), is_null (t_store st TString 1),
   is_null (t_store st TKeychain 0), t_bad st, List.map (fun f => (f_thread f, f_cut f)) (t_done st)).
Example C77_case :
  t_along toy C33_config case_texts release_build may C77_events (t_start 3) /\
  rmap case_view (t_run toy C33_config case_texts release_build C77_events (t_start 3))
  = Ok ([(-1, []); (-1, []); (-1, [lit "panic"]); (-1, []); (-1, [lit "panic"])]%Z, false, true, false, [0],
        [(0%nat, None); (2%nat, None); (0%nat, None); (1%nat, Some (At 0)); (2%nat, Some (At 0))]).
Proof.
  split; [|vm_compute; reflexivity].
  assert (env_ok case_env) as He by (split; [exact sorted_order_ok|exact reverse_order_ok]).
  apply (alongb_ok _ _ _ _ may mayb mayb_ok); [|vm_compute; reflexivity].
  repeat (constructor; [first [exact I|split; [exact He|exact I]]|]). constructor.
Qed.

(** The contract is needed: whenever a manager or keychain is deleted by one thread
    while a call of another uses it, the next step of the call is undefined, unless
    it only reports a panic. *)
Theorem C77_deleted :
  forall P : prims, prims_ok P -> forall (C : data_config) (T : texts) (bd : build) (n : nat) (l : list event) (st : tstate)
    (i j : nat) (x : Threads.place) (c : call) (t : ty) (v : var),
  t_reached P C T bd n l st -> nth_error (t_places st) i = Some Outside ->
  nth_error (t_places st) j = Some x -> call_at x = Some c -> (forall p, x <> Unwinding c p) ->
  object (c_api c) = Some (t, v) -> refs (t_heap st) t (t_store st t v) <> [] ->
  exists st', t_step P C T bd (Begin i (ADelete t v)) st = Ok st' /\ t_step P C T bd (Go j) st' = Undef.
Proof. exact deleted. Qed.
Print Assumptions C77_deleted.
Example C77_deleted_case :
  t_run toy C33_config case_texts release_build [
    Begin 0 (case_call ManagerNew 0 0 good); Go 0;
    Begin 0 (case_call (GenerateMnemonic 0 CEnglish) 0 1 good); Go 0;
    Begin 1 (ADelete TManager 0); Go 0] (t_start 2) = Undef.
Proof. vm_compute. reflexivity. Qed.

(** With it, two threads may use and then delete what they share; nothing is left. *)
Definition C77_tidy : list event := [
  Begin 0 (case_call ManagerNew 0 0 good); Go 0;
  Begin 0 (case_call (GenerateMnemonic 0 CEnglish) 0 1 good);
  Begin 1 (case_call (GenerateMnemonic 0 CEnglish) 1 2 good);
  Go 0; Go 1; Go 0; Go 1; Go 1; Go 1; Go 0;
  Begin 1 (ADelete TManager 0);
  Begin 0 (ADelete TString 1); Begin 1 (ADelete TString 0)].
Example C77_tidy_case :
  t_along toy C33_config case_texts release_build may C77_tidy (t_start 2) /\
  t_along toy C33_config case_texts release_build with_care C77_tidy (t_start 2) /\
  rmap (fun st => (live (t_heap st), is_null (t_store st TString 0), is_null (t_store st TString 1),
      List.map f_thread (t_done st))) (t_run toy C33_config case_texts release_build C77_tidy (t_start 2))
  = Ok ([], false, false, [0; 1; 0; 1; 0; 1]%nat).
Proof.
  assert (env_ok case_env) as He by (split; [exact sorted_order_ok|exact reverse_order_ok]).
  assert (Forall args_ok C77_tidy) as Ha by (repeat (constructor; [first [exact I|split; [exact He|exact I]]|]); constructor).
  split; [|split; [|vm_compute; reflexivity]].
  - apply (alongb_ok _ _ _ _ may mayb mayb_ok); [exact Ha|vm_compute; reflexivity].
  - apply (alongb_ok _ _ _ _ with_care careb careb_ok); [exact Ha|vm_compute; reflexivity].
Qed.
