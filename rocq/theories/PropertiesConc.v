(** Property C55: threads that share a manager. *)
From Coq Require Import Strings.String.
From Verif Require Import Base Str Prims Errors Crypt CryptSpec Conc ConcSpec ConcTheorems ConcCheck PropertiesManager Toy.
Open Scope list_scope.

(** C55.  In every execution, each finished call has got its own chunks of the
    source; a call only panics when the source has failed. *)
Theorem C55_chunks :
  forall (A : Type) (src : nat -> option byte) (calls : list (list (proc A))) (st : sys A),
  steps src (init A calls) st ->
  exists G : nat -> nat -> list (nat * nat),
    disjoint G /\
    ordered G /\
    (forall i j x s n : nat, nth_error (G i j) x = Some (s, n) -> (s + n <= pos A st)%nat) /\
    (forall q : nat, (q < pos A st)%nat -> src q <> None) /\
    List.length (threads A st) = List.length calls /\
    (forall (i : nat) (t : thread A) (j : nat) (o : option A),
     nth_error (threads A st) i = Some t ->
     nth_error (done A t) j = Some o ->
     exists (l : list (proc A)) (p : proc A),
       nth_error calls i = Some l /\
       nth_error l j = Some p /\
       match o with
       | Some a => uses src p (G i j) a
       | None => src (pos A st) = None
       end).
Proof. exact calls_chunks. Qed.
Print Assumptions C55_chunks.

(** C55 for [encrypt]: salts and nonces of different calls come from different
    places, and every result decrypts. *)
Theorem C55_encrypt :
  forall (P : prims) (src : nat -> option byte) (calls : list (list (bytes * str)))
    (st : sys bytes),
  prims_ok P ->
  steps src (init bytes (List.map (List.map (fun c : bytes * str => encrypt_proc P (fst c) (snd c))) calls))
    st ->
  exists salt_at nonce_at : nat -> nat -> nat,
    forall (i : nat) (t : thread bytes) (j : nat) (a : bytes),
    nth_error (threads bytes st) i = Some t ->
    nth_error (done bytes t) j = Some (Some a) ->
    exists (l : list (bytes * str)) (d : bytes) (pw : str) (salt nonce : bytes),
      nth_error calls i = Some l /\
      nth_error l j = Some (d, pw) /\
      List.length salt = 32%nat /\
      List.length nonce = 12%nat /\
      chunk src (salt_at i j) salt /\
      chunk src (nonce_at i j) nonce /\
      is_sealed P pw salt nonce d a /\
      (d <> [] -> decrypt P a pw = Ok d) /\
      (salt_at i j + 32 <= nonce_at i j)%nat /\
      (forall (i' : nat) (t' : thread bytes) (j' : nat) (a' : bytes),
       nth_error (threads bytes st) i' = Some t' ->
       nth_error (done bytes t') j' = Some (Some a') ->
       (i, j) <> (i', j') ->
       apart (salt_at i j) 32 (salt_at i' j') 32 /\
       apart (nonce_at i j) 12 (nonce_at i' j') 12 /\ apart (salt_at i j) 32 (nonce_at i' j') 12).
Proof. exact encrypt_threads. Qed.
Print Assumptions C55_encrypt.

(** C55 for the operations of a manager: the result is the one that the call
    alone would have with the bytes it has got. *)
Theorem C55_operations :
  forall (P : prims) (src : nat -> option byte) (calls : list (list op))
    (st : sys (res kc_error output)),
  steps src (init (res kc_error output) (List.map (List.map (op_proc P)) calls)) st ->
  exists G : nat -> nat -> list (nat * nat),
    disjoint G /\
    ordered G /\
    (forall (i : nat) (t : thread (res kc_error output)) (j : nat)
       (a : res kc_error output),
     nth_error (threads (res kc_error output) st) i = Some t ->
     nth_error (done (res kc_error output) t) j = Some (Some a) ->
     exists (l : list op) (x : op) (b : bytes),
       nth_error calls i = Some l /\
       nth_error l j = Some x /\
       taken src (G i j) b /\ (forall r : rng, starts_with b r -> op_alone P x r = a)).
Proof. exact op_threads. Qed.
Print Assumptions C55_operations.

(** C55: no deadlock. *)
Theorem C55_progress :
  forall (A : Type) (src : nat -> option byte) (calls : list (list (proc A))) (st : sys A),
  steps src (init A calls) st ->
  (exists st' : sys A, sys_step A src st st') \/
  mutex A st <> Held /\
  (forall (i : nat) (t : thread A),
   nth_error (threads A st) i = Some t ->
   cur A t = Idle /\
   (exists l : list (proc A),
      nth_error calls i = Some l /\ List.length (done A t) = List.length l)).
Proof. exact calls_progress. Qed.
Print Assumptions C55_progress.

(** C55: there is no infinite execution. *)
Theorem C55_ends :
  forall (A : Type) (src : nat -> option byte) (calls : list (list (proc A))),
  Acc (fun st' st : sys A => sys_step A src st st') (init A calls).
Proof. exact calls_end. Qed.
Print Assumptions C55_ends.

(** C55: the calls can all finish, so the above is not empty. *)
Theorem C55_complete :
  forall (A : Type) (src : nat -> option byte) (calls : list (list (proc A))),
  exists st : sys A,
    steps src (init A calls) st /\
    mutex A st <> Held /\
    (forall (i : nat) (t : thread A),
     nth_error (threads A st) i = Some t ->
     cur A t = Idle /\
     (exists l : list (proc A),
        nth_error calls i = Some l /\ List.length (done A t) = List.length l)).
Proof. exact calls_complete. Qed.
Print Assumptions C55_complete.

(** Two threads encrypt, taking turns after every step; the source counts. *)
Definition C55_source (q : nat) : option byte := Some (n2b (N.of_nat q)).
Definition C55_calls : list (list (bytes * str)) :=
  [[(blit "first", lit "a")]; [(blit "second", lit "b"); (blit "third", lit "c")]].
Definition C55_start : sys bytes :=
  init bytes (List.map (List.map (fun c => encrypt_proc toy (fst c) (snd c))) C55_calls).
Definition C55_end : sys bytes := sched bytes C55_source (concat (repeat [0; 1]%nat 150)) C55_start.
Definition results (st : sys bytes) : list (list (option (list N * bytes))) :=
  List.map (fun t => List.map (option_map (fun a => (List.map b2n [hd x00 a; hd x00 (skipn 32 a)], a))) (done _ t)) (threads _ st).

Example C55_case : steps C55_source C55_start C55_end /\
  List.map (fun l => List.map (option_map fst) l) (results C55_end) =
  [[Some [0; 64]]; [Some [32; 76]; Some [88; 120]]] /\
  List.map (fun l => List.map (option_map (fun x => decrypt toy (snd x) (lit "b"))) l) (results C55_end) =
  [[Some (Err DDecryptionFailed)]; [Some (Ok (blit "second")); Some (Err DDecryptionFailed)]].
Proof. split; [apply sched_steps; constructor|]. split; vm_compute; reflexivity. Qed.

(** The same with a source that fails after 80 bytes. *)
Definition C55_broken (q : nat) : option byte := if (q <? 80)%nat then C55_source q else None.
Example C55_broken_case :
  let st := sched bytes C55_broken (concat (repeat [0; 1]%nat 150)) C55_start in
  steps C55_broken C55_start st /\
  List.map (fun l => List.map (option_map fst) l) (results st) = [[Some [0; 64]]; [None; None]] /\
  pos _ st = 80%nat.
Proof. cbv zeta. split; [apply sched_steps; constructor|]. split; vm_compute; reflexivity. Qed.
