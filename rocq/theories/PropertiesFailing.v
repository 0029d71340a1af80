(** Property C76: C programs when the random source can fail. *)
From Coq Require Import Strings.String.
From Verif Require Import Base Str Prims Toy Dict KeyPath Errors FMap Data Manager Features ManagerSpec Display Ffi FfiSpec FfiWalletSpec Failing FailingSpec FailingFacts.
From Verif Require Import FMapFacts PropertiesData PropertiesManager PropertiesFfi.
Open Scope list_scope.

(** C76.  A call of one of the five functions that need random numbers.  Either
    it fails without asking for any, or it would succeed with every working
    source; then what happens depends only on its manager and on the bytes it
    asks for. *)
Theorem C76_call :
  forall P : prims, prims_ok P -> forall (C : data_config) (T : texts) (bd : build) (t : ty) (a : api t)
    (v : var) (n : nat) (i : N) (s : store) (h : heap) (bad : list N) (e : env) (out err : var),
  f_reached P C T bd (s, h) bad -> env_ok e -> no_nul (utf8 (env_panic e)) ->
  needs bd a = Some (v, n) -> s TManager v = At i ->
  let o src := f_entry P C T bd a out err e src s h bad in
  (forall src r, as_with P C T bd a out err e s h bad r (o src) /\
     forall s' h', entry P C T bd a out err (with_rng e r) s h <> Ok (true, s', h')) \/
  (forall r, exists s' h', entry P C T bd a out err (with_rng e r) s h = Ok (true, s', h')) /\
  forall src,
    (In i bad -> reports_panic err e s h bad (o src)) /\
    (~ In i bad -> forall r, (forall q, (q < n)%nat -> src q = Some (r q)) ->
       as_with P C T bd a out err e s h bad r (o src)) /\
    (~ In i bad -> (exists q, (q < n)%nat /\ src q = None) -> reports_panic err e s h (i :: bad) (o src)).
Proof. exact failing_call. Qed.
Print Assumptions C76_call.

(** The other functions, and a null manager: neither the source nor the managers
    that have become unusable matter. *)
Theorem C76_others :
  forall (P : prims) (C : data_config) (T : texts) (bd : build) (t : ty) (a : api t) (s : store) (h : heap)
    (bad : list N) (e : env) (src : source) (out err : var) (r : rng),
  needs bd a = None \/ (exists v n, needs bd a = Some (v, n) /\ s TManager v = Null) ->
  as_with P C T bd a out err e s h bad r (f_entry P C T bd a out err e src s h bad).
Proof. exact other_call. Qed.
Print Assumptions C76_others.

(** A manager that has become unusable stays so. *)
Theorem C76_stays :
  forall (P : prims) (C : data_config) (T : texts) (bd : build) (l : list (env * source * step))
    (st : store * heap) (bad : list N) (st' : store * heap) (bad' : list N),
  f_run P C T bd l (st, bad) = Ok (st', bad') -> incl bad bad'.
Proof. exact stays. Qed.
Print Assumptions C76_stays.

(** A new manager, if the build has networks, is usable, whatever has happened to others. *)
Theorem C76_new_manager :
  forall P : prims, prims_ok P -> forall (C : data_config) (T : texts) (bd : build) (st : store * heap) (bad : list N)
    (e : env) (src : source) (out err : var),
  c_networks bd <> [] -> f_reached P C T bd st bad ->
  exists s' h' i m, f_entry P C T bd ManagerNew out err e src (fst st) (snd st) bad = Ok (true, s', h', bad) /\
    s' TManager out = At i /\ ~ In i bad /\ get i (live h') = Some (BManager m).
Proof. exact fresh_manager. Qed.
Print Assumptions C76_new_manager.

(** As long as the sources work, programs are those of the other properties. *)
Theorem C76_working :
  forall (P : prims) (C : data_config) (T : texts) (bd : build) (l : list (env * source * step)),
  Forall (fun x => works (snd (fst x)) (env_rng (fst (fst x)))) l -> forall st : store * heap,
  f_run P C T bd l (st, []) = rmap (fun st => (st, [])) (run P C T bd (List.map (fun x => (fst (fst x), snd x)) l) st).
Proof. exact working_run. Qed.
Print Assumptions C76_working.

(** Failures of the source lead to no states that programs without failures do
    not reach. *)
Theorem C76_states :
  forall (P : prims) (C : data_config) (T : texts) (bd : build) (st : store * heap) (bad : list N),
  f_reached P C T bd st bad -> reached P C T bd st.
Proof. exact f_reached_reached. Qed.
Print Assumptions C76_states.

(** Failures of the source cause neither undefined behaviour nor leaks. *)
Theorem C76_safe :
  forall P : prims, prims_ok P -> forall (C : data_config) (T : texts) (bd : build) (l : list (env * source * step)),
  f_along P C T bd permitted l (start, []) ->
  f_run P C T bd l (start, []) <> Undef /\
  forall st bad, f_run P C T bd l (start, []) = Ok (st, bad) ->
    exclusive st /\ (forall t v, val_ok (snd st) t (fst st t v)) /\
    (f_along P C T bd careful l (start, []) ->
       (forall i, get i (live (snd st)) <> None -> exists t v, In i (refs (snd st) t (fst st t v))) /\
       ((forall t v, refs (snd st) t (fst st t v) = []) -> live (snd st) = [])).
Proof. exact f_safe. Qed.
Print Assumptions C76_safe.

(** The source fails at the twenty-first byte while a password is changed: -1.
    From then on the manager opens wallets and recognizes wrong passwords, but
    generates nothing.  A new manager generates a phrase even from that source,
    which has enough bytes for it. *)
Definition good : source := fun q => Some (case_rng q).
Definition short : source := fun q => if (q <? 20)%nat then Some (case_rng q) else None.
Definition C76_steps : list (source * step) := [
  (short, Call ManagerNew 0 0);
  (good, Call (KeychainDataFromSeed 0 case_seed (blit "pw")) 0 0);
  (short, Call (ChangePassword 0 case_data (blit "pw") (blit "new")) 1 1);
  (good, Call (GenerateMnemonic 0 CEnglish) 0 2);
  (short, Call (KeychainFromData 0 case_data (blit "pw")) 0 3);
  (good, Call (ChangePassword 0 case_data (blit "no") (blit "new")) 1 4);
  (short, Call ManagerNew 1 5);
  (short, Call (GenerateMnemonic 1 CEnglish) 1 6);
  (short, Call (KeychainDataFromSeed 1 case_seed (blit "pw")) 2 7)].
Definition C76_program : list (env * source * step) := List.map (fun x => (case_env, fst x, snd x)) C76_steps.
Example C76_case :
  f_along toy C33_config case_texts release_build permitted C76_program (start, []) /\
  rmap (fun x => (codes (fst x) [0; 1; 2; 3; 4; 5; 6; 7], is_null (fst (fst x) TManager 1), is_null (fst (fst x) TKeychain 0),
      is_null (fst (fst x) TString 0), is_null (fst (fst x) TString 1), snd x))
    (f_run toy C33_config case_texts release_build C76_program (start, []))
  = Ok ([(-1, []); (-1, [lit "panic"]); (-1, [lit "panic"]); (-1, []); (0, [lit "Wrong password"]); (-1, []);
         (-1, []); (-1, [lit "panic"])]%Z, false, false, true, false, [6; 0]).
Proof.
  split; [|vm_compute; reflexivity].
  assert (env_ok case_env) as He by (split; [exact sorted_order_ok|exact reverse_order_ok]).
  unfold C76_program, C76_steps. cbn [List.map fst snd].
  repeat (cbn [f_along]; split; [split; [exact He|try exact I; vm_compute; tauto]|intros ? _]). exact I.
Qed.
