(** Property C70: raw C arguments: pointers, lengths, numbers, references. *)
From Coq Require Import Strings.String.
From Verif Require Import Base Str Prims Bip39 Dict KeyPath Errors FMap FMapFacts Crypt Data DataSpec Keys Mnemonic
  Keychain Manager Features ManagerSpec Display Ffi FfiSpec FfiCallSpec FfiCheck PropertiesData PropertiesManager
  PropertiesFfi PropertiesCalls Toy Raw RawSpec RawFacts RawTheorems RawCheck RawCase.
Open Scope list_scope.

(** C70.  A slice argument is exactly the bytes that are there; if they are
    not, making it is undefined. *)
Theorem C70_slice :
  forall (E : Type) (h : heap) (c : own) (p : raw) (len : N),
  (exists b : bytes,
     (readable h c p len b /\ forall b' : bytes, readable h c p len b' -> b' = b) /\ slice (E := E) h c p len = Ok b) \/
  (forall b : bytes, ~ readable h c p len b) /\ slice (E := E) h c p len = Undef.
Proof. exact slice_exact. Qed.
Print Assumptions C70_slice.

(** C70: a string argument ends before its first NUL. *)
Theorem C70_string :
  forall (E : Type) (h : heap) (c : own) (p : raw),
  (exists b : bytes,
     (terminated h c p b /\ forall b' : bytes, terminated h c p b' -> b' = b) /\ c_string (E := E) h c p = Ok b) \/
  (forall b : bytes, ~ terminated h c p b) /\ c_string (E := E) h c p = Undef.
Proof. exact string_exact. Qed.
Print Assumptions C70_string.

(** C70: a call with valid arguments is the call on what they lead to. *)
Theorem C70_valid :
  forall (P : prims) (C : data_config) (T : texts) (bd : build) (h : heap) (c : own) (t : ty) 
    (a : raw_api t) (a' : api t) (out err : var) (s : store) (e : env),
  leads h c a a' -> raw_entry P C T bd a (Some out) (Some err) e s h c = entry P C T bd a' out err e s h.
Proof. exact leads_entry. Qed.
Print Assumptions C70_valid.

(** C70: whatever is passed, a call does one of three things, decided by the
    first argument that is not fine. *)
Theorem C70_cases :
  forall (P : prims) (C : data_config) (bd : build) (s : store) (h : heap) (c : own) 
    (t : ty) (a : raw_api t) (e : env),
  (exists x : look,
     first_bad s h c (looks a) x /\ look_undefined s h c x /\ raw_body P C bd a s e h c = Undef) \/
  (exists x : look,
     first_bad s h c (looks a) x /\ look_panics s h c x /\ raw_body P C bd a s e h c = Panic) \/
  Forall (look_fine s h c) (looks a) /\
  (exists a' : api t, leads h c a a' /\ raw_body P C bd a s e h c = body P C bd a' s e h).
Proof. exact @raw_cases. Qed.
Print Assumptions C70_cases.

(** C70: when a call is undefined. *)
Theorem C70_undefined :
  forall P : prims,
  prims_ok P ->
  forall (C : data_config) (T : texts) (bd : build) (t : ty) (a : raw_api t) 
    (out err : option var) (e : env) (s : store) (h : heap) (c : own),
  reached P C T bd (s, h) ->
  env_ok e ->
  (forall a' : api t, leads h c a a' -> api_ok a') ->
  raw_entry P C T bd a out err e s h c = Undef <->
  out = None \/ err = None \/ (exists x : look, first_bad s h c (looks a) x /\ look_undefined s h c x).
Proof. exact raw_undefined. Qed.
Print Assumptions C70_undefined.

(** C70: a null object or a string that is not UTF-8, if nothing before it is
    wrong, is reported as a panic. *)
Theorem C70_refused :
  forall (P : prims) (C : data_config) (T : texts) (bd : build) (t : ty) (a : raw_api t) 
    (out err : var) (e : env) (s : store) (h : heap) (c : own) (x : look),
  first_bad s h c (looks a) x ->
  look_panics s h c x ->
  ~ In x00 (utf8 (env_panic e)) ->
  exists (p : val TError) (s' : store) (h' : heap),
    raw_entry P C T bd a (Some out) (Some err) e s h c = Ok (false, s', h') /\
    assigned s TError err p s' /\
    error_code (e_type p) = (-1)%Z /\ points_to_text h' (e_message p) (utf8 (env_panic e)).
Proof. exact raw_refused. Qed.
Print Assumptions C70_refused.

(** C70: a program that passes valid arguments never has undefined behaviour,
    and its states are those of C49-C54 and C60. *)
Theorem C70_program :
  forall P : prims,
  prims_ok P ->
  forall (C : data_config) (T : texts) (bd : build) (l : list (env * raw_step)),
  raw_along P C T bd raw_permitted l raw_start ->
  raw_run P C T bd l raw_start <> Undef /\
  (forall (s : store) (h : heap) (c : own),
   raw_run P C T bd l raw_start = Ok (s, h, c) -> reached P C T bd (s, h)).
Proof. exact raw_program. Qed.
Print Assumptions C70_program.

(** C70: it can release everything. *)
Theorem C70_no_leak :
  forall P : prims,
  prims_ok P ->
  forall (C : data_config) (T : texts) (bd : build) (l : list (env * raw_step)) 
    (s : store) (h : heap) (c : own),
  raw_along P C T bd raw_permitted l raw_start ->
  raw_along P C T bd raw_careful l raw_start ->
  raw_run P C T bd l raw_start = Ok (s, h, c) ->
  (forall (t : ty) (v : var), refs h t (s t v) = []) -> live h = [].
Proof. exact raw_no_leak. Qed.
Print Assumptions C70_no_leak.

(** C70: what the library hands out can be handed back. *)
Theorem C70_handed_back :
  forall P : prims,
  prims_ok P ->
  forall (C : data_config) (T : texts) (bd : build) (s : store) (h : heap) (c : own),
  reached P C T bd (s, h) ->
  (forall v : var,
   d_ptr (s TData v) = Null \/
   (exists b : bytes, readable h c (raw_of (d_ptr (s TData v))) (d_len (s TData v)) b)) /\
  (forall (v i : var) (es : list (N * DataPtr)) (n : N) (d : DataPtr),
   k_ptr (s TBackup v) = At i ->
   get i (live h) = Some (BBackup es) ->
   In (n, d) es -> d_ptr d = Null \/ (exists b : bytes, readable h c (raw_of (d_ptr d)) (d_len d) b)) /\
  (forall v : var,
   refs h TString (s TString v) <> [] -> exists b : bytes, terminated h c (raw_of (s TString v)) b) /\
  (forall v : var,
   i_mnemonic (s TInfo v) = Null \/ (exists b : bytes, terminated h c (raw_of (i_mnemonic (s TInfo v))) b)) /\
  (forall v : var,
   e_message (s TError v) = Null \/ (exists b : bytes, terminated h c (raw_of (e_message (s TError v))) b)) /\
  (forall (p : addr) (b : bytes), points_to_text h p b -> terminated h c (raw_of p) b).
Proof. exact handed_back. Qed.
Print Assumptions C70_handed_back.

(** C70: with the bytes that the handle stands for (C60). *)
Theorem C70_data :
  forall (h : heap) (c : own) (d : DataPtr) (b : bytes),
  holds_data h d b -> readable h c (raw_of (d_ptr d)) (d_len d) b.
Proof. exact data_readable. Qed.
Print Assumptions C70_data.

(** C70: after a delete no pointer into what was released is valid, not even
    with the length zero. *)
Theorem C70_released :
  forall P : prims,
  prims_ok P ->
  forall (C : data_config) (T : texts) (bd : build) (t : ty) (v : var) 
    (s : store) (h : heap) (s' : store) (h' : heap) (i off len : N) (b : bytes) 
    (c : own),
  reached P C T bd (s, h) ->
  (t = TString -> refs h t (s t v) <> []) ->
  (t = TNetworks -> refs h t (s t v) = []) ->
  delete t v s h = Ok (s', h') ->
  In i (refs h t (s t v)) ->
  ~ readable h' c (RLib i off) len b /\ ~ terminated h' c (RLib i off) b.
Proof. exact released. Qed.
Print Assumptions C70_released.

(** C70: and every other pointer is what it was. *)
Theorem C70_kept :
  forall P : prims,
  prims_ok P ->
  forall (C : data_config) (T : texts) (bd : build) (t : ty) (v : var) 
    (s : store) (h : heap) (s' : store) (h' : heap) (i off len : N) (b : bytes) 
    (c : own),
  reached P C T bd (s, h) ->
  (t = TString -> refs h t (s t v) <> []) ->
  (t = TNetworks -> refs h t (s t v) = []) ->
  delete t v s h = Ok (s', h') ->
  ~ In i (refs h t (s t v)) ->
  (readable h c (RLib i off) len b <-> readable h' c (RLib i off) len b) /\
  (terminated h c (RLib i off) b <-> terminated h' c (RLib i off) b).
Proof. exact kept. Qed.
Print Assumptions C70_kept.

(** C70: the null pointer is never valid. *)
Theorem C70_null :
  forall (h : heap) (c : own) (len : N) (b : bytes), ~ readable h c RNull len b /\ ~ terminated h c RNull b.
Proof. exact null_unreadable. Qed.
Print Assumptions C70_null.

(** C70: calls leave the program's own memory alone; a write or release changes
    one block, and nothing of the library. *)
Theorem C70_own_memory :
  forall (P : prims) (C : data_config) (T : texts) (bd : build) (e : env) (x : raw_step)
    (s : store) (h : heap) (c : own) (s' : store) (h' : heap) (c' : own),
  raw_run_step P C T bd (e, x) (s, h, c) = Ok (s', h', c') ->
  match x with
  | RWrite i b => s' = s /\ h' = h /\ get i c' = Some b /\ forall j : N, j <> i -> get j c' = get j c
  | RRelease i => s' = s /\ h' = h /\ get i c' = None /\ forall j : N, j <> i -> get j c' = get j c
  | _ => c' = c
  end.
Proof. exact raw_own. Qed.
Print Assumptions C70_own_memory.

(** A C program with a password and a seed in its own memory that passes the
    library's results back to it. *)
Definition raw_case : list (env * raw_step) := List.map (pair case_env) [
  RWrite 0 (blit "pw" ++ [x00] ++ blit "rest"); RWrite 1 (x01 :: case_seed);
  RCall RManagerNew (Some 0) (Some 0);
  RCall (RKeychainDataFromSeed (Some 0) (ROwn 1 1) 64 (ROwn 0 0)) (Some 0) (Some 0);
  RCall (RKeychainFromData (Some 0) (RLib 1 0) 787 (ROwn 0 0)) (Some 0) (Some 0);
  RCall (RSign (Some 0) ETHEREUM (ROwn 1 0) 32 case_path) (Some 1) (Some 0);
  RCall (RVerify (Some 0) ETHEREUM (ROwn 1 0) 32 (RLib 3 0) 64 case_path) (Some 0) (Some 0);
  RCall (RGenerateMnemonic (Some 0) 1) (Some 0) (Some 0);
  RCall (RKeychainDataFromMnemonic (Some 0) (RLib 4 0) (ROwn 0 0) 1) (Some 2) (Some 0);
  RCall (RKeychainFromData (Some 0) (ROwn 1 1) 0 (ROwn 0 1)) (Some 1) (Some 0);
  RCall (RKeypathFromString (RLib 6 4)) (Some 0) (Some 1);
  RRelease 0].
Definition raw_after (l : list (env * raw_step)) : Ffi.store * heap * own :=
  match raw_run toy C33_config case_texts release_build l raw_start with Ok st => st | _ => raw_start end.

Definition raw_view (st : Ffi.store * heap * own) :=
  let '(s, h, c) := st in
  (List.map (s TData) [0; 1; 2], s TBool 0, codes (s, h) [0; 1], List.map fst c).

Example C70_case :
  raw_along toy C33_config case_texts release_build raw_permitted raw_case raw_start /\
  raw_along toy C33_config case_texts release_build raw_careful raw_case raw_start /\
  raw_view (raw_after raw_case) =
  ([{| d_ptr := At 1; d_len := 787 |}; {| d_ptr := At 3; d_len := 65 |}; {| d_ptr := At 5; d_len := 811 |}], true,
   [(1%Z, [lit "Not enough data to load keychain"]);
    (10%Z, [lit "Key path error Invalid parts count 1, expected: 6"])], [1]).
Proof.
  assert (env_ok case_env) as He by (split; [exact sorted_order_ok|exact reverse_order_ok]).
  assert (Forall raw_args_ok raw_case) as Ha.
  { unfold raw_case. cbn [List.map].
    repeat (apply Forall_cons; [split; [exact He|]; cbn [fst snd raw_api_ok]; try exact I; repeat split; discriminate|]);
    apply Forall_nil. }
  destruct (raw_check_along toy C33_config case_texts release_build raw_case Ha raw_start) as [A B]; [vm_compute; reflexivity|].
  split; [exact A|]. split; [exact B|]. vm_compute. reflexivity.
Qed.

(** The other outcomes: a null manager and a null password, a null password
    only, a string that is not UTF-8, a length too long, an unknown language,
    a null result, released data. *)
Definition raw_use (st : Ffi.store * heap * own) {t} (a : raw_api t) (out : option var) : res Empty_set bool :=
  let '(s, h, c) := st in
  rmap (fun r => fst (fst r))
    (raw_entry toy C33_config case_texts release_build a out (Some 5) case_env s h ((9, [xff; x00]) :: c)).
Definition raw_uses (st : Ffi.store * heap * own) : list (res Empty_set bool) := [
  raw_use st (RKeychainFromData (Some 7) (RLib 1 0) 787 RNull) (Some 1);
  raw_use st (RKeychainFromData (Some 0) (RLib 1 0) 787 RNull) (Some 1);
  raw_use st (RKeychainFromData (Some 0) (RLib 1 0) 787 (ROwn 9 0)) (Some 1);
  raw_use st (RKeychainFromData (Some 0) (RLib 1 0) 788 (ROwn 9 1)) (Some 1);
  raw_use st (RKeychainFromData (Some 0) (RLib 1 0) 787 (ROwn 9 1)) (Some 1);
  raw_use st (RGenerateMnemonic (Some 0) 8) (Some 1);
  raw_use st (RGenerateMnemonic None 7) (Some 1);
  raw_use st (RGenerateMnemonic (Some 0) 7) None;
  raw_use st (RGenerateMnemonic (Some 0) 7) (Some 1)].
Definition raw_freed : list (env * raw_step) := raw_case ++ List.map (pair case_env)
  [RDelete TData (Some 0); RWrite 0 [x00]; RCall (RKeychainFromData (Some 0) (RLib 1 0) 0 (ROwn 0 0)) (Some 1) (Some 5)].
Example C70_outcomes :
  raw_uses (raw_after raw_case) =
  [Ok false; Undef; Ok false; Undef; Ok false; Undef; Undef; Undef; Ok true] /\
  raw_run toy C33_config case_texts release_build raw_freed raw_start = Undef.
Proof. split; vm_compute; reflexivity. Qed.

(** An expectation that fails: that nothing is read from an empty message, so
    that it may be the null pointer. *)
Theorem C70_null_empty_refuted :
  exists (P : prims) (C : data_config) (T : texts) (s : store) (h : heap) (c : own) (e : env) (k : KeyPath),
    prims_ok P /\ reached P C T release_build (s, h) /\ env_ok e /\
    raw_entry P C T release_build (RSign (Some 0) CARDANO RNull 0 k) (Some 1) (Some 0) e s h c = Undef /\
    exists s' h',
      raw_entry P C T release_build (RSign (Some 0) CARDANO RNothing 0 k) (Some 1) (Some 0) e s h c = Ok (true, s', h').
Proof. exact null_empty. Qed.
Print Assumptions C70_null_empty_refuted.
