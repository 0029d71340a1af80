(** Property C60: the C functions compute what the Rust functions compute. *)
From Coq Require Import Strings.String.
From Verif Require Import Base Str Prims Bip39 Dict KeyPath Errors FMap FMapFacts Crypt Data DataSpec Keys Mnemonic
  Keychain Manager Features ManagerSpec Display Ffi FfiSpec FfiCallSpec FfiCallFacts FfiCheck PropertiesData PropertiesManager
  PropertiesFfi Toy.
Open Scope list_scope.

(** C60.  A value is stored and described correctly, an error is reported with
    its class and text, a panic as a panic. *)
Theorem C60_calls :
  forall (P : prims) (C : data_config) (T : texts) (bd : build),
  prims_ok P ->
  forall (t : ty) (a : api t) (out err : var) (e : env) (s : store) (h : heap),
  reached P C T bd (s, h) ->
  api_ok a ->
  env_ok e ->
  (forall c : content t,
   rust_call P C bd a s h e = Ok c ->
   exists (x : val t) (s' : store) (h' : heap),
     entry P C T bd a out err e s h = Ok (true, s', h') /\ assigned s t out x s' /\ holds h' t x c) /\
  (forall ke : kc_error,
   rust_call P C bd a s h e = Err ke ->
   ~ In x00 (utf8 (show T ke)) ->
   exists (p : val TError) (s' : store) (h' : heap),
     entry P C T bd a out err e s h = Ok (false, s', h') /\
     assigned s TError err p s' /\
     error_code (e_type p) = class_number ke /\
     points_to_text h' (e_message p) (utf8 (show T ke))) /\
  (rust_call P C bd a s h e = Panic ->
   ~ In x00 (utf8 (env_panic e)) ->
   exists (p : val TError) (s' : store) (h' : heap),
     entry P C T bd a out err e s h = Ok (false, s', h') /\
     assigned s TError err p s' /\
     error_code (e_type p) = (-1)%Z /\
     points_to_text h' (e_message p) (utf8 (env_panic e))) /\
  rust_call P C bd a s h e <> Undef.
Proof. exact call_result. Qed.
Print Assumptions C60_calls.

Definition prefix_program : list (env * step) := List.map (pair case_env) (firstn 3 case_program).
Definition prefix_state : Ffi.store * heap := after (firstn 3 case_program).
Notation case_call a := (rust_call toy C33_config release_build a (fst prefix_state) (snd prefix_state) case_env).
Example C60_case :
  reached toy C33_config case_texts release_build prefix_state /\
  rmap (fun b : bytes => List.length b) (case_call (PubKey 0 ETHEREUM case_path)) = Ok 65%nat /\
  rmap (fun l : list (N * bytes) => List.map fst l) (case_call (GetKeysData 0 case_data (blit "pw"))) =
  Ok [BITCOIN; ETHEREUM; CARDANO] /\
  case_call (KeychainFromData 0 case_data (blit "other")) = Err WrongPassword /\
  case_call (Sign 0 1 (repeat x00 32) case_path) = Err (KeyDoesNotExist 1) /\
  case_call (GenerateMnemonic 1 CFrench) = Panic /\
  case_call (KeychainFromData 0 case_data [xff]) = Panic.
Proof.
  assert (env_ok case_env) as He by (split; [exact sorted_order_ok|exact reverse_order_ok]).
  assert (Forall args_ok prefix_program) as Ha.
  { unfold prefix_program, case_program. cbn [List.map app firstn].
    repeat (apply Forall_cons; [split; [exact He|exact I]|]); apply Forall_nil. }
  destruct (check_along toy C33_config case_texts release_build prefix_program Ha start) as [A _]; [vm_compute; reflexivity|].
  assert (finished (firstn 3 case_program) = true) as Hf by (vm_compute; reflexivity).
  assert (run toy C33_config case_texts release_build prefix_program start = Ok prefix_state) as Hr.
  { unfold prefix_state, after, prefix_program. unfold finished in Hf. destruct (run _ _ _ _ _ _); [reflexivity|discriminate..]. }
  split; [exists prefix_program; split; [exact A|exact Hr]|]. clear.
  repeat (split; [vm_compute; reflexivity|]). vm_compute. reflexivity.
Qed.
