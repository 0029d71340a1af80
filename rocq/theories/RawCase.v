(** A state in which an empty message as the null pointer is undefined. *)
From Coq Require Import Strings.String.
From Verif Require Import Base Prims KeyPath FMap FMapFacts Data Display Keys Keychain Manager Features Ffi FfiSpec Raw RawSpec PropertiesData PropertiesFfi
  PropertiesCalls Toy.
Open Scope list_scope.

Definition ada_path : KeyPath :=
  {| purpose := 2147483692; coin := 2147485463; account := 2147483648; change := 0; address := 0 |}.
Theorem null_empty :
  exists (P : prims) (C : data_config) (T : texts) (s : store) (h : heap) (c : own) (e : env) (k : KeyPath),
    prims_ok P /\ reached P C T release_build (s, h) /\ env_ok e /\
    raw_entry P C T release_build (RSign (Some 0) CARDANO RNull 0 k) (Some 1) (Some 0) e s h c = Undef /\
    exists s' h',
      raw_entry P C T release_build (RSign (Some 0) CARDANO RNothing 0 k) (Some 1) (Some 0) e s h c = Ok (true, s', h').
Proof.
  exists toy, C33_config, case_texts, (fst prefix_state), (snd prefix_state), [], case_env, ada_path.
  split; [exact toy_ok|]. split; [|split; [split; [exact sorted_order_ok|exact reverse_order_ok]|]].
  - pose proof (proj1 C60_case) as H. destruct prefix_state as [s h]. exact H.
  - split; [reflexivity|].
    assert (rmap (fun r => fst (fst r)) (raw_entry toy C33_config case_texts release_build (RSign (Some 0) CARDANO RNothing 0 ada_path)
      (Some 1) (Some 0) case_env (fst prefix_state) (snd prefix_state) []) = Ok true) as H by (vm_compute; reflexivity).
    destruct (raw_entry _ _ _ _ _ _ _ _ _ _ _) as [[[b s'] h']| | |]; try discriminate. injection H as ->. eauto.
Qed.
