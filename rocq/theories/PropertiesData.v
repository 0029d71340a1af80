(** Properties C33 and C34: the wallet data format. *)
From Coq Require Import Strings.String.
From Verif Require Import Base Dict Errors FMap FMapFacts Base64 Json Data DataSpec DataFacts.
Open Scope list_scope.

(** C33.  Writing and reading back. *)
Theorem C33_round_trip : forall (C : data_config) (o : order) (w : wallet),
  order_ok o -> wallet_ok w ->
  bind (versioned_from_bytes C (versioned_to_bytes (versioned_new o w))) (get_data C) = Ok w.
Proof. exact wallet_round_trip. Qed.
Print Assumptions C33_round_trip.

Theorem C33_text : forall (o : order) (w : wallet),
  versioned_to_bytes (versioned_new o w) = envelope 2 (wallet_text w (o _ (w_keys w))).
Proof. exact versioned_text. Qed.
Print Assumptions C33_text.

Definition C33_config : data_config := {|
  json_cfg := {| max_ignored_depth := Some 126%nat; minus_zero := true |};
  b64_cfg := {| b64_any_trailing_bits := false; b64_short_padding := false |} |}.
Definition C33_wallet : wallet := {|
  w_seed := Some [x01; xff];
  w_mnemonic := Some [0x22; 0x5c; 0; 0xe9; 0x1F600];
  w_dictionary := Some Korean;
  w_keys := [(0, []); (60, [x01; x02; x03]); (u32_max, [x04])] |}.

Example C33_case : order_ok reverse_order /\ wallet_ok C33_wallet /\
  wallet_text C33_wallet (reverse_order _ (w_keys C33_wallet)) =
  blit "{""seed"":""Af8="",""mnemonic"":""\""\\\u0000" ++ [xc3; xa9; xf0; x9f; x98; x80] ++
  blit """,""dictionary"":""Korean"",""keys"":[[4294967295,""BA==""],[60,""AQID""],[0,""""]]}" /\
  bind (versioned_from_bytes C33_config (versioned_to_bytes (versioned_new reverse_order C33_wallet)))
    (get_data C33_config) = Ok C33_wallet.
Proof.
  split; [exact reverse_order_ok|].
  split; [|split; [vm_compute; reflexivity|vm_compute; reflexivity]].
  repeat split; repeat constructor; discriminate.
Qed.

(** C33 for a version-2 document listing its keys in any order. *)
Theorem C33_read : forall (C : data_config) (w : wallet) (entries : list (N * bytes)),
  Permutation entries (w_keys w) -> wallet_ok w ->
  bind (versioned_from_bytes C (envelope 2 (wallet_text w entries))) (get_data C) = Ok w.
Proof. exact wallet_read. Qed.
Print Assumptions C33_read.

(** C34.  Version 1 and unknown versions. *)
Theorem C34_version_1 : forall (C : data_config) (entries : list (N * bytes)) (m : fmap bytes),
  Permutation entries m -> wf_map m /\ Forall (fun e => is_u32 (fst e)) m ->
  bind (versioned_from_bytes C (envelope 1 (v1_text entries))) (get_data C) =
  Ok {| w_seed := None; w_mnemonic := None; w_dictionary := None; w_keys := m |}.
Proof. exact v1_read. Qed.
Print Assumptions C34_version_1.

Theorem C34_other_versions : forall (C : data_config) (n : N) (d : bytes),
  n <= usize_max -> n <> 1 -> n <> 2 ->
  versioned_from_bytes C (envelope n d) = Err DMalformed.
Proof. exact other_version. Qed.
Print Assumptions C34_other_versions.

Example C34_case :
  bind (versioned_from_bytes C33_config
    (blit "{""version"":1,""data"":""eyJrZXlzIjpbWzEsIkFRPT0iXV19""}")) (get_data C33_config)
  = Ok {| w_seed := None; w_mnemonic := None; w_dictionary := None; w_keys := [(1, [x01])] |} /\
  v1_text [(1, [x01])] = blit "{""keys"":[[1,""AQ==""]]}" /\
  versioned_from_bytes C33_config (blit "{""version"":3,""data"":""""}") = Err DMalformed.
Proof. repeat split; vm_compute; reflexivity. Qed.
