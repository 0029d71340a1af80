(** What another wallet that follows the published standards computes from the
    same phrase or seed, and what it means that a keychain answers like it. *)
From Coq Require Import Strings.String.
From Verif Require Import Base Prims KeyPath KeyPathSpec XPrv XPrvSpec KeysSpec Keychain ManagerSpec HistorySpec.
Open Scope list_scope.

(** BIP-39: the seed of a phrase, without a passphrase. *)
Definition bip39_seed (P : prims) (t : str) : bytes :=
  pbkdf2 P (utf8 t) (blit "mnemonic") 2048 64.

(** BIP-32: the master key of a seed. *)
Definition bip32_master (P : prims) (seed : bytes) : XPrv :=
  let I := hmac_sha512 P (blit "Bitcoin seed") seed in
  {| x_key := of_be (firstn 32 I); x_chaincode := skipn 32 I;
     x_parent_fingerprint := [x00; x00; x00; x00]; x_depth := x00; x_index := 0 |}.

(** For [n] and the path [k] the keychain answers as the owner of the BIP-32
    key [z]: the uncompressed public key, signatures of the Keccak-256 hash as
    r, s and the recovery id, and checking of signatures r, s. *)
Definition answers_secp (P : prims) (z : XPrv) (kc : Keychain) (n : N) (k : KeyPath) : Prop :=
  kc_pub_key kc n k = Ok ([x04] ++ be 32 (fst (secp_pub P (x_key z)))
                                ++ be 32 (snd (secp_pub P (x_key z)))) /\
  (forall msg r s v, secp_sign P (keccak256 P msg) (x_key z) = Some (r, s, v) -> v < 2 ->
     kc_sign kc n msg k = Ok (be 32 r ++ be 32 s ++ [n2b v])) /\
  (forall msg r s, r < secp_n -> s < secp_n ->
     kc_verify kc n msg (be 32 r ++ be 32 s) k
     = Ok (secp_verify P (keccak256 P msg) r s (secp_pub P (x_key z)))).

(** For [n] and the path [k] the keychain answers as the owner of the extended
    Ed25519 key [y]. *)
Definition answers_ed (P : prims) (y : bytes) (kc : Keychain) (n : N) (k : KeyPath) : Prop :=
  kc_pub_key kc n k = Ok (ed_public P y) /\
  (forall msg, kc_sign kc n msg k = Ok (ed_sign P y msg)) /\
  (forall msg sig, List.length sig = 64%nat -> kc_verify kc n msg sig k = Ok (ed_verify P y msg sig)).

(** On all its networks and all their paths the keychain answers as the
    standards prescribe for the seed [s].  Bitcoin and Ethereum: the BIP-32 key
    at the path below the master key, when BIP-32 defines it.  Cardano: the key
    at the path below the clamped hash of the first half of the seed, with the
    second half as chain code. *)
Definition standard_answers (P : prims) (s : bytes) (kc : Keychain) : Prop :=
  forall n k, has_network kc n = true -> kp_wf k -> path_ok n k ->
  (n = 2 ^ 31 \/ n = 2 ^ 31 + 60 ->
     forall z, derives P (bip32_master P s) (path_values k) z -> answers_secp P z kc n k) /\
  (n = 2 ^ 31 + 1815 ->
     forall h, clamped (sha512 P (firstn 32 s)) h ->
       answers_ed P (ed_derive_along P (h ++ skipn 32 s) (path_values k)) kc n k).

(** [ns] names the built-in network [n]. *)
Definition offers (ns : list N) (n : N) : Prop :=
  In n ns /\ In n [2 ^ 31; 2 ^ 31 + 60; 2 ^ 31 + 1815].

(** The stored data [data], opened by any manager of built-in networks [ns'],
    gives a keychain with standard answers for [s].  It has every network that
    both [ns] and [ns'] name and no network that [ns'] does not name.  Opening
    succeeds as soon as BIP-32 defines the key at m/44'/60', if [ns'] names
    Ethereum. *)
Definition interoperable (P : prims) (C : Data.data_config) (s : bytes) (ns : list N) (data : bytes) (pw : str)
  : Prop :=
  forall ns' o m, Manager.with_networks P ns' = Ok m -> FMap.order_ok o ->
  (forall kc, Manager.keychain_from_data P C o m data pw = Ok kc ->
     standard_answers P s kc /\
     (forall n, offers ns n -> offers ns' n -> has_network kc n = true) /\
     (forall n, has_network kc n = true -> offers ns' n)) /\
  ((In (2 ^ 31 + 60) ns' -> exists y, derives P (bip32_master P s) [2 ^ 31 + 44; 2 ^ 31 + 60] y) ->
     exists kc, Manager.keychain_from_data P C o m data pw = Ok kc).

(** The password after a history that started with the password [pw]. *)
Definition final_password (pw : str) (l : list op) : str :=
  fold_left (fun pw p => match p with Change _ new => new | _ => pw end) l pw.
