(** Property C66: what Bitcoin and Ethereum keys sign and verify. *)
From Verif Require Import Base Prims Bip39 KeyPath KeyPathSpec Errors XPrv XPrvSpec Keys KeysSpec SignFacts KeysFacts Toy.

(** C66.  The key at a path signs the Keccak-256 hash of the data with the
    BIP-32 child key: 32 bytes, 32 bytes and the recovery number, or an error
    naming what failed.  Verifying takes 64 bytes, reduces both numbers modulo
    the group order and asks the curve about the same hash and the child's
    public key; any other length is refused by name. *)
Theorem C66_exact : forall (P : prims) (f : KeyFactory) (n : N), prims_ok P ->
  (f = btc_factory P /\ n = 2 ^ 31) \/ (f = eth_factory P /\ n = 2 ^ 31 + 60) ->
  forall x z k, kp_wf k -> path_ok n k -> xprv_wf x -> derives P x (path_values k) z ->
  exists K, key_from_data f (xprv_layout P x) = Ok K /\
  forall msg, let h := keccak256 P msg in
    (secp_sign P h (x_key z) = None -> sign K msg k = Err (SignError (BoxSecp SInvalidMessage))) /\
    (forall r s v, secp_sign P h (x_key z) = Some (r, s, v) ->
       (v < 2 -> sign K msg k = Ok (be 32 r ++ be 32 s ++ [n2b v])) /\
       (2 <= v -> sign K msg k = Err (SignError (BoxSecp SInvalidRecoveryId)))) /\
    (forall sig, length sig <> 64%nat ->
       verify K msg sig k = Err (InvalidSignatureSize (N.of_nat (length sig)) 64)) /\
    (forall r s, r < 2 ^ 256 -> s < 2 ^ 256 ->
       verify K msg (be 32 r ++ be 32 s) k
       = Ok (secp_verify P h (r mod secp_n) (s mod secp_n) (secp_pub P (x_key z)))).
Proof. exact sign_exact. Qed.
Print Assumptions C66_exact.

(** C66, expectation refuted: of two different byte strings at most one is
    accepted as the encoding of a signature, and its numbers are below the
    group order. *)
Theorem C66_canonical_refuted : exists P K k msg sig sig',
  prims_ok P /\ secp_correct P /\ secp_loaded P K (2 ^ 31 + 60) /\ kp_wf k /\
  sig <> sig' /\ verify K msg sig k = Ok true /\ verify K msg sig' k = Ok true /\
  secp_n <= of_be (firstn 32 sig').
Proof. exact not_canonical. Qed.
Print Assumptions C66_canonical_refuted.

(** The hypotheses are met by [C26_case]; the toy curve signs everything. *)
Example C66_case : exists x z,
  let k := {| purpose := 0x8000002C; coin := 0x8000003C; account := 0x80000000; change := 0;
              address := 3 |} in
  kp_wf k /\ path_ok (2 ^ 31 + 60) k /\ xprv_wf x /\ derives toy x (path_values k) z /\
  exists r s, secp_sign toy (keccak256 toy [x05]) (x_key z) = Some (r, s, 1).
Proof. destruct bip32_case as (x & z & H1 & H2 & H3 & H4). exists x, z. cbv zeta. repeat (split; [assumption|]). eexists _, _. reflexivity. Qed.
