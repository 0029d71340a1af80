(** Properties C19, C20, C26-C29: keys of the built-in networks. *)
From Coq Require Import Strings.String.
From Verif Require Import Base Prims Bip39 KeyPath KeyPathSpec Errors XPrv XPrvSpec Keys KeysSpec
  KeysFacts SeedFacts Toy.

(** C19.  Every network obeys its rules: a path breaking one is refused with
    the error of the first broken rule, a path obeying all is never refused
    for the path.  (Cardano looks at the signature's size first; see C29.) *)
Theorem C19_paths : forall P : prims,
  (forall x, obeys_rules (2 ^ 31) (btc_key P x) (fun _ => True)) /\
  (forall x, obeys_rules (2 ^ 31 + 60) (eth_key P x) (fun _ => True)) /\
  (forall x, obeys_rules (2 ^ 31 + 1815) (ada_key P x) (fun sig => List.length sig = 64%nat)) /\
  (forall n k, path_ok n k \/ exists e, rejects n k e).
Proof. exact paths_obeyed. Qed.
Print Assumptions C19_paths.

(** C19, expectation refuted: the Bitcoin key checks the purpose. *)
Theorem C19_bitcoin_checks_purpose_refuted :
  exists k : KeyPath, purpose k = 0 /\ path_ok (2 ^ 31) k.
Proof. exact btc_any_purpose. Qed.
Print Assumptions C19_bitcoin_checks_purpose_refuted.

Example C19_case :
  let k := {| purpose := 0x8000002C; coin := 0x8000003C; account := 5; change := 2;
              address := 0x80000000 |} in
  rejects (2 ^ 31 + 60) k (InvalidAccount 5) /\
  path_ok (2 ^ 31 + 60) {| purpose := 0x8000002C; coin := 0x8000003C; account := 0x80000000;
                           change := 1; address := 0x7FFFFFFF |}.
Proof.
  split; [now apply rejects_validate|]. now apply path_ok_validate.
Qed.

(** C20.  Constructed paths. *)
Theorem C20_constructed : forall p : profile,
  (forall con pu, In (pu, con) [(44, btc_bip44); (49, btc_bip49); (84, btc_bip84)] ->
   forall a c d k,
     (con p false a c d = Ok k ->
        path_ok (2 ^ 31) k /\
        (pu = 44 -> forall n, In n [60; 1815] ->
           rejects (2 ^ 31 + n) k (InvalidCoin (2 ^ 31) (2 ^ 31 + n))) /\
        (pu <> 44 -> forall n, In n [60; 1815] ->
           rejects (2 ^ 31 + n) k (InvalidPurpose (2 ^ 31 + pu) (2 ^ 31 + 44)))) /\
     (con p true a c d = Ok k ->
        rejects (2 ^ 31) k (InvalidCoin (2 ^ 31 + 1) (2 ^ 31)) /\
        forall n, In n [60; 1815] -> exists e, rejects (2 ^ 31 + n) k e)) /\
  (forall a c d k, ada_new p a c d = Ok k ->
     path_ok (2 ^ 31 + 1815) k /\
     forall n, In n [0; 60] ->
       rejects (2 ^ 31 + n) k (InvalidCoin (2 ^ 31 + 1815) (2 ^ 31 + n))) /\
  (forall a k, eth_new p a = Ok k \/ eth_new_metamask a = Ok k ->
     path_ok (2 ^ 31 + 60) k /\
     forall n, In n [0; 1815] ->
       rejects (2 ^ 31 + n) k (InvalidCoin (2 ^ 31 + 60) (2 ^ 31 + n))).
Proof. exact constructed_paths. Qed.
Print Assumptions C20_constructed.

(** C20, expectation refuted: a Bitcoin key can use the paths of the Bitcoin
    path constructors. *)
Theorem C20_testnet_usable_refuted : exists (P : prims) x k,
  btc_bip44 Debug true 0 0 0 = Ok k /\
  pub_key (btc_key P x) k = Err (InvalidKeyPath (InvalidCoin 0x80000001 0x80000000)).
Proof. exact testnet_refused. Qed.
Print Assumptions C20_testnet_usable_refuted.

Example C20_case : exists k, btc_bip49 Debug false 3 1 9 = Ok k.
Proof. eexists. vm_compute. reflexivity. Qed.

(** C26.  Loading a key and using it at a path is deriving along the whole
    path from the stored master key. *)
Theorem C26_secp : forall (P : prims) (f : KeyFactory) (n : N),
  (f = btc_factory P /\ n = 2 ^ 31) \/ (f = eth_factory P /\ n = 2 ^ 31 + 60) ->
  forall data k msg sig, path_ok n k ->
  let master := let* x := xprv_from_data P data in derive_along P x (path_values k) in
  (let* K := key_from_data f data in pub_key K k)
  = rmap (fun x => pub_serialize (secp_pub P (x_key x))) (map_err key_of_secp master) /\
  (let* K := key_from_data f data in sign K msg k)
  = (let* x := map_err key_of_secp master in map_err secp_sign_error (xprv_sign P x msg)) /\
  (let* K := key_from_data f data in verify K msg sig k)
  = (let* x := map_err key_of_secp master in
     map_err key_of_secp (xpub_verify P (secp_pub P (x_key x)) msg sig)).
Proof. exact secp_transparent. Qed.
Print Assumptions C26_secp.

Theorem C26_cardano : forall (P : prims) data k msg sig, path_ok (2 ^ 31 + 1815) k ->
  List.length data = 96%nat -> List.length sig = 64%nat ->
  let master := rmap (fun x => ed_derive_along P x (path_values k)) (from_bytes_verified data) in
  (let* K := key_from_data (ada_factory P) data in pub_key K k)
  = rmap (ed_public P) master /\
  (let* K := key_from_data (ada_factory P) data in sign K msg k)
  = rmap (fun x => ed_sign P x msg) master /\
  (let* K := key_from_data (ada_factory P) data in verify K msg sig k)
  = rmap (fun x => ed_verify P x msg sig) master.
Proof. exact ada_transparent. Qed.
Print Assumptions C26_cardano.

(** C26 with BIP-32 as the reference (no exceptional step on the way). *)
Theorem C26_bip32 : forall (P : prims) (f : KeyFactory) (n : N), prims_ok P ->
  (f = btc_factory P /\ n = 2 ^ 31) \/ (f = eth_factory P /\ n = 2 ^ 31 + 60) ->
  forall x z k msg, kp_wf k -> path_ok n k -> xprv_wf x -> derives P x (path_values k) z ->
  exists K, key_from_data f (xprv_layout P x) = Ok K /\
    pub_key K k = Ok ([x04] ++ be 32 (fst (secp_pub P (x_key z)))
                            ++ be 32 (snd (secp_pub P (x_key z)))) /\
    sign K msg k = map_err secp_sign_error (xprv_sign P z msg).
Proof. exact secp_bip32. Qed.
Print Assumptions C26_bip32.

Example C26_case : exists x z,
  let k := {| purpose := 0x8000002C; coin := 0x8000003C; account := 0x80000000; change := 0;
              address := 3 |} in
  kp_wf k /\ path_ok (2 ^ 31 + 60) k /\ xprv_wf x /\ derives toy x (path_values k) z.
Proof. exact bip32_case. Qed.

(** C27.  Verifying one's own signatures. *)
Theorem C27_secp : forall (P : prims) (K : Key) (n : N) (k : KeyPath) (data sig : bytes),
  prims_ok P -> secp_loaded P K n -> kp_wf k -> sign K data k = Ok sig ->
  List.length sig = 65%nat /\
  (forall data', verify K data' sig k = Err (InvalidSignatureSize 65 64)) /\
  (secp_correct P -> verify K data (firstn 64 sig) k = Ok true).
Proof. intros P K n k data sig HP. exact (secp_verify_sign P HP K n k data sig). Qed.
Print Assumptions C27_secp.

Theorem C27_cardano : forall (P : prims) (x : bytes) (k : KeyPath) (data sig : bytes),
  prims_ok P -> ed_correct P -> sign (ada_key P x) data k = Ok sig ->
  List.length sig = 64%nat /\ verify (ada_key P x) data sig k = Ok true.
Proof. intros P x k data sig HP. exact (ada_verify_sign P HP x k data sig). Qed.
Print Assumptions C27_cardano.

(** C27, expectation refuted: a key verifies its own signatures. *)
Theorem C27_verify_own_refuted : exists P K k data sig,
  prims_ok P /\ secp_correct P /\ secp_loaded P K (2 ^ 31) /\ kp_wf k /\
  sign K data k = Ok sig /\ verify K data sig k = Err (InvalidSignatureSize 65 64).
Proof. exact own_signature_refused. Qed.
Print Assumptions C27_verify_own_refuted.

(** C28.  Cardano key data made from a seed. *)
Theorem C28_cardano_seed : forall (P : prims) (seed : bytes), prims_ok P ->
  List.length seed = 64%nat ->
  exists h, clamped (sha512 P (firstn 32 seed)) h /\
    key_data_from_seed (ada_factory P) seed = Ok (h ++ skipn 32 seed) /\
    List.length (h ++ skipn 32 seed) = 96%nat /\
    exists K, key_from_data (ada_factory P) (h ++ skipn 32 seed) = Ok K.
Proof. intros P seed HP. exact (ada_seed_data P HP seed). Qed.
Print Assumptions C28_cardano_seed.

Example C28_case : List.length (repeat xff 64) = 64%nat /\
  exists d, key_data_from_seed (ada_factory toy) (repeat xff 64) = Ok d.
Proof. split; [reflexivity|eexists; vm_compute; reflexivity]. Qed.

(** C28: Bitcoin and Ethereum store the same BIP-32 master key of the seed. *)
Theorem C28_secp_seed : forall (P : prims) (seed : bytes), prims_ok P -> List.length seed = 64%nat ->
  let I := hmac_sha512 P (blit "Bitcoin seed") seed in
  let k := of_be (firstn 32 I) in
  let master := xprv_layout P {| x_key := k; x_chaincode := skipn 32 I; x_parent_fingerprint := [x00; x00; x00; x00];
                                 x_depth := x00; x_index := 0 |} in
  (0 < k < secp_n ->
     key_data_from_seed (btc_factory P) seed = Ok master /\ key_data_from_seed (eth_factory P) seed = Ok master) /\
  (~ (0 < k < secp_n) ->
     key_data_from_seed (btc_factory P) seed = Err (InvalidKeyData (BoxSecp SInvalidSecretKey)) /\
     key_data_from_seed (eth_factory P) seed = Err (InvalidKeyData (BoxSecp SInvalidSecretKey))).
Proof. intros P seed HP. exact (secp_seed_data P HP seed). Qed.
Print Assumptions C28_secp_seed.

(** C28: seeds of another List.length are refused. *)
Theorem C28_seed_length : forall (P : prims) (f : KeyFactory) (seed : bytes),
  In f [ada_factory P; eth_factory P; btc_factory P] -> List.length seed <> 64%nat ->
  key_data_from_seed f seed = Err (InvalidMnemonic (UnknownError (InvalidSeedSize (N.of_nat (List.length seed))))).
Proof. exact seed_length_checked. Qed.
Print Assumptions C28_seed_length.

Example C28_secp_case : let k := of_be (firstn 32 (hmac_sha512 toy (blit "Bitcoin seed") (repeat x11 64))) in
  ((0 <? k) && (k <? secp_n))%bool = true.
Proof. vm_compute. reflexivity. Qed.

(** C29.  Lengths of Cardano key data and signatures. *)
Theorem C29_key_data : forall (P : prims) (data : bytes),
  ((List.length data < 96)%nat ->
     key_from_data (ada_factory P) data = Err (InvalidKeySize (N.of_nat (List.length data)) 96)) /\
  (List.length data = 96%nat ->
     (b2n (nth 31 data x00) / 32 <> 2 ->
        key_from_data (ada_factory P) data = Err (InvalidKeyData (BoxAda AHighestBitsInvalid))) /\
     (b2n (nth 31 data x00) / 32 = 2 -> b2n (nth 0 data x00) mod 8 <> 0 ->
        key_from_data (ada_factory P) data = Err (InvalidKeyData (BoxAda ALowestBitsInvalid))) /\
     (b2n (nth 31 data x00) / 32 = 2 -> b2n (nth 0 data x00) mod 8 = 0 ->
        key_from_data (ada_factory P) data
        = Ok (ada_key P (ed_derive_along P data [2 ^ 31 + 44; 2 ^ 31 + 1815])))) /\
  ((96 < List.length data)%nat -> key_from_data (ada_factory P) data = Panic).
Proof. exact ada_load_cases. Qed.
Print Assumptions C29_key_data.

Theorem C29_signature : forall (P : prims) x k data sig,
  ((List.length sig < 64)%nat ->
     verify (ada_key P x) data sig k = Err (InvalidSignatureSize (N.of_nat (List.length sig)) 64)) /\
  ((64 < List.length sig)%nat -> verify (ada_key P x) data sig k = Panic) /\
  (List.length sig = 64%nat -> verify (ada_key P x) data sig k <> Panic).
Proof. exact ada_verify_cases. Qed.
Print Assumptions C29_signature.

(** C29, expectation refuted: verifying untrusted bytes never panics. *)
Theorem C29_verify_total_refuted : exists (P : prims) x k data sig,
  verify (ada_key P x) data sig k = Panic.
Proof. exact ada_verify_panics. Qed.
Print Assumptions C29_verify_total_refuted.
