(** Properties C82 to C84: with the standard curves in place of the crates,
    what keys, signatures and derivation mean on the curves. *)
From Coq Require Import Znumtheory String.
From Verif Require Import Base Prims Errors KeyPath KeyPathSpec XPrv XPrvSpec Keys KeysSpec Keychain InteropSpec
  StdHash StdCurve Std CurveSpec CurveFacts.
From Verif Require SecpSignFacts SecpCurveFacts SecpEcdsaFacts EdSignFacts EdCurveFacts.
Open Scope N_scope.
Open Scope list_scope.

(** C82.  The points of secp256k1 are a group under the chord-and-tangent sum. *)
Theorem C82_group :
  (forall q r, secp_on q -> secp_on r -> exists s, secp_sum q r s /\ secp_on s /\ forall s', secp_sum q r s' -> s' = s) /\
  (forall q r s, secp_on q -> secp_on r -> secp_sum q r s -> secp_sum r q s) /\
  (forall a b c ab bc abc, secp_on a -> secp_on b -> secp_on c ->
     secp_sum a b ab -> secp_sum b c bc -> secp_sum ab c abc -> secp_sum a bc abc) /\
  (forall q, secp_on q -> exists r, secp_on r /\ secp_sum q r None).
Proof. exact SecpCurveFacts.secp_group. Qed.
Print Assumptions C82_group.

(** The generator has the prime order n. *)
Theorem C82_order :
  secp_on (Some secp_generator) /\ prime (Z.of_N secp_order) /\
  forall k, secp_times k (Some secp_generator) None <-> k mod secp_order = 0.
Proof. exact SecpCurveFacts.secp_generated. Qed.
Print Assumptions C82_order.

(** The public key of a secret is that multiple of the generator; different
    secrets have different public keys. *)
Theorem C82_public : forall k, 0 < k < secp_order ->
  (secp_on (Some (std_secp_pub k)) /\ secp_times k (Some secp_generator) (Some (std_secp_pub k))) /\
  forall j, 0 < j < secp_order -> std_secp_pub j = std_secp_pub k -> j = k.
Proof.
  exact (fun k H => conj (SecpCurveFacts.secp_public k H) (fun j Hj => SecpCurveFacts.secp_public_one j k Hj H)).
Qed.
Print Assumptions C82_public.

(** Verification accepts exactly what SEC 1 calls a valid signature. *)
Theorem C82_verify : forall m r s q, secp_on (Some q) ->
  (std_secp_verify m r s q = true <-> ecdsa_valid (of_be m) r s q).
Proof. exact SecpEcdsaFacts.ecdsa_exact. Qed.
Print Assumptions C82_verify.

(** Signing makes signatures as SEC 1 says, with the low value of s. *)
Theorem C82_sign : forall m d r s v, std_secp_sign m d = Some (r, s, v) ->
  ecdsa_made (of_be m) d r s v /\ 0 < r < secp_order /\ 0 < s <= secp_order / 2.
Proof. exact SecpEcdsaFacts.ecdsa_signs. Qed.
Print Assumptions C82_sign.

(** The nonces are those of RFC 6979, taken in turn until one gives a signature
    (and the other sign of it where that makes s low); signing fails only when
    a hundred of them do not. *)
Theorem C82_nonce : forall m d,
  let e := of_be m in
  let candidate := rfc6979 std_hmac_sha256 (be 32 d) (be 32 (e mod secp_order)) in
  (forall r s v, std_secp_sign m d = Some (r, s, v) ->
     exists j k0 t, candidate j k0 t /\ ecdsa_usable e d (of_be t) /\
       (ecdsa_with e d (of_be t) r s v \/ ecdsa_with e d (secp_order - of_be t) r s v) /\
       forall i k1 t', (i < j)%nat -> candidate i k1 t' -> ~ ecdsa_usable e d (of_be t')) /\
  (std_secp_sign m d = None ->
     forall i k1 t', (i < 100)%nat -> candidate i k1 t' -> ~ ecdsa_usable e d (of_be t')).
Proof. exact SecpEcdsaFacts.ecdsa_nonce. Qed.
Print Assumptions C82_nonce.
(** A published value: the secret 1 and the text "Satoshi Nakamoto". *)
Example C82_nonce_case : exists k t,
  rfc6979 std_hmac_sha256 (be 32 1) (be 32 (of_be (std_sha256 (blit "Satoshi Nakamoto"%string)) mod secp_order)) 0 k t /\
  of_be t = 0x8F8A276C19F4149656B280621E358CCE24F5F52542772691EE69063B74F15D15.
Proof.
  eexists. eexists. split.
  - eapply rfc6979_first; reflexivity.
  - vm_compute. reflexivity.
Qed.

(** The valid signatures are those made with the secret and some nonce. *)
Theorem C82_valid_made : forall e d r s, 0 < d < secp_order ->
  (ecdsa_valid e r s (std_secp_pub d) <->
   0 < r < secp_order /\ 0 < s < secp_order /\ exists v, ecdsa_made e d r s v).
Proof. exact SecpEcdsaFacts.ecdsa_valid_made. Qed.
Print Assumptions C82_valid_made.

(** The hypothesis of C27 about the secp256k1 crate holds. *)
Theorem C82_correct : secp_correct std.
Proof. exact SecpSignFacts.std_secp_correct. Qed.
Print Assumptions C82_correct.

(** From a signature and its recovery number the public key can be found: with
    the point R they name, s R = e G + r Q ... *)
Theorem C82_recovers : forall e d r s v, 0 < d < secp_order -> ecdsa_made e d r s v ->
  exists x y a b c, secp_on (Some (x, y)) /\
    r = x mod secp_order /\ v = y mod 2 + (if secp_order <=? x then 2 else 0) /\
    secp_times s (Some (x, y)) a /\ secp_times e (Some secp_generator) b /\
    secp_times r (Some (std_secp_pub d)) c /\ secp_sum b c a.
Proof. exact SecpEcdsaFacts.ecdsa_recovers. Qed.
Print Assumptions C82_recovers.

(** ... and no other key can have made it. *)
Theorem C82_one_key : forall e d d' r s v,
  0 < d < secp_order -> 0 < d' < secp_order -> 0 < r < secp_order ->
  ecdsa_made e d r s v -> ecdsa_made e d' r s v -> d = d'.
Proof. exact SecpEcdsaFacts.ecdsa_one_key. Qed.
Print Assumptions C82_one_key.

(** A Bitcoin or Ethereum key accepts its own signatures without their last
    byte, whatever the data and the path. *)
Theorem C82_own : forall (K : Key) (n : N) (k : KeyPath) (data sig : bytes),
  secp_loaded std K n -> kp_wf k -> sign K data k = Ok sig ->
  length sig = 65%nat /\ verify K data (firstn 64 sig) k = Ok true.
Proof. exact secp_own. Qed.
Print Assumptions C82_own.

(** What such a key signs and accepts at a path, in terms of the curve.  It
    accepts the other value of s too. *)
Theorem C82_key : forall (f : KeyFactory) (n : N),
  (f = btc_factory std /\ n = 2 ^ 31) \/ (f = eth_factory std /\ n = 2 ^ 31 + 60) ->
  forall x z k, kp_wf k -> path_ok n k -> xprv_wf x -> derives std x (path_values k) z ->
  exists K, key_from_data f (xprv_layout std x) = Ok K /\
  forall msg, let e := of_be (keccak256 std msg) in let q := std_secp_pub (x_key z) in
    (forall sig, sign K msg k = Ok sig ->
       exists r s v, sig = be 32 r ++ be 32 s ++ [n2b v] /\ ecdsa_made e (x_key z) r s v /\
         0 < r < secp_order /\ 0 < s <= secp_order / 2 /\ v < 2) /\
    (forall r s, r < 2 ^ 256 -> s < 2 ^ 256 ->
       (verify K msg (be 32 r ++ be 32 s) k = Ok true <->
        ecdsa_valid e (r mod secp_order) (s mod secp_order) q)) /\
    (forall r s, r < secp_order -> s < secp_order -> verify K msg (be 32 r ++ be 32 s) k = Ok true ->
       verify K msg (be 32 r ++ be 32 (secp_order - s)) k = Ok true).
Proof. exact secp_key. Qed.
Print Assumptions C82_key.

(** A keychain that answers as BIP-32 prescribes (C67, C74: every wallet does)
    gives as public key a point of the curve and accepts exactly the valid
    signatures under it. *)
Theorem C82_keychain : forall z kc n k, answers_secp std z kc n k -> 0 < x_key z < secp_order ->
  exists x y, kc_pub_key kc n k = Ok ([x04] ++ be 32 x ++ be 32 y) /\
     secp_on (Some (x, y)) /\ secp_times (x_key z) (Some secp_generator) (Some (x, y)) /\
     forall msg r s, r < secp_order -> s < secp_order ->
       (kc_verify kc n msg (be 32 r ++ be 32 s) k = Ok true <->
        ecdsa_valid (of_be (keccak256 std msg)) r s (x, y)).
Proof. exact secp_keychain. Qed.
Print Assumptions C82_keychain.

Example C82_secp_case :
  secp_on (Some secp_generator) /\
  secp_sum (Some secp_generator) (Some secp_generator)
    (Some (0xc6047f9441ed7d6d3045406e95c07cd85c778e4b8cef3ca7abac09b95c709ee5,
           0x1ae168fea63dc339a3c58419466ceaeef7f632653266d0e1236431a950cfe52a)) /\
  ecdsa_made 5 1 (fst secp_generator) (5 + fst secp_generator) 0.
Proof.
  split; [vm_compute; repeat split; reflexivity|]. split.
  - apply (sum_tangent 0xcb35b28428101a303eb9d1235992ac63f58857c2f631ee6936d3aebbeddcd1b1);
      [discriminate|vm_compute; reflexivity|vm_compute; repeat split; reflexivity].
  - exists 1, (fst secp_generator), (snd secp_generator). split; [split; reflexivity|]. split; [|split; [|split]].
    + apply (times_more 0 _ None); [apply times_none|apply sum_right].
    + vm_compute. reflexivity.
    + vm_compute. reflexivity.
    + vm_compute. reflexivity.
Qed.

(** C83.  The points of ed25519 are a group under the Edwards sum. *)
Theorem C83_group :
  (forall q r, ed_on q -> ed_on r -> exists s, ed_sum q r s /\ ed_on s /\ forall s', ed_sum q r s' -> s' = s) /\
  (forall q r s, ed_on q -> ed_on r -> ed_sum q r s -> ed_sum r q s) /\
  (forall a b c ab bc abc, ed_on a -> ed_on b -> ed_on c ->
     ed_sum a b ab -> ed_sum b c bc -> ed_sum ab c abc -> ed_sum a bc abc) /\
  (ed_on (0, 1) /\ forall q, ed_on q -> ed_sum (0, 1) q q) /\
  (forall q, ed_on q -> exists r, ed_on r /\ ed_sum q r (0, 1)).
Proof. exact EdCurveFacts.ed_group. Qed.
Print Assumptions C83_group.

(** There is one base point, and its order is the prime L. *)
Theorem C83_order : exists b, ed_generator b /\ (forall b', ed_generator b' -> b' = b) /\
  prime (Z.of_N ed_order) /\ forall k, ed_times k b (0, 1) <-> k mod ed_order = 0.
Proof. exact EdCurveFacts.ed_base_point. Qed.
Print Assumptions C83_order.

(** Different points have different encodings. *)
Theorem C83_encoding : forall b q r, ed_on q -> ed_on r -> ed_encodes b q -> ed_encodes b r -> q = r.
Proof. exact EdCurveFacts.ed_encoding_one. Qed.
Print Assumptions C83_encoding.

(** The public key encodes that multiple of the base point; two keys share it
    just when their secrets agree modulo L. *)
Theorem C83_public : forall x b, ed_generator b ->
  exists a, ed_times (little (firstn 32 x)) b a /\ ed_on a /\ ed_encodes (firstn 32 (std_ed_public x)) a.
Proof. exact EdCurveFacts.ed_public_key. Qed.
Print Assumptions C83_public.
Theorem C83_public_one : forall x y, firstn 32 (std_ed_public x) = firstn 32 (std_ed_public y) <->
  little (firstn 32 x) mod ed_order = little (firstn 32 y) mod ed_order.
Proof. exact EdCurveFacts.ed_public_one. Qed.
Print Assumptions C83_public_one.

(** Verification accepts exactly what RFC 8032 calls a valid signature. *)
Theorem C83_verify : forall x m sg b a, ed_generator b -> ed_times (little (firstn 32 x)) b a ->
  (std_ed_verify x m sg = true <-> eddsa_valid std_sha512 a (firstn 32 (std_ed_public x)) m sg).
Proof. exact EdCurveFacts.eddsa_exact. Qed.
Print Assumptions C83_verify.

(** The hypothesis of C27 about ed25519-bip32 holds. *)
Theorem C83_correct : ed_correct std.
Proof. exact EdSignFacts.std_ed_correct. Qed.
Print Assumptions C83_correct.

(** A Cardano key accepts its own signatures. *)
Theorem C83_own : forall (x : bytes) (k : KeyPath) (data sig : bytes),
  sign (ada_key std x) data k = Ok sig ->
  length sig = 64%nat /\ verify (ada_key std x) data sig k = Ok true.
Proof. exact ada_own. Qed.
Print Assumptions C83_own.

(** Signing is that of RFC 8032 for an extended key. *)
Theorem C83_sign : forall x m,
  eddsa_made std_sha512 (little (firstn 32 x)) (slice 32 64 x) (firstn 32 (std_ed_public x)) m (std_ed_sign x m).
Proof. exact EdCurveFacts.eddsa_signs. Qed.
Print Assumptions C83_sign.

(** A keychain that answers as prescribed (C67, C74) gives as public key the
    encoding of a point, accepts exactly the valid signatures under it, and
    makes valid ones. *)
Theorem C83_keychain : forall y kc n k b a, answers_ed std y kc n k ->
  ed_generator b -> ed_times (little (firstn 32 y)) b a ->
  exists pk, kc_pub_key kc n k = Ok pk /\ ed_on a /\ ed_encodes (firstn 32 pk) a /\
    (forall msg sg, length sg = 64%nat ->
       (kc_verify kc n msg sg k = Ok true <-> eddsa_valid std_sha512 a (firstn 32 pk) msg sg)) /\
    (forall msg sg, kc_sign kc n msg k = Ok sg -> eddsa_valid std_sha512 a (firstn 32 pk) msg sg).
Proof. exact ed_keychain. Qed.
Print Assumptions C83_keychain.

Example C82_ed_case :
  let b := (0x216936d3cd6e53fec0a4e231fdd6dc5c692cc7609525a7b2c9562d608f25d51a,
            0x6666666666666666666666666666666666666666666666666666666666666658) in
  ed_generator b /\
  ed_sum b b (0x36ab384c9f5a046c3d043b7d1833e7ac080d8e4515d7a45f83c5a14e2843ce0e,
              0x2260cdf3092329c21da25ee8c9a21f5697390f51643851560e5f46ae6af8a3c9).
Proof. vm_compute. repeat split; reflexivity. Qed.
Example C83_case : exists x m sg b a, ed_generator b /\ ed_times (little (firstn 32 x)) b a /\
  eddsa_valid std_sha512 a (firstn 32 (std_ed_public x)) m sg /\ a <> (0, 1).
Proof. exact eddsa_case. Qed.

(** C84.  The public key of a BIP-32 child is the parent's plus a point that
    depends, for a soft index, on public values only. *)
Theorem C84_secp : forall x i y, 0 < x_key x < secp_order -> ckd_defined std x i -> is_child std x i y ->
  secp_sum (Some (std_secp_pub (ckd_left std x i))) (Some (std_secp_pub (x_key x))) (Some (std_secp_pub (x_key y))).
Proof. exact secp_child_point. Qed.
Print Assumptions C84_secp.
Theorem C84_secp_public : forall x x' i y y', i < 2 ^ 31 ->
  0 < x_key x < secp_order -> 0 < x_key x' < secp_order ->
  std_secp_pub (x_key x) = std_secp_pub (x_key x') -> x_chaincode x = x_chaincode x' ->
  is_child std x i y -> is_child std x' i y' -> x_key y = x_key y' /\ x_chaincode y = x_chaincode y'.
Proof. exact secp_child_public. Qed.
Print Assumptions C84_secp_public.

(** The same for Cardano keys. *)
Theorem C84_ed : forall x i b a, ed_generator b -> little (firstn 32 x) < 2 ^ 255 ->
  ed_times (little (firstn 32 x)) b a ->
  exists s t, ed_times (8 * ed_tweak std_hmac_sha512 x (firstn 32 (std_ed_public x)) i) b s /\
    ed_sum a s t /\ ed_encodes (firstn 32 (std_ed_public (std_ed_derive x i))) t.
Proof. exact ed_child_point. Qed.
Print Assumptions C84_ed.
Theorem C84_ed_public : forall x x' i, i < 2 ^ 31 -> length x = 96%nat -> length x' = 96%nat ->
  little (firstn 32 x) < 2 ^ 255 -> little (firstn 32 x') < 2 ^ 255 ->
  std_ed_public x = std_ed_public x' -> std_ed_public (std_ed_derive x i) = std_ed_public (std_ed_derive x' i).
Proof. exact ed_child_public. Qed.
Print Assumptions C84_ed_public.

(** All bytes of a Cardano child: the secret, the bytes for nonces and the
    chain code. *)
Theorem C84_ed_bytes : forall x i,
  ed_child std_hmac_sha512 x (firstn 32 (std_ed_public x)) i (std_ed_derive x i).
Proof. exact ed_child_bytes. Qed.
Print Assumptions C84_ed_bytes.

(** All keys on the paths of a loaded Cardano key are in that range. *)
Theorem C84_ed_range : forall data x l, from_bytes_verified data = Ok x -> length data = 96%nat ->
  (length l <= 5)%nat ->
  little (firstn 32 (ed_derive_along std x l)) < 2 ^ 255 /\ length (ed_derive_along std x l) = 96%nat.
Proof. exact ed_path_small. Qed.
Print Assumptions C84_ed_range.

(** Two different Cardano keys with one public key. *)
Example C84_ed_case : exists x x' : bytes, x <> x' /\ length x = 96%nat /\ length x' = 96%nat /\
  little (firstn 32 x) < 2 ^ 255 /\ little (firstn 32 x') < 2 ^ 255 /\ std_ed_public x = std_ed_public x'.
Proof. exact ed_child_case. Qed.
Example C84_secp_case :
  let x := {| x_key := 1; x_chaincode := repeat x07 32; x_parent_fingerprint := repeat x00 4; x_depth := x00; x_index := 0 |} in
  0 < x_key x < secp_order /\ ckd_defined std x (2 ^ 31).
Proof. cbv zeta. unfold ckd_defined, left_ok, ckd_key. vm_compute. repeat split; discriminate. Qed.
