(** External crates, as functions the rest of the model is parametric in.

    Nothing is assumed about these functions except the laws of [prims_ok]
    (output lengths) where a theorem says so.  Serialisation of keys and
    signatures, tag comparison, key range checks and modular addition of
    secret keys are modelled concretely elsewhere. *)
From Verif Require Import Base.

(** Order of the secp256k1 group. *)
Definition secp_n : N :=
  0xFFFFFFFFFFFFFFFFFFFFFFFFFFFFFFFEBAAEDCE6AF48A03BBFD25E8CD0364141.

Record prims := {
  (** cryptoxide Sha256, Sha512, Sha3::keccak256; ripemd160 *)
  sha256 : bytes -> bytes;
  sha512 : bytes -> bytes;
  keccak256 : bytes -> bytes;
  ripemd160 : bytes -> bytes;
  (** cryptoxide Hmac over Sha512: key, message *)
  hmac_sha512 : bytes -> bytes -> bytes;
  (** cryptoxide pbkdf2 with Hmac-Sha512: password, salt, iterations,
      output length *)
  pbkdf2 : bytes -> bytes -> N -> nat -> bytes;
  (** cryptoxide ChaCha20Poly1305 with empty associated data: the key
      stream (key, nonce, length) and the authentication tag of a
      ciphertext (key, nonce, ciphertext) *)
  chacha_stream : bytes -> bytes -> nat -> bytes;
  chacha_tag : bytes -> bytes -> bytes -> bytes;
  (** secp256k1 (libsecp256k1 in Rust): affine coordinates of the public key
      of a secret; deterministic signature (message hash, secret) giving
      r, s and the recovery id, or [None] when signing reports an error;
      verification (message hash, r, s, public key) *)
  secp_pub : N -> N * N;
  secp_sign : bytes -> N -> option (N * N * N);
  secp_verify : bytes -> N -> N -> N * N -> bool;
  (** ed25519-bip32 0.1.1 with DerivationScheme::V2 on 96-byte extended
      keys: derive, public (64 bytes), sign (64 bytes) and verify by the
      holder of the extended private key *)
  ed_derive : bytes -> N -> bytes;
  ed_public : bytes -> bytes;
  ed_sign : bytes -> bytes -> bytes;
  ed_verify : bytes -> bytes -> bytes -> bool
}.

(** Output sizes fixed by the types of the crates ([[u8; 32]] etc.). *)
Record prims_ok (P : prims) : Prop := {
  sha256_len : forall m, length (sha256 P m) = 32%nat;
  sha512_len : forall m, length (sha512 P m) = 64%nat;
  keccak256_len : forall m, length (keccak256 P m) = 32%nat;
  ripemd160_len : forall m, length (ripemd160 P m) = 20%nat;
  hmac_sha512_len : forall k m, length (hmac_sha512 P k m) = 64%nat;
  pbkdf2_len : forall p s c l, length (pbkdf2 P p s c l) = l;
  chacha_stream_len : forall k n l, length (chacha_stream P k n l) = l;
  chacha_tag_len : forall k n c, length (chacha_tag P k n c) = 16%nat;
  secp_pub_range : forall k, fst (secp_pub P k) < 2 ^ 256 /\ snd (secp_pub P k) < 2 ^ 256;
  secp_sign_range : forall m k r s v,
    secp_sign P m k = Some (r, s, v) -> r < secp_n /\ s < secp_n /\ v < 4;
  ed_derive_len : forall k i, length (ed_derive P k i) = 96%nat;
  ed_public_len : forall k, length (ed_public P k) = 64%nat;
  ed_sign_len : forall k m, length (ed_sign P k m) = 64%nat
}.

(** Functional correctness of the signature schemes. *)
Definition secp_correct (P : prims) : Prop := forall m k r s v,
  0 < k < secp_n -> secp_sign P m k = Some (r, s, v) ->
  secp_verify P m r s (secp_pub P k) = true.
Definition ed_correct (P : prims) : Prop := forall k m,
  ed_verify P k m (ed_sign P k m) = true.
