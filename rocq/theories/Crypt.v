(** Model of keychain/src/crypt.rs. *)
From Verif Require Import Base Prims.

(** [password_encryption_parameter], crypt.rs:9-25 *)
Definition ITER : N := 19162.
Definition SALT_SIZE : nat := 32.
Definition NONCE_SIZE : nat := 12.
Definition CRYPT_KEY_SIZE : nat := 32.
Definition TAG_SIZE : nat := 16.
Definition METADATA_SIZE : nat := (SALT_SIZE + NONCE_SIZE + TAG_SIZE)%nat.
Definition SALT_START : nat := 0.
Definition SALT_END : nat := (SALT_START + SALT_SIZE)%nat.
Definition NONCE_START : nat := SALT_END.
Definition NONCE_END : nat := (NONCE_START + NONCE_SIZE)%nat.
Definition TAG_START : nat := NONCE_END.
Definition TAG_END : nat := (TAG_START + TAG_SIZE)%nat.
Definition ENCRYPTED_START : nat := TAG_END.

(** [DecryptError], crypt.rs:28-31 *)
Inductive decrypt_error :=
| DNotEnoughData
| DDecryptionFailed.

(** Byte-wise exclusive or, over the shorter length. *)
Fixpoint xor_bytes (a b : bytes) : bytes :=
  match a, b with
  | x :: a', y :: b' => n2b (N.lxor (b2n x) (b2n y)) :: xor_bytes a' b'
  | _, _ => []
  end.

Section WithPrims.
Variable P : prims.

(** The password-derived key, crypt.rs:52-57 and 85-90 *)
Definition crypt_key (password : str) (salt : bytes) : bytes :=
  pbkdf2 P (utf8 password) salt ITER CRYPT_KEY_SIZE.

(** cryptoxide [ChaCha20Poly1305::encrypt] and [decrypt] with empty
    associated data: the ciphertext is the exclusive or with the key stream
    and the tag is computed from the ciphertext; [decrypt] compares the tags
    and answers whether they agree. *)
Definition aead_encrypt (key nonce data : bytes) : bytes * bytes :=
  let encrypted := xor_bytes data (chacha_stream P key nonce (length data)) in
  (encrypted, chacha_tag P key nonce encrypted).
Definition aead_decrypt (key nonce encrypted tag : bytes) : option bytes :=
  if bytes_eqb (chacha_tag P key nonce encrypted) tag
  then Some (xor_bytes encrypted (chacha_stream P key nonce (length encrypted)))
  else None.

(** [encrypt], crypt.rs:44-70.  The random source is the argument and the
    result [r]. *)
Definition encrypt (data : bytes) (password : str) (r : rng) : bytes * rng :=
  let (salt, r) := fill SALT_SIZE r in
  let (nonce, r) := fill NONCE_SIZE r in
  let key := crypt_key password salt in
  let (encrypted, tag) := aead_encrypt key nonce data in
  (salt ++ nonce ++ tag ++ encrypted, r).

(** [decrypt], crypt.rs:72-101 *)
Definition decrypt (data : bytes) (password : str) : res decrypt_error bytes :=
  if (length data <=? METADATA_SIZE)%nat then Err DNotEnoughData
  else
    let salt := slice SALT_START SALT_END data in
    let nonce := slice NONCE_START NONCE_END data in
    let tag := slice TAG_START TAG_END data in
    let encrypted := skipn ENCRYPTED_START data in
    let key := crypt_key password salt in
    match aead_decrypt key nonce encrypted tag with
    | Some decrypted => Ok decrypted
    | None => Err DDecryptionFailed
    end.

End WithPrims.
