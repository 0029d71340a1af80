(** The external crates by their standards, as an instance of [prims].  The
    lengths are those of keys, seeds and nonces in the crates: the functions
    are total, as [prims] asks, also on other lengths. *)
From Verif Require Import Base Prims StdHash StdCipher StdCurve.

Definition std : prims := {|
  sha256 := std_sha256;
  sha512 := std_sha512;
  keccak256 := std_keccak256;
  ripemd160 := std_ripemd160;
  hmac_sha512 := std_hmac_sha512;
  pbkdf2 := std_pbkdf2;
  chacha_stream := std_chacha_stream;
  chacha_tag := std_chacha_tag;
  secp_pub := std_secp_pub;
  secp_sign := std_secp_sign;
  secp_verify := std_secp_verify;
  ed_derive := std_ed_derive;
  ed_public := std_ed_public;
  ed_sign := std_ed_sign;
  ed_verify := std_ed_verify
|}.
