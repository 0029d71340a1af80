(** The encrypted form of a wallet. *)
From Verif Require Import Base Prims.

(** [out] is the plaintext [d] encrypted under [password] with the given salt
    and nonce: salt, nonce, tag, ciphertext. *)
Definition is_sealed (P : prims) (password : str) (salt nonce d out : bytes) : Prop :=
  let key := pbkdf2 P (utf8 password) salt 19162 32 in
  let stream := chacha_stream P key nonce (length d) in
  exists ct : bytes, length ct = length d /\
    (forall i, (i < length d)%nat ->
       b2n (nth i ct x00) = N.lxor (b2n (nth i d x00)) (b2n (nth i stream x00))) /\
    out = salt ++ nonce ++ chacha_tag P key nonce ct ++ ct.
