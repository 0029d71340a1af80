(** The curves of the external crates: ECDSA over secp256k1 (SEC 1 and 2, with
    the deterministic nonces of RFC 6979 and low s, as libsecp256k1 signs),
    and ed25519 with the extended keys and the derivation of version 2 of
    ed25519-bip32 0.1.1. *)
From Verif Require Import Base Prims StdHash.

(** * Fields *)
Definition fadd (p a b : N) : N := (a + b) mod p.
Definition fsub (p a b : N) : N := (a + (p - b mod p)) mod p.
Definition fmul (p a b : N) : N := (a * b) mod p.
Fixpoint fpow_pos (p a : N) (e : positive) : N :=
  match e with
  | xH => a mod p
  | xO e => let h := fpow_pos p a e in fmul p h h
  | xI e => let h := fpow_pos p a e in fmul p (fmul p h h) a
  end.
(** Fermat's inverse. *)
Definition finv (p a : N) : N := match p - 2 with Npos e => fpow_pos p a e | N0 => a end.

(** A multiple in a group given by its zero and addition. *)
Fixpoint times {A} (add : A -> A -> A) (e : positive) (x : A) : A :=
  match e with
  | xH => x
  | xO e => let h := times add e x in add h h
  | xI e => let h := times add e x in add (add h h) x
  end.
Definition scale {A} (zero : A) (add : A -> A -> A) (k : N) (x : A) : A :=
  match k with N0 => zero | Npos e => times add e x end.

(** * secp256k1 *)
Definition secp_p : N := 2 ^ 256 - 0x1000003d1.
Definition secp_g : N * N :=
  (0x79BE667EF9DCBBAC55A06295CE870B07029BFCDB2DCE28D959F2815B16F81798,
   0x483ADA7726A3C4655DA4FBFC0E1108A8FD17B448A68554199C47D08FFB10D4B8).
(** Points in Jacobian coordinates; z = 0 is the point at infinity. *)
Definition jac : Type := N * N * N.
Definition jac_zero : jac := (1, 1, 0).
Definition jac_of (q : N * N) : jac := (fst q, snd q, 1).
Definition jac_double (a : jac) : jac :=
  let '(x, y, z) := a in
  let mul := fmul secp_p in
  let y2 := mul y y in
  let s := mul 4 (mul x y2) in
  let m := mul 3 (mul x x) in
  let x3 := fsub secp_p (mul m m) (2 * s) in
  (x3, fsub secp_p (mul m (fsub secp_p s x3)) (8 * mul y2 y2), mul 2 (mul y z)).
Definition jac_add (a b : jac) : jac :=
  let '(x1, y1, z1) := a in
  let '(x2, y2, z2) := b in
  let mul := fmul secp_p in
  let sub := fsub secp_p in
  if z1 =? 0 then b else if z2 =? 0 then a
  else
    let z1z1 := mul z1 z1 in let z2z2 := mul z2 z2 in
    let u1 := mul x1 z2z2 in let u2 := mul x2 z1z1 in
    let s1 := mul y1 (mul z2 z2z2) in let s2 := mul y2 (mul z1 z1z1) in
    let h := sub u2 u1 in let r := sub s2 s1 in
    if h =? 0 then (if r =? 0 then jac_double a else jac_zero)
    else
      let h2 := mul h h in let h3 := mul h h2 in let v := mul u1 h2 in
      let x3 := sub (sub (mul r r) h3) (2 * v) in
      (x3, sub (mul r (sub v x3)) (mul s1 h3), mul h (mul z1 z2)).
Definition affine (a : jac) : N * N :=
  let '(x, y, z) := a in
  let i := finv secp_p z in
  let i2 := fmul secp_p i i in
  (fmul secp_p x i2, fmul secp_p y (fmul secp_p i i2)).
Definition secp_scale : N -> jac -> jac := scale jac_zero jac_add.
Definition std_secp_pub (k : N) : N * N := affine (secp_scale (k mod secp_n) (jac_of secp_g)).

(** RFC 6979, 3.2: the generator of nonces, from the 32 bytes of the secret
    and of the message reduced modulo the group order. *)
Definition drbg_step (k v : bytes) (data : bytes) : bytes * bytes :=
  let k := std_hmac_sha256 k (v ++ data) in
  (k, std_hmac_sha256 k v).
Definition drbg_new (secret message : bytes) : bytes * bytes :=
  let '(k, v) := drbg_step (repeat x00 32) (repeat x01 32) ([x00] ++ secret ++ message) in
  drbg_step k v ([x01] ++ secret ++ message).

(** One signature with nonce [k]; [None] when r or s is zero. *)
Definition sign_with (e d k : N) : option (N * N * N) :=
  let '(x, y) := std_secp_pub k in
  let r := x mod secp_n in
  let s := fmul secp_n (finv secp_n k) ((e + r * d) mod secp_n) in
  let v := (if N.odd y then 1 else 0) + (if secp_n <=? x then 2 else 0) in
  if (r =? 0) || (s =? 0) then None
  else if secp_n / 2 <? s then Some (r, fsub secp_n secp_n s, N.lxor v 1)
  else Some (r, s, v).
(** The loop over nonces.  libsecp256k1's has no bound; here it stops after
    [fuel] nonces, each of which fails with probability below 2^-127. *)
Fixpoint sign_loop (fuel : nat) (e d : N) (kv : bytes * bytes) : option (N * N * N) :=
  match fuel with
  | O => None
  | S fuel =>
    let '(k, v) := kv in
    let v := std_hmac_sha256 k v in
    let nonce := of_be v in
    let again := sign_loop fuel e d (drbg_step k v [x00]) in
    if (nonce =? 0) || (secp_n <=? nonce) then again
    else match sign_with e d nonce with Some sg => Some sg | None => again end
  end.
Definition std_secp_sign (message : bytes) (d : N) : option (N * N * N) :=
  let e := of_be message mod secp_n in
  sign_loop 100 e d (drbg_new (be 32 d) (be 32 e)).
Definition std_secp_verify (message : bytes) (r s : N) (pk : N * N) : bool :=
  let e := of_be message mod secp_n in
  if (r =? 0) || (s =? 0) || (secp_n <=? r) || (secp_n <=? s) then false
  else
    let w := finv secp_n s in
    let '(x, y, z) := jac_add (secp_scale (fmul secp_n e w) (jac_of secp_g))
                              (secp_scale (fmul secp_n r w) (jac_of pk)) in
    if z =? 0 then false else fst (affine (x, y, z)) mod secp_n =? r.

(** * ed25519 *)
Definition ed_p : N := 2 ^ 255 - 19.
Definition ed_l : N := 2 ^ 252 + 27742317777372353535851937790883648493.
Definition ed_d : N := 0x52036cee2b6ffe738cc740797779e89800700a4d4141d8ab75eb4dca135978a3.
Definition ed_g : N * N :=
  (0x216936D3CD6E53FEC0A4E231FDD6DC5C692CC7609525A7B2C9562D608F25D51A,
   0x6666666666666666666666666666666666666666666666666666666666666658).
(** Points in extended coordinates: x = X/Z, y = Y/Z, x * y = T/Z. *)
Definition ext : Type := N * N * N * N.
Definition ext_zero : ext := (0, 1, 1, 0).
Definition ext_of (q : N * N) : ext := (fst q, snd q, 1, fmul ed_p (fst q) (snd q)).
Definition ext_neg (a : ext) : ext :=
  let '(x, y, z, t) := a in (fsub ed_p 0 x, y, z, fsub ed_p 0 t).
Definition ext_add (a b : ext) : ext :=
  let '(x1, y1, z1, t1) := a in
  let '(x2, y2, z2, t2) := b in
  let mul := fmul ed_p in let sub := fsub ed_p in let add := fadd ed_p in
  let a := mul (sub y1 x1) (sub y2 x2) in
  let b := mul (add y1 x1) (add y2 x2) in
  let c := mul (mul t1 (2 * ed_d)) t2 in
  let d := mul (2 * z1) z2 in
  let e := sub b a in let f := sub d c in let g := add d c in let h := add b a in
  (mul e f, mul g h, mul f g, mul e h).
(** RFC 8032, 5.1.2: y in 32 bytes, the lowest bit of x in the highest bit. *)
Definition ext_encode (a : ext) : bytes :=
  let '(x, y, z, _) := a in
  let i := finv ed_p z in
  le 32 (fmul ed_p y i + (if N.odd (fmul ed_p x i) then 2 ^ 255 else 0)).
Definition ed_scale (k : N) (a : ext) : ext := scale ext_zero ext_add k a.
Definition ed_base (k : N) : ext := ed_scale k (ext_of ed_g).

(** The parts of the 96 bytes of an extended key. *)
Definition kl (x : bytes) : bytes := firstn 32 x.
Definition kr (x : bytes) : bytes := slice 32 64 x.
Definition cc (x : bytes) : bytes := slice 64 96 x.
Definition ed_pk (x : bytes) : bytes := ext_encode (ed_base (of_le (kl x))).
Definition std_ed_public (x : bytes) : bytes := ed_pk x ++ firstn 32 (cc x ++ repeat x00 32).
Definition std_ed_derive (x : bytes) (index : N) : bytes :=
  let hard := 0x80000000 <=? index in
  let body := (if hard then kl x ++ kr x else ed_pk x) ++ le 4 index in
  let z := std_hmac_sha512 (cc x) ((if hard then x00 else x02) :: body) in
  let i := std_hmac_sha512 (cc x) ((if hard then x01 else x03) :: body) in
  le 32 (of_le (kl x) + 8 * of_le (firstn 28 z)) ++
  le 32 (of_le (kr x) + of_le (slice 32 64 z)) ++ skipn 32 i.
Definition std_ed_sign (x : bytes) (m : bytes) : bytes :=
  let n := of_le (std_sha512 (kr x ++ m)) mod ed_l in
  let r := ext_encode (ed_base n) in
  let h := of_le (std_sha512 (r ++ ed_pk x ++ m)) mod ed_l in
  r ++ le 32 ((h * of_le (kl x) + n) mod ed_l).
Definition std_ed_verify (x : bytes) (m sg : bytes) : bool :=
  let r := firstn 32 sg in
  let s := of_le (skipn 32 sg) in
  if negb (Nat.eqb (length sg) 64) || (ed_l <=? s) then false
  else
    let h := of_le (std_sha512 (r ++ ed_pk x ++ m)) mod ed_l in
    let a := ed_base (of_le (kl x)) in
    bytes_eqb r (ext_encode (ext_add (ed_base s) (ed_scale h (ext_neg a)))).
