(** BIP-32 private child derivation and the extended-key byte layout, written
    from the standard and independent of the code's control flow. *)
From Verif Require Import Base Prims Errors XPrv.

(** ser256, ser32, serP of BIP-32. *)
Definition ser256 (k : N) : bytes := be 32 k.
Definition ser32 (i : N) : bytes := be 4 i.
Definition serP (pk : N * N) : bytes :=
  (if N.even (snd pk) then x02 else x03) :: be 32 (fst pk).

(** I = HMAC-SHA512(Key = c_par, Data = ...) *)
Definition ckd_hmac (P : prims) (x : XPrv) (i : N) : bytes :=
  hmac_sha512 P (x_chaincode x)
    (if 2 ^ 31 <=? i then [x00] ++ ser256 (x_key x) ++ ser32 i
     else serP (secp_pub P (x_key x)) ++ ser32 i).

(** The left half as a number and the right half. *)
Definition ckd_left (P : prims) (x : XPrv) (i : N) : N := of_be (firstn 32 (ckd_hmac P x i)).
Definition ckd_right (P : prims) (x : XPrv) (i : N) : bytes := skipn 32 (ckd_hmac P x i).

(** k_i = parse256(I_L) + k_par (mod n) *)
Definition ckd_key (P : prims) (x : XPrv) (i : N) : N :=
  (ckd_left P x i + x_key x) mod secp_n.

(** The fingerprint of the parent: HASH160 of its compressed public key. *)
Definition fingerprint (P : prims) (x : XPrv) : bytes :=
  firstn 4 (ripemd160 P (sha256 P (serP (secp_pub P (x_key x))))).

(** The left half is usable as a secret (this excludes zero, which BIP-32
    allows). *)
Definition left_ok (P : prims) (x : XPrv) (i : N) : Prop :=
  0 < ckd_left P x i < secp_n.

(** BIP-32 defines the child at [i] and the left half is not zero. *)
Definition ckd_defined (P : prims) (x : XPrv) (i : N) : Prop :=
  left_ok P x i /\ ckd_key P x i <> 0.

(** [y] is the BIP-32 child of [x] with index [i]. *)
Definition is_child (P : prims) (x : XPrv) (i : N) (y : XPrv) : Prop :=
  x_key y = ckd_key P x i /\ x_chaincode y = ckd_right P x i /\
  x_index y = i /\ b2n (x_depth y) = b2n (x_depth x) + 1 /\
  x_parent_fingerprint y = fingerprint P x.

(** The 73 bytes protected by the checksum, and the 77-byte serialisation. *)
Definition xprv_payload (x : XPrv) : bytes :=
  [x_depth x] ++ x_parent_fingerprint x ++ ser32 (x_index x)
  ++ x_chaincode x ++ ser256 (x_key x).
Definition xprv_layout (P : prims) (x : XPrv) : bytes :=
  xprv_payload x ++ firstn 4 (sha256 P (sha256 P (xprv_payload x))).

(** Deriving along a list of indices, one child after another, where every
    step is defined. *)
Inductive derives (P : prims) : XPrv -> list N -> XPrv -> Prop :=
| derives_nil x : derives P x [] x
| derives_cons x i y is z :
    ckd_defined P x i -> b2n (x_depth x) < 255 -> is_child P x i y ->
    derives P y is z -> derives P x (i :: is) z.
