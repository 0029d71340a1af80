(** Model of secp256k1_bip32/src/{private,public}.rs.

    A libsecp256k1 [SecretKey] is the scalar it holds, in [1, secp_n-1]
    ([xprv_wf]; the crate's constructors guarantee it).  A [PublicKey] is the
    pair of its affine coordinates. *)
From Coq Require Import Strings.String.
From Verif Require Import Base Prims Errors.

(** secp256k1_bip32/src/private.rs:14-15 *)
Definition HMAC_KEY : bytes := blit "Bitcoin seed".
Definition SECP_SOFT_UPPER_BOUND : N := 0x80000000.

(** [data_layout], private.rs:17-42 *)
Definition DEPTH_SIZE : nat := 1.
Definition FINGERPRINT_SIZE : nat := 4.
Definition INDEX_SIZE : nat := 4.
Definition CHAIN_CODE_SIZE : nat := 32.
Definition KEY_SIZE : nat := 32.
Definition CHECKSUM_SIZE : nat := 4.
Definition KEY_DATA_SIZE : nat :=
  (DEPTH_SIZE + FINGERPRINT_SIZE + INDEX_SIZE + CHAIN_CODE_SIZE + KEY_SIZE + CHECKSUM_SIZE)%nat.
Definition ENTROPY_SIZE : nat := (CHAIN_CODE_SIZE + KEY_SIZE)%nat.
Definition DEPTH_START : nat := 0.
Definition DEPTH_END : nat := (DEPTH_START + DEPTH_SIZE)%nat.
Definition FINGERPRINT_START : nat := DEPTH_END.
Definition FINGERPRINT_END : nat := (FINGERPRINT_START + FINGERPRINT_SIZE)%nat.
Definition INDEX_START : nat := FINGERPRINT_END.
Definition INDEX_END : nat := (INDEX_START + INDEX_SIZE)%nat.
Definition CHAIN_CODE_START : nat := INDEX_END.
Definition CHAIN_CODE_END : nat := (CHAIN_CODE_START + CHAIN_CODE_SIZE)%nat.
Definition KEY_START : nat := CHAIN_CODE_END.
Definition KEY_END : nat := (KEY_START + KEY_SIZE)%nat.
Definition CHECKSUM_START : nat := KEY_END.
Definition CHECKSUM_END : nat := (CHECKSUM_START + CHECKSUM_SIZE)%nat.

(** [struct XPrv], private.rs:44-50 *)
Record XPrv := {
  x_key : N;
  x_chaincode : bytes;
  x_parent_fingerprint : bytes;
  x_depth : byte;
  x_index : N
}.

(** Sizes and ranges guaranteed by the Rust types. *)
Definition xprv_wf (x : XPrv) : Prop :=
  0 < x_key x < secp_n /\ length (x_chaincode x) = 32%nat /\
  length (x_parent_fingerprint x) = 4%nat /\ is_u32 (x_index x).

(** libsecp256k1 [SecretKey::parse_slice] with [From<SecError>],
    secp256k1_bip32/src/error.rs:42-54 *)
Definition secret_parse (bs : bytes) : res secp_error N :=
  if negb (Nat.eqb (length bs) 32) then Err SInvalidInputLength
  else
    let k := of_be bs in
    if (secp_n <=? k) || (k =? 0) then Err SInvalidSecretKey else Ok k.

(** libsecp256k1 [SecretKey::serialize] *)
Definition secret_serialize (k : N) : bytes := be 32 k.

(** libsecp256k1 [SecretKey::tweak_add_assign]: [None] is the error. *)
Definition tweak_add (k tweak : N) : option N :=
  let v := (k + tweak) mod secp_n in
  if v =? 0 then None else Some v.

(** libsecp256k1 [PublicKey::serialize] and [serialize_compressed];
    [XPub::serialize], [serialize_compressed], public.rs:14-20 *)
Definition pub_serialize (pk : N * N) : bytes :=
  [x04] ++ be 32 (fst pk) ++ be 32 (snd pk).
Definition pub_serialize_compressed (pk : N * N) : bytes :=
  [if N.odd (snd pk) then x03 else x02] ++ be 32 (fst pk).

(** [XPub::sha256], [compressed_sha256], public.rs:38-52 *)
Definition pub_sha256 (P : prims) (pk : N * N) : bytes := sha256 P (pub_serialize pk).
Definition pub_compressed_sha256 (P : prims) (pk : N * N) : bytes :=
  sha256 P (pub_serialize_compressed pk).

(** [XPrv::public], private.rs:111-113 *)
Definition public (P : prims) (x : XPrv) : N * N := secp_pub P (x_key x).

(** The double SHA-256 of private.rs:60-66 and 126-132. *)
Definition double_sha (P : prims) (bs : bytes) : bytes := sha256 P (sha256 P bs).

(** [XPrv::from_data], private.rs:53-82 *)
Definition xprv_from_data (P : prims) (data : bytes) : res secp_error XPrv :=
  if negb (Nat.eqb (length data) KEY_DATA_SIZE)
  then Err (SInvalidDataSize (N.of_nat (length data)) (N.of_nat KEY_DATA_SIZE))
  else
    let hash := double_sha P (slice DEPTH_START KEY_END data) in
    if negb (bytes_eqb (slice CHECKSUM_START CHECKSUM_END data) (slice 0 CHECKSUM_SIZE hash))
    then Err SInvalidSecretKey
    else
      let depth := nth DEPTH_START data x00 in
      let fp := slice FINGERPRINT_START FINGERPRINT_END data in
      let index := of_be (slice INDEX_START INDEX_END data) in
      let cc := slice CHAIN_CODE_START CHAIN_CODE_END data in
      let* pk := secret_parse (slice KEY_START KEY_END data) in
      Ok {| x_key := pk; x_chaincode := cc; x_parent_fingerprint := fp;
            x_depth := depth; x_index := index |}.

(** [XPrv::from_seed], private.rs:84-109; the argument is the content of the
    64-byte [bip39::Seed]. *)
Definition xprv_from_seed (P : prims) (seed : bytes) : res secp_error XPrv :=
  let entropy := hmac_sha512 P HMAC_KEY seed in
  if Nat.ltb (length entropy) ENTROPY_SIZE
  then Err (SInvalidEntropySize (N.of_nat (length entropy)))
  else
    let i_l := slice 0 KEY_SIZE entropy in
    let i_r := slice KEY_SIZE (KEY_SIZE + CHAIN_CODE_SIZE) entropy in
    let* pk := secret_parse i_l in
    Ok {| x_key := pk; x_chaincode := i_r;
          x_parent_fingerprint := repeat x00 FINGERPRINT_SIZE;
          x_depth := x00; x_index := 0 |}.

(** [XPrv::serialize], private.rs:115-137 *)
Definition xprv_serialize (P : prims) (x : XPrv) : bytes :=
  let data := [x_depth x] ++ x_parent_fingerprint x ++ be 4 (x_index x)
              ++ x_chaincode x ++ secret_serialize (x_key x) in
  data ++ slice 0 CHECKSUM_SIZE (double_sha P data).

(** [XPrv::sign], private.rs:139-159.  [secp_sign] returning [None] stands
    for an error of libsecp256k1's [sign] (which only reports
    [InvalidMessage]). *)
Definition xprv_sign (P : prims) (x : XPrv) (data : bytes) : res secp_error bytes :=
  let message := keccak256 P data in
  match secp_sign P message (x_key x) with
  | None => Err SInvalidMessage
  | Some (r, s, rec_id) =>
    if negb (rec_id =? 0) && negb (rec_id =? 1) then Err SInvalidRecoveryId
    else Ok (be 32 r ++ be 32 s ++ [n2b rec_id])
  end.

(** [XPub::verify], public.rs:22-36.  libsecp256k1 [Signature::parse_slice]
    reduces r and s modulo the group order. *)
Definition SIGNATURE_SIZE : nat := 64.
Definition xpub_verify (P : prims) (pk : N * N) (data signature : bytes)
  : res secp_error bool :=
  if negb (Nat.eqb (length signature) SIGNATURE_SIZE)
  then Err (SInvalidSignature (N.of_nat (length signature)) (N.of_nat SIGNATURE_SIZE))
  else
    let message := keccak256 P data in
    let r := of_be (slice 0 32 signature) mod secp_n in
    let s := of_be (slice 32 64 signature) mod secp_n in
    Ok (secp_verify P message r s pk).

(** One activation of [XPrv::derive], private.rs:161-223: a result, or the
    index of the recursive call at line 205. *)
Inductive derive_step_result :=
| Done (r : res secp_error XPrv)
| Again (index : N).

Definition derive_step (P : prims) (x : XPrv) (index : N) : derive_step_result :=
  if byte_eqb (x_depth x) xff then Done (Err SDeriveDepthTooBig)
  else
    let hardened := SECP_SOFT_UPPER_BOUND <=? index in
    let input :=
      if hardened then [x00] ++ secret_serialize (x_key x) ++ be 4 index
      else pub_serialize_compressed (public P x) ++ be 4 index in
    let entropy := hmac_sha512 P (x_chaincode x) input in
    if Nat.ltb (length entropy) ENTROPY_SIZE
    then Done (Err (SInvalidEntropySize (N.of_nat (length entropy))))
    else
      let cc := slice KEY_SIZE (KEY_SIZE + CHAIN_CODE_SIZE) entropy in
      match secret_parse (slice 0 KEY_SIZE entropy) with
      | Err e => Done (Err e)
      | Panic => Done Panic
      | Undef => Done Undef
      | Ok tweak_pk =>
        match tweak_add (x_key x) tweak_pk with
        | None =>
          if (hardened && (index <? u32_max))
             || (negb hardened && (index <? SECP_SOFT_UPPER_BOUND))
          then Again (index + 1)
          else Done (Err STweakOutOfRange)
        | Some newpk =>
          let fp := slice 0 FINGERPRINT_SIZE
                      (ripemd160 P (pub_compressed_sha256 P (public P x))) in
          Done (Ok {| x_key := newpk; x_chaincode := cc; x_parent_fingerprint := fp;
                      x_depth := n2b (b2n (x_depth x) + 1); x_index := index |})
        end
      end.

(** The recursion: [2 ^ d] activations starting at an index.  Simplification:
    the call stack is unbounded. *)
Fixpoint derive_loop (P : prims) (x : XPrv) (d : nat) (index : N) : derive_step_result :=
  match d with
  | O => derive_step P x index
  | S d' =>
    match derive_loop P x d' index with
    | Done r => Done r
    | Again index' => derive_loop P x d' index'
    end
  end.

(** [XPrv::derive].  The last case is never reached for [u32] indices
    (theorem C24_terminates). *)
Definition derive (P : prims) (x : XPrv) (index : N) : res secp_error XPrv :=
  match derive_loop P x 33 index with
  | Done r => r
  | Again _ => Undef
  end.
