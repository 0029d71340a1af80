(** Properties C21-C25: BIP-32 extended keys. *)
From Coq Require Import Strings.String.
From Verif Require Import Base Prims Errors XPrv XPrvSpec XPrvFacts Keys KeysSpec KeysFacts Toy.

(** A key used in the examples. *)
Definition sample : XPrv := {|
  x_key := 0x1234; x_chaincode := repeat xab 32; x_parent_fingerprint := [x01; x02; x03; x04];
  x_depth := x05; x_index := 0x8000002C
|}.

(** C21.  Serialising gives the 77-byte layout and parsing it gives the key
    back. *)
Theorem C21_round_trip : forall (P : prims) (x : XPrv), prims_ok P -> xprv_wf x ->
  xprv_serialize P x = xprv_layout P x /\ List.length (xprv_serialize P x) = 77%nat /\
  xprv_from_data P (xprv_serialize P x) = Ok x.
Proof. exact serialize_round_trip. Qed.
Print Assumptions C21_round_trip.

Example C21_case : prims_ok toy /\ xprv_wf sample /\
  firstn 9 (xprv_serialize toy sample) = [x05; x01; x02; x03; x04; x80; x00; x00; x2c].
Proof.
  split; [exact toy_ok|]. split; [|vm_compute; reflexivity].
  split; [split; reflexivity|]. split; [reflexivity|]. split; [reflexivity|].
  vm_compute. discriminate.
Qed.

(** C22.  Parsing accepts exactly the serialisations of valid keys. *)
Theorem C22_parse_exact : forall (P : prims) (data : bytes), prims_ok P ->
  (forall x, xprv_from_data P data = Ok x <-> xprv_wf x /\ data = xprv_layout P x) /\
  (List.length data <> 77%nat ->
     xprv_from_data P data = Err (SInvalidDataSize (N.of_nat (List.length data)) 77)) /\
  (List.length data = 77%nat -> (forall x, xprv_wf x -> data <> xprv_layout P x) ->
     xprv_from_data P data = Err SInvalidSecretKey).
Proof. intros P data HP. exact (from_data_exact P HP data). Qed.
Print Assumptions C22_parse_exact.

(** C22, in terms of the bytes: length, checksum and range of the secret. *)
Theorem C22_accepts : forall (P : prims) (data : bytes), prims_ok P ->
  (exists x, xprv_from_data P data = Ok x) <->
  List.length data = 77%nat /\
  skipn 73 data = firstn 4 (sha256 P (sha256 P (firstn 73 data))) /\
  0 < of_be (firstn 32 (skipn 41 data)) < secp_n.
Proof. exact from_data_accepts. Qed.
Print Assumptions C22_accepts.

Theorem C22_total : forall (P : prims) (data : bytes), prims_ok P ->
  xprv_from_data P data <> Panic /\ xprv_from_data P data <> Undef.
Proof. exact from_data_total. Qed.
Print Assumptions C22_total.

Example C22_case :
  let good := xprv_serialize toy sample in
  xprv_from_data toy good = Ok sample /\
  xprv_from_data toy (removelast good ++ [xff]) = Err SInvalidSecretKey /\
  xprv_from_data toy (tl good) = Err (SInvalidDataSize 76 77).
Proof. repeat split; vm_compute; reflexivity. Qed.

(** C23.  Derivation is BIP-32's. *)
Theorem C23_ckd_priv : forall (P : prims) (x : XPrv) (i : N), prims_ok P -> is_u32 i ->
  ckd_defined P x i -> b2n (x_depth x) < 255 ->
  exists y, derive P x i = Ok y /\ is_child P x i y.
Proof. intros P x i HP. exact (derive_defined P HP x i). Qed.
Print Assumptions C23_ckd_priv.

(** C23 along a whole path. *)
Theorem C23_path : forall (P : prims) (l : list N) (x z : XPrv), prims_ok P ->
  Forall is_u32 l -> derives P x l z -> derive_along P x l = Ok z.
Proof. intros P l x z HP. exact (derive_along_defined P HP l x z). Qed.
Print Assumptions C23_path.

(** C23: the child's identity is unique, and a hardened child's secret and
    chain code do not involve the curve. *)
Theorem C23_hardened : forall (P P' : prims) (x : XPrv) (i : N),
  hmac_sha512 P = hmac_sha512 P' -> 2 ^ 31 <= i ->
  ckd_key P x i = ckd_key P' x i /\ ckd_right P x i = ckd_right P' x i.
Proof. exact hardened_no_curve. Qed.
Print Assumptions C23_hardened.

Example C23_case : ckd_defined toy sample 3 /\ ckd_defined toy sample 0x80000003 /\
  b2n (x_depth sample) < 255 /\
  ckd_key toy sample 3 <> ckd_key toy sample 0x80000003.
Proof.
  split; [split; [split; vm_compute; reflexivity|vm_compute; discriminate]|].
  split; [split; [split; vm_compute; reflexivity|vm_compute; discriminate]|].
  split; [reflexivity|vm_compute; discriminate].
Qed.

(** C24.  All outcomes of derivation: [j] is the index actually used. *)
Theorem C24_outcomes : forall (P : prims) (x : XPrv) (i : N), prims_ok P -> is_u32 i ->
  (b2n (x_depth x) = 255 /\ derive P x i = Err SDeriveDepthTooBig) \/
  (b2n (x_depth x) < 255 /\ exists j, i <= j /\ j <= u32_max /\
    (forall k, i <= k < j -> left_ok P x k /\ ckd_key P x k = 0) /\
    ((ckd_defined P x j /\ exists y, derive P x i = Ok y /\ is_child P x j y) \/
     (~ left_ok P x j /\ derive P x i = Err SInvalidSecretKey) \/
     (j = u32_max /\ left_ok P x j /\ ckd_key P x j = 0 /\
      derive P x i = Err STweakOutOfRange))).
Proof. intros P x i HP. exact (derive_cases P HP x i). Qed.
Print Assumptions C24_outcomes.

Theorem C24_terminates : forall (P : prims) (x : XPrv) (i : N), prims_ok P -> is_u32 i ->
  derive P x i <> Panic /\ derive P x i <> Undef.
Proof. intros P x i HP. exact (derive_total P HP x i). Qed.
Print Assumptions C24_terminates.

(** C24, expectation refuted: asking for a soft child gives a soft child. *)
Theorem C24_soft_stays_soft_refuted : exists (P : prims) (x y : XPrv) (i : N),
  prims_ok P /\ xprv_wf x /\ i < 2 ^ 31 /\ derive P x i = Ok y /\ 2 ^ 31 <= x_index y.
Proof. exact soft_becomes_hard. Qed.
Print Assumptions C24_soft_stays_soft_refuted.

(** C24, expectation refuted: derivation moves on to the next index when the
    left half is unusable, as BIP-32 asks. *)
Theorem C24_retries_bad_left_refuted : exists (P : prims) (x : XPrv) (i : N),
  prims_ok P /\ xprv_wf x /\ ckd_defined P x (i + 1) /\
  derive P x i = Err SInvalidSecretKey.
Proof. exact bad_left_fails. Qed.
Print Assumptions C24_retries_bad_left_refuted.

(** C25.  Depth. *)
Theorem C25_depth : forall (P : prims) (x y : XPrv) (i : N), prims_ok P -> is_u32 i ->
  derive P x i = Ok y -> b2n (x_depth y) = b2n (x_depth x) + 1.
Proof. intros P x y i HP. exact (derive_ok_depth P HP x i y). Qed.
Print Assumptions C25_depth.

Theorem C25_from_seed : forall (P : prims) (seed : bytes) (x : XPrv) (l : list N),
  prims_ok P -> Forall is_u32 l -> (List.length l <= 255)%nat ->
  xprv_from_seed P seed = Ok x ->
  x_depth x = x00 /\ x_index x = 0 /\ derive_along P x l <> Err SDeriveDepthTooBig /\
  (forall y, derive_along P x l = Ok y -> b2n (x_depth y) = N.of_nat (List.length l)).
Proof. intros P seed x l HP. exact (seed_depth P HP seed x l). Qed.
Print Assumptions C25_from_seed.

(** C25: the master key of a seed is BIP-32's. *)
Theorem C25_master : forall (P : prims) (seed : bytes), prims_ok P ->
  let I := hmac_sha512 P (blit "Bitcoin seed") seed in
  let l := of_be (firstn 32 I) in
  (0 < l < secp_n /\ exists x, xprv_from_seed P seed = Ok x /\ x_key x = l /\
     x_chaincode x = skipn 32 I /\ x_depth x = x00 /\ x_index x = 0 /\
     x_parent_fingerprint x = [x00; x00; x00; x00] /\ xprv_wf x) \/
  (~ (0 < l < secp_n) /\ xprv_from_seed P seed = Err SInvalidSecretKey).
Proof. intros P seed HP. exact (from_seed_cases P HP seed). Qed.
Print Assumptions C25_master.

Example C25_case : exists x y,
  xprv_from_seed toy (repeat x11 64) = Ok x /\
  derive_along toy x [0x8000002C; 0x80000000; 0x80000000; 0; 7] = Ok y /\
  x_depth y = x05 /\ x_index y = 7.
Proof. exact five_steps. Qed.
