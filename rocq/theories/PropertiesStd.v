(** Property C74: the external functions by their published standards. *)
From Coq Require Import Strings.String.
From Verif Require Import Base Str Prims Errors Dict Bip39 Bip39Spec Bip39Facts XPrv Crypt CryptFacts FMap Data KeyPath Keychain Manager
  ManagerSpec HistorySpec InteropSpec InteropFacts StdHash StdCipher StdCurve Std StdFacts StdVectors.
Open Scope list_scope.

(** C74.  The standard functions are an instance of what the theorems assume
    of the external crates, so that each theorem holds for them. *)
Theorem C74_standard : prims_ok std.
Proof. exact std_ok. Qed.
Print Assumptions C74_standard.

(** Every wallet made from a phrase, whatever was done to it, answers as BIP-39,
    BIP-32, BIP-44 and the signature schemes prescribe, with the standard
    functions in place of the crates. *)
Theorem C74_wallets : forall (C : data_config) ns o1 o2 (m : manager) (t : str)
    (lang : option Language) pw r x (l : list (order * op)),
  with_networks std ns = Ok m -> order_ok o1 -> order_ok o2 ->
  keychain_data_from_mnemonic std o1 o2 m t pw lang r = Ok x ->
  Forall (fun x : order * op => order_ok (fst x) /\ op_ok (snd x) /\ builtin_op std (snd x)) l ->
  follows pw (List.map snd l) ->
  interoperable std C (bip39_seed std t) ns (fst (perform_all std C l x)) (final_password pw (List.map snd l)).
Proof. exact (interop_phrase std std_ok). Qed.
Print Assumptions C74_wallets.

(** Every signature with a secp256k1 key is r, s and a recovery id of 0 or 1,
    with nonzero r and s and the low one of the two values of s. *)
Theorem C74_signatures : forall (x : XPrv) (data sig : bytes),
  xprv_sign std x data = Ok sig ->
  exists r s v, sig = be 32 r ++ be 32 s ++ [n2b v] /\
    (0 < r < secp_n /\ 0 < s <= secp_n / 2) /\ v < 2.
Proof. exact std_signatures. Qed.
Print Assumptions C74_signatures.

(** Published values: FIPS 180-4 and RFC 4231 for the hashes, RFC 8439 for the
    cipher and the tag, SEC 2 and RFC 8032 for the curves (multiples of the
    generators in projective coordinates), a derivation from the tests of
    ed25519-bip32, and a signature with s too large. *)
Example C74_hashes :
  sha256 std (blit "abc") = be 32 0xba7816bf8f01cfea414140de5dae2223b00361a396177a9cb410ff61f20015ad /\
  sha512 std (blit "abc") = be 64 0xddaf35a193617abacc417349ae20413112e6fa4e89a97ea20a9eeee64b55d39a2192992a274fc1a836ba3c23a3feebbd454d4423643ce80e2a9ac94fa54ca49f /\
  keccak256 std [] = be 32 0xc5d2460186f7233c927e7db2dcc703c0e500b653ca82273b7bfad8045d85a470 /\
  ripemd160 std (blit "abc") = be 20 0x8eb208f7e05d987a9b044a8e98c6b087f15a0bfc /\
  ripemd160 std (concat (repeat (blit "1234567890") 8)) = be 20 0x9b752e45573d4b39f4dbd3323cab82bf63326bfb /\
  hmac_sha512 std (blit "Jefe") (blit "what do ya want for nothing?")
  = be 64 0x164b7a7bfcf819e2e395fbe73b56e0a387bd64222e831fd610270cd7ea2505549758bf75c05a994a6d034f65f8f0e6fdcaeab1a34d4a6b4b636e070a38bce737.
Proof. split; [|split; [|split; [|split; [|split]]]]; vm_compute; reflexivity. Qed.

Example C74_cipher :
  let key := List.map (fun i => n2b (N.of_nat i)) (seq 0 32) in
  chacha_block key (be 12 0x000000090000004a00000000) 1
  = be 64 0x10f1e7e4d13b5915500fdd1fa32071c4c7d1f4c733c068030422aa9ac3d46c4ed2826446079faa0914c2d705d98b02a2b5129cd1de164eb9cbd083e8a2503c4e /\
  poly1305 (be 32 0x85d6be7857556d337f4452fe42d506a80103808afb0db2fd4abff6af4149f51b)
    (blit "Cryptographic Forum Research Group") = be 16 0xa8061dc1305136c6c22b8baf0c0127a9.
Proof. split; vm_compute; reflexivity. Qed.

Example C74_curves :
  (let '(x, y, z) := secp_scale 2 (jac_of secp_g) in
   let z2 := fmul secp_p z z in
   x = fmul secp_p z2 0xc6047f9441ed7d6d3045406e95c07cd85c778e4b8cef3ca7abac09b95c709ee5 /\
   y = fmul secp_p (fmul secp_p z z2) 0x1ae168fea63dc339a3c58419466ceaeef7f632653266d0e1236431a950cfe52a) /\
  (let '(x, y, z) := secp_scale 3 (jac_of secp_g) in
   let z2 := fmul secp_p z z in
   x = fmul secp_p z2 0xf9308a019258c31049344f85f89d5229b531c845836f99b08601f113bce036f9 /\
   y = fmul secp_p (fmul secp_p z z2) 0x388f7b0f632de8140fe337e62a37f3566500a99934c2231b6cb9fd7584b8e672) /\
  (let '(x, y, z, t) := ed_base 3 in
   x = fmul ed_p z 0x67ae9c4a22928f491ff4ae743edac83a6343981981624886ac62485fd3f8e25c /\
   y = fmul ed_p z 0x1267b1d177ee69aba126a18e60269ef79f16ec176724030402c3684878f5b4d4 /\
   fmul ed_p t z = fmul ed_p x y) /\
  (let '(x, y) := secp_g in fmul secp_p y y = fadd secp_p (fmul secp_p x (fmul secp_p x x)) 7) /\
  (let '(x, y) := ed_g in
   fadd ed_p (fmul ed_p x x) 1 = fsub ed_p (fmul ed_p y y) (fmul ed_p ed_d (fmul ed_p (fmul ed_p x x) (fmul ed_p y y))) /\
   fmul ed_p 5 y = 4 /\ fmul ed_p ed_d 121666 = ed_p - 121665).
Proof. vm_compute. repeat split; reflexivity. Qed.

Example C74_ed_keys :
  std_ed_derive (be 96 0xf8a29231ee38d6c5bf715d5bac21c750577aa3798b22d79d65bf97d6fadea15adcd1ee1abdf78bd4be64731a12deb94d3671784112eb6f364b871851fd1c9a247384db9ad6003bbd08b3b1ddc0d07a597293ff85e961bf252b331262eddfad0d) (2 ^ 31)
  = be 96 0x60d399da83ef80d8d4f8d223239efdc2b8fef387e1b5219137ffb4e8fbdea15adc9366b7d003af37c11396de9a83734e30e05e851efa32745c9cd7b42712c890608763770eddf77248ab652984b21b849760d1da74a6f5bd633ce41adceef07a /\
  std_ed_verify (repeat x00 96) [] (le 32 1 ++ le 32 ed_l) = false.
Proof. split; vm_compute; reflexivity. Qed.

(** The vectors of the repository's own tests, in both directions. *)
Definition vector_answer (l : Language) (v : nat * N * str) : res bip39_error (str * bytes) :=
  let '(size, value, phrase) := v in
  let* e := entropy_from_slice (be size value) in
  let* ms := to_mnemonics std e in
  let* s := mnemonics_to_string (to_dict l) ms in
  let* ms' := mnemonics_from_string (to_dict l) phrase in
  let* e' := entropy_from_mnemonics std ms' in
  Ok (s, e_bytes e').
Definition right_answer (v : nat * N * str) : res bip39_error (str * bytes) :=
  let '(size, value, phrase) := v in Ok (phrase, be size value).

Example C74_vectors :
  let english := firstn 6 (skipn 12 english_vectors) in
  let japanese := firstn 3 (skipn 10 japanese_vectors) in
  List.length english_vectors = 24%nat /\ List.length japanese_vectors = 24%nat /\
  List.map (vector_answer English) english = List.map right_answer english /\
  List.map (vector_answer Japanese) japanese = List.map right_answer japanese.
Proof. cbv zeta. split; [|split; [|split]]; vm_compute; reflexivity. Qed.

(** The seed of the first vector has a BIP-32 master key. *)
Example C74_seed :
  usable_seed std (be 64 0xc55257c360c07c72029aebc1b53c05ed0362ada38ead3e3e9efa3708e53495531f09a6987599d18264c1e1c92f2cf141630c7a3c4ab7c81b2f001698e7463b04).
Proof. split; vm_compute; reflexivity. Qed.
