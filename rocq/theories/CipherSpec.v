(** ChaCha20-Poly1305 (RFC 8439) by what its tag is: the value of a polynomial
    modulo 2^130 - 5, plus a number.  The text of the RFC is the source; nothing
    here refers to the functions of StdCipher.v except the block of the
    ChaCha20 stream that the one-time key is taken from. *)
From Verif Require Import Base CurveSpec Keychain Data Manager StdHash StdCipher Std.

Definition poly_prime : N := 2 ^ 130 - 5.

(** A message in pieces of 16 bytes, the last one possibly shorter. *)
Inductive in_blocks : bytes -> list bytes -> Prop :=
  | blocks_none : in_blocks [] []
  | blocks_last b : (0 < length b < 16)%nat -> in_blocks b [b]
  | blocks_more b m l : length b = 16%nat -> in_blocks m l -> in_blocks (b ++ m) (b :: l).
(** A piece as a number, with a byte 1 behind it. *)
Definition block_number (b : bytes) : N := little b + 256 ^ N.of_nat (length b).
(** c1 r^q + c2 r^(q-1) + ... + cq r *)
Fixpoint poly_sum (l : list bytes) (r : N) : N :=
  match l with
  | [] => 0
  | b :: l => block_number b * r ^ N.of_nat (S (length l)) + poly_sum l r
  end.
(** RFC 8439, 2.5: the tag of [m] under the one-time key (r, s). *)
Definition mac_tag (r s : N) (m t : bytes) : Prop :=
  exists l, in_blocks m l /\ length t = 16%nat /\ little t = (poly_sum l r mod poly_prime + s) mod 2 ^ 128.

(** RFC 8439, 2.8, without associated data: what the tag is over. *)
Definition aead_message (ct m : bytes) : Prop :=
  exists z l, (z < 16)%nat /\ Nat.divide 16 (length ct + z) /\
    length l = 8%nat /\ little l = N.of_nat (length ct) mod 2 ^ 64 /\
    m = ct ++ repeat x00 z ++ repeat x00 8 ++ l.

(** RFC 8439, 2.5 and 2.6: the one-time key is the start of the block 0; some
    bits of r are cleared. *)
Definition tag_r (block : bytes) : N := N.land (little (firstn 16 block)) 0x0ffffffc0ffffffc0ffffffc0fffffff.
Definition tag_s (block : bytes) : N := little (slice 16 32 block).

(** The block 0 for stored data and a password: the salt is in the first 32
    bytes, the nonce in the 12 bytes after it. *)
Definition first_block (data : bytes) (password : str) : bytes :=
  chacha_block (std_pbkdf2 (utf8 password) (firstn 32 data) 19162 32) (slice 32 44 data) 0.

(** The largest number of pieces that the tag of stored data of [n] bytes is
    over: the ciphertext and the lengths. *)
Definition tag_blocks (n : nat) : nat := ((n - 60 + 15) / 16 + 1)%nat.

(** Some operation on stored data succeeds with the password. *)
Inductive accepted (data : bytes) (password : str) : Prop :=
  | accepted_opened C o m kc : keychain_from_data std C o m data password = Ok kc -> accepted data password
  | accepted_changed password' r out : change_password std data password password' r = Ok out -> accepted data password
  | accepted_added C o m n r out : add_network std C o m data password n r = Ok out -> accepted data password
  | accepted_mnemonic C out : retrieve_mnemonic std C data password = Ok out -> accepted data password
  | accepted_keys C o out : get_keys_data std C o data password = Ok out -> accepted data password.
