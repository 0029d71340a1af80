(** Model of the places where the width of [usize] shows.  The rest of the
    model is for 64-bit targets and takes lengths as unbounded numbers. *)
From Verif Require Import Base Prims Bits Bip39 Errors Keys.

(** A target: the width of [usize] in bits (16, 32 or 64 in Rust), and the
    profile, which says whether arithmetic is checked. *)
Record target := { width : N; prof : profile }.
Definition modulus (t : target) : N := 2 ^ width t.

(** Multiplication and subtraction of [usize]: an overflow panics in debug
    builds and wraps in release builds. *)
Definition wrap {E} (t : target) (overflow : bool) (n : N) : res E N :=
  if overflow then match prof t with Debug => Panic | Release => Ok (n mod modulus t) end
  else Ok n.
Definition mul {E} (t : target) (a b : N) : res E N := wrap t (modulus t <=? a * b) (a * b).
Definition sub {E} (t : target) (a b : N) : res E N :=
  if a <? b then wrap t true (modulus t + a - b) else Ok (a - b).

(** [Entropy::from_slice], bip39.rs:146-149 *)
Definition from_slice_on (t : target) (bs : bytes) : res bip39_error Entropy :=
  let* bits := mul t (N.of_nat (length bs)) 8 in
  let* ty := from_entropy_size bits in
  entropy_new ty bs.

(** [BitReaderBy11::size], bits.rs:147-149 *)
Definition size_on (t : target) (r : reader) : res unit N :=
  let* total := mul t (N.of_nat (length (r_buffer r))) 8 in
  let* left := sub t total (state_index (r_state r)) in
  Ok (left / NUM_BITS_PER_BLOCK).

(** [SeedSize::min_words], [SeedSize::max_words],
    keychain/src/key_factory.rs:10-18 *)
Definition min_words {E} (t : target) (s : SeedSize) : res E N := mul t (ss_min s / 32) 3.
Definition max_words {E} (t : target) (s : SeedSize) : res E N := mul t (ss_max s / 32) 3.

(** [let size_words = size / 32 * 3], keychain/src/mnemonic.rs:99 *)
Definition size_words {E} (t : target) (size : N) : res E N := mul t (size / 32) 3.

(** [calculate_seed_size], keychain/src/manager.rs:142-153, with the
    target's [usize::MAX] *)
Definition calculate_seed_size_on (t : target) (fs : list KeyFactory) : res kc_error N :=
  let '(min, max) :=
    fold_left
      (fun '(min, max) f =>
         (N.max min (ss_min (f_seed_size f)), N.min max (ss_max (f_seed_size f))))
      fs (0, modulus t - 1) in
  if min =? 0 then Err (CantCalculateSeedSize min max)
  else if max <=? min then Err (CantCalculateSeedSize min max)
  else Ok min.
