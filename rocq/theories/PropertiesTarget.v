(** Property C73: what the width of [usize] changes. *)
From Verif Require Import Base Prims Bits Bip39 Errors Keys Manager Bip39Spec Toy Target TargetSpec TargetFacts.

(** C73.  As long as the number of bits of a slice is a [usize], every target
    and profile does what the model for 64 bits says. *)
Theorem C73_small : forall (t : target),
  (forall bs, fits t bs -> from_slice_on t bs = entropy_from_slice bs) /\
  (forall r n, fits t (r_buffer r) -> size r = Ok n -> size_on t r = Ok n).
Proof. intros t. split; [apply small_slices|apply small_readers]. Qed.
Print Assumptions C73_small.

(** The number of words left in any reader: its bits less those read, modulo
    the range in release builds; debug builds panic if either is out of range. *)
Theorem C73_readers : forall (t : target) (r : reader), 3 <= width t ->
  let bits := 8 * N.of_nat (length (r_buffer r)) in let i := state_index (r_state r) in
  size_on t r =
  match prof t with
  | Debug => if (bits <? modulus t) && (i <=? bits) then Ok ((bits - i) / 11) else Panic
  | Release => Ok ((bits + modulus t - i) mod modulus t / 11)
  end.
Proof. exact readers. Qed.
Print Assumptions C73_readers.

(** A longer slice panics in debug builds; release builds take it for its
    first bytes, the length modulo an eighth of the range. *)
Theorem C73_large : forall (t : target) (bs : bytes), 3 <= width t -> ~ fits t bs ->
  from_slice_on t bs =
  match prof t with
  | Debug => Panic
  | Release => entropy_from_slice (firstn (N.to_nat (N.of_nat (length bs) mod 2 ^ (width t - 3))) bs)
  end.
Proof. exact large_slices. Qed.
Print Assumptions C73_large.

(** C73, expectation refuted: only slices of a supported size are accepted. *)
Theorem C73_wrong_size_refuted : exists t bs, width t = 32 /\ prof t = Release /\
  N.of_nat (length bs) < 2 ^ 31 /\ ~ entropy_length (length bs) /\ exists e, from_slice_on t bs = Ok e.
Proof. exact wrong_size_accepted. Qed.
Print Assumptions C73_wrong_size_refuted.

(** Sizes in words never overflow; a manager demands as many words as the
    largest minimum of its factories, and no more than any maximum. *)
Theorem C73_words : forall (t : target) (s : SeedSize), ss_min s < modulus t -> ss_max s < modulus t ->
  min_words (E := kc_error) t s = Ok (3 * (ss_min s / 32)) /\
  max_words (E := kc_error) t s = Ok (3 * (ss_max s / 32)) /\
  size_words (E := kc_error) t (ss_min s) = min_words t s.
Proof. exact words_exact. Qed.
Print Assumptions C73_words.

Theorem C73_demand : forall (t : target) (fs : list KeyFactory) (s : N),
  Forall (sizes_fit t) fs -> calculate_seed_size_on t fs = Ok s ->
  exists w, size_words (E := kc_error) t s = Ok w /\
  (exists f, In f fs /\ min_words (E := kc_error) t (f_seed_size f) = Ok w) /\
  forall f, In f fs -> exists lo hi, min_words (E := kc_error) t (f_seed_size f) = Ok lo /\
    max_words (E := kc_error) t (f_seed_size f) = Ok hi /\ lo <= w <= hi.
Proof. exact words_demanded. Qed.
Print Assumptions C73_demand.

(** The seed size of a manager is the same on all targets; without any
    factory the error shows the target's largest [usize]. *)
Theorem C73_seed_size :
  (forall t fs, width t = 64 -> calculate_seed_size_on t fs = calculate_seed_size fs) /\
  (forall t t' f fs, Forall (sizes_fit t) (f :: fs) -> Forall (sizes_fit t') (f :: fs) ->
     calculate_seed_size_on t (f :: fs) = calculate_seed_size_on t' (f :: fs)) /\
  (forall t, calculate_seed_size_on t [] = Err (CantCalculateSeedSize 0 (modulus t - 1))).
Proof. split; [exact sizes_on_64|]. split; [exact sizes_independent|exact no_factories]. Qed.
Print Assumptions C73_seed_size.

(** 32 bytes of bits wrap to none at 8 bits of width, of which 3 were read. *)
Example C73_case_readers :
  size_on {| width := 8; prof := Release |} {| r_buffer := repeat x00 32; r_state := S1 |} = Ok 23 /\
  size_on {| width := 8; prof := Debug |} {| r_buffer := repeat x00 32; r_state := S1 |} = Panic /\
  size_on {| width := 8; prof := Debug |} {| r_buffer := repeat x00 31; r_state := S1 |} = Ok 22.
Proof. repeat split. Qed.

Example C73_case :
  let t := {| width := 32; prof := Release |} in
  let fs := [ada_factory toy; btc_factory toy] in
  fits t (repeat x00 16) /\ from_slice_on t (repeat x00 16) = Ok {| e_type := Type12Words; e_bytes := repeat x00 16 |} /\
  Forall (sizes_fit t) fs /\ calculate_seed_size_on t fs = Ok 128 /\ size_words (E := kc_error) t 128 = Ok 12 /\
  (let t' := {| width := 8; prof := Release |} in
   ~ fits t' (repeat x01 44) /\ from_slice_on t' (repeat x01 44) = Ok {| e_type := Type9Words; e_bytes := repeat x01 12 |}) /\
  (let t' := {| width := 8; prof := Debug |} in from_slice_on t' (repeat x01 44) = Panic).
Proof.
  cbv zeta. split; [reflexivity|]. split; [reflexivity|].
  split; [repeat constructor|]. split; [reflexivity|]. split; [reflexivity|].
  split; [split; [intros H; discriminate H|reflexivity]|reflexivity].
Qed.
