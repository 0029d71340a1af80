(** Sizes in machine words, independent of the code. *)
From Verif Require Import Base Keys Target.

(** The number of bits of the slice is a [usize]. *)
Definition fits (t : target) (bs : bytes) : Prop := 8 * N.of_nat (length bs) < modulus t.

(** Both bounds of the factory are [usize]s. *)
Definition sizes_fit (t : target) (f : KeyFactory) : Prop :=
  ss_min (f_seed_size f) < modulus t /\ ss_max (f_seed_size f) < modulus t.
