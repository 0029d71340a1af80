(** Which last words give a phrase its right checksum. *)
From Verif Require Import Base Prims Bip39 BitsSpec Bip39Spec.

(** A sentence whose checksum is that of its own entropy *)
Definition right_sentence (P : prims) (ms : list N) : Prop :=
  exists ent, entropy_length (length ent) /\ sentence_of ent (sha256 P ent) ms.

(** A sentence of [n] words has n/3 bits of checksum, at the end of the last
    word; its other bits belong to the entropy. *)
Definition checksum_range (n : nat) : N := 2 ^ N.of_nat (n / 3).
Definition free_range (n : nat) : N := 2 ^ N.of_nat (11 - n / 3).
