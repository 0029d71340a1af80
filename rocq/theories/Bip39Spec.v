(** Specification of BIP-39, independent of the model's tables. *)
From Verif Require Import Base BitsSpec.

(** Supported entropy lengths in bytes. *)
Definition entropy_length (n : nat) : Prop :=
  In n [12; 16; 20; 24; 28; 32]%nat.

(** Supported numbers of words. *)
Definition word_count (n : nat) : Prop :=
  In n [9; 12; 15; 18; 21; 24]%nat.

(** [ms] is the BIP-39 sentence of entropy [ent] whose SHA-256 is [hash]:
    in-range indices whose bits are the entropy followed by the first
    ENT/32 bits of the hash. *)
Definition sentence_of (ent hash : bytes) (ms : list N) : Prop :=
  Forall (fun m => m < 2048) ms /\
  groups_bits ms
  = bytes_bits ent ++ firstn (8 * length ent / 32) (bytes_bits hash).

(** A word list fit for BIP-39 phrases. *)
Definition dict_ok (d : list str) : Prop :=
  length d = 2048%nat /\ NoDup d /\
  Forall (fun w => w <> [] /\ ~ In 0x20 w) d.

(** [s] is the text of the words [ws]. *)
Definition phrase_of (ws : list str) (s : str) : Prop :=
  ws <> [] /\ Forall (fun w => ~ In 0x20 w) ws /\
  s = concat (List.map (fun w => w ++ [0x20]) (removelast ws)) ++ last ws [].
