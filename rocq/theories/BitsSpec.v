(** Specification of bit strings, independent of the model: most significant
    bit first. *)
From Verif Require Import Base.

(** The [w] low bits of [n], most significant first. *)
Fixpoint bits (w : nat) (n : N) : list bool :=
  match w with
  | O => []
  | S w => N.testbit n (N.of_nat w) :: bits w n
  end.

(** Value of a bit string. *)
Fixpoint value_acc (acc : N) (l : list bool) : N :=
  match l with
  | [] => acc
  | b :: l => value_acc (2 * acc + (if b then 1 else 0)) l
  end.
Definition value (l : list bool) : N := value_acc 0 l.

(** The bits of a byte string. *)
Definition bytes_bits (bs : bytes) : list bool :=
  flat_map (fun b => bits 8 (b2n b)) bs.

(** The bits of a sequence of 11-bit groups. *)
Definition groups_bits (es : list N) : list bool := flat_map (bits 11) es.
