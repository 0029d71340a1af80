(** What comparing sequences, phrases and errors means, independent of Order.v. *)
From Verif Require Import Base Bip39 Dict.

(** Alphabetical order: [b] goes on where [a] ends, or has the greater number
    where the two first differ. *)
Definition lex_below (a b : list N) : Prop :=
  (exists c r, b = a ++ c :: r) \/
  (exists p x r y r', a = p ++ x :: r /\ b = p ++ y :: r' /\ x < y).

(** The lists that are in alphabetical order of their characters' numbers *)
Definition alphabetical (l : Language) : Prop := l = English \/ l = Italian \/ l = Korean.

(** Errors whose word is a string of Rust *)
Definition rust_error (e : bip39_error) : Prop :=
  match e with LanguageError w => valid_str w | _ => True end.
