(** Unicode's normal form NFKD, which BIP-39 asks of phrases. *)
From Verif Require Import Base Dict DictSpec.

(** From Unicode's tables: whether a character has a decomposition, and its
    combining class *)
Record unicode := { decomposes : N -> bool; ccc : N -> N }.

(** A text in the form NFKD: no character decomposes, and combining characters
    are in the order of their classes. *)
Definition nfkd_form (U : unicode) (s : str) : Prop :=
  Forall (fun c => decomposes U c = false) s /\
  forall p a b q, s = p ++ a :: b :: q -> ccc U b < ccc U a -> ccc U b = 0.

(** What the tables say of the scripts of the word lists: only voiced kana
    decompose, and only accents and sound marks combine. *)
Definition voiced : list N :=
  [0x304C; 0x304E; 0x3050; 0x3052; 0x3054; 0x3056; 0x3058; 0x305A; 0x305C; 0x305E; 0x3060; 0x3062; 0x3065;
   0x3067; 0x3069; 0x3070; 0x3071; 0x3073; 0x3074; 0x3076; 0x3077; 0x3079; 0x307A; 0x307C; 0x307D; 0x3094].
Definition marks : list N := [0x300; 0x301; 0x303; 0x3099; 0x309A].
Definition unicode_ok (U : unicode) : Prop :=
  forall l c, c = 0x20 \/ in_script l c ->
  (decomposes U c = true <-> In c voiced) /\ (ccc U c <> 0 -> In c marks).
