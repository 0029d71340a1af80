(** The [Language] trait of bip39/src/bip39.rs implemented by any code of a
    caller, which may answer differently from call to call, fail or panic.
    Lang.v has languages that are functions.  Also [Entropy::generate] with any
    closure. *)
From Verif Require Import Base Str Bip39 Lang.

(** Calls of the methods of the trait, bip39.rs:884-889 *)
Inductive lang_call :=
| CallName
| CallSeparator
| CallMnemonic (w : str)
| CallWord (m : N).

(** What a method returns if it returns; the error of a lookup is the text
    that [dictionary::Error] carries (bip39.rs:863-866). *)
Definition reply (q : lang_call) : Type :=
  match q with
  | CallMnemonic _ => N
  | _ => str
  end.

(** The code: its answer to the next call, given the calls so far, the oldest
    first. *)
Definition speaker := list lang_call -> forall q : lang_call, res str (reply q).

(** A computation that calls it. *)
Definition talking (E A : Type) := list lang_call -> res E A * list lang_call.
Definition silent {E A} (r : res E A) : talking E A := fun h => (r, h).
Definition next {E A B} (m : talking E A) (k : A -> talking E B) : talking E B := fun h =>
  match m h with
  | (Ok a, h') => k a h'
  | (Err e, h') => (Err e, h')
  | (Panic, h') => (Panic, h')
  | (Undef, h') => (Undef, h')
  end.
Notation "'say!' x := m 'in' k" := (next m (fun x => k))
  (at level 200, x pattern, m at level 100, k at level 200, right associativity).

Section WithSpeaker.
Variable S : speaker.

(** [separator] has no error to return. *)
Definition say_separator {E} : talking E str := fun h =>
  (unwrap (S h CallSeparator : res str str), h ++ [CallSeparator]).

(** [MnemonicIndex::to_word], bip39.rs:732-737 *)
Definition say_to_word (m : N) : talking bip39_error str := fun h =>
  (unwrap (S h (CallWord m) : res str str), h ++ [CallWord m]).

(** [MnemonicIndex::from_word], bip39.rs:748-754 *)
Definition say_from_word (w : str) : talking bip39_error N := fun h =>
  (map_err LanguageError (S h (CallMnemonic w) : res str N), h ++ [CallMnemonic w]).

(** The loop of [Mnemonics::to_string], bip39.rs:798-808 *)
Fixpoint say_write (first : bool) (vec : str) (ms : list N) : talking bip39_error str :=
  match ms with
  | [] => silent (Ok vec)
  | m :: ms' =>
    say! vec := (if first then silent (Ok vec)
                 else say! s := say_separator in silent (Ok (vec ++ s))) in
    say! w := say_to_word m in
    say_write false (vec ++ w) ms'
  end.

(** [Mnemonics::to_string], bip39.rs:794-810 *)
Definition say_to_string (ms : list N) : talking bip39_error str := say_write true [] ms.

(** The loop of [Mnemonics::from_string], bip39.rs:824-827 *)
Fixpoint say_read (vec : list N) (words : list str) : talking bip39_error (list N) :=
  match words with
  | [] => silent (Ok vec)
  | w :: words' =>
    say! m := say_from_word w in
    say_read (vec ++ [m]) words'
  end.

(** [Mnemonics::from_string], bip39.rs:820-829: [separator] is called once. *)
Definition say_from_string (s : str) : talking bip39_error (list N) :=
  say! sep := say_separator in
  say! vec := say_read [] (split_str sep s) in
  silent (from_mnemonics vec).

(** [MnemonicString::new], bip39.rs:548-555 *)
Definition say_string_new (s : str) : talking bip39_error str :=
  say! _ := say_from_string s in
  silent (Ok s).
End WithSpeaker.

(** [Entropy::generate], bip39.rs:167-177, with any closure: it gets the bytes
    of the new entropy and leaves others, as many, or panics. *)
Definition generate_with (t : Type_) (gen : bytes -> option bytes) : res bip39_error Entropy :=
  let* e := entropy_new t (repeat x00 32) in
  match gen (e_bytes e) with
  | None => Panic
  | Some bs => Ok {| e_type := t; e_bytes := bs |}
  end.
