(** The [Language] trait of bip39/src/bip39.rs with any implementation, where
    Bip39.v has the built-in dictionaries only. *)
From Verif Require Import Base Str Bip39.

(** trait [Language], bip39.rs:884-889: an implementation is the record of its
    methods.  The error of a lookup is the text carried by
    [dictionary::Error::MnemonicWordNotFoundInDictionary] (bip39.rs:863-866).
    A lookup may panic, and answers the same every time. *)
Record language := {
  l_name : str;
  l_separator : str;
  l_mnemonic : str -> res str N;
  l_word : N -> res str str
}.

(** [impl Language for DefaultDictionary], bip39.rs:903-926 *)
Definition default_language (name : str) (d : dict) : language := {|
  l_name := name;
  l_separator := [0x20];
  l_mnemonic w :=
    match position w d with
    | None => Err w
    | Some v => if v mod 65536 <=? MAX_MNEMONIC_VALUE then Ok (v mod 65536) else Panic
    end;
  l_word m :=
    match nth_error d (N.to_nat m) with
    | Some w => Ok w
    | None => Undef
    end
|}.

(** [str::starts_with] *)
Fixpoint starts_with (p s : str) : bool :=
  match p, s with
  | [], _ => true
  | c :: p', d :: s' => (c =? d) && starts_with p' s'
  | _ :: _, [] => false
  end.

Definition on_head (f : str -> str) (ps : list str) : list str :=
  match ps with
  | [] => [f []]
  | p :: ps' => f p :: ps'
  end.

(** [str::split] with a non-empty text as separator: occurrences are taken
    from left to right and do not overlap.  [skip] is the number of
    characters left of an occurrence being passed over. *)
Fixpoint split_on (sep : str) (skip : nat) (s : str) : list str :=
  match s with
  | [] => [[]]
  | c :: s' =>
    match skip with
    | S k => split_on sep k s'
    | O =>
      if starts_with sep s then [] :: split_on sep (length sep - 1) s'
      else on_head (cons c) (split_on sep 0 s')
    end
  end.

(** [str::split]; the empty separator is found before every character and at
    the end. *)
Definition split_str (sep s : str) : list str :=
  match sep with
  | [] => [[]] ++ List.map (fun c => [c]) s ++ [[]]
  | _ => split_on sep 0 s
  end.

Section WithLanguage.
Variable L : language.

(** [MnemonicIndex::to_word], bip39.rs:732-737 *)
Definition lang_to_word (m : N) : res bip39_error str :=
  unwrap (map_err LanguageError (l_word L m)).

(** [MnemonicIndex::from_word], bip39.rs:748-754 *)
Definition lang_from_word (w : str) : res bip39_error N :=
  map_err LanguageError (l_mnemonic L w).

(** [Mnemonics::to_string], bip39.rs:794-810 *)
Definition lang_to_string (ms : list N) : res bip39_error str :=
  let* ws := mapM lang_to_word ms in
  Ok (join (l_separator L) ws).

(** [Mnemonics::from_string], bip39.rs:820-829 *)
Definition lang_from_string (s : str) : res bip39_error (list N) :=
  let* ms := mapM lang_from_word (split_str (l_separator L) s) in
  from_mnemonics ms.

(** [MnemonicString::new], bip39.rs:548-555 *)
Definition lang_string_new (s : str) : res bip39_error str :=
  let* _ := lang_from_string s in
  Ok s.
End WithLanguage.
