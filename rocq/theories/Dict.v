(** The eight built-in dictionaries and [Language]
    (keychain/src/mnemonic.rs:7-31). *)
From Verif Require Import Base Str Bip39.
From Verif Require Import DictEnglish DictFrench DictJapanese DictKorean
  DictChineseSimplified DictChineseTraditional DictItalian DictSpanish.

(** Words of a generated text: UTF-8, separated by U+007C. *)
Definition words_of (text : bytes) : dict :=
  match of_utf8 text with
  | Some s => split 0x7c s
  | None => []
  end.

(** [enum Language], mnemonic.rs:7-17 *)
Inductive Language :=
| English | French | Japanese | Korean
| ChineseSimplified | ChineseTraditional | Italian | Spanish.

Definition all_languages : list Language :=
  [English; French; Japanese; Korean; ChineseSimplified; ChineseTraditional;
   Italian; Spanish].

(** Discriminants, mnemonic.rs:9-16 *)
Definition language_code (l : Language) : N :=
  match l with
  | English => 0 | French => 1 | Japanese => 2 | Korean => 3
  | ChineseSimplified => 4 | ChineseTraditional => 5 | Italian => 6 | Spanish => 7
  end.

(** [Language::default], mnemonic.rs:34-38 *)
Definition language_default : Language := English.

(** [Language::to_dict], mnemonic.rs:19-31, with the constants of
    bip39.rs:931-977 *)
Definition to_dict (l : Language) : dict :=
  words_of match l with
  | English => english_text
  | French => french_text
  | Japanese => japanese_text
  | Korean => korean_text
  | ChineseSimplified => chinese_simplified_text
  | ChineseTraditional => chinese_traditional_text
  | Italian => italian_text
  | Spanish => spanish_text
  end.
