(** What the eight word lists look like (BIP-39, "Wordlists"). *)
From Coq Require Import Strings.String.
From Verif Require Import Base Dict.
Open Scope list_scope.

(** Characters of a language: words are stored decomposed (NFKD), accents are
    separate characters. *)
Definition latin (c : N) : Prop := 0x61 <= c <= 0x7A.
Definition in_script (l : Language) (c : N) : Prop :=
  match l with
  | English | Italian => latin c
  | French => latin c \/ c = 0x300 \/ c = 0x301
  | Spanish => latin c \/ c = 0x301 \/ c = 0x303
  | Japanese => 0x3042 <= c <= 0x309A
  | Korean => 0x1100 <= c <= 0x11C2
  | ChineseSimplified | ChineseTraditional => 0x4E00 <= c <= 0x9FFF
  end.

Definition is_latin (l : Language) : Prop := l = English \/ l = French \/ l = Italian \/ l = Spanish.
Definition is_chinese (l : Language) : Prop := l = ChineseSimplified \/ l = ChineseTraditional.

(** The word without its accents. *)
Definition letters (w : str) : str := filter (fun c => c <? 0x300) w.

(** First and last words. *)
Definition first_last (l : Language) : str * str :=
  match l with
  | English => (lit "abandon", lit "zoo")
  | French => (lit "abaisser", lit "zoologie")
  | Italian => (lit "abaco", lit "zuppa")
  | Spanish => ([0x61; 0x301; 0x62; 0x61; 0x63; 0x6F], lit "zurdo")
  | Japanese => ([0x3042; 0x3044; 0x3053; 0x304F; 0x3057; 0x3093], [0x308F; 0x308C; 0x308B])
  | Korean => ([0x1100; 0x1161; 0x1100; 0x1167; 0x11A8], [0x1112; 0x1175; 0x11B7; 0x1101; 0x1165; 0x11BA])
  | ChineseSimplified | ChineseTraditional => ([0x7684], [0x6B47])
  end.
