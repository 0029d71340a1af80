(** Property C62: the words of the eight languages. *)
From Coq Require Import Strings.String.
From Verif Require Import Base Str Bip39 Dict DictSpec DictWords.
Open Scope list_scope.

(** C62.  The words are in the script of their language, and begin and end as
    the published lists do. *)
Theorem C62_words : forall l : Language,
  (forall (w : str) (c : N), In w (to_dict l) -> In c w -> in_script l c) /\
  (is_chinese l -> forall w, In w (to_dict l) -> exists c : N, w = [c]) /\
  to_word (to_dict l) 0 = Ok (fst (first_last l)) /\ to_word (to_dict l) 2047 = Ok (snd (first_last l)).
Proof. exact words. Qed.
Print Assumptions C62_words.

(** C62: the first four letters name a word. *)
Theorem C62_four_letters : forall (l : Language) (w w' : str),
  is_latin l -> In w (to_dict l) -> In w' (to_dict l) ->
  firstn 4 (letters w) = firstn 4 (letters w') -> w = w'.
Proof. exact four_letters. Qed.
Print Assumptions C62_four_letters.

(** C62: words and phrases of two languages. *)
Theorem C62_shared_words : forall (l l' : Language) (w : str) (i i' : N), l <> l' ->
  from_word (to_dict l) w = Ok i -> from_word (to_dict l') w = Ok i' ->
  (is_chinese l /\ is_chinese l' /\ i = i') \/
  ((l = English /\ l' = French \/ l = French /\ l' = English) /\ i <> i').
Proof. exact shared_words. Qed.
Print Assumptions C62_shared_words.

Theorem C62_shared_phrases : forall (l l' : Language) (s : str) (ms ms' : list N), l <> l' ->
  mnemonics_from_string (to_dict l) s = Ok ms -> mnemonics_from_string (to_dict l') s = Ok ms' ->
  (is_chinese l /\ is_chinese l' /\ ms = ms') \/
  ((l = English /\ l' = French \/ l = French /\ l' = English) /\ Forall2 (fun i i' => i <> i') ms ms').
Proof. exact shared_phrases. Qed.
Print Assumptions C62_shared_phrases.

(** Both kinds of shared words exist. *)
Example C62_shared_cases :
  from_word (to_dict English) (lit "angle") = Ok 70 /\ from_word (to_dict French) (lit "angle") = Ok 107 /\
  from_word (to_dict ChineseSimplified) [0x4E00] = Ok 1 /\ from_word (to_dict ChineseTraditional) [0x4E00] = Ok 1 /\
  is_latin Spanish /\ letters [0x61; 0x301; 0x62; 0x61; 0x63; 0x6F] = lit "abaco" /\
  In [0x61; 0x301; 0x62; 0x61; 0x63; 0x6F] (to_dict Spanish).
Proof.
  do 4 (split; [vm_compute; reflexivity|]). split; [right; right; right; reflexivity|]. split; [reflexivity|].
  apply (nth_error_In (to_dict Spanish) 0). vm_compute. reflexivity.
Qed.

Example C62_phrase_case :
  let s := lit "angle angle angle angle angle angle angle angle angle" in
  mnemonics_from_string (to_dict English) s = Ok [70; 70; 70; 70; 70; 70; 70; 70; 70] /\
  mnemonics_from_string (to_dict French) s = Ok [107; 107; 107; 107; 107; 107; 107; 107; 107].
Proof. split; vm_compute; reflexivity. Qed.
