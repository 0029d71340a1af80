(** Property C87: comparing phrases, word numbers and errors of the bip39 crate. *)
From Coq Require Import Strings.String.
From Verif Require Import Base Str Hex Bip39 Prims Dict Values ValuesSpec Order OrderSpec OrderFacts.
Open Scope N_scope.
Open Scope list_scope.

(** C87.  Phrases and dictionary errors are in the alphabetical order of their
    characters' numbers, though bytes are compared; the order is total. *)
Theorem C87_phrases :
  total_order valid_str phrase_cmp /\
  (forall s s', valid_str s -> valid_str s' -> (phrase_cmp s s' = Lt <-> lex_below s s')) /\
  (forall s s', valid_str s -> valid_str s' -> (phrase_eqb s s' = true <-> s = s')) /\
  total_order valid_str dictionary_cmp /\
  (forall w w', valid_str w -> valid_str w' -> (dictionary_cmp w w' = Lt <-> lex_below w w')) /\
  (forall w w', valid_str w -> valid_str w' -> (dictionary_eqb w w' = true <-> w = w')).
Proof. exact phrases_ordered. Qed.
Print Assumptions C87_phrases.

(** Word numbers and positions compare as numbers; vectors of word numbers and
    errors are equal exactly if they are the same. *)
Theorem C87_others :
  total_order (fun _ => True) index_cmp /\ (forall a b, index_cmp a b = Lt <-> a < b) /\
  total_order (fun _ => True) hex_error_cmp /\
  (forall i j, hex_error_cmp (UnknownSymbol i) (UnknownSymbol j) = Lt <-> i < j) /\
  (forall a b, mnemonics_eqb a b = true <-> a = b) /\
  (forall e e', rust_error e -> rust_error e' -> (bip39_eqb e e' = true <-> e = e')).
Proof. exact others_compared. Qed.
Print Assumptions C87_others.

(** In English, Italian and Korean, whose lists are sorted, comparing phrases
    compares the word numbers. *)
Theorem C87_words : forall l s s' ms ms', alphabetical l ->
  mnemonics_from_string (to_dict l) s = Ok ms -> mnemonics_from_string (to_dict l) s' = Ok ms' ->
  (phrase_cmp s s' = Lt <-> lex_below ms ms').
Proof. exact alphabetical_phrases. Qed.
Print Assumptions C87_words.
(** There, phrases made from entropy of one size are ordered as the entropy is:
    a sorted list of phrases tells which has the smaller secret. *)
Theorem C87_entropy : forall P l e e' ms ms' s s', prims_ok P -> alphabetical l ->
  entropy_wf e -> entropy_wf e' -> e_type e = e_type e' ->
  to_mnemonics P e = Ok ms -> to_mnemonics P e' = Ok ms' ->
  mnemonics_to_string (to_dict l) ms = Ok s -> mnemonics_to_string (to_dict l) ms' = Ok s' ->
  (phrase_cmp s s' = Lt <-> of_be (e_bytes e) < of_be (e_bytes e')).
Proof. exact entropy_phrases. Qed.
Print Assumptions C87_entropy.

(** In the five other languages phrases can be in the opposite order of their
    word numbers; and fewer words do not come first, as they do for entropy. *)
Theorem C87_words_refuted : forall l, ~ alphabetical l -> exists s s' ms ms',
  mnemonics_from_string (to_dict l) s = Ok ms /\ mnemonics_from_string (to_dict l) s' = Ok ms' /\
  phrase_cmp s s' = Lt /\ lex_below ms' ms.
Proof. exact unsorted_phrases. Qed.
Print Assumptions C87_words_refuted.
Theorem C87_length_refuted : exists s s' ms ms',
  mnemonics_from_string (to_dict English) s = Ok ms /\ mnemonics_from_string (to_dict English) s' = Ok ms' /\
  phrase_cmp s s' = Lt /\ (length ms' < length ms)%nat.
Proof. exact fewer_words_above. Qed.
Print Assumptions C87_length_refuted.

(** One, two, three and four bytes of UTF-8; a word that begins another. *)
Example C87_case_bytes :
  valid_str [0x7A] /\ valid_str [0x10348] /\
  phrase_cmp [0x7A] [0x301] = Lt /\ phrase_cmp [0x301] [0x3042] = Lt /\ phrase_cmp [0x3042] [0x10348] = Lt /\
  phrase_cmp (lit "add zoo") (lit "addict abandon") = Lt /\ lex_below (lit "add zoo") (lit "addict abandon").
Proof.
  repeat split; try reflexivity; try (constructor; [reflexivity|constructor]).
  right. exists (lit "add"), 32, (lit "zoo"), 105, (lit "ct abandon"). repeat split; reflexivity.
Qed.
Example C87_case_words : alphabetical Korean /\ ~ alphabetical French /\
  (exists s, mnemonics_to_string (to_dict English) [25; 2047] = Ok s /\ s = lit "add zoo").
Proof.
  split; [right; right; reflexivity|]. split; [intros [H|[H|H]]; discriminate|].
  eexists. split; vm_compute; reflexivity.
Qed.
