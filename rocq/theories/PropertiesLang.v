(** C68: phrases in a caller's own language. *)
From Coq Require Import Strings.String.
From Verif Require Import Base Prims Bip39 Bip39Spec Dict Lang LangSpec LangFacts Toy.
Open Scope list_scope.

(** C68.  Reading a text: it is cut at the leftmost separators in one way, the
    pieces are looked up in turn, and the first that is not known decides. *)
Theorem C68_reading : forall (L : language) (s : str), l_separator L <> [] ->
  exists ps, pieces (l_separator L) s ps /\ (forall qs, pieces (l_separator L) s qs -> qs = ps) /\
  ((exists pre w post, ps = pre ++ w :: post /\
      Forall (fun p => exists m, l_mnemonic L p = Ok m) pre /\
      ((exists e, l_mnemonic L w = Err e /\ lang_from_string L s = Err (LanguageError e)) \/
       (l_mnemonic L w = Panic /\ lang_from_string L s = Panic) \/
       (l_mnemonic L w = Undef /\ lang_from_string L s = Undef))) \/
   (exists ms, Forall2 (fun p m => l_mnemonic L p = Ok m) ps ms /\
      (word_count (List.length ms) -> lang_from_string L s = Ok ms) /\
      (~ word_count (List.length ms) ->
         lang_from_string L s = Err (WrongNumberOfWords (N.of_nat (List.length ms)))))).
Proof. exact from_string_cases. Qed.
Print Assumptions C68_reading.

(** C68.  Writing a phrase: the words with the separator between them; a word
    that the language does not have is a panic. *)
Theorem C68_writing : forall (L : language) (ms : list N),
  (exists ws, Forall2 (fun m w => l_word L m = Ok w) ms ws /\
     lang_to_string L ms = Ok (put_together (l_separator L) ws)) \/
  (exists pre m post, ms = pre ++ m :: post /\
     Forall (fun m => exists w, l_word L m = Ok w) pre /\
     (((exists e, l_word L m = Err e) \/ l_word L m = Panic) /\ lang_to_string L ms = Panic \/
      l_word L m = Undef /\ lang_to_string L ms = Undef)).
Proof. exact to_string_cases. Qed.
Print Assumptions C68_writing.

(** C68.  A written phrase is read back exactly when its words can be told
    apart. *)
Theorem C68_round_trip : forall (L : language) (ms : list N) (ws : list str),
  l_separator L <> [] -> word_count (List.length ms) ->
  Forall2 (fun m w => l_word L m = Ok w /\ l_mnemonic L w = Ok m) ms ws ->
  exists s, lang_to_string L ms = Ok s /\
    (separable (l_separator L) ws -> lang_from_string L s = Ok ms) /\
    ((forall w m, l_mnemonic L w = Ok m -> l_word L m = Ok w) ->
     lang_from_string L s = Ok ms -> separable (l_separator L) ws).
Proof. exact lang_round_trip. Qed.
Print Assumptions C68_round_trip.

(** C68.  Words that share no character with the separator can be told apart;
    for a separator of one character nothing less will do. *)
Theorem C68_disjoint : forall (sep : str) (ws : list str), sep <> [] -> ws <> [] ->
  Forall (disjoint_from sep) ws -> separable sep ws.
Proof. exact disjoint_separable. Qed.
Print Assumptions C68_disjoint.

Theorem C68_one_character : forall (c : N) (ws : list str), ws <> [] ->
  (separable [c] ws <-> Forall (fun w => ~ In c w) ws).
Proof. exact single_separable. Qed.
Print Assumptions C68_one_character.

(** C68.  A text that is read is the text that would be written, if every
    index has one word. *)
Theorem C68_read_back : forall (L : language) (s : str) (ms : list N), l_separator L <> [] ->
  (forall w m, l_mnemonic L w = Ok m -> l_word L m = Ok w) ->
  lang_from_string L s = Ok ms -> lang_to_string L ms = Ok s.
Proof. exact lang_read_back. Qed.
Print Assumptions C68_read_back.

(** C68.  Entropy goes through the phrase of any such language. *)
Theorem C68_entropy : forall (L : language) (P : prims) (e : Entropy),
  prims_ok P -> entropy_wf e -> l_separator L <> [] ->
  (forall m, m < 2048 -> exists w, l_word L m = Ok w /\ l_mnemonic L w = Ok m /\
     disjoint_from (l_separator L) w) ->
  exists ms s, to_mnemonics P e = Ok ms /\ lang_to_string L ms = Ok s /\
    lang_from_string L s = Ok ms /\ entropy_from_mnemonics P ms = Ok e.
Proof. exact lang_entropy. Qed.
Print Assumptions C68_entropy.

(** C68.  A checked phrase keeps the text it was given, also where the
    language knows other spellings. *)
Theorem C68_string_new : forall (L : language) (s s' : str),
  lang_string_new L s = Ok s' <-> s' = s /\ exists ms, lang_from_string L s = Ok ms.
Proof. exact lang_string_new_ok. Qed.
Print Assumptions C68_string_new.

(** C68.  With an empty separator the empty word is looked up first and last,
    and single characters between. *)
Theorem C68_empty_separator : forall (L : language) (s : str), l_separator L = [] ->
  (forall e, l_mnemonic L [] = Err e -> lang_from_string L s = Err (LanguageError e)) /\
  (forall ms, lang_from_string L s = Ok ms ->
     exists ns first last, ms = first :: ns ++ [last] /\
       l_mnemonic L [] = Ok first /\ l_mnemonic L [] = Ok last /\
       Forall2 (fun c m => l_mnemonic L [c] = Ok m) s ns).
Proof. exact lang_empty_separator. Qed.
Print Assumptions C68_empty_separator.

(** C68.  The built-in dictionaries are the languages of the other
    properties. *)
Theorem C68_default : forall (name : str) (d : dict) (ms : list N) (s : str),
  lang_to_string (default_language name d) ms = mnemonics_to_string d ms /\
  lang_from_string (default_language name d) s = mnemonics_from_string d s /\
  lang_string_new (default_language name d) s = mnemonic_string_new d s.
Proof. exact default_same. Qed.
Print Assumptions C68_default.

(** C68, expectation refuted: it is not enough that no word contains the
    separator; a phrase can be read back as another one. *)
Theorem C68_separator_outside_words_refuted : exists (L : language) (ms ms' : list N) (s : str),
  l_separator L <> [] /\
  (forall m, m < 2048 -> exists w, l_word L m = Ok w /\ l_mnemonic L w = Ok m /\
     forall i, ~ occurs_at (l_separator L) w i) /\
  (forall w m, l_mnemonic L w = Ok m -> l_word L m = Ok w) /\
  Forall (fun m => m < 2048) ms /\ Forall (fun m => m < 2048) ms' /\
  word_count (List.length ms) /\ word_count (List.length ms') /\ ms <> ms' /\
  lang_to_string L ms = Ok s /\ lang_to_string L ms' = Ok s /\
  lang_from_string L s = Ok ms'.
Proof. exact unclear_phrases. Qed.
Print Assumptions C68_separator_outside_words_refuted.

(** C68, expectation refuted: without a separator the written phrase can not
    be read. *)
Theorem C68_no_separator_refuted : exists (L : language) (ms : list N) (s : str),
  (forall m, m < 2048 -> exists w, l_word L m = Ok w /\ l_mnemonic L w = Ok m) /\
  (forall w m, l_mnemonic L w = Ok m -> l_word L m = Ok w) /\
  Forall (fun m => m < 2048) ms /\ word_count (List.length ms) /\
  lang_to_string L ms = Ok s /\ lang_from_string L s = Err (LanguageError []).
Proof. exact empty_separator_unreadable. Qed.
Print Assumptions C68_no_separator_refuted.

(** A language of numbers with a separator of three characters. *)
Definition C68_numbers : language := {|
  l_name := lit "numbers";
  l_separator := lit " - ";
  l_mnemonic w :=
    match w with
    | [c] => if (1000 <=? c) && (c <? 3048) then Ok (c - 1000) else Err w
    | _ => Err w
    end;
  l_word m := if m <? 2048 then Ok [1000 + m] else Err []
|}.

Example C68_language_case :
  l_separator C68_numbers <> [] /\
  forall m, m < 2048 -> exists w, l_word C68_numbers m = Ok w /\ l_mnemonic C68_numbers w = Ok m /\
    disjoint_from (l_separator C68_numbers) w.
Proof.
  split; [discriminate|]. intros m Hm. cbn [l_word l_mnemonic C68_numbers].
  rewrite (proj2 (N.ltb_lt m 2048) Hm). exists [1000 + m]. split; [reflexivity|].
  rewrite (proj2 (N.leb_le 1000 (1000 + m))) by (apply N.le_add_r).
  rewrite (proj2 (N.ltb_lt (1000 + m) 3048)) by (apply (N.add_lt_mono_l m 2048 1000); exact Hm).
  split; [cbn [andb]; f_equal; rewrite N.add_comm; apply N.add_sub|].
  intros c [<-|[]] Hin.
  assert (H : Forall (fun c => c <= 999) (l_separator C68_numbers)) by (repeat constructor; discriminate).
  rewrite Forall_forall in H. apply H in Hin. apply N.lt_nge with (2 := Hin).
  apply N.lt_le_trans with 1000; [reflexivity|apply N.le_add_r].
Qed.

Example C68_phrase_case :
  let s := [1005] ++ lit " - " ++ [1000] ++ lit " - " ++ [3047] ++ lit " - " ++ [1001] ++ lit " - " ++
           [1001] ++ lit " - " ++ [1001] ++ lit " - " ++ [1001] ++ lit " - " ++ [1001] ++ lit " - " ++ [1002] in
  lang_to_string C68_numbers [5; 0; 2047; 1; 1; 1; 1; 1; 2] = Ok s /\
  lang_from_string C68_numbers s = Ok [5; 0; 2047; 1; 1; 1; 1; 1; 2] /\
  lang_from_string C68_numbers (s ++ lit " - ") = Err (LanguageError []) /\
  lang_from_string C68_numbers (s ++ lit " - " ++ [1000]) = Err (WrongNumberOfWords 10) /\
  lang_to_string C68_numbers [5; 2048] = Panic.
Proof.
  cbv zeta. split; [vm_compute; reflexivity|]. split; [vm_compute; reflexivity|].
  split; [vm_compute; reflexivity|]. split; vm_compute; reflexivity.
Qed.

(** Japanese phrases with the ideographic space, and English words in capital
    letters, as the documentation suggests for other forms of input. *)
Definition C68_japanese : language :=
  let d := default_language (lit "japanese") (to_dict Japanese) in
  {| l_name := l_name d; l_separator := [0x3000]; l_mnemonic := l_mnemonic d; l_word := l_word d |}.
Definition C68_lower (w : str) : str :=
  List.map (fun c => if (65 <=? c) && (c <=? 90) then c + 32 else c) w.
Definition C68_english : language :=
  let d := default_language (lit "english") (to_dict English) in
  {| l_name := l_name d; l_separator := l_separator d;
     l_mnemonic := fun w => l_mnemonic d (C68_lower w); l_word := l_word d |}.

Example C68_spellings :
  let s := lit "ABILITY able About above absent absorb abstract absurd zoo" in
  lang_from_string C68_english s = Ok [1; 2; 3; 4; 5; 6; 7; 8; 2047] /\
  lang_string_new C68_english s = Ok s /\
  lang_to_string C68_english [1; 2; 3; 4; 5; 6; 7; 8; 2047]
  = Ok (lit "ability able about above absent absorb abstract absurd zoo") /\
  exists t, lang_to_string C68_japanese [1; 2; 3; 4; 5; 6; 7; 8; 9] = Ok t /\
    lang_from_string C68_japanese t = Ok [1; 2; 3; 4; 5; 6; 7; 8; 9] /\
    mnemonics_from_string (to_dict Japanese) t = Err (LanguageError t).
Proof.
  cbv zeta. split; [vm_compute; reflexivity|]. split; [vm_compute; reflexivity|].
  split; [vm_compute; reflexivity|]. eexists.
  split; [vm_compute; reflexivity|]. split; vm_compute; reflexivity.
Qed.

Example C68_separable_cases :
  separable (lit " - ") [lit "a"; lit "b-"] /\ ~ separable (lit "aa") [lit "xa"; lit "x"].
Proof.
  split.
  - split; [discriminate|]. split; [constructor; [|constructor]|].
    + intros [|i] H; [|apply le_n_S, Nat.le_0_l].
      destruct H as ([|x a] & b & Hl & E); discriminate.
    + intros i (a & b & _ & E). destruct a as [|x [|y [|z a]]]; discriminate.
  - intros (_ & H & _). inversion H as [|x l Hx _ E]. subst.
    assert (Hl : (2 <= 1)%nat).
    { apply (Hx 1%nat). exists (lit "x"), (lit "a"). split; reflexivity. }
    inversion Hl as [|? Hl']; inversion Hl'.
Qed.
