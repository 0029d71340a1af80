(** Property C80: languages that are any code. *)
From Coq Require Import Strings.String.
From Verif Require Import Base Str Prims Toy Bip39 Bip39Spec Dict Lang LangSpec LangCode LangCodeSpec LangCodeFacts.
Open Scope list_scope.

(** C80.  Reading a text: the separator is asked for once, then the pieces are
    looked up from left to right until one fails; only then is their number
    looked at. *)
Theorem C80_reading : forall (S : speaker), speaker_ok S -> forall h s r h',
  reading S h s r h' <-> say_from_string S s h = (r, h').
Proof. exact reading_iff. Qed.
Print Assumptions C80_reading.

(** C80.  A checked phrase keeps its text; the indices are thrown away. *)
Theorem C80_checking : forall (S : speaker) (h : list lang_call) (s : str), let out := say_from_string S s h in
  say_string_new S s h = (rmap (fun _ => s) (fst out), snd out).
Proof. exact checking. Qed.
Print Assumptions C80_checking.

(** C80.  Writing: a separator is asked for before every word but the first;
    an index without a word is a panic. *)
Theorem C80_writing : forall (S : speaker), speaker_ok S -> forall h ms r h',
  writing S h ms r h' <-> say_to_string S ms h = (r, h').
Proof. exact writing_iff. Qed.
Print Assumptions C80_writing.

(** C80.  The calls of an operation are the first ones of a fixed list, all of
    it when it succeeds.  The name is never asked for. *)
Theorem C80_read_calls : forall (S : speaker) (h : list lang_call) (s : str), speaker_ok S -> exists ws,
  snd (say_from_string S s h) = h ++ CallSeparator :: List.map CallMnemonic ws /\
  (forall sep, S h CallSeparator = Ok sep -> exists post, cut sep s (ws ++ post) /\
     (forall ms, fst (say_from_string S s h) = Ok ms -> post = [] /\ List.length ms = List.length ws)).
Proof. exact read_calls. Qed.
Print Assumptions C80_read_calls.

Theorem C80_write_calls : forall (S : speaker) (h : list lang_call) (m : N) (ms : list N), speaker_ok S -> exists post,
  h ++ CallWord m :: flat_map (fun m => [CallSeparator; CallWord m]) ms = snd (say_to_string S (m :: ms) h) ++ post /\
  ((exists s, fst (say_to_string S (m :: ms) h) = Ok s) -> post = []).
Proof. exact write_calls. Qed.
Print Assumptions C80_write_calls.

(** C80.  Code that always answers the same is a language of C68. *)
Theorem C80_constant : forall (S : speaker) (L : language), speaks S L -> forall h,
  (forall s, fst (say_from_string S s h) = lang_from_string L s) /\
  (forall s, fst (say_string_new S s h) = lang_string_new L s) /\
  (forall ms, fst (say_to_string S ms h) = lang_to_string L ms).
Proof. exact constant_speaker. Qed.
Print Assumptions C80_constant.

(** C80.  Indices from 2048 on, which only a caller's code can give: entropy is
    made of their remainders, and writing them in a built-in language is
    undefined. *)
Theorem C80_wrapped : forall (P : prims) (ms : list N), prims_ok P -> word_count (List.length ms) ->
  entropy_from_mnemonics P ms = entropy_from_mnemonics P (List.map (fun m => m mod 2048) ms).
Proof. exact wrapped. Qed.
Print Assumptions C80_wrapped.

Theorem C80_translated : forall (l : Dict.Language) (ms : list N),
  (Forall (fun m => m < 2048) ms -> exists t, mnemonics_to_string (to_dict l) ms = Ok t) /\
  (Exists (fun m => 2048 <= m) ms -> mnemonics_to_string (to_dict l) ms = Undef).
Proof. exact translated. Qed.
Print Assumptions C80_translated.

(** C80.  Generated entropy is what the closure leaves of as many zero bytes as
    the type has; if it panics, so does the call. *)
Theorem C80_generate : forall (t : Type_) (gen : bytes -> option bytes),
  generate_with t gen = match gen (repeat x00 (to_key_size t / 8)) with
                        | None => Panic
                        | Some bs => Ok {| e_type := t; e_bytes := bs |}
                        end.
Proof. exact generates. Qed.
Print Assumptions C80_generate.

(** C80, expectation refuted: a phrase that was checked passes the check. *)
Theorem C80_checked_refuted : exists S s h e, speaker_ok S /\
  say_string_new S s [] = (Ok s, h) /\ fst (say_string_new S s h) = Err (LanguageError e).
Proof. exact checked_once. Qed.
Print Assumptions C80_checked_refuted.

(** C80, expectation refuted: safe code can read a phrase in its language and
    write it in a built-in one without undefined behaviour. *)
Theorem C80_safe_refuted : exists S s h ms, speaker_ok S /\
  say_from_string S s [] = (Ok ms, h) /\ forall l, mnemonics_to_string (to_dict l) ms = Undef.
Proof. exact undefined_translation. Qed.
Print Assumptions C80_safe_refuted.

(** C80, expectation refuted: with words that never change and share no
    character with any separator, what is written can be read. *)
Theorem C80_separators_refuted : exists S ms s h e, speaker_ok S /\
  word_count (List.length ms) /\ Forall (fun m => m < 2048) ms /\
  (forall h m, m < 2048 -> exists w, S h (CallWord m) = Ok w /\
     (forall h', S h' (CallWord m) = Ok w /\ S h' (CallMnemonic w) = Ok m) /\
     forall h' sep, S h' CallSeparator = Ok sep -> sep <> [] /\ disjoint_from sep w) /\
  say_to_string S ms [] = (Ok s, h) /\ fst (say_from_string S s h) = Err (LanguageError e).
Proof. exact mixed_separators. Qed.
Print Assumptions C80_separators_refuted.

(** English, but the separator is a hyphen at first and a space later, and the
    eighth call panics if it looks up a word. *)
Definition C80_english : language := default_language (lit "english") (to_dict English).
Definition C80_code : speaker := fun h q =>
  match q with
  | CallName => Panic
  | CallSeparator => Ok (if Nat.ltb (List.length h) 3 then lit "-" else lit " ")
  | CallMnemonic w => if Nat.eqb (List.length h) 7 then Panic else l_mnemonic C80_english w
  | CallWord m => if m <? 2048 then l_word C80_english m else Err []
  end.

Example C80_code_ok : speaker_ok C80_code.
Proof.
  constructor.
  - discriminate.
  - discriminate.
  - intros h w m. cbn [C80_code C80_english default_language l_mnemonic]. destruct (Nat.eqb _ _); [discriminate|].
    destruct (position w (to_dict English)) as [v|]; [|discriminate].
    destruct (N.leb_spec (v mod 65536) MAX_MNEMONIC_VALUE) as [H|H]; [|discriminate].
    intros E. injection E as <-. apply N.le_lt_trans with (1 := H). reflexivity.
  - intros h [| |w|m]; cbn [C80_code C80_english default_language l_mnemonic l_word]; [discriminate..| |].
    + destruct (Nat.eqb _ _); [discriminate|]. destruct (position w (to_dict English)); [|discriminate].
      now destruct (_ <=? _).
    + destruct (N.ltb_spec m 2048) as [H|H]; [|discriminate].
      destruct (nth_error (to_dict English) (N.to_nat m)) eqn:E; [discriminate|].
      apply nth_error_None in E. assert (L : List.length (to_dict English) = N.to_nat 2048) by (vm_compute; reflexivity).
      rewrite L in E. apply N.compare_lt_iff in H. apply Nat.compare_ge_iff in E. rewrite <- N2Nat.inj_compare in E. now destruct (E H).
Qed.

Example C80_cases :
  say_to_string C80_code [0; 1; 2; 3] []
  = (Ok (lit "abandon-ability able about"),
     [CallWord 0; CallSeparator; CallWord 1; CallSeparator; CallWord 2; CallSeparator; CallWord 3]) /\
  say_to_string C80_code [0; 2048; 5] [] = (Panic, [CallWord 0; CallSeparator; CallWord 2048]) /\
  say_from_string C80_code (lit "able-zoo-x-y") []
  = (Err (LanguageError (lit "x")),
     [CallSeparator; CallMnemonic (lit "able"); CallMnemonic (lit "zoo"); CallMnemonic (lit "x")]) /\
  say_from_string C80_code (lit "able-zoo") []
  = (Err (WrongNumberOfWords 2), [CallSeparator; CallMnemonic (lit "able"); CallMnemonic (lit "zoo")]) /\
  fst (say_from_string C80_code (lit "able-able-able-able-able-able-able-able-able-able") []) = Panic.
Proof.
  split; [vm_compute; reflexivity|]. split; [vm_compute; reflexivity|]. split; [vm_compute; reflexivity|].
  split; vm_compute; reflexivity.
Qed.

Example C80_generate_cases :
  generate_with Type9Words (fun bs => Some (List.map (fun _ => x07) bs))
  = Ok {| e_type := Type9Words; e_bytes := repeat x07 12 |} /\
  generate_with Type24Words (fun _ => None) = Panic.
Proof. split; vm_compute; reflexivity. Qed.
