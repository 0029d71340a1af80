(** Properties C04-C10, C57: BIP-39 entropy, mnemonics, dictionaries. *)
From Coq Require Import Strings.String.
From Verif Require Import Base Prims Bits BitsSpec Bip39 Bip39Spec Bip39Facts Dict DictFacts Toy.

(** C04.  [to_mnemonics] is the BIP-39 sentence of the entropy. *)
Theorem C04_to_mnemonics : forall (P : prims) (e : Entropy),
  prims_ok P -> entropy_wf e ->
  exists ms, to_mnemonics P e = Ok ms /\
    List.length ms = mnemonic_count (e_type e) /\
    sentence_of (e_bytes e) (sha256 P (e_bytes e)) ms.
Proof. exact to_mnemonics_ok. Qed.
Print Assumptions C04_to_mnemonics.

Example C04_case :
  let e := {| e_type := Type12Words; e_bytes := repeat x7f 16 |} in
  prims_ok toy /\ entropy_wf e /\
  to_mnemonics toy e
  = Ok [1019; 2015; 1790; 2039; 1983; 1533; 2031; 1919; 1019; 2015; 1790; 2032].
Proof. split; [exact toy_ok|]. split; [reflexivity|]. vm_compute. reflexivity. Qed.

(** C05.  Round trip of the entropy. *)
Theorem C05_entropy_round_trip : forall (P : prims) (e : Entropy),
  prims_ok P -> entropy_wf e ->
  exists ms, to_mnemonics P e = Ok ms /\ entropy_from_mnemonics P ms = Ok e.
Proof. exact round_trip. Qed.
Print Assumptions C05_entropy_round_trip.

(** C06.  The checksum bits decide. *)
Theorem C06_checksum_exact : forall (P : prims) (ms : list N),
  prims_ok P -> word_count (List.length ms) ->
  exists ent,
    (4 * List.length ms = 3 * List.length ent)%nat /\
    bytes_bits ent = firstn (8 * List.length ent) (groups_bits ms) /\
    let found := skipn (8 * List.length ent) (groups_bits ms) in
    let computed := firstn (8 * List.length ent / 32) (bytes_bits (sha256 P ent)) in
    (found = computed ->
       exists e, e_bytes e = ent /\ entropy_wf e /\
         entropy_from_mnemonics P ms = Ok e /\
         (Forall (fun m => m < 2048) ms -> to_mnemonics P e = Ok ms)) /\
    (found <> computed ->
       entropy_from_mnemonics P ms
       = Err (InvalidChecksum (value computed) (value found))).
Proof. exact mnemonic_checksum_exact. Qed.
Print Assumptions C06_checksum_exact.

(** C06.  Lists of another length can not be built. *)
Theorem C06_other_counts : forall ms : list N,
  ~ word_count (List.length ms) ->
  from_mnemonics ms = Err (WrongNumberOfWords (N.of_nat (List.length ms))).
Proof. exact bad_count_unbuildable. Qed.
Print Assumptions C06_other_counts.

Example C06_cases :
  let ms := [1019; 2015; 1790; 2039; 1983; 1533; 2031; 1919; 1019; 2015; 1790] in
  (exists e, entropy_from_mnemonics toy (ms ++ [2032]) = Ok e) /\
  entropy_from_mnemonics toy (ms ++ [2033]) = Err (InvalidChecksum 0 1) /\
  from_mnemonics ms = Err (WrongNumberOfWords 11).
Proof.
  cbv zeta. split; [eexists|split]; vm_compute; reflexivity.
Qed.

(** C07.  Each dictionary is a bijection between indices and words. *)
Theorem C07_dictionary_bijection : forall l : Language,
  List.length (to_dict l) = 2048%nat /\
  (forall i, i < 2048 ->
     exists w, to_word (to_dict l) i = Ok w /\ from_word (to_dict l) w = Ok i /\
       w <> [] /\ ~ In 0x20 w) /\
  (forall w i, from_word (to_dict l) w = Ok i ->
     i < 2048 /\ to_word (to_dict l) i = Ok w) /\
  (forall w, ~ In w (to_dict l) ->
     from_word (to_dict l) w = Err (LanguageError w)) /\
  (forall w, In w (to_dict l) -> exists i, from_word (to_dict l) w = Ok i).
Proof. exact dictionary_bijection. Qed.
Print Assumptions C07_dictionary_bijection.

Example C07_case :
  from_word (to_dict English) (lit "crack") = Ok 398 /\
  to_word (to_dict English) 2047 = Ok (lit "zoo") /\
  from_word (to_dict French) (lit "zoo") = Err (LanguageError (lit "zoo")).
Proof. split; [|split]; vm_compute; reflexivity. Qed.

(** C08.  Parsing and printing phrases are inverse. *)
Theorem C08_phrase_round_trip : forall l : Language,
  (forall ms, Forall (fun m => m < 2048) ms -> word_count (List.length ms) ->
     exists s, mnemonics_to_string (to_dict l) ms = Ok s /\
       mnemonics_from_string (to_dict l) s = Ok ms) /\
  (forall s ms, mnemonics_from_string (to_dict l) s = Ok ms ->
     mnemonics_to_string (to_dict l) ms = Ok s /\
     Forall (fun m => m < 2048) ms /\ word_count (List.length ms)).
Proof. exact phrase_round_trip. Qed.
Print Assumptions C08_phrase_round_trip.

Example C08_case :
  let ms := [1; 2; 3; 4; 5; 6; 7; 8; 2047] in
  Forall (fun m => m < 2048) ms /\ word_count (List.length ms) /\
  mnemonics_to_string (to_dict English) ms
  = Ok (lit "ability able about above absent absorb abstract absurd zoo").
Proof.
  cbv zeta. split; [repeat constructor; lia|]. split; [cbn; tauto|].
  vm_compute. reflexivity.
Qed.

(** C08: a phrase is taken as a [MnemonicString] just when it parses, and kept
    as it is. *)
Theorem C08_string_new : forall (l : Language) (s : str),
  (forall s', mnemonic_string_new (to_dict l) s = Ok s' <->
     s' = s /\ exists ms, mnemonics_from_string (to_dict l) s = Ok ms) /\
  (forall e, mnemonic_string_new (to_dict l) s = Err e <-> mnemonics_from_string (to_dict l) s = Err e) /\
  mnemonic_string_new (to_dict l) s <> Panic /\ mnemonic_string_new (to_dict l) s <> Undef.
Proof. exact string_new. Qed.
Print Assumptions C08_string_new.

Example C08_string_case :
  let s := lit "ability able about above absent absorb abstract absurd zoo" in
  mnemonic_string_new (to_dict English) s = Ok s /\
  mnemonic_string_new (to_dict French) s = Err (LanguageError (lit "ability")).
Proof. split; vm_compute; reflexivity. Qed.

(** C09.  What is reported for a phrase that is not accepted. *)
Theorem C09_phrase_errors : forall (l : Language) (s : str),
  exists ws, phrase_of ws s /\
  ((exists pre w post, ws = pre ++ w :: post /\
      Forall (fun w => In w (to_dict l)) pre /\ ~ In w (to_dict l) /\
      mnemonics_from_string (to_dict l) s = Err (LanguageError w)) \/
   (Forall (fun w => In w (to_dict l)) ws /\ ~ word_count (List.length ws) /\
      mnemonics_from_string (to_dict l) s
      = Err (WrongNumberOfWords (N.of_nat (List.length ws)))) \/
   (Forall (fun w => In w (to_dict l)) ws /\ word_count (List.length ws) /\
      exists ms, mnemonics_from_string (to_dict l) s = Ok ms)).
Proof. exact phrase_errors. Qed.
Print Assumptions C09_phrase_errors.

Example C09_cases :
  mnemonics_from_string (to_dict English) (lit "zoo  zoo") = Err (LanguageError []) /\
  mnemonics_from_string (to_dict English) (lit "zoo zoo") = Err (WrongNumberOfWords 2).
Proof. split; vm_compute; reflexivity. Qed.

(** C10.  Converting an index to a word is safe exactly below 2048; the
    validating constructor only gives such indices. *)
Theorem C10_to_word_safe : forall (l : Language) (i : N),
  (i < 2048 -> exists w, to_word (to_dict l) i = Ok w) /\
  (2048 <= i -> to_word (to_dict l) i = Undef).
Proof. exact to_word_safe. Qed.
Print Assumptions C10_to_word_safe.

Theorem C10_index_new_safe : forall (l : Language) (i j : N),
  index_new i = Ok j -> exists w, to_word (to_dict l) j = Ok w.
Proof. exact index_new_safe. Qed.
Print Assumptions C10_index_new_safe.

(** C10, expectation refuted: the public constructor [MnemonicIndex(n)]
    accepts an index for which the safe method [to_word] is undefined. *)
Theorem C10_every_index_safe_refuted :
  exists (l : Language) (i : N), is_u16 i /\ to_word (to_dict l) i = Undef.
Proof. exact unsafe_index. Qed.
Print Assumptions C10_every_index_safe_refuted.

(** C57.  Size tables. *)
Theorem C57_size_tables :
  (forall t, (to_key_size t = 32 * checksum_size_bits t)%nat /\
     (to_key_size t + checksum_size_bits t = 11 * mnemonic_count t)%nat) /\
  (forall n t, from_word_count n = Ok t <-> n = N.of_nat (mnemonic_count t)) /\
  (forall n, (forall t, n <> N.of_nat (mnemonic_count t)) ->
     from_word_count n = Err (WrongNumberOfWords n)) /\
  (forall n t, from_entropy_size n = Ok t <-> n = N.of_nat (to_key_size t)) /\
  (forall n, (forall t, n <> N.of_nat (to_key_size t)) ->
     from_entropy_size n = Err (WrongKeySize n)) /\
  (forall s t, type_from_str s = Ok t <-> s = type_display t) /\
  (forall s, (forall t, s <> type_display t) -> type_from_str s = Err tt) /\
  (forall n, word_count n <-> exists t, n = mnemonic_count t) /\
  (forall n, entropy_length n <-> exists t, (8 * n = to_key_size t)%nat).
Proof. exact size_tables. Qed.
Print Assumptions C57_size_tables.

(** C57: the texts. *)
Theorem C57_texts : forall t : Type_,
  In (mnemonic_count t, type_display t)
     [(9, lit "9"); (12, lit "12"); (15, lit "15"); (18, lit "18"); (21, lit "21"); (24, lit "24")]%nat.
Proof. exact type_texts. Qed.
Print Assumptions C57_texts.

Example C57_case : type_from_str (lit "15") = Ok Type15Words /\ type_from_str (lit "015") = Err tt /\
  from_word_count 12 = Ok Type12Words /\ from_word_count 13 = Err (WrongNumberOfWords 13).
Proof. repeat split. Qed.
