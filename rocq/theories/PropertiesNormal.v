(** Property C89: phrases and Unicode's normal form NFKD. *)
From Verif Require Import Base Prims Toy Bip39 Dict DictSpec Errors Mnemonic NormalSpec NormalFacts.
Open Scope N_scope.
Open Scope list_scope.

(** C89.  BIP-39 hashes phrases in the form NFKD.  The code never normalises:
    all phrases it accepts have this form already. *)
Theorem C89_normal : forall U l s ms, unicode_ok U ->
  mnemonics_from_string (to_dict l) s = Ok ms -> nfkd_form U s.
Proof. exact accepted_normal. Qed.
Print Assumptions C89_normal.

(** A phrase with a composed character is refused for an unknown word, ... *)
Theorem C89_composed : forall P U l s c unique size, unicode_ok U -> In c s -> decomposes U c = true ->
  exists w, ~ In w (to_dict l) /\ mnemonics_from_string (to_dict l) s = Err (LanguageError w) /\
    seed_from_mnemonic P s unique size l = Err (UnsupportedWordFound w).
Proof. exact composed_refused. Qed.
Print Assumptions C89_composed.
(** ... as is one with any character, but the space, that is not of the
    language's script: capitals, digits, line ends, wide spaces. *)
Theorem C89_foreign : forall P l s c unique size, In c s -> c <> 0x20 -> ~ in_script l c ->
  exists w, ~ In w (to_dict l) /\ mnemonics_from_string (to_dict l) s = Err (LanguageError w) /\
    seed_from_mnemonic P s unique size l = Err (UnsupportedWordFound w).
Proof. exact foreign_refused. Qed.
Print Assumptions C89_foreign.

(** So not all spellings that Unicode calls equivalent are treated alike: with
    the letter a-acute composed a phrase is refused, decomposed it is accepted. *)
Theorem C89_equivalent_refuted : forall P unique, exists s s' ms,
  s' = flat_map (fun c => if c =? 0xE1 then [0x61; 0x301] else [c]) s /\
  mnemonics_from_string (to_dict Spanish) s' = Ok ms /\
  (forall size, exists w, seed_from_mnemonic P s unique size Spanish = Err (UnsupportedWordFound w)) /\
  exists seed, seed_from_mnemonic P s' unique 96 Spanish = Ok seed.
Proof. exact equivalent_refused. Qed.
Print Assumptions C89_equivalent_refuted.

(** Unicode's tables as far as used meet the hypothesis; the form is not met by
    all texts: a composed GA, and an accent before a sound mark. *)
Example C89_case_tables : unicode_ok ucd /\ decomposes ucd 0x304C = true /\
  ~ nfkd_form ucd [0x304C] /\ ~ nfkd_form ucd [0x61; 0x301; 0x3099] /\ nfkd_form ucd [].
Proof.
  split; [exact ucd_ok|]. split; [reflexivity|]. split; [intros [F _]; inversion F; discriminate|].
  split; [intros [_ F]; specialize (F [0x61] 0x301 0x3099 [] eq_refl eq_refl); discriminate|].
  split; [constructor|]. intros [|? ?] ? ? ? E; discriminate.
Qed.
(** The third Japanese word, nine times, has a sound mark; a capital, a line end
    and a wide space are foreign. *)
Example C89_case :
  (exists s, mnemonics_to_string (to_dict Japanese) (repeat 2 9) = Ok s /\ In 0x3099 s /\
     mnemonics_from_string (to_dict Japanese) s = Ok (repeat 2 9)) /\
  ~ in_script English 0x41 /\ ~ in_script English 0x0A /\ ~ in_script Japanese 0x3000.
Proof.
  split; [|cbn [in_script]; unfold latin; lia].
  eexists. split; [vm_compute; reflexivity|]. split; [|vm_compute; reflexivity]. cbn [In]. auto 8.
Qed.
