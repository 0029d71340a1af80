(** What is asked of a language that is any code, in which order, and what is
    done with the answers. *)
From Verif Require Import Base Bip39 Bip39Spec Lang LangSpec LangCode.

(** The code stays within its types. *)
Record speaker_ok (S : speaker) : Prop := {
  sp_name : forall h e, S h CallName <> Err e;
  sp_separator : forall h e, S h CallSeparator <> Err e;
  sp_index : forall h w m, S h (CallMnemonic w) = Ok m -> m < 65536;
  sp_defined : forall h q, S h q <> Undef
}.

(** The pieces of a text; an empty separator is before and after every
    character. *)
Definition cut (sep s : str) (ps : list str) : Prop :=
  (sep <> [] /\ pieces sep s ps) \/ (sep = [] /\ ps = [] :: map (fun c => [c]) s ++ [[]]).

(** Words looked up in turn, and the indices the code answers. *)
Inductive looked_up (S : speaker) : list lang_call -> list str -> list N -> list lang_call -> Prop :=
| lu_nil h : looked_up S h [] [] h
| lu_cons h w m ws ms h' : S h (CallMnemonic w) = Ok m ->
    looked_up S (h ++ [CallMnemonic w]) ws ms h' -> looked_up S h (w :: ws) (m :: ms) h'.

(** Reading the text [s]: the outcome and the calls. *)
Inductive reading (S : speaker) (h : list lang_call) (s : str)
  : res bip39_error (list N) -> list lang_call -> Prop :=
| rd_separator : S h CallSeparator = Panic -> reading S h s Panic (h ++ [CallSeparator])
| rd_unknown sep ps pre w post ms h' e : S h CallSeparator = Ok sep -> cut sep s ps ->
    ps = pre ++ w :: post -> looked_up S (h ++ [CallSeparator]) pre ms h' ->
    S h' (CallMnemonic w) = Err e -> reading S h s (Err (LanguageError e)) (h' ++ [CallMnemonic w])
| rd_panic sep ps pre w post ms h' : S h CallSeparator = Ok sep -> cut sep s ps ->
    ps = pre ++ w :: post -> looked_up S (h ++ [CallSeparator]) pre ms h' ->
    S h' (CallMnemonic w) = Panic -> reading S h s Panic (h' ++ [CallMnemonic w])
| rd_count sep ps ms h' : S h CallSeparator = Ok sep -> cut sep s ps ->
    looked_up S (h ++ [CallSeparator]) ps ms h' -> ~ word_count (length ps) ->
    reading S h s (Err (WrongNumberOfWords (N.of_nat (length ps)))) h'
| rd_ok sep ps ms h' : S h CallSeparator = Ok sep -> cut sep s ps ->
    looked_up S (h ++ [CallSeparator]) ps ms h' -> word_count (length ps) ->
    reading S h s (Ok ms) h'.

(** Words written after others: each after a separator asked for it. *)
Inductive appended (S : speaker) : list lang_call -> list N -> str -> list lang_call -> Prop :=
| ap_nil h : appended S h [] [] h
| ap_cons h m ms sep w t h' : S h CallSeparator = Ok sep ->
    S (h ++ [CallSeparator]) (CallWord m) = Ok w ->
    appended S (h ++ [CallSeparator; CallWord m]) ms t h' ->
    appended S h (m :: ms) (sep ++ w ++ t) h'.

(** The code has no word for this index. *)
Definition wordless (S : speaker) (h : list lang_call) (m : N) : Prop :=
  S h (CallWord m) = Panic \/ exists e, S h (CallWord m) = Err e.

(** Writing the indices. *)
Inductive writing (S : speaker) (h : list lang_call) : list N -> res bip39_error str -> list lang_call -> Prop :=
| wr_nothing : writing S h [] (Ok []) h
| wr_ok m ms w t h' : S h (CallWord m) = Ok w -> appended S (h ++ [CallWord m]) ms t h' ->
    writing S h (m :: ms) (Ok (w ++ t)) h'
| wr_first m ms : wordless S h m -> writing S h (m :: ms) Panic (h ++ [CallWord m])
| wr_separator m pre m' post w t h' : S h (CallWord m) = Ok w ->
    appended S (h ++ [CallWord m]) pre t h' -> S h' CallSeparator = Panic ->
    writing S h (m :: pre ++ m' :: post) Panic (h' ++ [CallSeparator])
| wr_word m pre m' post w t h' sep : S h (CallWord m) = Ok w ->
    appended S (h ++ [CallWord m]) pre t h' -> S h' CallSeparator = Ok sep ->
    wordless S (h' ++ [CallSeparator]) m' ->
    writing S h (m :: pre ++ m' :: post) Panic (h' ++ [CallSeparator; CallWord m']).

(** Code that always answers as a function does. *)
Definition speaks (S : speaker) (L : language) : Prop := forall h,
  S h CallName = Ok (l_name L) /\ S h CallSeparator = Ok (l_separator L) /\
  (forall w, S h (CallMnemonic w) = l_mnemonic L w) /\ (forall m, S h (CallWord m) = l_word L m).
