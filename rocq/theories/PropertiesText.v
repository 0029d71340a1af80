(** Property C64: the texts of errors. *)
From Coq Require Import Strings.String.
From Verif Require Import Base Str Bip39 KeyPath Errors Display TextSpec DisplayFacts.
Open Scope list_scope.

(** C64.  Every error prints as its format string with the holes filled by
    its own values, in order. *)
Theorem C64_texts : forall (T : texts) (e : kc_error), error_text T e (show T e).
Proof. exact error_text_exact. Qed.
Print Assumptions C64_texts.

(** The text always tells which variant of [Error] it is, whatever the texts
    of other libraries are. *)
Theorem C64_kind : forall (T T' : texts) (e e' : kc_error), show T e = show T' e' -> kind e = kind e'.
Proof. exact kind_of_text. Qed.
Print Assumptions C64_kind.

(** For errors of the built-in networks it tells the whole error. *)
Theorem C64_distinct : forall (T : texts), texts_differ T ->
  forall e e', named e -> named e' -> show T e = show T e' -> e = e'.
Proof. exact error_of_text. Qed.
Print Assumptions C64_distinct.

(** C64, expectation refuted: the text tells the error for custom networks
    too. *)
Theorem C64_custom_refuted : exists e e', e <> e' /\ forall T, show T e = show T e'.
Proof. exact custom_mimics. Qed.
Print Assumptions C64_custom_refuted.

(** C64, expectation refuted: a phrase with too many words is reported as too
    long. *)
Theorem C64_too_long_refuted : forall (T : texts) size max, exists rest,
  show T (MnemonicError (MnemonicToLong size max))
  = lit "Mnemonic error Mnemonic " ++ dec size ++ lit " too short" ++ rest.
Proof. exact too_long_says_short. Qed.
Print Assumptions C64_too_long_refuted.

Definition case_texts : texts := {| malformed_text := lit "EOF while parsing a value"; variant_rest := lit "`V1` or `V2`" |}.
Example C64_case :
  let e := KeyError 2147483708 (InvalidKeyData (BoxSecp (SInvalidDataSize 76 77))) in
  let e' := MnemonicError (UnknownError (InvalidChecksum 5 10)) in
  named e /\ named e' /\ texts_differ case_texts /\
  show case_texts e
  = lit "Key error Invalid key data: Invalid key data size 76, expected 77 for network Network(2147483708)" /\
  show case_texts e'
  = lit "Mnemonic error Unknown mnemonic error: Invalid Entropy's Checksum, expected 00000101 but found 00001010".
Proof.
  split; [repeat split; discriminate|]. split; [split; reflexivity|]. split; [discriminate|]. split; vm_compute; reflexivity.
Qed.
