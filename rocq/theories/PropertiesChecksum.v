(** Property C88: how many last words, and how many phrases, have the right
    checksum. *)
From Verif Require Import Base Prims Toy Bip39 Dict Errors Mnemonic BitsSpec Bip39Spec ChecksumSpec ChecksumFacts.
Open Scope N_scope.
Open Scope list_scope.

(** C88.  The code accepts the sentences whose checksum is right. *)
Theorem C88_right : forall P ms, prims_ok P -> Forall (fun m => m < 2048) ms -> word_count (length ms) ->
  ((exists e, entropy_from_mnemonics P ms = Ok e) <-> right_sentence P ms).
Proof. exact right_accepted. Qed.
Print Assumptions C88_right.

(** Whatever the words before, as many last words are right as there are values
    of its bits that are not checksum: 256 for 9 words, 128 for 12, 8 for 24. *)
Theorem C88_last_words : forall P, prims_ok P -> forall pre, word_count (length pre + 1) ->
  exists ls, NoDup ls /\ N.of_nat (length ls) = free_range (length pre + 1) /\
  forall m, In m ls <-> m < 2048 /\ exists e, entropy_from_mnemonics P (pre ++ [m]) = Ok e.
Proof. exact last_words. Qed.
Print Assumptions C88_last_words.
(** Exactly one for each of these values: a change of checksum bits only is
    always detected. *)
Theorem C88_one_each : forall P, prims_ok P -> forall pre, word_count (length pre + 1) ->
  forall h, h < free_range (length pre + 1) ->
  let B := checksum_range (length pre + 1) in
  exists m, m < 2048 /\ m / B = h /\
  forall m', m' < 2048 -> m' / B = h -> ((exists e, entropy_from_mnemonics P (pre ++ [m']) = Ok e) <-> m' = m).
Proof. exact last_one. Qed.
Print Assumptions C88_one_each.
(** The error for a wrong checksum tells a last word that is right. *)
Theorem C88_error_corrects : forall P, prims_ok P -> forall pre, word_count (length pre + 1) ->
  forall m c f, m < 2048 -> entropy_from_mnemonics P (pre ++ [m]) = Err (InvalidChecksum c f) ->
  let B := checksum_range (length pre + 1) in
  f = m mod B /\ c < B /\ c <> f /\ exists e, entropy_from_mnemonics P (pre ++ [m - f + c]) = Ok e.
Proof. exact error_corrects. Qed.
Print Assumptions C88_error_corrects.

(** Of the 2048^n sentences of n words, 2^(32 n / 3) are right. *)
Theorem C88_count : forall P n, prims_ok P -> word_count n -> exists R, NoDup R /\
  N.of_nat (length R) = 2 ^ (32 * N.of_nat (n / 3)) /\
  forall ms, In ms R <-> length ms = n /\ Forall (fun m => m < 2048) ms /\ right_sentence P ms.
Proof. exact right_count. Qed.
Print Assumptions C88_count.

(** A wallet is made from a phrase with any last word all the same. *)
Theorem C88_any_last_word : forall P l pre m s unique size,
  word_count (length pre + 1) -> Forall (fun i => i < 2048) pre -> m < 2048 ->
  size / 32 * 3 = N.of_nat (length pre + 1) -> mnemonics_to_string (to_dict l) (pre ++ [m]) = Ok s ->
  exists seed, seed_from_mnemonic P s unique size l = Ok seed.
Proof. exact any_last_word. Qed.
Print Assumptions C88_any_last_word.

Example C88_case_ranges : List.map free_range [9; 12; 15; 18; 21; 24]%nat = [256; 128; 64; 32; 16; 8].
Proof. reflexivity. Qed.
Example C88_case : let pre := repeat 2047 11 in
  prims_ok toy /\ word_count (length pre + 1) /\
  (exists e, entropy_from_mnemonics toy (pre ++ [2032]) = Ok e) /\
  entropy_from_mnemonics toy (pre ++ [2037]) = Err (InvalidChecksum 0 5) /\ 2037 - 5 + 0 = 2032 /\
  (exists s, mnemonics_to_string (to_dict English) (pre ++ [2037]) = Ok s) /\ 128 / 32 * 3 = 12.
Proof.
  split; [exact toy_ok|]. split; [cbn; auto|]. split; [vm_compute; eauto|]. split; [vm_compute; reflexivity|].
  split; [reflexivity|]. split; [vm_compute; eauto|reflexivity].
Qed.
