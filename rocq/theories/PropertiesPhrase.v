(** Property C65: entropy and phrases of any size. *)
From Coq Require Import Strings.String.
From Verif Require Import Base Str Prims BitsSpec Bip39 Bip39Spec Dict KeyPath Errors Mnemonic FMap Manager ManagerSpec PhraseFacts Toy.
Open Scope list_scope.

(** C65.  A generator asked for one of the six sizes takes exactly that many
    bytes of the random source, in order; any other size is refused by name
    and nothing is taken. *)
Theorem C65_entropy : forall (size : N) (r : rng),
  (forall k, entropy_length k -> size = 8 * N.of_nat k ->
     generate_entropy size r = Ok (List.map r (seq 0 k), fun i => r (k + i)%nat)) /\
  ((forall k, entropy_length k -> size <> 8 * N.of_nat k) -> generate_entropy size r = Err (MInvalidEntropySize size)).
Proof. exact entropy_sizes. Qed.
Print Assumptions C65_entropy.

(** The phrase of any byte string: for the six lengths the BIP-39 sentence,
    three words for every four bytes; otherwise an error with the length in
    bits. *)
Theorem C65_phrase : forall (P : prims) (bs : bytes) (l : Language), prims_ok P ->
  (entropy_length (List.length bs) -> exists ms ws t,
     sentence_of bs (sha256 P bs) ms /\
     Forall2 (fun i w => nth_error (to_dict l) (N.to_nat i) = Some w) ms ws /\
     phrase_of ws t /\ (4 * List.length ws = 3 * List.length bs)%nat /\
     mnemonic_from_entropy P bs l = Ok t) /\
  (~ entropy_length (List.length bs) ->
     mnemonic_from_entropy P bs l = Err (MInvalidEntropySize (8 * N.of_nat (List.length bs)))).
Proof. exact phrase_of_entropy. Qed.
Print Assumptions C65_phrase.

(** Different entropy never gives the same phrase, whatever the hash. *)
Theorem C65_injective : forall (P : prims) (a b : bytes) (l : Language) (t : str), prims_ok P ->
  mnemonic_from_entropy P a l = Ok t -> mnemonic_from_entropy P b l = Ok t -> a = b.
Proof. exact phrase_injective. Qed.
Print Assumptions C65_injective.

(** Any manager, also one whose seed size is set to something odd. *)
Theorem C65_manager : forall (P : prims) (m : manager) (lang : option Language) (r : rng), prims_ok P ->
  (forall k, entropy_length k -> m_seed_size m = 8 * N.of_nat k -> exists t,
     mnemonic_from_entropy P (List.map r (seq 0 k)) (or_english lang) = Ok t /\
     generate_mnemonic P m lang r = Ok (t, fun i => r (k + i)%nat)) /\
  ((forall k, entropy_length k -> m_seed_size m <> 8 * N.of_nat k) ->
     generate_mnemonic P m lang r = Err (MnemonicError (MInvalidEntropySize (m_seed_size m)))).
Proof. exact any_manager_phrase. Qed.
Print Assumptions C65_manager.

Example C65_case : prims_ok toy /\ entropy_length 20 /\ ~ entropy_length 21 /\
  generate_entropy 136 (fun i => n2b (N.of_nat i)) = Err (MInvalidEntropySize 136) /\
  mnemonic_from_entropy toy [x01; x02] English = Err (MInvalidEntropySize 16).
Proof.
  split; [exact toy_ok|]. split; [cbn; auto|]. split; [cbn; intuition discriminate|]. split; vm_compute; reflexivity.
Qed.
