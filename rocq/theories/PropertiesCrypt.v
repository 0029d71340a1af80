(** Properties C30-C32: encryption of wallet data. *)
From Verif Require Import Base Prims Crypt CryptSpec CryptFacts Toy.

(** C30.  Decrypting what was encrypted. *)
Theorem C30_round_trip : forall (P : prims) (d : bytes) (pw : str) (r : rng), prims_ok P ->
  d <> [] -> decrypt P (fst (encrypt P d pw r)) pw = Ok d.
Proof. intros P d pw r HP. exact (decrypt_encrypt P HP d pw r). Qed.
Print Assumptions C30_round_trip.

Theorem C30_empty : forall (P : prims) (pw pw' : str) (r : rng), prims_ok P ->
  decrypt P (fst (encrypt P [] pw r)) pw' = Err DNotEnoughData.
Proof. intros P pw pw' r HP. exact (decrypt_empty P HP pw pw' r). Qed.
Print Assumptions C30_empty.

(** C30, expectation refuted: every encrypted plaintext can be decrypted. *)
Theorem C30_all_plaintexts_refuted : exists d, forall (P : prims) (pw : str) (r : rng),
  prims_ok P -> decrypt P (fst (encrypt P d pw r)) pw <> Ok d.
Proof.
  exists []. intros P pw r HP. rewrite (C30_empty P pw pw r HP). discriminate.
Qed.
Print Assumptions C30_all_plaintexts_refuted.

Example C30_case : prims_ok toy /\
  decrypt toy (fst (encrypt toy [x01; x02; x03] [0x70; 0x77] (fun i => n2b (N.of_nat i))))
    [0x70; 0x77] = Ok [x01; x02; x03].
Proof. split; [exact toy_ok|vm_compute; reflexivity]. Qed.

(** C31.  All outcomes of decryption. *)
Theorem C31_outcomes : forall (P : prims) (data : bytes) (pw : str), prims_ok P ->
  (forall d, decrypt P data pw = Ok d <->
     d <> [] /\ exists salt nonce, length salt = 32%nat /\ length nonce = 12%nat /\
       is_sealed P pw salt nonce d data) /\
  (decrypt P data pw = Err DNotEnoughData <-> (length data <= 60)%nat) /\
  (decrypt P data pw = Err DDecryptionFailed <->
     exists salt nonce tag ct, data = salt ++ nonce ++ tag ++ ct /\
       length salt = 32%nat /\ length nonce = 12%nat /\ length tag = 16%nat /\ ct <> [] /\
       tag <> chacha_tag P (pbkdf2 P (utf8 pw) salt 19162 32) nonce ct) /\
  decrypt P data pw <> Panic /\ decrypt P data pw <> Undef.
Proof. intros P data pw HP. exact (decrypt_exact P HP data pw). Qed.
Print Assumptions C31_outcomes.

Example C31_case :
  decrypt toy (repeat x00 60) [0x70] = Err DNotEnoughData /\
  decrypt toy (repeat x01 61) [0x70] = Err DDecryptionFailed.
Proof. split; vm_compute; reflexivity. Qed.

(** C32.  Layout of the output and use of randomness. *)
Theorem C32_layout : forall (P : prims) (d : bytes) (pw : str) (r : rng), prims_ok P ->
  let salt := List.map r (seq 0 32) in
  let nonce := List.map r (seq 32 12) in
  is_sealed P pw salt nonce d (fst (encrypt P d pw r)) /\
  length salt = 32%nat /\ length nonce = 12%nat /\
  length (fst (encrypt P d pw r)) = (60 + length d)%nat /\
  forall i, snd (encrypt P d pw r) i = r (44 + i)%nat.
Proof. intros P d pw r HP. exact (encrypt_layout P HP d pw r). Qed.
Print Assumptions C32_layout.
