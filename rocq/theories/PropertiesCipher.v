(** Property C85: with the standard cipher in place of the crate, what the tag
    of a stored wallet is and how well it protects the wallet. *)
From Coq Require Import Strings.String.
From Verif Require Import Base Prims Crypt StdHash StdCipher Std CurveSpec CipherSpec CipherFacts.
Open Scope N_scope.
Open Scope list_scope.

(** C85.  The tag is that of RFC 8439 over the ciphertext, its padding and its
    length, under the one-time key of the block 0. *)
Theorem C85_tag : forall key nonce ct m, aead_message ct m ->
  let block := chacha_block key nonce 0 in
  mac_tag (tag_r block) (tag_s block) m (std_chacha_tag key nonce ct).
Proof. exact chacha_tag_is. Qed.
Print Assumptions C85_tag.
(** Each ciphertext has exactly one such message, each message one ciphertext. *)
Theorem C85_message :
  (forall ct, exists m, aead_message ct m) /\
  (forall ct m m', aead_message ct m -> aead_message ct m' -> m = m') /\
  (forall ct ct' m, aead_message ct m -> aead_message ct' m -> ct = ct').
Proof. exact (conj (fun ct => ex_intro _ _ (message_of ct)) (conj message_fun message_inj)). Qed.
Print Assumptions C85_message.

(** Data open with a password exactly if they are long enough and carry that tag. *)
Theorem C85_opens : forall data pw,
  (exists d, decrypt std data pw = Ok d) <->
  (60 < length data)%nat /\
  exists m, aead_message (skipn 60 data) m /\
    mac_tag (tag_r (first_block data pw)) (tag_s (first_block data pw)) m (slice 44 60 data).
Proof. exact std_opens. Qed.
Print Assumptions C85_opens.

(** Two different messages have given tags under at most eight times as many r
    as the longer one has blocks (Bernstein 2005, Theorem 3.3), of the 2^106
    that there are. *)
Theorem C85_differences : forall m m' t t' rs, m <> m' -> NoDup rs ->
  (forall r, In r rs -> r < poly_prime /\ exists s, mac_tag r s m t /\ mac_tag r s m' t') ->
  (length rs <= 8 * ((Nat.max (length m) (length m') + 15) / 16))%nat.
Proof. exact poly1305_differences. Qed.
Print Assumptions C85_differences.

(** So for given data and altered data with the same salt and nonce: among
    passwords with pairwise different r, at most that many accept both. *)
Theorem C85_forgery : forall data data' pws,
  firstn 44 data = firstn 44 data' -> data <> data' ->
  NoDup (List.map (fun pw => tag_r (first_block data pw)) pws) ->
  (forall pw, In pw pws -> (exists d, decrypt std data pw = Ok d) /\ (exists d, decrypt std data' pw = Ok d)) ->
  (length pws <= 8 * tag_blocks (Nat.max (length data) (length data')))%nat.
Proof. exact forgeries. Qed.
Print Assumptions C85_forgery.
(** The same for every operation on stored wallets. *)
Theorem C85_wallet : forall data data' pws,
  firstn 44 data = firstn 44 data' -> data <> data' ->
  NoDup (List.map (fun pw => tag_r (first_block data pw)) pws) ->
  (forall pw, In pw pws -> accepted data pw /\ accepted data' pw) ->
  (length pws <= 8 * tag_blocks (Nat.max (length data) (length data')))%nat.
Proof. exact wallet_forgeries. Qed.
Print Assumptions C85_wallet.

(** The vector of RFC 8439, 2.5.2. *)
Example C85_vector :
  let key := be 32 0x85d6be7857556d337f4452fe42d506a80103808afb0db2fd4abff6af4149f51b in
  mac_tag (tag_r key) (tag_s key) (blit "Cryptographic Forum Research Group")
    (be 16 0xa8061dc1305136c6c22b8baf0c0127a9).
Proof.
  exists (chunks 16 (blit "Cryptographic Forum Research Group")). split; [apply chunks_blocks|].
  vm_compute. split; reflexivity.
Qed.
(** Two messages, and two keys that give both the tag zero. *)
Example C85_differences_case :
  let m := [x05; x01] ++ repeat x00 14 in
  let m' := repeat x00 16 ++ [x05] in
  m <> m' /\ NoDup [0; 1] /\
  forall r, In r [0; 1] -> r < poly_prime /\
    exists s, mac_tag r s m (repeat x00 16) /\ mac_tag r s m' (repeat x00 16).
Proof.
  split; [discriminate|]. split; [repeat constructor; cbn; intuition discriminate|].
  intros r [<- | [<- | []]]; (split; [reflexivity|]).
  - exists 0. split; eexists; (split; [apply chunks_blocks|vm_compute; split; reflexivity]).
  - exists (2 ^ 128 - 261). split; eexists; (split; [apply chunks_blocks|vm_compute; split; reflexivity]).
Qed.
Example C85_wallet_case : exists data data' pw,
  firstn 44 data = firstn 44 data' /\ data <> data' /\ accepted data pw /\ accepted data' pw.
Proof. exact forgery_case. Qed.
