From Verif Require Import Base BaseFacts Prims Crypt CryptSpec.

Lemma xor_length a b : length (xor_bytes a b) = Nat.min (length a) (length b).
Proof.
  revert b. induction a as [|x a IH]; intros [|y b]; cbn [xor_bytes length Nat.min]; try reflexivity.
  now rewrite IH.
Qed.

Lemma lxor_byte x y : x < 256 -> y < 256 -> N.lxor x y < 256.
Proof.
  intros Hx Hy. destruct (N.eq_dec (N.lxor x y) 0) as [->|Hn]; [reflexivity|].
  change 256 with (2 ^ 8) in *. apply N.log2_lt_pow2; [lia|].
  eapply N.le_lt_trans; [apply N.log2_lxor|].
  apply N.max_lub_lt.
  - destruct (N.eq_dec x 0) as [->|]; [reflexivity|]. apply N.log2_lt_pow2; lia.
  - destruct (N.eq_dec y 0) as [->|]; [reflexivity|]. apply N.log2_lt_pow2; lia.
Qed.

Lemma xor_nth a b i : (i < length a)%nat -> (i < length b)%nat ->
  b2n (nth i (xor_bytes a b) x00) = N.lxor (b2n (nth i a x00)) (b2n (nth i b x00)).
Proof.
  revert b i. induction a as [|x a IH]; intros [|y b] i Ha Hb; cbn [length] in *; try lia.
  destruct i as [|i]; cbn [xor_bytes nth].
  - apply b2n_n2b_small. apply lxor_byte; apply b2n_lt.
  - apply IH; lia.
Qed.

Lemma bytes_ext (a b : bytes) : length a = length b ->
  (forall i, (i < length a)%nat -> b2n (nth i a x00) = b2n (nth i b x00)) -> a = b.
Proof.
  intros Hl H. apply (nth_ext a b x00 x00 Hl). intros i Hi. apply b2n_inj. now apply H.
Qed.

Section C.
Variable P : prims.
Hypothesis HP : prims_ok P.

Lemma sealed_iff pw salt nonce d out :
  is_sealed P pw salt nonce d out <->
  let key := crypt_key P pw salt in
  let ct := xor_bytes d (chacha_stream P key nonce (length d)) in
  out = salt ++ nonce ++ chacha_tag P key nonce ct ++ ct.
Proof.
  unfold is_sealed, crypt_key, ITER, CRYPT_KEY_SIZE. cbv zeta.
  set (stream := chacha_stream P _ nonce (length d)).
  assert (length stream = length d) as Hs by apply (chacha_stream_len P HP).
  split.
  - intros (ct & Hl & Hb & ->).
    assert (ct = xor_bytes d stream) as ->; [|reflexivity].
    apply bytes_ext; [rewrite xor_length, Hs; lia|].
    intros i Hi. rewrite Hb, xor_nth by lia. reflexivity.
  - intros ->. eexists. split; [|split; [|reflexivity]].
    + rewrite xor_length, Hs. lia.
    + intros i Hi. apply xor_nth; lia.
Qed.

Lemma xor_twice a s : length s = length a -> xor_bytes (xor_bytes a s) s = a.
Proof.
  intros H. apply bytes_ext; rewrite !xor_length.
  - lia.
  - intros i Hi. rewrite !xor_nth by (rewrite ?xor_length; lia).
    now rewrite N.lxor_assoc, N.lxor_nilpotent, N.lxor_0_r.
Qed.

(** The fields of a byte string long enough to be decrypted. *)
Lemma decrypt_fields salt nonce tag ct pw :
  length salt = 32%nat -> length nonce = 12%nat -> length tag = 16%nat ->
  decrypt P (salt ++ nonce ++ tag ++ ct) pw =
  if Nat.eqb (length ct) 0 then Err DNotEnoughData
  else
    let key := crypt_key P pw salt in
    if bytes_eqb (chacha_tag P key nonce ct) tag
    then Ok (xor_bytes ct (chacha_stream P key nonce (length ct)))
    else Err DDecryptionFailed.
Proof.
  intros Hs Hn Ht. unfold decrypt.
  rewrite !app_length, Hs, Hn, Ht. change METADATA_SIZE with 60%nat.
  destruct (Nat.eqb_spec (length ct) 0) as [E|E].
  { rewrite E. reflexivity. }
  destruct (Nat.leb_spec (32 + (12 + (16 + length ct))) 60); [lia|].
  assert (slice SALT_START SALT_END (salt ++ nonce ++ tag ++ ct) = salt) as ->.
  { change (salt ++ nonce ++ tag ++ ct) with ([] ++ salt ++ nonce ++ tag ++ ct).
    apply slice_app_exact; [reflexivity|now rewrite Hs]. }
  assert (slice NONCE_START NONCE_END (salt ++ nonce ++ tag ++ ct) = nonce) as ->.
  { apply slice_app_exact; [now rewrite Hs|now rewrite Hn]. }
  assert (slice TAG_START TAG_END (salt ++ nonce ++ tag ++ ct) = tag) as ->.
  { rewrite (app_assoc salt nonce). apply slice_app_exact; [now rewrite app_length, Hs, Hn|now rewrite Ht]. }
  assert (skipn ENCRYPTED_START (salt ++ nonce ++ tag ++ ct) = ct) as ->.
  { rewrite !app_assoc, skipn_app, skipn_all2; rewrite !app_length, Hs, Hn, Ht; [|reflexivity].
    reflexivity. }
  unfold aead_decrypt. destruct (bytes_eqb _ tag); reflexivity.
Qed.

Lemma split_sealed (data : bytes) : (60 <= length data)%nat ->
  exists salt nonce tag ct, data = salt ++ nonce ++ tag ++ ct /\
    length salt = 32%nat /\ length nonce = 12%nat /\ length tag = 16%nat /\
    length ct = (length data - 60)%nat.
Proof.
  intros H. exists (firstn 32 data), (firstn 12 (skipn 32 data)),
    (firstn 16 (skipn 44 data)), (skipn 60 data).
  split.
  - rewrite <- (firstn_skipn 32 data) at 1. f_equal.
    rewrite <- (firstn_skipn 12 (skipn 32 data)) at 1. f_equal.
    rewrite skipn_skipn. rewrite <- (firstn_skipn 16 (skipn (32 + 12) data)) at 1. f_equal.
    now rewrite skipn_skipn.
  - repeat split; rewrite ?firstn_length, ?skipn_length; lia.
Qed.

Theorem decrypt_exact data pw :
  (forall d, decrypt P data pw = Ok d <->
     d <> [] /\ exists salt nonce, length salt = 32%nat /\ length nonce = 12%nat /\
       is_sealed P pw salt nonce d data) /\
  (decrypt P data pw = Err DNotEnoughData <-> (length data <= 60)%nat) /\
  (decrypt P data pw = Err DDecryptionFailed <->
     exists salt nonce tag ct, data = salt ++ nonce ++ tag ++ ct /\
       length salt = 32%nat /\ length nonce = 12%nat /\ length tag = 16%nat /\ ct <> [] /\
       tag <> chacha_tag P (pbkdf2 P (utf8 pw) salt 19162 32) nonce ct) /\
  decrypt P data pw <> Panic /\ decrypt P data pw <> Undef.
Proof.
  assert (forall d salt nonce, length salt = 32%nat -> length nonce = 12%nat ->
    is_sealed P pw salt nonce d data -> length data = (60 + length d)%nat) as Hlen.
  { intros d salt nonce Hs Hn H. apply sealed_iff in H. cbv zeta in H. rewrite H.
    rewrite !app_length, Hs, Hn, (chacha_tag_len P HP), xor_length, (chacha_stream_len P HP). lia. }
  destruct (Nat.le_gt_cases (length data) 60) as [Hl|Hl].
  - assert (decrypt P data pw = Err DNotEnoughData) as E.
    { unfold decrypt. change METADATA_SIZE with 60%nat. now apply Nat.leb_le in Hl as ->. }
    rewrite E. repeat split; try discriminate; auto.
    + intros (Hd & salt & nonce & Hs & Hn & H). apply Hlen in H; try assumption.
      destruct d; [congruence|]. cbn in H. lia.
    + intros (salt & nonce & tag & ct & -> & Hs & Hn & Ht & Hc & _).
      rewrite !app_length, Hs, Hn, Ht in Hl. destruct ct; [congruence|]. cbn in Hl. lia.
  - destruct (split_sealed data) as (salt & nonce & tag & ct & Ed & Hs & Hn & Ht & Hc); [lia|].
    assert (forall salt' nonce' tag' ct', data = salt' ++ nonce' ++ tag' ++ ct' ->
      length salt' = 32%nat -> length nonce' = 12%nat -> length tag' = 16%nat ->
      salt' = salt /\ nonce' = nonce /\ tag' = tag /\ ct' = ct) as Huniq.
    { intros s' n' t' c' E' Hs' Hn' Ht'. rewrite Ed in E'.
      apply app_inj_head_len in E' as [-> E']; [|congruence].
      apply app_inj_head_len in E' as [-> E']; [|congruence].
      apply app_inj_head_len in E' as [-> ->]; [|congruence]. auto. }
    assert (decrypt P data pw =
      if bytes_eqb (chacha_tag P (crypt_key P pw salt) nonce ct) tag
      then Ok (xor_bytes ct (chacha_stream P (crypt_key P pw salt) nonce (length ct)))
      else Err DDecryptionFailed) as E.
    { rewrite Ed, decrypt_fields by assumption.
      destruct (Nat.eqb_spec (length ct) 0); [lia|]. reflexivity. }
    rewrite E. clear E.
    assert (length (chacha_stream P (crypt_key P pw salt) nonce (length ct)) = length ct) as Hst
      by apply (chacha_stream_len P HP).
    destruct (bytes_eqb _ tag) eqn:Et; [apply bytes_eqb_eq in Et|apply bytes_eqb_neq in Et].
    + split; [|split; [|split; [|split; discriminate]]].
      * intros d. split.
        -- intros H; injection H as <-. split.
           { intros H. apply (f_equal (@length _)) in H. rewrite xor_length, Hst in H. cbn in H. lia. }
           exists salt, nonce. split; [exact Hs|]. split; [exact Hn|].
           apply sealed_iff. cbv zeta. rewrite xor_length, Hst, Nat.min_id.
           rewrite xor_twice by exact Hst. now rewrite Et.
        -- intros (Hd & s' & n' & Hs' & Hn' & H). apply sealed_iff in H. cbv zeta in H.
           apply Huniq in H as (-> & -> & _ & Hct); try assumption.
           2:{ apply (chacha_tag_len P HP). }
           rewrite <- Hct. rewrite xor_length, (chacha_stream_len P HP), Nat.min_id.
           rewrite xor_twice; [reflexivity|]. apply (chacha_stream_len P HP).
      * split; [discriminate|lia].
      * split; [discriminate|]. intros (s' & n' & t' & c' & H & Hs' & Hn' & Ht' & _ & Hne).
        apply Huniq in H as (-> & -> & -> & ->); try assumption. exfalso. apply Hne. now symmetry.
    + split; [|split; [|split; [|split; discriminate]]].
      * intros d. split; [discriminate|].
        intros (Hd & s' & n' & Hs' & Hn' & H). apply sealed_iff in H. cbv zeta in H.
        apply Huniq in H as (-> & -> & Htag & Hct); try assumption.
        2:{ apply (chacha_tag_len P HP). }
        exfalso. apply Et. rewrite <- Htag, <- Hct. reflexivity.
      * split; [discriminate|lia].
      * split; [|reflexivity]. intros _. exists salt, nonce, tag, ct.
        repeat (split; [assumption|]). split; [|intros Hx; apply Et; symmetry; exact Hx].
        intros ->. cbn in Hc. lia.
Qed.

Lemma map_seq_shift (f : nat -> byte) a n :
  List.map (fun i => f (a + i)%nat) (seq 0 n) = List.map f (seq a n).
Proof.
  rewrite <- (map_map (fun i => (a + i)%nat) f). f_equal.
  revert a. induction n as [|n IH]; intros a; [reflexivity|].
  cbn [seq]. cbn [map]. rewrite Nat.add_0_r. f_equal.
  rewrite <- seq_shift, map_map. rewrite <- (IH (S a)). apply map_ext. intros i. lia.
Qed.

Theorem encrypt_layout d pw (r : rng) :
  let salt := List.map r (seq 0 32) in
  let nonce := List.map r (seq 32 12) in
  is_sealed P pw salt nonce d (fst (encrypt P d pw r)) /\
  length salt = 32%nat /\ length nonce = 12%nat /\
  length (fst (encrypt P d pw r)) = (60 + length d)%nat /\
  forall i, snd (encrypt P d pw r) i = r (44 + i)%nat.
Proof.
  cbv zeta. unfold encrypt, fill. cbv zeta. cbn [fst snd].
  change (seq 0 SALT_SIZE) with (seq 0 32). change (seq 0 NONCE_SIZE) with (seq 0 12).
  change (fun i => r (SALT_SIZE + i)%nat) with (fun i => r (32 + i)%nat).
  rewrite (map_seq_shift r 32 12).
  assert (is_sealed P pw (List.map r (seq 0 32)) (List.map r (seq 32 12)) d
    (List.map r (seq 0 32) ++ List.map r (seq 32 12) ++
     snd (aead_encrypt P (crypt_key P pw (List.map r (seq 0 32))) (List.map r (seq 32 12)) d) ++
     fst (aead_encrypt P (crypt_key P pw (List.map r (seq 0 32))) (List.map r (seq 32 12)) d)))
    as Hs by (apply sealed_iff; reflexivity).
  destruct (aead_encrypt P _ _ d) as [enc tag] eqn:E. cbn [fst snd] in *.
  split; [exact Hs|].
  assert (length enc = length d /\ length tag = 16%nat) as [He Ht].
  { unfold aead_encrypt in E. injection E as <- <-.
    rewrite xor_length, (chacha_stream_len P HP), (chacha_tag_len P HP). split; [lia|reflexivity]. }
  rewrite !app_length, !map_length, !seq_length, He, Ht. repeat split; lia.
Qed.

Lemma decrypt_encrypt d pw r : d <> [] -> decrypt P (fst (encrypt P d pw r)) pw = Ok d.
Proof.
  intros Hd. destruct (encrypt_layout d pw r) as (Hs & Hl & Hn & _).
  apply decrypt_exact. split; [exact Hd|]. eauto.
Qed.

Lemma decrypt_empty pw pw' r : decrypt P (fst (encrypt P [] pw r)) pw' = Err DNotEnoughData.
Proof.
  destruct (encrypt_layout [] pw r) as (_ & _ & _ & Hl & _).
  apply decrypt_exact. rewrite Hl. cbn. lia.
Qed.
End C.
