(** The standard functions have the output sizes that [prims_ok] asks for. *)
From Verif Require Import Base BaseFacts Prims Errors XPrv StdHash StdCipher StdCurve Std.

Lemma le_length k n : length (le k n) = k.
Proof. revert n. induction k; intros n; cbn [le length]; [|rewrite IHk]; reflexivity. Qed.

Lemma sha2_hash_length p init m :
  length (sha2_hash p init m) = (8 * N.to_nat (s_w p / 8))%nat.
Proof. unfold sha2_hash, state_bytes. rewrite !app_length, !be_length. lia. Qed.

Lemma std_sha256_length m : length (std_sha256 m) = 32%nat.
Proof. apply sha2_hash_length. Qed.
Lemma std_sha512_length m : length (std_sha512 m) = 64%nat.
Proof. apply sha2_hash_length. Qed.
Lemma std_hmac_length k m : length (std_hmac_sha512 k m) = 64%nat.
Proof. apply std_sha512_length. Qed.

Lemma xors_length a b : length (xors a b) = Nat.min (length a) (length b).
Proof. revert b. induction a; intros [|y b]; cbn [xors length Nat.min]; try reflexivity. now rewrite IHa. Qed.

Section Prf.
Variable prf : bytes -> bytes.
Hypothesis Hprf : forall m, length (prf m) = 64%nat.

Lemma pbkdf2_block_length salt c i : length (pbkdf2_block prf salt c i) = 64%nat.
Proof.
  unfold pbkdf2_block.
  apply (N.iter_invariant (c - 1) (bytes * bytes)%type _ (fun ua => length (snd ua) = 64%nat)).
  - intros [u acc] H. cbn [snd] in *. rewrite xors_length, Hprf, H. reflexivity.
  - apply Hprf.
Qed.

Lemma pbkdf2_blocks_length salt c i n : length (pbkdf2_blocks prf salt c i n) = (64 * n)%nat.
Proof.
  revert i. induction n; intros i; cbn [pbkdf2_blocks].
  - reflexivity.
  - rewrite app_length, pbkdf2_block_length, IHn. lia.
Qed.
End Prf.

Lemma covers len : (len <= 64 * S (len / 64))%nat.
Proof.
  pose proof (Nat.div_mod len 64 ltac:(discriminate)).
  pose proof (Nat.mod_upper_bound len 64 ltac:(discriminate)).
  lia.
Qed.

Lemma std_pbkdf2_length pw salt c len : length (std_pbkdf2 pw salt c len) = len.
Proof.
  unfold std_pbkdf2.
  rewrite firstn_length, (pbkdf2_blocks_length _ (std_hmac_length pw)).
  apply Nat.min_l, covers.
Qed.

Lemma std_keccak256_length m : length (std_keccak256 m) = 32%nat.
Proof. unfold std_keccak256. rewrite !app_length, !le_length. reflexivity. Qed.

Lemma std_ripemd160_length m : length (std_ripemd160 m) = 20%nat.
Proof. unfold std_ripemd160. rewrite !app_length, !le_length. reflexivity. Qed.

Lemma chacha_block_length key nonce c : length (chacha_block key nonce c) = 64%nat.
Proof.
  unfold chacha_block. cbn [flat_map seq].
  rewrite !app_length, !le_length. reflexivity.
Qed.

Lemma chacha_blocks_length key nonce c n : length (chacha_blocks key nonce c n) = (64 * n)%nat.
Proof.
  revert c. induction n; intros c; cbn [chacha_blocks].
  - reflexivity.
  - rewrite app_length, chacha_block_length, IHn. lia.
Qed.

Lemma std_chacha_stream_length key nonce len : length (std_chacha_stream key nonce len) = len.
Proof.
  unfold std_chacha_stream. rewrite firstn_length, chacha_blocks_length.
  apply Nat.min_l, covers.
Qed.

Lemma std_chacha_tag_length key nonce ct : length (std_chacha_tag key nonce ct) = 16%nat.
Proof. unfold std_chacha_tag, poly1305. apply le_length. Qed.

Lemma fmul_lt p a b : p <> 0 -> fmul p a b < p.
Proof. intros H. now apply N.mod_lt. Qed.
Lemma fsub_lt p a b : p <> 0 -> fsub p a b < p.
Proof. intros H. now apply N.mod_lt. Qed.

Lemma affine_range a : fst (affine a) < secp_p /\ snd (affine a) < secp_p.
Proof.
  destruct a as [[x y] z]. unfold affine. cbn [fst snd].
  split; apply fmul_lt; discriminate.
Qed.

Lemma std_secp_pub_range k : fst (std_secp_pub k) < secp_p /\ snd (std_secp_pub k) < secp_p.
Proof. apply affine_range. Qed.

Lemma sign_with_range e d k r s v : sign_with e d k = Some (r, s, v) ->
  0 < r < secp_n /\ 0 < s <= secp_n / 2 /\ v < 4.
Proof.
  unfold sign_with. destruct (std_secp_pub k) as [x y].
  set (s0 := fmul secp_n _ _).
  assert (Hs0 : s0 < secp_n) by (apply fmul_lt; discriminate).
  assert (Hr0 : x mod secp_n < secp_n) by (apply N.mod_lt; discriminate).
  clearbody s0. generalize dependent (x mod secp_n). intros r0 Hr0.
  destruct (N.eqb_spec r0 0); [discriminate|].
  destruct (N.eqb_spec s0 0); [discriminate|]. cbn [orb].
  destruct (N.ltb_spec (secp_n / 2) s0).
  - intros H'. injection H' as <- <- <-.
    assert (fsub secp_n secp_n s0 = secp_n - s0) as ->.
    { unfold fsub. rewrite (N.mod_small s0) by assumption.
      replace (secp_n + (secp_n - s0)) with ((secp_n - s0) + 1 * secp_n) by lia.
      rewrite N.mod_add by discriminate. apply N.mod_small. lia. }
    assert (Hh : secp_n <= 2 * (secp_n / 2) + 1) by (vm_compute; discriminate).
    remember (secp_n / 2) as h.
    repeat split; try lia.
    destruct (N.odd y), (secp_n <=? x); reflexivity.
  - intros H'. injection H' as <- <- <-.
    repeat split; try lia.
    destruct (N.odd y), (secp_n <=? x); reflexivity.
Qed.

Lemma sign_loop_range fuel e d kv r s v : sign_loop fuel e d kv = Some (r, s, v) ->
  0 < r < secp_n /\ 0 < s <= secp_n / 2 /\ v < 4.
Proof.
  revert kv. induction fuel; intros [k w]; cbn [sign_loop]; [discriminate|].
  destruct (_ || _); [apply IHfuel|].
  destruct (sign_with _ _ _) as [sg|] eqn:E; [|apply IHfuel].
  intros [= ->]. exact (sign_with_range _ _ _ _ _ _ E).
Qed.

Lemma std_secp_sign_range m k r s v : std_secp_sign m k = Some (r, s, v) ->
  0 < r < secp_n /\ 0 < s <= secp_n / 2 /\ v < 4.
Proof. unfold std_secp_sign. cbv zeta. intros H. exact (sign_loop_range _ _ _ _ _ _ _ H). Qed.

Lemma ext_encode_length a : length (ext_encode a) = 32%nat.
Proof. destruct a as [[[x y] z] t]. apply le_length. Qed.

Lemma std_ed_public_length x : length (std_ed_public x) = 64%nat.
Proof.
  unfold std_ed_public, ed_pk.
  rewrite app_length, ext_encode_length, firstn_length, app_length, repeat_length. lia.
Qed.

Lemma std_ed_derive_length x i : length (std_ed_derive x i) = 96%nat.
Proof.
  unfold std_ed_derive.
  rewrite !app_length, !le_length, skipn_length, std_hmac_length. reflexivity.
Qed.

Lemma std_ed_sign_length x m : length (std_ed_sign x m) = 64%nat.
Proof. unfold std_ed_sign. now rewrite app_length, ext_encode_length, le_length. Qed.

Lemma std_ok : prims_ok std.
Proof.
  split; cbn [std sha256 sha512 keccak256 ripemd160 hmac_sha512 pbkdf2 chacha_stream
    chacha_tag secp_pub secp_sign ed_derive ed_public ed_sign]; intros.
  - apply std_sha256_length.
  - apply std_sha512_length.
  - apply std_keccak256_length.
  - apply std_ripemd160_length.
  - apply std_hmac_length.
  - apply std_pbkdf2_length.
  - apply std_chacha_stream_length.
  - apply std_chacha_tag_length.
  - assert (secp_p < 2 ^ 256) by reflexivity.
    destruct (std_secp_pub_range k). split; eapply N.lt_trans; eassumption.
  - destruct (std_secp_sign_range _ _ _ _ _ H) as (Hr & Hs & Hv).
    repeat split; try apply Hr; try apply Hv.
    eapply N.le_lt_trans; [apply Hs|reflexivity].
  - apply std_ed_derive_length.
  - apply std_ed_public_length.
  - apply std_ed_sign_length.
Qed.

(** What [XPrv::sign] makes of the standard signature. *)
Lemma signature_parts P (Q : N -> N -> Prop) x data sig :
  (forall m k r s v, secp_sign P m k = Some (r, s, v) -> Q r s) ->
  xprv_sign P x data = Ok sig ->
  exists r s v, sig = be 32 r ++ be 32 s ++ [n2b v] /\ Q r s /\ v < 2.
Proof.
  intros HQ. unfold xprv_sign.
  destruct (secp_sign P _ _) as [[[r s] v]|] eqn:E; [|discriminate].
  apply HQ in E.
  destruct (N.eqb_spec v 0) as [Hv|]; [|destruct (N.eqb_spec v 1) as [Hv|]]; cbn [negb andb];
    try discriminate; intros H; injection H as <-; exists r, s, v; subst v; auto using N.lt_0_2, N.lt_1_2.
Qed.

Lemma std_signatures x data sig : xprv_sign std x data = Ok sig ->
  exists r s v, sig = be 32 r ++ be 32 s ++ [n2b v] /\
    (0 < r < secp_n /\ 0 < s <= secp_n / 2) /\ v < 2.
Proof.
  apply (signature_parts std (fun r s => 0 < r < secp_n /\ 0 < s <= secp_n / 2)).
  cbn [std secp_sign]. intros m k r s v H.
  destruct (std_secp_sign_range m k r s v H) as (Hr & Hs & _). exact (conj Hr Hs).
Qed.
