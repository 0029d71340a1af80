From Verif Require Import Base BaseFacts Prims Errors XPrv XPrvSpec.

Lemma slice_0 {A} n (l : list A) : slice 0 n l = firstn n l.
Proof. unfold slice. now rewrite Nat.sub_0_r. Qed.

Lemma slice_32_64 {A} (l : list A) : length l = 64%nat -> slice 32 64 l = skipn 32 l.
Proof.
  intros H. unfold slice. apply firstn_all2. rewrite skipn_length. lia.
Qed.

Lemma secret_parse_be k : 0 < k < secp_n -> secret_parse (be 32 k) = Ok k.
Proof.
  intros H. unfold secret_parse. rewrite be_length. cbn [Nat.eqb negb].
  rewrite of_be_be.
  - destruct (N.leb_spec secp_n k); [lia|]. destruct (N.eqb_spec k 0); [lia|]. reflexivity.
  - eapply N.lt_trans; [apply H|]. reflexivity.
Qed.

Lemma secret_parse_ok bs k : secret_parse bs = Ok k -> length bs = 32%nat /\ k = of_be bs /\ 0 < k < secp_n.
Proof.
  unfold secret_parse. destruct (Nat.eqb_spec (length bs) 32) as [E|E]; cbn [negb]; [|discriminate].
  destruct (N.leb_spec secp_n (of_be bs)); [discriminate|].
  destruct (N.eqb_spec (of_be bs) 0); [discriminate|]. cbn.
  intros H0; injection H0 as <-. split; [exact E|]. lia.
Qed.

Lemma secret_parse_32 bs : length bs = 32%nat ->
  (0 < of_be bs < secp_n /\ secret_parse bs = Ok (of_be bs)) \/
  (~ (0 < of_be bs < secp_n) /\ secret_parse bs = Err SInvalidSecretKey).
Proof.
  intros H. unfold secret_parse. rewrite H. cbn [Nat.eqb negb].
  destruct (N.leb_spec secp_n (of_be bs)); [right; split; [lia|reflexivity]|].
  destruct (N.eqb_spec (of_be bs) 0); [right; split; [lia|reflexivity]|].
  left. split; [lia|reflexivity].
Qed.

(** ** Serialisation *)
Section Ser.
Variable P : prims.
Hypothesis HP : prims_ok P.

Lemma serialize_layout x : xprv_serialize P x = xprv_layout P x.
Proof. unfold xprv_serialize, xprv_layout, double_sha, CHECKSUM_SIZE. now rewrite slice_0. Qed.

Lemma payload_length x : xprv_wf x -> length (xprv_payload x) = 73%nat.
Proof.
  intros (_ & Hc & Hf & _). unfold xprv_payload, ser32, ser256.
  rewrite !app_length, !be_length, Hc, Hf. reflexivity.
Qed.

Lemma layout_length x : xprv_wf x -> length (xprv_layout P x) = 77%nat.
Proof.
  intros H. unfold xprv_layout. rewrite app_length, payload_length by assumption.
  rewrite firstn_length, (sha256_len P HP). reflexivity.
Qed.

Lemma parse_layout depth fp idx cc key ck :
  length fp = 4%nat -> length idx = 4%nat -> length cc = 32%nat -> length key = 32%nat ->
  length ck = 4%nat ->
  let payload := [depth] ++ fp ++ idx ++ cc ++ key in
  xprv_from_data P (payload ++ ck) =
  if bytes_eqb ck (firstn 4 (double_sha P payload)) then
    let* k := secret_parse key in
    Ok {| x_key := k; x_chaincode := cc; x_parent_fingerprint := fp;
          x_depth := depth; x_index := of_be idx |}
  else Err SInvalidSecretKey.
Proof.
  intros Hf Hi Hc Hk Hs payload. unfold xprv_from_data.
  assert (length (payload ++ ck) = KEY_DATA_SIZE) as Hl.
  { unfold payload. rewrite !app_length, Hf, Hi, Hc, Hk, Hs. reflexivity. }
  rewrite Hl, Nat.eqb_refl. cbn [negb].
  assert (slice DEPTH_START KEY_END (payload ++ ck) = payload) as ->.
  { change payload with ([] ++ payload) at 1. rewrite <- app_assoc.
    apply slice_app_exact; [reflexivity|]. unfold payload.
    rewrite !app_length, Hf, Hi, Hc, Hk. reflexivity. }
  assert (slice CHECKSUM_START CHECKSUM_END (payload ++ ck) = ck) as ->.
  { rewrite <- (app_nil_r ck) at 1. apply slice_app_exact; [|now rewrite Hs].
    unfold payload. rewrite ?app_length, Hf, Hi, Hc, Hk; reflexivity. }
  rewrite slice_0. unfold CHECKSUM_SIZE at 1.
  destruct (bytes_eqb ck (firstn 4 (double_sha P payload))); cbn [negb]; [|reflexivity].
  assert (slice FINGERPRINT_START FINGERPRINT_END (payload ++ ck) = fp) as ->.
  { unfold payload. rewrite <- !app_assoc. apply slice_app_exact; [reflexivity|].
    now rewrite Hf. }
  assert (slice INDEX_START INDEX_END (payload ++ ck) = idx) as ->.
  { unfold payload. rewrite <- !app_assoc. rewrite (app_assoc [depth] fp).
    apply slice_app_exact; [rewrite app_length, Hf; reflexivity|now rewrite Hi]. }
  assert (slice CHAIN_CODE_START CHAIN_CODE_END (payload ++ ck) = cc) as ->.
  { unfold payload. rewrite <- !app_assoc. rewrite (app_assoc [depth] fp), (app_assoc _ idx).
    apply slice_app_exact; [rewrite !app_length, Hf, Hi; reflexivity|now rewrite Hc]. }
  assert (slice KEY_START KEY_END (payload ++ ck) = key) as ->.
  { unfold payload. rewrite <- !app_assoc.
    rewrite (app_assoc [depth] fp), (app_assoc _ idx), (app_assoc _ cc).
    apply slice_app_exact; [rewrite !app_length, Hf, Hi, Hc; reflexivity|now rewrite Hk]. }
  unfold payload. cbn [app nth DEPTH_START]. reflexivity.
Qed.

(** Any 77 bytes split into the six fields. *)
Lemma split_fields (data : bytes) : length data = 77%nat ->
  exists depth fp idx cc key ck,
    data = ([depth] ++ fp ++ idx ++ cc ++ key) ++ ck /\
    length fp = 4%nat /\ length idx = 4%nat /\ length cc = 32%nat /\
    length key = 32%nat /\ length ck = 4%nat.
Proof.
  intros H. destruct data as [|depth data]; [discriminate|].
  cbn [length] in H. injection H as H.
  exists depth, (firstn 4 data), (firstn 4 (skipn 4 data)),
    (firstn 32 (skipn 8 data)), (firstn 32 (skipn 40 data)), (skipn 72 data).
  split.
  - cbn [app]. f_equal. rewrite <- !app_assoc.
    rewrite <- (firstn_skipn 4 data) at 1. f_equal.
    rewrite <- (firstn_skipn 4 (skipn 4 data)) at 1. f_equal.
    rewrite skipn_skipn. rewrite <- (firstn_skipn 32 (skipn (4 + 4) data)) at 1. f_equal.
    rewrite skipn_skipn. rewrite <- (firstn_skipn 32 (skipn (4 + 4 + 32) data)) at 1. f_equal.
    rewrite skipn_skipn. reflexivity.
  - repeat split; rewrite ?firstn_length, ?skipn_length; lia.
Qed.

Lemma is_u32_of_be (idx : bytes) : length idx = 4%nat -> is_u32 (of_be idx).
Proof.
  intros H. pose proof (of_be_bound idx) as Hb. rewrite H in Hb.
  unfold is_u32, u32_max. change (256 ^ N.of_nat 4) with 4294967296 in Hb. lia.
Qed.

Theorem from_data_exact data :
  (forall x, xprv_from_data P data = Ok x <-> xprv_wf x /\ data = xprv_layout P x) /\
  (length data <> 77%nat ->
     xprv_from_data P data = Err (SInvalidDataSize (N.of_nat (length data)) 77)) /\
  (length data = 77%nat -> (forall x, xprv_wf x -> data <> xprv_layout P x) ->
     xprv_from_data P data = Err SInvalidSecretKey).
Proof.
  assert (length data <> 77%nat ->
     xprv_from_data P data = Err (SInvalidDataSize (N.of_nat (length data)) 77)) as Hbad.
  { intros H. unfold xprv_from_data. apply Nat.eqb_neq in H.
    change KEY_DATA_SIZE with 77%nat. now rewrite H. }
  assert (length data = 77%nat ->
    (exists x, xprv_from_data P data = Ok x /\ xprv_wf x /\ data = xprv_layout P x) \/
    (xprv_from_data P data = Err SInvalidSecretKey /\
     forall x, xprv_wf x -> data <> xprv_layout P x)) as Hgood.
  { intros H. destruct (split_fields data H) as (d & fp & idx & cc & key & ck & -> & Hf & Hi & Hc & Hk & Hs).
    rewrite parse_layout by assumption. clear H Hbad.
    assert (forall x, xprv_wf x -> ([d] ++ fp ++ idx ++ cc ++ key) ++ ck = xprv_layout P x ->
      d = x_depth x /\ fp = x_parent_fingerprint x /\ idx = ser32 (x_index x) /\
      cc = x_chaincode x /\ key = ser256 (x_key x) /\
      ck = firstn 4 (sha256 P (sha256 P (xprv_payload x)))) as Hinv.
    { intros x Hwf E. pose proof Hwf as (Hk' & Hc' & Hf' & Hi').
      unfold xprv_layout in E. apply app_inj_tail_len in E as [E ->].
      2:{ rewrite firstn_length, (sha256_len P HP), Hs. reflexivity. }
      unfold xprv_payload in E.
      apply app_inj_head_len in E as [Ed E]; [|reflexivity]. injection Ed as ->.
      apply app_inj_head_len in E as [-> E]; [|congruence].
      apply app_inj_head_len in E as [-> E]; [|unfold ser32; now rewrite be_length].
      apply app_inj_head_len in E as [-> ->]; [|congruence]. auto 10. }
    destruct (bytes_eqb ck _) eqn:Eck.
    - apply bytes_eqb_eq in Eck.
      destruct (secret_parse_32 key Hk) as [[Hr Hp]|[Hr Hp]]; rewrite Hp; cbn [bind].
      + left. eexists. split; [reflexivity|]. split.
        * split; [exact Hr|]. cbn. split; [exact Hc|]. split; [exact Hf|]. now apply is_u32_of_be.
        * unfold xprv_layout, xprv_payload, ser32, ser256. cbn [x_key x_chaincode x_depth x_index x_parent_fingerprint].
          pose proof (be_of_be idx) as Ei. rewrite Hi in Ei.
          pose proof (be_of_be key) as Ek. rewrite Hk in Ek. rewrite Ei, Ek.
          f_equal. exact Eck.
      + right. split; [reflexivity|]. intros x Hwf E.
        destruct (Hinv x Hwf E) as (-> & -> & -> & -> & -> & _). apply Hr.
        unfold ser256. destruct Hwf as (Hk' & _). rewrite of_be_be; [exact Hk'|].
        eapply N.lt_trans; [apply Hk'|reflexivity].
    - right. split; [reflexivity|]. intros x Hwf E.
      destruct (Hinv x Hwf E) as (-> & -> & -> & -> & -> & ->).
      apply bytes_eqb_neq in Eck. now apply Eck. }
  split; [|split].
  - intros x. split.
    + intros Hx. destruct (Nat.eq_dec (length data) 77) as [Hl|Hl].
      * destruct (Hgood Hl) as [(y & Hy & Hwf & E)|(He & _)]; [|congruence].
        assert (x = y) as -> by congruence. auto.
      * rewrite (Hbad Hl) in Hx. discriminate.
    + intros (Hwf & E). assert (length data = 77%nat) as Hl by (rewrite E; now apply layout_length).
      pose proof Hwf as (Hk & Hc & Hf & Hi).
      rewrite E. unfold xprv_layout, xprv_payload. rewrite parse_layout; unfold ser32, ser256;
        rewrite ?be_length; try assumption; try reflexivity.
      2:{ rewrite firstn_length, (sha256_len P HP). reflexivity. }
      unfold double_sha. rewrite bytes_eqb_refl, secret_parse_be by assumption. cbn [bind].
      rewrite of_be_be; [now destruct x|].
      change (256 ^ N.of_nat 4) with 4294967296. unfold is_u32, u32_max in Hi. lia.
  - exact Hbad.
  - intros Hl Hno. destruct (Hgood Hl) as [(x & _ & Hwf & E)|(He & _)]; [|exact He].
    now apply Hno in E.
Qed.

(** ** One derivation step *)
Lemma serP_compressed pk : pub_serialize_compressed pk = serP pk.
Proof. unfold pub_serialize_compressed, serP. rewrite <- N.negb_even. now destruct (N.even _). Qed.

Lemma derive_step_eq x i :
  derive_step P x i =
  if byte_eqb (x_depth x) xff then Done (Err SDeriveDepthTooBig)
  else if (0 <? ckd_left P x i) && (ckd_left P x i <? secp_n) then
    if ckd_key P x i =? 0 then
      if i =? u32_max then Done (Err STweakOutOfRange)
      else if i <? u32_max then Again (i + 1) else Done (Err STweakOutOfRange)
    else Done (Ok {| x_key := ckd_key P x i; x_chaincode := ckd_right P x i;
                     x_parent_fingerprint := fingerprint P x;
                     x_depth := n2b (b2n (x_depth x) + 1); x_index := i |})
  else Done (Err SInvalidSecretKey).
Proof.
  unfold derive_step. destruct (byte_eqb (x_depth x) xff); [reflexivity|].
  rewrite serP_compressed. change SECP_SOFT_UPPER_BOUND with (2 ^ 31).
  unfold pub_compressed_sha256. rewrite serP_compressed.
  match goal with |- context [hmac_sha512 P ?c ?d] =>
    change (hmac_sha512 P c d) with (ckd_hmac P x i) end.
  unfold ENTROPY_SIZE, KEY_SIZE, CHAIN_CODE_SIZE, FINGERPRINT_SIZE, public.
  assert (length (ckd_hmac P x i) = 64%nat) as Hl by apply (hmac_sha512_len P HP).
  rewrite Hl. change (Nat.ltb 64 (32 + 32)) with false. cbv iota.
  rewrite !slice_0. change (32 + 32)%nat with 64%nat. rewrite slice_32_64 by exact Hl.
  fold (ckd_right P x i).
  assert (length (firstn 32 (ckd_hmac P x i)) = 32%nat) as Hf
    by (rewrite firstn_length, Hl; reflexivity).
  destruct (secret_parse_32 _ Hf) as [[Hr Hp]|[Hr Hp]]; rewrite Hp; fold (ckd_left P x i) in *.
  2:{ destruct (N.ltb_spec 0 (ckd_left P x i)), (N.ltb_spec (ckd_left P x i) secp_n);
        cbn [andb]; try reflexivity. lia. }
  destruct (N.ltb_spec 0 (ckd_left P x i)); [|lia].
  destruct (N.ltb_spec (ckd_left P x i) secp_n); [|lia]. cbn [andb].
  unfold tweak_add. rewrite (N.add_comm (x_key x)). fold (ckd_key P x i).
  destruct (ckd_key P x i =? 0); [|reflexivity].
  unfold u32_max.
  destruct (N.leb_spec (2 ^ 31) i), (N.ltb_spec i 4294967295), (N.ltb_spec i (2 ^ 31)),
    (N.eqb_spec i 4294967295); cbn [andb orb negb]; try reflexivity; try lia.
Qed.

Lemma derive_step_again x i j : derive_step P x i = Again j ->
  j = i + 1 /\ i < u32_max /\ b2n (x_depth x) < 255 /\ left_ok P x i /\ ckd_key P x i = 0.
Proof.
  rewrite derive_step_eq. unfold left_ok. pose proof (b2n_lt (x_depth x)).
  destruct (byte_eqb (x_depth x) xff) eqn:Ed; [discriminate|].
  assert (b2n (x_depth x) < 255).
  { unfold byte_eqb in Ed. apply N.eqb_neq in Ed. change (b2n xff) with 255 in Ed. lia. }
  destruct (N.ltb_spec 0 (ckd_left P x i)); [|discriminate].
  destruct (N.ltb_spec (ckd_left P x i) secp_n); [|discriminate]. cbn [andb].
  destruct (N.eqb_spec (ckd_key P x i) 0); [|discriminate].
  destruct (i =? u32_max); [discriminate|].
  destruct (N.ltb_spec i u32_max); [|discriminate].
  intros E; injection E as <-. auto 10.
Qed.

(** ** The loop *)
Lemma derive_loop_again x d : forall i j, derive_loop P x d i = Again j ->
  j = i + 2 ^ N.of_nat d /\ j <= u32_max /\
  (forall k, i <= k < j -> derive_step P x k = Again (k + 1)).
Proof.
  induction d as [|d IH]; intros i j H; cbn [derive_loop] in H.
  - apply derive_step_again in H as Hj. destruct Hj as (-> & Hlt & _).
    split; [reflexivity|]. split; [lia|].
    intros k Hk. now replace k with i by lia.
  - destruct (derive_loop P x d i) as [r|m] eqn:E; [discriminate|].
    apply IH in E as (-> & Hm & Hs). apply IH in H as (-> & Hj & Hs').
    rewrite Nat2N.inj_succ, N.pow_succ_r'. split; [lia|]. split; [exact Hj|].
    intros k Hk. destruct (N.lt_ge_cases k (i + 2 ^ N.of_nat d)); [apply Hs|apply Hs']; lia.
Qed.

Lemma derive_loop_done x d : forall i r, derive_loop P x d i = Done r ->
  exists j, i <= j /\ derive_step P x j = Done r /\
    (forall k, i <= k < j -> derive_step P x k = Again (k + 1)).
Proof.
  induction d as [|d IH]; intros i r H; cbn [derive_loop] in H.
  - exists i. split; [lia|]. split; [exact H|]. intros k Hk; lia.
  - destruct (derive_loop P x d i) as [r'|m] eqn:E.
    + injection H as <-. now apply IH.
    + apply derive_loop_again in E as (-> & _ & Hs).
      apply IH in H as (j & Hj & Hd & Hs').
      exists j. split; [lia|]. split; [exact Hd|]. intros k Hk.
      destruct (N.lt_ge_cases k (i + 2 ^ N.of_nat d)); [apply Hs|apply Hs']; lia.
Qed.

Lemma derive_last_index x i : is_u32 i ->
  exists j r, i <= j /\ j <= u32_max /\ derive P x i = r /\ derive_step P x j = Done r /\
    (forall k, i <= k < j -> derive_step P x k = Again (k + 1)).
Proof.
  intros Hi. unfold derive. destruct (derive_loop P x 33 i) as [r|m] eqn:E.
  - apply derive_loop_done in E as (j & Hj & Hd & Hs). exists j, r.
    split; [exact Hj|]. split; [|auto].
    destruct (N.le_gt_cases j u32_max); [assumption|]. exfalso.
    unfold is_u32 in Hi.
    assert (derive_step P x u32_max = Again (u32_max + 1)) as Ha by (apply Hs; lia).
    apply derive_step_again in Ha. lia.
  - exfalso. apply derive_loop_again in E as (-> & Hj & _).
    unfold u32_max in Hj. change (2 ^ N.of_nat 33) with 8589934592 in Hj. lia.
Qed.

(** The whole behaviour of [derive]. *)
Theorem derive_cases x i : is_u32 i ->
  (b2n (x_depth x) = 255 /\ derive P x i = Err SDeriveDepthTooBig) \/
  (b2n (x_depth x) < 255 /\ exists j, i <= j /\ j <= u32_max /\
    (forall k, i <= k < j -> left_ok P x k /\ ckd_key P x k = 0) /\
    ((ckd_defined P x j /\ exists y, derive P x i = Ok y /\ is_child P x j y) \/
     (~ left_ok P x j /\ derive P x i = Err SInvalidSecretKey) \/
     (j = u32_max /\ left_ok P x j /\ ckd_key P x j = 0 /\
      derive P x i = Err STweakOutOfRange))).
Proof.
  intros Hi. destruct (derive_last_index x i Hi) as (j & r & Hij & Hj & Hr & Hd & Hs).
  rewrite Hr. pose proof (b2n_lt (x_depth x)) as Hb. rewrite derive_step_eq in Hd.
  destruct (byte_eqb (x_depth x) xff) eqn:Ed.
  { left. apply byte_eqb_eq in Ed. rewrite Ed. injection Hd as <-. auto. }
  right. assert (b2n (x_depth x) < 255) as Hlt.
  { unfold byte_eqb in Ed. apply N.eqb_neq in Ed. change (b2n xff) with 255 in Ed. lia. }
  split; [exact Hlt|]. exists j. split; [exact Hij|]. split; [exact Hj|]. split.
  { intros k Hk. apply Hs in Hk. apply derive_step_again in Hk. tauto. }
  unfold ckd_defined, left_ok in *.
  destruct (N.ltb_spec 0 (ckd_left P x j)) as [H0|H0].
  2:{ cbn [andb] in Hd. injection Hd as <-. right; left. split; [lia|reflexivity]. }
  destruct (N.ltb_spec (ckd_left P x j) secp_n) as [H1|H1].
  2:{ cbn [andb] in Hd. injection Hd as <-. right; left. split; [lia|reflexivity]. }
  cbn [andb] in Hd. destruct (N.eqb_spec (ckd_key P x j) 0) as [Hz|Hz].
  - right; right. destruct (N.eqb_spec j u32_max) as [E|E].
    + injection Hd as <-. auto.
    + destruct (N.ltb_spec j u32_max); [discriminate|]. exfalso. lia.
  - left. split; [auto|]. injection Hd as <-. eexists. split; [reflexivity|].
    unfold is_child. cbn [x_key x_chaincode x_index x_depth x_parent_fingerprint].
    rewrite b2n_n2b_small by lia. auto.
Qed.

Lemma derive_defined x i : is_u32 i -> ckd_defined P x i -> b2n (x_depth x) < 255 ->
  exists y, derive P x i = Ok y /\ is_child P x i y.
Proof.
  intros Hi Hd Hlt.
  destruct (derive_cases x i Hi) as [[H _]|(_ & j & Hij & Hj & Hs & Hc)]; [lia|].
  assert (j = i) as ->.
  { destruct (N.eq_dec j i) as [|Hne]; [assumption|].
    assert (i <= i < j) as Hk by lia. apply Hs in Hk. destruct Hd as (_ & Hz). tauto. }
  destruct Hc as [(_ & H)|[(H & _)|(_ & _ & Hz & _)]]; [exact H| |].
  - destruct Hd. tauto.
  - destruct Hd. tauto.
Qed.

Lemma is_child_det x i y z : is_child P x i y -> is_child P x i z -> y = z.
Proof.
  intros (H1 & H2 & H3 & H4 & H5) (G1 & G2 & G3 & G4 & G5).
  destruct y, z; cbn in *. f_equal; try congruence. apply b2n_inj. congruence.
Qed.

Lemma derive_ok_depth x i y : is_u32 i -> derive P x i = Ok y ->
  b2n (x_depth y) = b2n (x_depth x) + 1.
Proof.
  intros Hi H. destruct (derive_cases x i Hi) as [[_ E]|(_ & j & _ & _ & _ & Hc)]; [congruence|].
  destruct Hc as [(_ & z & E & Hz)|[(_ & E)|(_ & _ & _ & E)]]; try congruence.
  assert (y = z) as -> by congruence. apply Hz.
Qed.

Lemma child_wf x i y : is_u32 i -> ckd_defined P x i -> is_child P x i y -> xprv_wf y.
Proof.
  intros Hi (_ & Hz) (H1 & H2 & H3 & _ & H5). unfold xprv_wf. rewrite H1, H2, H3, H5.
  split; [split; [lia|apply N.mod_lt; discriminate]|].
  split; [unfold ckd_right, ckd_hmac; rewrite skipn_length, (hmac_sha512_len P HP); reflexivity|].
  split; [unfold fingerprint; rewrite firstn_length, (ripemd160_len P HP); reflexivity|exact Hi].
Qed.

Lemma derive_ok_wf x i y : is_u32 i -> derive P x i = Ok y -> xprv_wf y.
Proof.
  intros Hi H. destruct (derive_cases x i Hi) as [[_ E]|(_ & j & _ & Hj & _ & Hc)]; [congruence|].
  destruct Hc as [(Hd & z & E & Hz)|[(_ & E)|(_ & _ & _ & E)]]; try congruence.
  assert (y = z) as -> by congruence. eapply child_wf; eassumption.
Qed.

Lemma derive_total x i : is_u32 i -> derive P x i <> Panic /\ derive P x i <> Undef.
Proof.
  intros Hi. destruct (derive_cases x i Hi) as [[_ E]|(_ & j & _ & _ & _ & Hc)].
  - rewrite E. split; discriminate.
  - destruct Hc as [(_ & z & E & _)|[(_ & E)|(_ & _ & _ & E)]]; rewrite E; split; discriminate.
Qed.

(** ** From a seed *)
Lemma from_seed_cases seed :
  let I := hmac_sha512 P HMAC_KEY seed in
  let l := of_be (firstn 32 I) in
  (0 < l < secp_n /\ exists x, xprv_from_seed P seed = Ok x /\ x_key x = l /\
     x_chaincode x = skipn 32 I /\ x_depth x = x00 /\ x_index x = 0 /\
     x_parent_fingerprint x = [x00; x00; x00; x00] /\ xprv_wf x) \/
  (~ (0 < l < secp_n) /\ xprv_from_seed P seed = Err SInvalidSecretKey).
Proof.
  cbv zeta. unfold xprv_from_seed.
  assert (length (hmac_sha512 P HMAC_KEY seed) = 64%nat) as Hl by apply (hmac_sha512_len P HP).
  unfold ENTROPY_SIZE, KEY_SIZE, CHAIN_CODE_SIZE. change (32 + 32)%nat with 64%nat.
  rewrite Hl. cbn [Nat.ltb Nat.leb]. change (Nat.ltb 64 64) with false. cbv iota.
  rewrite slice_0, slice_32_64 by exact Hl.
  assert (length (firstn 32 (hmac_sha512 P HMAC_KEY seed)) = 32%nat) as Hf
    by (rewrite firstn_length, Hl; reflexivity).
  destruct (secret_parse_32 _ Hf) as [[Hr Hp]|[Hr Hp]]; rewrite Hp; cbn [bind].
  - left. split; [exact Hr|]. eexists. split; [reflexivity|].
    cbn [x_key x_chaincode x_index x_depth x_parent_fingerprint].
    repeat (split; [reflexivity|]). split; [exact Hr|].
    cbn [x_key x_chaincode x_index x_depth x_parent_fingerprint].
    split; [rewrite skipn_length, Hl; reflexivity|]. split; [reflexivity|].
    unfold is_u32. discriminate.
  - right. auto.
Qed.
End Ser.
