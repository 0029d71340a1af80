(** Key data made from seeds. *)
From Coq Require Import Strings.String.
From Verif Require Import Base BaseFacts Prims Bip39 Errors XPrv XPrvSpec XPrvFacts Keys KeysSpec.
Open Scope list_scope.

Lemma secp_seed_data P (HP : prims_ok P) seed : List.length seed = 64%nat ->
  let I := hmac_sha512 P (blit "Bitcoin seed") seed in
  let k := of_be (firstn 32 I) in
  let master := xprv_layout P {| x_key := k; x_chaincode := skipn 32 I; x_parent_fingerprint := [x00; x00; x00; x00];
                                 x_depth := x00; x_index := 0 |} in
  (0 < k < secp_n ->
     key_data_from_seed (btc_factory P) seed = Ok master /\ key_data_from_seed (eth_factory P) seed = Ok master) /\
  (~ (0 < k < secp_n) ->
     key_data_from_seed (btc_factory P) seed = Err (InvalidKeyData (BoxSecp SInvalidSecretKey)) /\
     key_data_from_seed (eth_factory P) seed = Err (InvalidKeyData (BoxSecp SInvalidSecretKey))).
Proof.
  intros Hl. assert (seed_from_slice seed = Ok seed) as Es by (unfold seed_from_slice; rewrite Hl; reflexivity).
  cbn [btc_factory eth_factory key_data_from_seed]. unfold with_seed. rewrite Es. cbn [map_err bind].
  unfold secp_data_from_seed. cbv zeta.
  destruct (from_seed_cases P HP seed) as [(Hu & x & E & H1 & H2 & H3 & H4 & H5 & _)|(Hu & E)];
    change HMAC_KEY with (blit "Bitcoin seed") in *; rewrite E; cbn [map_err bind]; split; intros H; try contradiction.
  - rewrite (serialize_layout P x). rewrite <- H1, <- H2. destruct x. cbn in *. subst. auto.
  - auto.
Qed.

Lemma seed_length_checked P f seed : In f (all_networks P) -> List.length seed <> 64%nat ->
  key_data_from_seed f seed = Err (InvalidMnemonic (UnknownError (InvalidSeedSize (N.of_nat (List.length seed))))).
Proof.
  intros Hf Hl. assert (seed_from_slice seed = Err (InvalidSeedSize (N.of_nat (List.length seed)))) as Es.
  { unfold seed_from_slice, SEED_SIZE. apply Nat.eqb_neq in Hl as ->. reflexivity. }
  destruct Hf as [<-|[<-|[<-|[]]]]; cbn [btc_factory eth_factory ada_factory key_data_from_seed]; unfold with_seed; rewrite Es;
    reflexivity.
Qed.

