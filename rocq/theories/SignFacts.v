(** What Bitcoin and Ethereum keys sign and verify. *)
From Verif Require Import Base BaseFacts Prims Bip39 KeyPath KeyPathSpec Errors XPrv XPrvSpec XPrvFacts Keys KeysSpec KeysFacts Toy.

Local Strategy 1000 [XPrv.derive XPrv.derive_loop XPrv.derive_step XPrv.xprv_from_data derive_along].

Lemma split_halves (r s : N) (sig : bytes) : sig = be 32 r ++ be 32 s -> r < 2 ^ 256 -> s < 2 ^ 256 ->
  length sig = 64%nat /\ of_be (slice 0 32 sig) = r /\ of_be (slice 32 64 sig) = s.
Proof.
  intros -> Hr Hs. assert (length (be 32 r) = 32%nat) as L1 by apply be_length. assert (length (be 32 s) = 32%nat) as L2 by apply be_length.
  split; [rewrite app_length, L1, L2; reflexivity|].
  assert (slice 0 32 (be 32 r ++ be 32 s) = be 32 r) as ->.
  { unfold slice. cbn [skipn]. change (32 - 0)%nat with 32%nat. rewrite <- L1 at 1. rewrite firstn_app, firstn_all, Nat.sub_diag. cbn [firstn]. apply app_nil_r. }
  assert (slice 32 64 (be 32 r ++ be 32 s) = be 32 s) as ->.
  { unfold slice. change (64 - 32)%nat with 32%nat. rewrite skipn_app, L1, Nat.sub_diag, skipn_all2 by (rewrite L1; lia).
    cbn [skipn app]. apply firstn_all2. rewrite L2. lia. }
  split; apply of_be_be; assumption.
Qed.

Lemma firstn_be r (l : bytes) : firstn 32 (be 32 r ++ l) = be 32 r.
Proof. rewrite firstn_app, be_length. rewrite Nat.sub_diag. change (firstn 0 l) with (@nil byte). rewrite app_nil_r. apply firstn_all2. rewrite be_length. lia. Qed.

Lemma xprv_sign_exact (P : prims) z msg :
  (secp_sign P (keccak256 P msg) (x_key z) = None -> xprv_sign P z msg = Err SInvalidMessage) /\
  (forall r s v, secp_sign P (keccak256 P msg) (x_key z) = Some (r, s, v) ->
     (v < 2 -> xprv_sign P z msg = Ok (be 32 r ++ be 32 s ++ [n2b v])) /\
     (2 <= v -> xprv_sign P z msg = Err SInvalidRecoveryId)).
Proof.
  unfold xprv_sign. split; [intros ->; reflexivity|]. intros r s v ->.
  destruct (N.eqb_spec v 0) as [->|]; [split; [reflexivity|lia]|].
  destruct (N.eqb_spec v 1) as [->|]; [split; [reflexivity|lia]|]. split; [lia|reflexivity].
Qed.
Lemma xpub_verify_size (P : prims) pk msg sig : length sig <> 64%nat ->
  xpub_verify P pk msg sig = Err (SInvalidSignature (N.of_nat (length sig)) 64).
Proof. intros H. apply Nat.eqb_neq in H. unfold xpub_verify, SIGNATURE_SIZE. rewrite H. reflexivity. Qed.
Lemma xpub_verify_exact (P : prims) pk msg r s : r < 2 ^ 256 -> s < 2 ^ 256 ->
  xpub_verify P pk msg (be 32 r ++ be 32 s) = Ok (secp_verify P (keccak256 P msg) (r mod secp_n) (s mod secp_n) pk).
Proof.
  intros Hr Hs. destruct (split_halves r s _ eq_refl Hr Hs) as (E1 & E2 & E3).
  unfold xpub_verify, SIGNATURE_SIZE. rewrite E1, E2, E3. reflexivity.
Qed.

Theorem sign_exact (P : prims) (f : KeyFactory) (n : N) : prims_ok P ->
  (f = btc_factory P /\ n = 2 ^ 31) \/ (f = eth_factory P /\ n = 2 ^ 31 + 60) ->
  forall x z k, kp_wf k -> path_ok n k -> xprv_wf x -> derives P x (path_values k) z ->
  exists K, key_from_data f (xprv_layout P x) = Ok K /\
  forall msg, let h := keccak256 P msg in
    (secp_sign P h (x_key z) = None -> sign K msg k = Err (SignError (BoxSecp SInvalidMessage))) /\
    (forall r s v, secp_sign P h (x_key z) = Some (r, s, v) ->
       (v < 2 -> sign K msg k = Ok (be 32 r ++ be 32 s ++ [n2b v])) /\
       (2 <= v -> sign K msg k = Err (SignError (BoxSecp SInvalidRecoveryId)))) /\
    (forall sig, length sig <> 64%nat ->
       verify K msg sig k = Err (InvalidSignatureSize (N.of_nat (length sig)) 64)) /\
    (forall r s, r < 2 ^ 256 -> s < 2 ^ 256 ->
       verify K msg (be 32 r ++ be 32 s) k
       = Ok (secp_verify P h (r mod secp_n) (s mod secp_n) (secp_pub P (x_key z)))).
Proof.
  intros HP Hf x z k Hk Hok Hwf Hd.
  assert (xprv_from_data P (xprv_layout P x) = Ok x) as Hx by now apply (from_data_exact P HP).
  assert (forall msg sig, exists K, key_from_data f (xprv_layout P x) = Ok K /\
    sign K msg k = map_err secp_sign_error (xprv_sign P z msg) /\
    verify K msg sig k = map_err key_of_secp (xpub_verify P (secp_pub P (x_key z)) msg sig)) as H.
  { intros msg sig. destruct (secp_transparent P f n Hf (xprv_layout P x) k msg sig Hok) as (H1 & H2 & H3).
    rewrite Hx in H1, H2, H3. cbn [bind] in H1, H2, H3.
    rewrite (derive_along_defined P HP _ _ _ Hk Hd) in H1, H2, H3. cbn [map_err bind rmap] in H1, H2, H3.
    destruct (key_from_data f (xprv_layout P x)) as [K| | |]; cbn [bind] in *; try discriminate H1. eauto. }
  destruct (H [] []) as (K & HK & _). exists K. split; [exact HK|].
  assert (forall msg sig, sign K msg k = map_err secp_sign_error (xprv_sign P z msg) /\
    verify K msg sig k = map_err key_of_secp (xpub_verify P (secp_pub P (x_key z)) msg sig)) as H'.
  { intros msg sig. destruct (H msg sig) as (K' & HK' & E). rewrite HK in HK'. injection HK' as <-. exact E. }
  clear H HK. intros msg. cbv zeta. rewrite (proj1 (H' msg [])). destruct (xprv_sign_exact P z msg) as [S1 S2]. split; [|split; [|split]].
  - intros E. rewrite (S1 E). reflexivity.
  - intros r s v E. destruct (S2 r s v E) as [S3 S4]. split; intros Hv; [rewrite (S3 Hv)|rewrite (S4 Hv)]; reflexivity.
  - intros sig Hl. rewrite (proj2 (H' msg sig)), (xpub_verify_size P _ _ _ Hl). reflexivity.
  - intros r s Hr Hs. rewrite (proj2 (H' msg _)), (xpub_verify_exact P _ _ _ _ Hr Hs). reflexivity.
Qed.

(** Numbers above the group order are taken modulo it. *)
Theorem not_canonical : exists P K k msg sig sig', prims_ok P /\ secp_correct P /\ secp_loaded P K (2 ^ 31 + 60) /\ kp_wf k /\
  sig <> sig' /\ verify K msg sig k = Ok true /\ verify K msg sig' k = Ok true /\
  secp_n <= of_be (firstn 32 sig').
Proof.
  destruct bip32_case as (x & z & Hk & Hok & Hx & Hd).
  destruct (sign_exact toy (eth_factory toy) (2 ^ 31 + 60) toy_ok (or_intror (conj eq_refl eq_refl)) x z _ Hk Hok Hx Hd)
    as (K & HK & H).
  destruct (H [x05]) as (_ & _ & _ & Hv). clear H. set (s := fst (secp_pub toy (x_key z)) mod secp_n).
  assert (s < secp_n) as Hs by (apply N.mod_lt; discriminate). assert (s < 2 ^ 256) as Hs' by (eapply N.lt_trans; [exact Hs|reflexivity]).
  pose proof (Hv 5 s ltac:(reflexivity) Hs') as H1. pose proof (Hv (5 + secp_n) s ltac:(reflexivity) Hs') as H2.
  assert (secp_verify toy (keccak256 toy [x05]) 5 s (secp_pub toy (x_key z)) = true) as Ht.
  { unfold secp_verify; cbn [toy]. apply andb_true_intro. split; [vm_compute; reflexivity|]. apply N.eqb_refl. }
  rewrite (N.mod_small s) in H1, H2 by exact Hs.
  replace (5 mod secp_n) with 5 in H1 by reflexivity. replace ((5 + secp_n) mod secp_n) with 5 in H2 by (vm_compute; reflexivity).
  rewrite Ht in H1, H2. eexists toy, K, _, [x05], _, _.
  split; [exact toy_ok|]. split; [exact toy_secp|]. split; [right; eauto|]. split; [exact Hk|].
  split; [|split; [exact H1|split; [exact H2|]]].
  - intros E. assert (forall r, of_be (firstn 32 (be 32 r ++ be 32 s)) = of_be (be 32 r)) as Hf by (intros r; apply f_equal, (firstn_be r)).
    apply (f_equal (fun l => of_be (firstn 32 l))) in E. rewrite !Hf, !of_be_be in E by reflexivity. revert E. vm_compute. discriminate.
  - rewrite firstn_be, of_be_be by reflexivity. vm_compute. discriminate.
Qed.
