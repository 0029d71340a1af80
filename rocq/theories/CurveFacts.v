(** What the curves mean for keys, keychains and derivation, with the standard
    functions in place of the crates. *)
From Coq Require Import Lia.
From Verif Require Import Base BaseFacts Prims Errors KeyPath KeyPathSpec XPrv XPrvSpec XPrvFacts Keys KeysSpec KeysFacts Keychain
  InteropSpec SignFacts StdHash StdCurve StdFacts Std CurveSpec.
From Verif Require SecpSignFacts SecpGroupFacts SecpCurveFacts SecpEcdsaFacts EdSignFacts EdGroupFacts EdCurveFacts.
Open Scope N_scope.

Lemma ok_true {E} (b : bool) : @Ok E bool b = Ok true <-> b = true.
Proof. split; [now intros [= ->]|now intros ->]. Qed.

Local Strategy 1000 [sign_loop sign_with drbg_new std_secp_sign].
Local Strategy expand [ckd_key].
Local Strategy 1000 [N.modulo ckd_hmac std_hmac_sha512].
Lemma sign_std m d : secp_sign std m d = std_secp_sign m d.
Proof. reflexivity. Qed.

(** * Keys and keychains *)
Theorem secp_own K n k data sig : secp_loaded std K n -> kp_wf k -> sign K data k = Ok sig ->
  length sig = 65%nat /\ verify K data (firstn 64 sig) k = Ok true.
Proof.
  intros HK Hk Hs. destruct (secp_verify_sign std std_ok K n k data sig HK Hk Hs) as (L & _ & V).
  split; [exact L|]. exact (V SecpSignFacts.std_secp_correct).
Qed.
Theorem ada_own x k data sig : sign (ada_key std x) data k = Ok sig ->
  length sig = 64%nat /\ verify (ada_key std x) data sig k = Ok true.
Proof. exact (ada_verify_sign std std_ok x k data sig EdSignFacts.std_ed_correct). Qed.

Lemma derives_range P l x z : derives P x l z -> l <> [] -> 0 < x_key z < secp_n.
Proof.
  induction 1 as [x|x i y l z Hd Hlt Hc Hr IH]; [easy|]. intros _. destruct l as [|j l].
  - inversion Hr; subst. destruct Hc as (-> & _). destruct Hd as (_ & Hd). unfold ckd_key in *.
    split; [lia|]. apply N.mod_lt. discriminate.
  - apply IH. discriminate.
Qed.
Lemma path_range k P x z : derives P x (path_values k) z -> 0 < x_key z < secp_order.
Proof. intros H. rewrite SecpCurveFacts.order_n. apply (derives_range _ _ _ _ H). discriminate. Qed.

Theorem secp_keychain z kc n k : answers_secp std z kc n k -> 0 < x_key z < secp_order ->
  (exists x y, kc_pub_key kc n k = Ok ([x04] ++ be 32 x ++ be 32 y) /\
     secp_on (Some (x, y)) /\ secp_times (x_key z) (Some secp_generator) (Some (x, y)) /\
     forall msg r s, r < secp_order -> s < secp_order ->
       (kc_verify kc n msg (be 32 r ++ be 32 s) k = Ok true <->
        ecdsa_valid (of_be (keccak256 std msg)) r s (x, y))).
Proof.
  intros (Hp & _ & Hv) Hz. destruct (SecpCurveFacts.secp_public _ Hz) as (O & T).
  exists (fst (std_secp_pub (x_key z))), (snd (std_secp_pub (x_key z))). rewrite <- surjective_pairing.
  split; [exact Hp|]. split; [exact O|]. split; [exact T|]. intros msg r s Hr Hs.
  rewrite SecpCurveFacts.order_n in Hr, Hs. rewrite (Hv msg r s Hr Hs).
  etransitivity; [apply ok_true|]. exact (SecpEcdsaFacts.ecdsa_exact _ _ _ _ O).
Qed.

Theorem secp_key (f : KeyFactory) (n : N) :
  (f = btc_factory std /\ n = 2 ^ 31) \/ (f = eth_factory std /\ n = 2 ^ 31 + 60) ->
  forall x z k, kp_wf k -> path_ok n k -> xprv_wf x -> derives std x (path_values k) z ->
  exists K, key_from_data f (xprv_layout std x) = Ok K /\
  forall msg, let e := of_be (keccak256 std msg) in let q := std_secp_pub (x_key z) in
    (forall sig, sign K msg k = Ok sig ->
       exists r s v, sig = be 32 r ++ be 32 s ++ [n2b v] /\ ecdsa_made e (x_key z) r s v /\
         0 < r < secp_order /\ 0 < s <= secp_order / 2 /\ v < 2) /\
    (forall r s, r < 2 ^ 256 -> s < 2 ^ 256 ->
       (verify K msg (be 32 r ++ be 32 s) k = Ok true <->
        ecdsa_valid e (r mod secp_order) (s mod secp_order) q)) /\
    (forall r s, r < secp_order -> s < secp_order -> verify K msg (be 32 r ++ be 32 s) k = Ok true ->
       verify K msg (be 32 r ++ be 32 (secp_order - s)) k = Ok true).
Proof.
  intros Hf x z k Hk Hok Hwf Hd. pose proof (path_range _ _ _ _ Hd) as Hz.
  destruct (SecpCurveFacts.secp_public _ Hz) as (O & _).
  destruct (sign_exact std f n std_ok Hf x z k Hk Hok Hwf Hd) as (K & HK & H). exists K. split; [exact HK|].
  intros msg. cbv zeta. destruct (H msg) as (HN & HS & _ & HV). clear H.
  assert (V : forall r s, r < 2 ^ 256 -> s < 2 ^ 256 ->
       (verify K msg (be 32 r ++ be 32 s) k = Ok true <->
        ecdsa_valid (of_be (keccak256 std msg)) (r mod secp_order) (s mod secp_order) (std_secp_pub (x_key z)))).
  { intros r s Hr Hs. rewrite (HV r s Hr Hs), SecpCurveFacts.order_n.
    etransitivity; [apply ok_true|]. exact (SecpEcdsaFacts.ecdsa_exact _ _ _ _ O). }
  split; [|split; [exact V|]].
  - intros sig Hs. destruct (secp_sign std (keccak256 std msg) (x_key z)) as [[[r s] v]|] eqn:E.
    + rewrite sign_std in E. destruct (SecpEcdsaFacts.ecdsa_signs _ _ _ _ _ E) as (M & R & S).
      destruct (HS r s v eq_refl) as (H1 & H2).
      destruct (N.lt_ge_cases v 2) as [Lv|Lv]; [|rewrite (H2 Lv) in Hs; discriminate].
      rewrite (H1 Lv) in Hs. injection Hs as <-. exists r, s, v. auto.
    + rewrite (HN eq_refl) in Hs. discriminate.
  - intros r s Hr Hs HT. assert (B : secp_order < 2 ^ 256) by reflexivity.
    apply (V r s (N.lt_trans _ _ _ Hr B) (N.lt_trans _ _ _ Hs B)) in HT.
    rewrite (N.mod_small r), (N.mod_small s) in HT by assumption.
    assert (0 < s) as Ps by apply HT.
    apply (SecpEcdsaFacts.ecdsa_malleable _ _ _ _ Hz) in HT.
    apply V; [now apply (N.lt_trans _ _ _ Hr B)|apply N.le_lt_trans with secp_order; [apply N.le_sub_l|exact B]|].
    rewrite (N.mod_small r), (N.mod_small (secp_order - s)); [exact HT| |assumption].
    apply N.sub_lt; [apply N.lt_le_incl; exact Hs|exact Ps].
Qed.

Theorem ed_keychain y kc n k b a : answers_ed std y kc n k ->
  ed_generator b -> ed_times (little (firstn 32 y)) b a ->
  exists pk, kc_pub_key kc n k = Ok pk /\ ed_on a /\ ed_encodes (firstn 32 pk) a /\
    (forall msg sg, length sg = 64%nat ->
       (kc_verify kc n msg sg k = Ok true <-> eddsa_valid std_sha512 a (firstn 32 pk) msg sg)) /\
    (forall msg sg, kc_sign kc n msg k = Ok sg -> eddsa_valid std_sha512 a (firstn 32 pk) msg sg).
Proof.
  intros (Hp & Hs & Hv) Hb Ha. exists (std_ed_public y). split; [exact Hp|].
  destruct (EdCurveFacts.ed_public_key y b Hb) as (a' & Ta & Oa & Ea).
  assert (a' = a) as ->.
  { pose proof Hb as Hb'. apply EdCurveFacts.ed_one_generator in Hb'. subst b.
    apply EdCurveFacts.base_times in Ta. apply EdCurveFacts.base_times in Ha. now rewrite Ta, Ha. }
  split; [exact Oa|]. split; [exact Ea|].
  assert (X : forall msg sg, ed_verify std y msg sg = true <-> eddsa_valid std_sha512 a (firstn 32 (std_ed_public y)) msg sg)
    by (intros msg sg; exact (EdCurveFacts.eddsa_exact y msg sg b a Hb Ha)).
  split.
  - intros msg sg L. rewrite (Hv msg sg L). etransitivity; [apply ok_true|apply X].
  - intros msg sg. rewrite Hs. intros [= <-]. apply X. apply EdSignFacts.std_ed_correct.
Qed.

(** * Derivation of public keys *)
Lemma pub_sum j k i : 0 < j < secp_order -> 0 < k < secp_order -> 0 < i < secp_order ->
  (j + k) mod secp_order = i ->
  secp_sum (Some (std_secp_pub j)) (Some (std_secp_pub k)) (Some (std_secp_pub i)).
Proof.
  rewrite SecpCurveFacts.order_n. intros Hj Hk Hi E.
  rewrite <- (SecpCurveFacts.pub_out j), <- (SecpCurveFacts.pub_out k), <- (SecpCurveFacts.pub_out i)
    by now apply SecpSignFacts.ni_small.
  apply (SecpCurveFacts.sum_to _ _ _ (SecpCurveFacts.on_out _) (SecpCurveFacts.on_out _)).
  rewrite !SecpCurveFacts.to_out, SecpSignFacts.g_add.
  rewrite (SecpSignFacts.g_cong i (j + k)); [reflexivity|]. rewrite <- E. apply SecpSignFacts.ni_mod.
Qed.
Theorem secp_child_point x i y : 0 < x_key x < secp_order -> ckd_defined std x i -> is_child std x i y ->
  secp_sum (Some (std_secp_pub (ckd_left std x i))) (Some (std_secp_pub (x_key x))) (Some (std_secp_pub (x_key y))).
Proof.
  intros Hx (Hl & Hk) (Ey & _). unfold left_ok in Hl. rewrite <- SecpCurveFacts.order_n in Hl.
  unfold ckd_key in Hk, Ey. rewrite <- SecpCurveFacts.order_n in Hk, Ey.
  revert Hl Hk Ey. generalize (ckd_left std x i) as w. intros w Hl Hk Ey.
  assert (Hi : 0 < x_key y < secp_order).
  { rewrite Ey. split; [apply N.neq_0_lt_0; exact Hk|]. apply N.mod_lt. discriminate. }
  exact (pub_sum w (x_key x) (x_key y) Hl Hx Hi (eq_sym Ey)).
Qed.
(** A soft child needs only the public key and the chain code. *)
Theorem secp_child_public x x' i y y' : i < 2 ^ 31 ->
  0 < x_key x < secp_order -> 0 < x_key x' < secp_order ->
  std_secp_pub (x_key x) = std_secp_pub (x_key x') -> x_chaincode x = x_chaincode x' ->
  is_child std x i y -> is_child std x' i y' -> x_key y = x_key y' /\ x_chaincode y = x_chaincode y'.
Proof.
  intros Hi Hx Hx' E Ec (Ey & Ey' & _) (Ez & Ez' & _).
  pose proof (SecpCurveFacts.secp_public_one _ _ Hx Hx' E) as Ek.
  assert (ckd_hmac std x i = ckd_hmac std x' i) as Eh by (unfold ckd_hmac; now rewrite Ek, Ec).
  assert (ckd_left std x i = ckd_left std x' i) as El by (unfold ckd_left; rewrite Eh; reflexivity).
  assert (ckd_right std x i = ckd_right std x' i) as Er by (unfold ckd_right; rewrite Eh; reflexivity).
  rewrite Ey, Ey', Ez, Ez', Er. split; [|reflexivity]. unfold ckd_key. rewrite El, Ek. reflexivity.
Qed.

Lemma of_le_lt b : of_le b < 256 ^ N.of_nat (length b).
Proof.
  induction b as [|c b IH]; [reflexivity|]. cbn [of_le length]. rewrite Nat2N.inj_succ, N.pow_succ_r'.
  pose proof (b2n_lt c). lia.
Qed.
Lemma le_rev k : forall n, le k n = rev (be k n).
Proof. induction k as [|k IH]; intros n; [reflexivity|]. cbn [le be]. rewrite rev_app_distr, IH. reflexivity. Qed.
Lemma halves (x : bytes) : kl x ++ kr x = firstn 64 x.
Proof.
  unfold kl, kr, slice. rewrite <- (firstn_skipn 32 (firstn 64 x)), firstn_firstn. change (Nat.min 32 64) with 32%nat.
  f_equal. change 64%nat with (32 + 32)%nat at 2. now rewrite <- firstn_skipn_comm.
Qed.
Definition hmac := std_hmac_sha512.
Lemma ed_hash_eq hard soft x i :
  std_hmac_sha512 (cc x) ((if 2 ^ 31 <=? i then hard else soft) :: (if 2 ^ 31 <=? i then kl x ++ kr x else ed_pk x) ++ le 4 i)
  = ed_hash hmac hard soft x (ed_pk x) i.
Proof. unfold ed_hash, hmac, cc. rewrite halves, <- le_rev. now destruct (2 ^ 31 <=? i). Qed.
Lemma of_le_mod k : forall n, of_le (le k n) = n mod 256 ^ N.of_nat k.
Proof.
  induction k as [|k IH]; intros n; [now rewrite N.mod_1_r|]. cbn [le of_le].
  rewrite Nat2N.inj_succ, N.pow_succ_r', IH, b2n_n2b. symmetry. apply N.mod_mul_r; [discriminate|].
  apply N.pow_nonzero. discriminate.
Qed.
Lemma derive_parts x i :
  std_ed_derive x i = le 32 (of_le (kl x) + 8 * of_le (firstn 28 (ed_hash hmac x00 x02 x (ed_pk x) i))) ++
    le 32 (of_le (kr x) + of_le (slice 32 64 (ed_hash hmac x00 x02 x (ed_pk x) i))) ++
    skipn 32 (ed_hash hmac x01 x03 x (ed_pk x) i).
Proof. rewrite <- !ed_hash_eq. reflexivity. Qed.
Theorem ed_child_bytes x i : ed_child std_hmac_sha512 x (firstn 32 (std_ed_public x)) i (std_ed_derive x i).
Proof.
  rewrite EdCurveFacts.pk_first. fold hmac. unfold ed_child, ed_tweak.
  split; [apply (ed_derive_len std std_ok)|]. rewrite derive_parts.
  set (z := ed_hash hmac x00 x02 _ _ _). set (c := ed_hash hmac x01 x03 _ _ _).
  assert (Lc : length c = 64%nat) by apply std_hmac_length.
  rewrite EdSignFacts.firstn_app_exact by apply le_length.
  assert (E2 : forall a b : bytes, length a = 32%nat -> length b = 32%nat -> slice 32 64 (a ++ b ++ skipn 32 c) = b).
  { intros a b La Lb. unfold slice. rewrite EdSignFacts.skipn_app_exact by exact La.
    apply EdSignFacts.firstn_app_exact. exact Lb. }
  assert (E3 : forall a b : bytes, length a = 32%nat -> length b = 32%nat -> slice 64 96 (a ++ b ++ skipn 32 c) = skipn 32 c).
  { intros a b La Lb. unfold slice. rewrite app_assoc, EdSignFacts.skipn_app_exact by (rewrite app_length, La, Lb; reflexivity).
    apply firstn_all2. rewrite skipn_length, Lc. apply Nat.le_refl. }
  rewrite E2, E3 by apply le_length. clear E2 E3. clearbody z c.
  fold (kl x) (kr x).
  repeat match goal with |- context [little ?b] => rewrite (EdCurveFacts.little_of_le b) end.
  rewrite !of_le_mod. change (256 ^ N.of_nat 32) with (2 ^ 256). repeat split.
Qed.
Lemma kl_child x i : of_le (kl x) < 2 ^ 255 ->
  of_le (kl (std_ed_derive x i)) = of_le (kl x) + 8 * ed_tweak hmac x (ed_pk x) i.
Proof.
  intros H. unfold ed_tweak. rewrite derive_parts. unfold kl at 1.
  rewrite EdSignFacts.firstn_app_exact by apply le_length.
  match goal with |- context [little ?b] => rewrite (EdCurveFacts.little_of_le b) end.
  apply EdSignFacts.of_le_le. set (w := firstn 28 _).
  assert (W : of_le w < 2 ^ 224).
  { eapply N.lt_le_trans; [apply of_le_lt|]. change (2 ^ 224) with (256 ^ 28). apply N.pow_le_mono_r; [discriminate|].
    unfold w. rewrite firstn_length. lia. }
  change (256 ^ N.of_nat 32) with (2 ^ 256).
  assert (B : 2 ^ 255 + 8 * 2 ^ 224 < 2 ^ 256) by reflexivity. revert H W B.
  generalize (2 ^ 255) as u, (2 ^ 224) as v, (2 ^ 256) as t. intros. lia.
Qed.
Lemma tweak_lt x pk i : ed_tweak hmac x pk i < 2 ^ 224.
Proof.
  unfold ed_tweak. match goal with |- context [little ?b] => rewrite (EdCurveFacts.little_of_le b) end. eapply N.lt_le_trans; [apply of_le_lt|].
  change (2 ^ 224) with (256 ^ 28). apply N.pow_le_mono_r; [discriminate|]. rewrite firstn_length. lia.
Qed.

Theorem ed_child_point x i b a : ed_generator b -> little (firstn 32 x) < 2 ^ 255 ->
  ed_times (little (firstn 32 x)) b a ->
  exists s t, ed_times (8 * ed_tweak std_hmac_sha512 x (firstn 32 (std_ed_public x)) i) b s /\
    ed_sum a s t /\ ed_encodes (firstn 32 (std_ed_public (std_ed_derive x i))) t.
Proof.
  intros Hb Hx Ha. apply EdCurveFacts.ed_one_generator in Hb. subst b. apply EdCurveFacts.base_times in Ha.
  rewrite EdCurveFacts.pk_first. fold hmac. rewrite (EdCurveFacts.little_of_le (firstn 32 x)) in Hx, Ha. fold (kl x) in Hx, Ha.
  pose proof (kl_child x i Hx) as E. set (w := 8 * _) in *. clearbody w.
  exists (EdCurveFacts.out (proj1_sig (EdGroupFacts.gmul w EdGroupFacts.gbase))),
    (EdCurveFacts.out (proj1_sig (EdGroupFacts.gmul (of_le (kl x) + w) EdGroupFacts.gbase))).
  split; [now apply EdCurveFacts.base_times|]. split.
  - subst a. apply (EdCurveFacts.sum_to _ _ _ (EdCurveFacts.on_out _) (EdCurveFacts.on_out _)).
    rewrite !EdCurveFacts.to_out. do 2 f_equal.
    exact (GroupFacts.multiple_add EdGroupFacts.pt EdGroupFacts.gadd EdGroupFacts.gzero EdGroupFacts.g_assoc EdGroupFacts.g_ident
      (of_le (kl x)) w EdGroupFacts.gbase).
  - rewrite EdCurveFacts.pk_first, EdCurveFacts.pk_encode, E. apply EdCurveFacts.encode_ok.
Qed.

(** A soft child's public key needs only the parent's public key (with the
    chain code). *)
Theorem ed_child_public x x' i : i < 2 ^ 31 -> length x = 96%nat -> length x' = 96%nat ->
  little (firstn 32 x) < 2 ^ 255 -> little (firstn 32 x') < 2 ^ 255 ->
  std_ed_public x = std_ed_public x' -> std_ed_public (std_ed_derive x i) = std_ed_public (std_ed_derive x' i).
Proof.
  intros Hi Lx Lx' Hx Hx' E.
  assert (Ep : ed_pk x = ed_pk x').
  { rewrite <- !EdCurveFacts.pk_first. now rewrite E. }
  assert (Ec : cc x = cc x').
  { assert (C : forall y, length y = 96%nat -> skipn 32 (std_ed_public y) = cc y).
    { intros y L. unfold std_ed_public. rewrite EdSignFacts.skipn_app_exact by apply ext_encode_length.
      apply EdSignFacts.firstn_app_exact. unfold cc, slice. rewrite firstn_length, skipn_length, L. reflexivity. }
    now rewrite <- (C x Lx), <- (C x' Lx'), E. }
  assert (Es : (2 ^ 31 <=? i) = false) by now apply N.leb_gt.
  assert (Pk : ed_pk (std_ed_derive x i) = ed_pk (std_ed_derive x' i)).
  { rewrite <- !EdCurveFacts.pk_first. apply EdCurveFacts.ed_public_one.
    rewrite (EdCurveFacts.little_of_le (firstn 32 (std_ed_derive x i))), (EdCurveFacts.little_of_le (firstn 32 (std_ed_derive x' i))).
    fold (kl (std_ed_derive x i)) (kl (std_ed_derive x' i)).
    rewrite !kl_child by (unfold kl; now rewrite <- EdCurveFacts.little_of_le).
    assert (T : ed_tweak hmac x (ed_pk x) i = ed_tweak hmac x' (ed_pk x') i).
    { unfold ed_tweak, ed_hash. rewrite Es. fold (cc x) (cc x'). now rewrite Ec, Ep. }
    rewrite T. rewrite N.add_mod, (N.add_mod (of_le (kl x'))) by discriminate.
    replace (of_le (kl x) mod ed_order) with (of_le (kl x') mod ed_order); [reflexivity|].
    assert (F : firstn 32 (std_ed_public x) = firstn 32 (std_ed_public x')) by now rewrite E.
    apply EdCurveFacts.ed_public_one in F. symmetry. unfold kl.
    rewrite <- (EdCurveFacts.little_of_le (firstn 32 x)), <- (EdCurveFacts.little_of_le (firstn 32 x')). exact F. }
  unfold std_ed_public at 1 2. rewrite Pk. f_equal. f_equal. f_equal.
  unfold std_ed_derive. cbv zeta. change 0x80000000 with (2 ^ 31). rewrite Es, Ec, Ep.
  set (z := std_hmac_sha512 _ _). set (j := std_hmac_sha512 _ _).
  assert (S : forall n m, cc (le 32 n ++ le 32 m ++ skipn 32 j) = firstn 32 (skipn 32 j)).
  { intros n m. unfold cc, slice. rewrite app_assoc, EdSignFacts.skipn_app_exact; [reflexivity|].
    now rewrite app_length, !le_length. }
  now rewrite !S.
Qed.

(** Every key on a path of a loaded Cardano key is below 2^255. *)
Lemma verified_small data x : from_bytes_verified data = Ok x -> length data = 96%nat ->
  x = data /\ of_le (kl x) < 2 ^ 254 + 2 ^ 253.
Proof.
  unfold from_bytes_verified. destruct (negb _) eqn:E; [discriminate|]. destruct (negb (N.land _ 7 =? 0)); [discriminate|].
  intros [= <-] L. split; [reflexivity|]. apply negb_false_iff, N.eqb_eq in E.
  assert (B : b2n (nth 31 data x00) < 96).
  { destruct (nth 31 data x00); revert E; vm_compute; try reflexivity; discriminate. }
  assert (K : kl data = firstn 31 data ++ [nth 31 data x00]).
  { unfold kl. do 32 (destruct data as [|? data]; [discriminate L|]). reflexivity. }
  rewrite K. assert (A : forall a c, of_le (a ++ [c]) = of_le a + 256 ^ N.of_nat (length a) * b2n c).
  { induction a as [|d a IH]; intros c; cbn [app of_le length]; [change (256 ^ N.of_nat 0) with 1; lia|].
    rewrite IH, Nat2N.inj_succ, N.pow_succ_r'. lia. }
  rewrite A. pose proof (of_le_lt (firstn 31 data)) as O.
  assert (length (firstn 31 data) = 31%nat) as F by (rewrite firstn_length; lia). rewrite F in O |- *.
  change (256 ^ N.of_nat 31) with (2 ^ 248) in *. replace (2 ^ 254 + 2 ^ 253) with (2 ^ 248 * 96) by reflexivity.
  revert O B. generalize (of_le (firstn 31 data)) as w, (2 ^ 248) as u, (b2n (nth 31 data x00)) as v. intros w u v O B.
  assert (u * (v + 1) <= u * 96) by (apply N.mul_le_mono_l; lia). lia.
Qed.
Theorem ed_path_small data x l : from_bytes_verified data = Ok x -> length data = 96%nat ->
  (length l <= 5)%nat ->
  little (firstn 32 (ed_derive_along std x l)) < 2 ^ 255 /\ length (ed_derive_along std x l) = 96%nat.
Proof.
  intros Hd L Hl. destruct (verified_small _ _ Hd L) as (-> & B). clear Hd.
  assert (G : forall l x, length x = 96%nat -> of_le (kl x) + 2 ^ 227 * N.of_nat (length l) < 2 ^ 255 ->
    of_le (kl (ed_derive_along std x l)) < 2 ^ 255 /\ length (ed_derive_along std x l) = 96%nat).
  { clear. induction l as [|i l IH]; intros x L B.
    - cbn [length] in B. rewrite N.mul_0_r, N.add_0_r in B. split; assumption.
    - apply (IH (std_ed_derive x i)); [apply (ed_derive_len std std_ok)|].
      assert (P : of_le (kl x) < 2 ^ 255) by (eapply N.le_lt_trans; [|exact B]; apply N.le_add_r).
      rewrite (kl_child x i P). pose proof (tweak_lt x (ed_pk x) i) as T.
      replace (2 ^ 227) with (8 * 2 ^ 224) in * by reflexivity. cbn [length] in B. rewrite Nat2N.inj_succ in B.
      revert T B. generalize (2 ^ 224) as u, (2 ^ 255) as v, (ed_tweak hmac x (ed_pk x) i) as w. intros. nia. }
  destruct (G l data L) as (G1 & G2).
  - apply N.lt_le_trans with (2 ^ 254 + 2 ^ 253 + 2 ^ 227 * 5); [|discriminate].
    apply N.add_lt_le_mono; [exact B|]. apply N.mul_le_mono_l. lia.
  - split; [|exact G2]. rewrite (EdCurveFacts.little_of_le (firstn 32 (ed_derive_along std data l))). exact G1.
Qed.

(** Cases. *)
Lemma ed_child_case : exists x x' : bytes, x <> x' /\ length x = 96%nat /\ length x' = 96%nat /\
  little (firstn 32 x) < 2 ^ 255 /\ little (firstn 32 x') < 2 ^ 255 /\ std_ed_public x = std_ed_public x'.
Proof.
  exists (le 32 7 ++ repeat x00 64), (le 32 (7 + ed_l) ++ repeat x01 32 ++ repeat x00 32).
  split; [vm_compute; discriminate|]. split; [reflexivity|]. split; [reflexivity|].
  split; [vm_compute; reflexivity|]. split; [vm_compute; reflexivity|].
  assert (F : firstn 32 (std_ed_public (le 32 7 ++ repeat x00 64))
    = firstn 32 (std_ed_public (le 32 (7 + ed_l) ++ repeat x01 32 ++ repeat x00 32))).
  { apply EdCurveFacts.ed_public_one. vm_compute. reflexivity. }
  rewrite !EdCurveFacts.pk_first in F. unfold std_ed_public. rewrite F. f_equal.
Qed.
Lemma eddsa_case : exists x m sg b a, ed_generator b /\ ed_times (little (firstn 32 x)) b a /\
  eddsa_valid std_sha512 a (firstn 32 (std_ed_public x)) m sg /\ a <> (0, 1).
Proof.
  exists (le 32 7), [x05], (std_ed_sign (le 32 7) [x05]), ed_g.
  pose proof (proj2 (EdCurveFacts.ed_one_generator ed_g) eq_refl) as Hb.
  destruct (EdCurveFacts.ed_public_key (le 32 7) ed_g Hb) as (a & Ta & Oa & _). exists a.
  split; [exact Hb|]. split; [exact Ta|]. split.
  - apply (EdCurveFacts.eddsa_exact (le 32 7) [x05] _ ed_g a Hb Ta). apply EdSignFacts.std_ed_correct.
  - intros ->. apply (proj2 (EdCurveFacts.ed_generated ed_g Hb)) in Ta. vm_compute in Ta. discriminate.
Qed.
