(** The tag of the standard cipher is that of RFC 8439, and how often two
    different messages have tags of a given difference. *)
From Coq Require Import Znumtheory.
From Verif Require Import Base BaseFacts Prims Errors Crypt Data Keychain Manager CryptSpec CryptFacts CurveSpec StdHash StdCipher Std StdFacts CipherSpec PolyFacts.
Open Scope N_scope.

(** * Numbers of bytes *)
Lemma little_eq b : little b = of_le b.
Proof. induction b as [|c b IH]; cbn; [reflexivity|now rewrite IH]. Qed.
Lemma little_bound b : little b < 256 ^ N.of_nat (length b).
Proof.
  induction b as [|c b IH]; [reflexivity|]. cbn [little length]. rewrite Nat2N.inj_succ, N.pow_succ_r'.
  pose proof (b2n_lt c). lia.
Qed.
Lemma little_same (a b : bytes) : length a = length b -> little a = little b -> a = b.
Proof.
  revert b. induction a as [|c a IH]; intros [|d b]; cbn [length little]; try discriminate; [reflexivity|].
  intros [= L] E. pose proof (b2n_lt c). pose proof (b2n_lt d).
  assert (b2n c = b2n d /\ little a = little b) as (E1 & E2) by lia.
  f_equal; [now apply b2n_inj|now apply IH].
Qed.
Lemma little_le k n : little (le k n) = n mod 256 ^ N.of_nat k.
Proof.
  revert n. induction k as [|k IH]; intros n; cbn [le little].
  - now rewrite N.mod_1_r.
  - rewrite IH, Nat2N.inj_succ, N.pow_succ_r', b2n_n2b.
    rewrite (N.mod_mul_r n 256) by (try apply N.pow_nonzero; discriminate). reflexivity.
Qed.
Lemma of_le_app_one b : of_le (b ++ [x01]) = block_number b.
Proof.
  unfold block_number. rewrite (little_eq b). induction b as [|c b IH]; [reflexivity|].
  cbn [app of_le length]. rewrite IH, Nat2N.inj_succ, N.pow_succ_r'. lia.
Qed.
Lemma le_zeros k : le k 0 = repeat x00 k.
Proof. induction k as [|k IH]; [reflexivity|]. cbn [le repeat]. change (0 / 256) with 0. now rewrite IH. Qed.

(** * Pieces *)
Lemma first_exact {A} (a b : list A) k : length a = k -> firstn k (a ++ b) = a.
Proof. intros <-. rewrite firstn_app, firstn_all, Nat.sub_diag. apply app_nil_r. Qed.
Lemma rest_exact {A} (a b : list A) k : length a = k -> skipn k (a ++ b) = b.
Proof. intros <-. now rewrite skipn_app, skipn_all, Nat.sub_diag. Qed.
Lemma chunks_from_blocks bs : forall i cur, (length cur + i = 15)%nat ->
  in_blocks (rev cur ++ bs) (chunks_from 15 i cur bs).
Proof.
  induction bs as [|b bs IH]; intros i cur H; cbn [chunks_from].
  - rewrite app_nil_r. destruct cur as [|c cur]; [constructor|].
    apply blocks_last. rewrite rev_length. cbn [length] in *. lia.
  - destruct i as [|i].
    + replace (rev cur ++ b :: bs) with (rev (b :: cur) ++ bs) by (cbn [rev]; now rewrite <- app_assoc).
      apply blocks_more; [rewrite rev_length; cbn [length]; lia|]. now apply (IH 15%nat []).
    + replace (rev cur ++ b :: bs) with (rev (b :: cur) ++ bs) by (cbn [rev]; now rewrite <- app_assoc).
      apply IH. cbn [length]. lia.
Qed.
Lemma chunks_blocks m : in_blocks m (chunks 16 m).
Proof. exact (chunks_from_blocks m 15%nat [] eq_refl). Qed.
Lemma blocks_concat m l : in_blocks m l -> m = concat l.
Proof. induction 1; cbn [concat]; rewrite ?app_nil_r; congruence. Qed.
Lemma blocks_nil l : in_blocks [] l -> l = [].
Proof.
  intros H. inversion H as [|b Hb|b m l' Hb Hl E]; subst; [reflexivity|cbn in Hb; lia|].
  apply app_eq_nil in E. destruct E as (-> & _). discriminate.
Qed.
Lemma blocks_fun m l : in_blocks m l -> forall l', in_blocks m l' -> l = l'.
Proof.
  induction 1 as [|b Hb|b m l Hb Hl IH]; intros l' H'.
  - symmetry. now apply blocks_nil.
  - inversion H' as [|b' Hb'|b' m' l'' Hb' Hl' E]; subst; [cbn in Hb; lia|reflexivity|].
    rewrite app_length in Hb. lia.
  - inversion H' as [E|b' Hb'|b' m' l'' Hb' Hl' E]; subst.
    + symmetry in E. apply app_eq_nil in E. destruct E as (-> & _). discriminate.
    + rewrite app_length in Hb'. lia.
    + assert (b' = b /\ m' = m) as (-> & ->).
      { pose proof (f_equal (firstn 16) E) as E1. pose proof (f_equal (skipn 16) E) as E2.
        rewrite !first_exact in E1 by assumption. rewrite !rest_exact in E2 by assumption.
        now split. }
      f_equal. now apply IH.
Qed.
Lemma blocks_short m l : in_blocks m l -> Forall (fun b => (length b <= 16)%nat) l.
Proof. induction 1; repeat (apply Forall_cons || apply Forall_nil); try lia; assumption. Qed.
Lemma blocks_count m l : in_blocks m l -> length l = ((length m + 15) / 16)%nat.
Proof.
  induction 1 as [|b Hb|b m l Hb Hl IH]; cbn [length].
  - reflexivity.
  - apply Nat.div_unique with (length b - 1)%nat; lia.
  - rewrite app_length, IH, Hb. replace (16 + length m + 15)%nat with (length m + 15 + 1 * 16)%nat by lia.
    rewrite Nat.div_add by discriminate. lia.
Qed.

Lemma block_number_range b : (length b <= 16)%nat -> 0 < block_number b < poly_prime.
Proof.
  intros H. unfold block_number. pose proof (little_bound b).
  assert (256 ^ N.of_nat (length b) <= 256 ^ 16) by (apply N.pow_le_mono_r; lia).
  assert (0 < 256 ^ N.of_nat (length b)) by (apply N.neq_0_lt_0, N.pow_nonzero; discriminate).
  assert (E : 256 ^ 16 + 256 ^ 16 < poly_prime) by reflexivity.
  remember poly_prime as q. remember (256 ^ 16) as u. remember (256 ^ N.of_nat (length b)) as v. lia.
Qed.
Lemma block_number_inj a b : block_number a = block_number b -> a = b.
Proof.
  unfold block_number. intros E. pose proof (little_bound a). pose proof (little_bound b).
  assert (L : length a = length b).
  { destruct (Nat.lt_trichotomy (length a) (length b)) as [L|[L|L]]; [exfalso|assumption|exfalso].
    - assert (256 ^ N.succ (N.of_nat (length a)) <= 256 ^ N.of_nat (length b)) as P by (apply N.pow_le_mono_r; lia).
      rewrite N.pow_succ_r' in P. lia.
    - assert (256 ^ N.succ (N.of_nat (length b)) <= 256 ^ N.of_nat (length a)) as P by (apply N.pow_le_mono_r; lia).
      rewrite N.pow_succ_r' in P. lia. }
  apply little_same; [assumption|]. rewrite L in E. lia.
Qed.
Lemma numbers_inj l l' : List.map block_number l = List.map block_number l' -> l = l'.
Proof.
  revert l'. induction l as [|a l IH]; intros [|b l'] E; cbn [List.map] in E; try discriminate; [reflexivity|].
  injection E as E1 E2. f_equal; [now apply block_number_inj|now apply IH].
Qed.

(** * The tag *)
Lemma poly_nz : poly_p <> 0.
Proof. discriminate. Qed.
Lemma horner r l : forall a, a < poly_p ->
  fold_left (fun a block => ((a + of_le (block ++ [x01])) * r) mod poly_p) l a =
  (a * r ^ N.of_nat (length l) + poly_sum l r) mod poly_p.
Proof.
  induction l as [|b l IH]; intros a Ha; cbn [fold_left poly_sum length].
  - rewrite N.pow_0_r, N.mul_1_r, N.add_0_r, N.mod_small; [reflexivity|assumption].
  - rewrite IH by (apply N.mod_lt, poly_nz). rewrite of_le_app_one.
    rewrite Nat2N.inj_succ, N.pow_succ_r'.
    rewrite <- N.add_mod_idemp_l by exact poly_nz.
    rewrite N.mul_mod_idemp_l by exact poly_nz. rewrite N.add_mod_idemp_l by exact poly_nz.
    f_equal. ring.
Qed.
Lemma poly1305_tag block m : (32 <= length block)%nat ->
  mac_tag (tag_r block) (tag_s block) m (poly1305 (firstn 32 block) m).
Proof.
  intros L. exists (chunks 16 m). split; [apply chunks_blocks|]. unfold poly1305. cbv zeta.
  split; [apply le_length|]. rewrite little_le. rewrite horner by reflexivity.
  rewrite N.mul_0_l, N.add_0_l. unfold tag_r, tag_s, clamp. rewrite (little_eq (firstn 16 block)), (little_eq (slice 16 32 block)), firstn_firstn.
  change (Nat.min 16 32) with 16%nat.
  change (256 ^ N.of_nat 16) with (2 ^ 128). change poly_prime with poly_p. f_equal. f_equal.
  f_equal. unfold slice. change 32%nat with (16 + 16)%nat. now rewrite firstn_skipn_comm.
Qed.
Lemma pad_multiple n : Nat.divide 16 (n + (16 - n mod 16) mod 16).
Proof.
  exists ((n + 15) / 16)%nat.
  pose proof (Nat.div_mod n 16 ltac:(discriminate)) as E. pose proof (Nat.mod_upper_bound n 16 ltac:(discriminate)).
  remember (n / 16)%nat as q. remember (n mod 16)%nat as r.
  destruct (Nat.eq_dec r 0) as [Hr|Hr].
  - rewrite Hr. change ((16 - 0) mod 16)%nat with 0%nat.
    assert ((n + 15) / 16 = q)%nat as ->; [|lia]. symmetry. apply Nat.div_unique with 15%nat; lia.
  - rewrite (Nat.mod_small (16 - r)) by lia.
    assert ((n + 15) / 16 = q + 1)%nat as ->; [|lia]. symmetry. apply Nat.div_unique with (r - 1)%nat; lia.
Qed.
Lemma message_of ct : aead_message ct
  (ct ++ repeat x00 ((16 - length ct mod 16) mod 16) ++ le 8 0 ++ le 8 (N.of_nat (length ct))).
Proof.
  exists ((16 - length ct mod 16) mod 16)%nat, (le 8 (N.of_nat (length ct))). repeat split.
  - apply Nat.mod_upper_bound. discriminate.
  - apply pad_multiple.
  - apply little_le.
Qed.
Lemma message_fun ct m m' : aead_message ct m -> aead_message ct m' -> m = m'.
Proof.
  intros (z & l & Hz & (q & Dz) & Ll & El & ->) (z' & l' & Hz' & (q' & Dz') & Ll' & El' & ->).
  assert (z = z') as <- by lia. assert (l = l') as <- by (apply little_same; congruence). reflexivity.
Qed.
Theorem chacha_tag_is key nonce ct m : aead_message ct m ->
  let block := chacha_block key nonce 0 in
  mac_tag (tag_r block) (tag_s block) m (std_chacha_tag key nonce ct).
Proof.
  intros H. rewrite (message_fun ct m _ H (message_of ct)). unfold std_chacha_tag. cbv zeta.
  apply poly1305_tag. rewrite chacha_block_length. lia.
Qed.
Lemma mac_tag_fun r s m t t' : mac_tag r s m t -> mac_tag r s m t' -> t = t'.
Proof.
  intros (l & Hl & L & E) (l' & Hl' & L' & E'). rewrite (blocks_fun m l' Hl' l Hl) in E'.
  apply little_same; congruence.
Qed.

(** * Differences *)
Lemma value_app l m x : (value (l ++ m) x = value l x + x ^ Z.of_nat (length l) * value m x)%Z.
Proof.
  induction l as [|c l IH]; cbn [app value length].
  - change (Z.of_nat 0) with 0%Z. rewrite Z.pow_0_r. ring.
  - rewrite IH, Nat2Z.inj_succ, Z.pow_succ_r by apply Nat2Z.is_nonneg. ring.
Qed.
Definition coefficients (l : list bytes) : list Z := rev (List.map (fun b => Z.of_N (block_number b)) l).
Lemma sum_value l r : (Z.of_N (poly_sum l r) = Z.of_N r * value (coefficients l) (Z.of_N r))%Z.
Proof.
  unfold coefficients. induction l as [|b l IH]; cbn [poly_sum List.map rev value]; [cbn; ring|].
  rewrite value_app, rev_length, map_length. rewrite N2Z.inj_add, N2Z.inj_mul, N2Z.inj_pow, IH.
  rewrite nat_N_Z, Nat2Z.inj_succ, Z.pow_succ_r by apply Nat2Z.is_nonneg. cbn [value]. ring.
Qed.
Lemma coefficients_inj l l' : coefficients l = coefficients l' -> l = l'.
Proof.
  unfold coefficients. intros E. apply (f_equal (@rev Z)) in E. rewrite !rev_involutive in E.
  apply numbers_inj. revert l' E. induction l as [|a l IH]; intros [|b l'] E; cbn [List.map] in *; try discriminate; [reflexivity|].
  injection E as E1 E2. rewrite (IH l' E2). f_equal. exact (N2Z.inj _ _ E1).
Qed.
Lemma coefficients_range l : Forall (fun b => (length b <= 16)%nat) l ->
  Forall (fun c => (0 < c < Z.of_N poly_prime)%Z) (coefficients l).
Proof.
  intros H. unfold coefficients. apply Forall_rev. induction H as [|b l Hb Hl IH]; constructor; [|assumption].
  pose proof (block_number_range b Hb). remember poly_prime as q. lia.
Qed.
Lemma coefficients_length l : length (coefficients l) = length l.
Proof. unfold coefficients. now rewrite rev_length, map_length. Qed.

(** The difference of two sums as a polynomial. *)
Definition difference (d : Z) (l l' : list bytes) : list Z := Z.opp d :: minus (coefficients l) (coefficients l').
Lemma difference_value d l l' r : (value (difference d l l') (Z.of_N r) =
  Z.of_N (poly_sum l r) - Z.of_N (poly_sum l' r) - d)%Z.
Proof. unfold difference. cbn [value]. rewrite value_minus, !sum_value. ring. Qed.

Definition gap (l l' : list bytes) (r : N) : Z :=
  (Z.of_N (poly_sum l r mod poly_prime) - Z.of_N (poly_sum l' r mod poly_prime))%Z.
Lemma gap_root l l' r :
  (Z.of_N poly_prime | value (difference (gap l l' r) l l') (Z.of_N r))%Z.
Proof.
  rewrite difference_value. unfold gap.
  pose proof (N.div_mod (poly_sum l r) poly_prime ltac:(discriminate)) as E.
  pose proof (N.div_mod (poly_sum l' r) poly_prime ltac:(discriminate)) as E'.
  exists (Z.of_N (poly_sum l r / poly_prime) - Z.of_N (poly_sum l' r / poly_prime))%Z.
  generalize dependent (poly_sum l r / poly_prime). generalize dependent (poly_sum l' r / poly_prime).
  generalize dependent (poly_sum l r mod poly_prime). generalize dependent (poly_sum l' r mod poly_prime).
  generalize dependent (poly_sum l r). generalize dependent (poly_sum l' r). generalize poly_prime.
  intros. subst. rewrite !N2Z.inj_add, !N2Z.inj_mul. ring.
Qed.
Definition gaps (t t' : bytes) : list Z :=
  List.map (fun k => (Z.of_N (little t) - Z.of_N (little t')) mod 2 ^ 128 + k * 2 ^ 128)%Z [-4; -3; -2; -1; 0; 1; 2; 3]%Z.
Lemma gap_in l l' t t' r s :
  little t = (poly_sum l r mod poly_prime + s) mod 2 ^ 128 ->
  little t' = (poly_sum l' r mod poly_prime + s) mod 2 ^ 128 ->
  In (gap l l' r) (gaps t t').
Proof.
  intros E E'. unfold gap, gaps.
  assert (H : poly_sum l r mod poly_prime < poly_prime) by (apply N.mod_lt; discriminate).
  assert (H' : poly_sum l' r mod poly_prime < poly_prime) by (apply N.mod_lt; discriminate).
  generalize dependent (poly_sum l r mod poly_prime). generalize dependent (poly_sum l' r mod poly_prime).
  intros h' E' H' h E H.
  set (d := (Z.of_N h - Z.of_N h')%Z).
  assert (Hm : ((Z.of_N (little t) - Z.of_N (little t')) mod 2 ^ 128 = d mod 2 ^ 128)%Z).
  { rewrite E, E', !N2Z.inj_mod, !N2Z.inj_add. change (Z.of_N (2 ^ 128)) with (2 ^ 128)%Z.
    rewrite <- Zminus_mod. f_equal. subst d. ring. }
  rewrite Hm. apply in_map_iff. exists (d / 2 ^ 128)%Z.
  assert (B : (- 2 ^ 130 < d < 2 ^ 130)%Z).
  { assert (Z.of_N poly_prime < 2 ^ 130)%Z by reflexivity. subst d. generalize dependent poly_prime.
    generalize (2 ^ 130)%Z. intros. lia. }
  split.
  - rewrite Z.add_comm, Z.mul_comm. symmetry. apply Z.div_mod. discriminate.
  - assert (-4 <= d / 2 ^ 128 < 4)%Z.
    { split; [apply Z.div_le_lower_bound|apply Z.div_lt_upper_bound]; try reflexivity.
      - change (2 ^ 128 * -4)%Z with (- (2 ^ 130))%Z. lia.
      - change (2 ^ 128 * 4)%Z with (2 ^ 130)%Z. lia. }
    cbn [In]. lia.
Qed.

Theorem poly1305_differences m m' t t' rs : m <> m' -> NoDup rs ->
  (forall r, In r rs -> r < poly_prime /\ exists s, mac_tag r s m t /\ mac_tag r s m' t') ->
  (length rs <= 8 * ((Nat.max (length m) (length m') + 15) / 16))%nat.
Proof.
  intros Hne ND H.
  pose proof (chunks_blocks m) as Hl. pose proof (chunks_blocks m') as Hl'.
  set (l := chunks 16 m) in *. set (l' := chunks 16 m') in *. clearbody l l'.
  assert (Hk : ((Nat.max (length m) (length m') + 15) / 16 = Nat.max (length l) (length l'))%nat).
  { rewrite (blocks_count m l Hl), (blocks_count m' l' Hl').
    destruct (Nat.le_ge_cases (length m) (length m')) as [L|L].
    - rewrite (Nat.max_r (length m)) by assumption. symmetry. apply Nat.max_r, Nat.div_le_mono; lia.
    - rewrite (Nat.max_l (length m)) by assumption. symmetry. apply Nat.max_l, Nat.div_le_mono; lia. }
  rewrite Hk. change 8%nat with (length (gaps t t')).
  apply (parts (gap l l')).
  - intros r Hr. destruct (H r Hr) as (_ & s & (k & Hb & _ & E) & (k' & Hb' & _ & E')).
    rewrite (blocks_fun m k Hb l Hl) in E. rewrite (blocks_fun m' k' Hb' l' Hl') in E'.
    exact (gap_in l l' t t' r s E E').
  - intros d _. destruct (Nat.le_gt_cases (length (filter (fun r => (gap l l' r =? d)%Z) rs))
      (Nat.max (length l) (length l'))) as [?|Hgt]; [assumption|exfalso]. apply Hne.
    assert (V : vanish (Z.of_N poly_prime) (difference d l l')).
    { apply (roots (Z.of_N poly_prime) poly_p_prime _ (List.map Z.of_N (filter (fun r => (gap l l' r =? d)%Z) rs))).
      - apply FinFun.Injective_map_NoDup; [exact N2Z.inj|]. now apply NoDup_filter.
      - intros z Hz. apply in_map_iff in Hz. destruct Hz as (r & <- & Hr).
        apply filter_In in Hr. destruct Hr as (Hr & Hg). apply Z.eqb_eq in Hg.
        destruct (H r Hr) as (Hlt & _). split.
        + generalize dependent poly_prime. intros. lia.
        + rewrite <- Hg. apply gap_root.
      - rewrite map_length. unfold difference. cbn [length].
        rewrite minus_length, !coefficients_length. lia. }
    inversion V as [|? ? _ V']; subst.
    apply vanish_minus in V'; [|apply coefficients_range, (blocks_short m l Hl)|apply coefficients_range, (blocks_short m' l' Hl')].
    apply coefficients_inj in V'. rewrite (blocks_concat m l Hl), (blocks_concat m' l' Hl'). now f_equal.
Qed.

(** * Stored data *)
Lemma tag_r_range block : tag_r block < poly_prime.
Proof.
  unfold tag_r. set (mask := 0x0ffffffc0ffffffc0ffffffc0fffffff).
  assert (E : mask = N.land mask (N.ones 128)) by reflexivity.
  rewrite E, N.land_assoc, N.land_ones.
  apply N.lt_trans with (2 ^ 128); [apply N.mod_lt; discriminate|reflexivity].
Qed.
Lemma message_inj ct ct' m : aead_message ct m -> aead_message ct' m -> ct = ct'.
Proof.
  intros (z & l & Hz & (q & Dz) & Ll & El & Em) (z' & l' & Hz' & (q' & Dz') & Ll' & El' & Em').
  rewrite Em in Em'.
  pose proof (f_equal (@length byte) Em') as L. rewrite !app_length, !repeat_length, Ll, Ll' in L.
  assert (P : (length (ct ++ repeat x00 z ++ repeat x00 8) = length (ct' ++ repeat x00 z' ++ repeat x00 8))%nat).
  { rewrite !app_length, !repeat_length. lia. }
  assert (R : (ct ++ repeat x00 z ++ repeat x00 8) ++ l = (ct' ++ repeat x00 z' ++ repeat x00 8) ++ l').
  { rewrite <- !app_assoc. exact Em'. }
  pose proof (f_equal (skipn (length (ct ++ repeat x00 z ++ repeat x00 8))) R) as E.
  rewrite rest_exact in E by reflexivity. rewrite rest_exact in E by (symmetry; exact P).
  subst l'. rewrite El in El'.
  assert (C : length ct = length ct').
  { pose proof (N.div_mod (N.of_nat (length ct)) (2 ^ 64) ltac:(discriminate)) as D.
    pose proof (N.div_mod (N.of_nat (length ct')) (2 ^ 64) ltac:(discriminate)) as D'.
    rewrite El' in D.
    assert (H : N.of_nat (length ct) / 2 ^ 64 = N.of_nat (length ct') / 2 ^ 64).
    { generalize dependent (N.of_nat (length ct) / 2 ^ 64). generalize dependent (N.of_nat (length ct') / 2 ^ 64).
      generalize dependent (N.of_nat (length ct') mod 2 ^ 64). intros e _ b D' a D.
      assert (18446744073709551616 = 2 ^ 64) as K by reflexivity. rewrite <- K in *. lia. }
    rewrite H in D. lia. }
  pose proof (f_equal (firstn (length ct)) Em') as F.
  rewrite first_exact in F by reflexivity. rewrite first_exact in F by (symmetry; exact C). exact F.
Qed.
Lemma message_blocks ct m : aead_message ct m ->
  ((length m + 15) / 16 = (length ct + 15) / 16 + 1)%nat.
Proof.
  intros (z & l & Hz & (q & Dz) & Ll & _ & ->). rewrite !app_length, !repeat_length, Ll.
  replace (length ct + (z + (8 + 8)) + 15)%nat with (15 + (q + 1) * 16)%nat by lia.
  rewrite Nat.div_add by discriminate. change (15 / 16)%nat with 0%nat.
  assert ((length ct + 15) / 16 = q)%nat as ->; [|lia].
  symmetry. apply Nat.div_unique with (15 - z)%nat; lia.
Qed.


(** Which data open, for any cipher. *)
Lemma opens_fields P data pw :
  (exists d, decrypt P data pw = Ok d) <->
  (60 < length data)%nat /\
  chacha_tag P (pbkdf2 P (utf8 pw) (firstn 32 data) 19162 32) (slice 32 44 data) (skipn 60 data) = slice 44 60 data.
Proof.
  unfold decrypt, aead_decrypt, crypt_key.
  change METADATA_SIZE with 60%nat. change SALT_START with 0%nat. change SALT_END with 32%nat.
  change NONCE_START with 32%nat. change NONCE_END with 44%nat. change TAG_START with 44%nat.
  change TAG_END with 60%nat. change ENCRYPTED_START with 60%nat. change CRYPT_KEY_SIZE with 32%nat.
  change ITER with 19162. change (slice 0 32 data) with (firstn 32 data). cbv zeta.
  destruct (Nat.leb_spec (length data) 60) as [L|L].
  - split; [intros (d & H); discriminate|lia].
  - destruct (bytes_eqb _ _) eqn:E.
    + apply bytes_eqb_eq in E. split; [intros _; now split|]. intros _. eexists. reflexivity.
    + apply bytes_eqb_neq in E. split; [intros (d & H); discriminate|]. intros (_ & H). contradiction.
Qed.
Theorem std_opens data pw :
  (exists d, decrypt std data pw = Ok d) <->
  (60 < length data)%nat /\
  exists m, aead_message (skipn 60 data) m /\
    mac_tag (tag_r (first_block data pw)) (tag_s (first_block data pw)) m (slice 44 60 data).
Proof.
  rewrite opens_fields. cbn [std chacha_tag pbkdf2]. unfold first_block.
  generalize (std_pbkdf2 (utf8 pw) (firstn 32 data) 19162 32). intros key.
  split; intros (L & H); (split; [exact L|]).
  - pose proof (message_of (skipn 60 data)) as M. eexists. split; [exact M|]. rewrite <- H.
    exact (chacha_tag_is key (slice 32 44 data) (skipn 60 data) _ M).
  - destruct H as (m & M & T).
    exact (mac_tag_fun _ _ _ _ _ (chacha_tag_is key (slice 32 44 data) (skipn 60 data) m M) T).
Qed.

Lemma same_start (data data' : bytes) : firstn 44 data = firstn 44 data' -> forall pw, first_block data pw = first_block data' pw.
Proof.
  intros E pw. unfold first_block.
  assert (firstn 32 data = firstn 32 data') as ->.
  { pose proof (f_equal (firstn 32) E) as F. rewrite !firstn_firstn in F. exact F. }
  assert (slice 32 44 data = slice 32 44 data') as ->.
  { unfold slice. rewrite !firstn_skipn_comm. change (32 + (44 - 32))%nat with 44%nat. now rewrite E. }
  reflexivity.
Qed.
Lemma data_parts (data : bytes) : data = firstn 44 data ++ slice 44 60 data ++ skipn 60 data.
Proof.
  rewrite <- (firstn_skipn 44 data) at 1. f_equal. unfold slice.
  rewrite <- (firstn_skipn 16 (skipn 44 data)) at 1. rewrite skipn_skipn. reflexivity.
Qed.

Theorem forgeries data data' pws :
  firstn 44 data = firstn 44 data' -> data <> data' ->
  NoDup (List.map (fun pw => tag_r (first_block data pw)) pws) ->
  (forall pw, In pw pws ->
     (exists d, decrypt std data pw = Ok d) /\ (exists d, decrypt std data' pw = Ok d)) ->
  (length pws <= 8 * tag_blocks (Nat.max (length data) (length data')))%nat.
Proof.
  intros Es Hne ND H. destruct pws as [|pw0 pws']; [cbn; lia|]. remember (pw0 :: pws') as pws.
  assert (H0 : In pw0 pws) by (subst; now left).
  pose proof (message_of (skipn 60 data)) as M. pose proof (message_of (skipn 60 data')) as M'.
  set (m := skipn 60 data ++ _) in M. set (m' := skipn 60 data' ++ _) in M'. clearbody m m'.
  assert (T : forall pw, In pw pws ->
    ((60 < length data)%nat /\ (60 < length data')%nat) /\
    mac_tag (tag_r (first_block data pw)) (tag_s (first_block data pw)) m (slice 44 60 data) /\
    mac_tag (tag_r (first_block data pw)) (tag_s (first_block data pw)) m' (slice 44 60 data')).
  { intros pw Hpw. destruct (H pw Hpw) as (A & A'). apply std_opens in A. apply std_opens in A'.
    rewrite <- (same_start data data' Es) in A'.
    destruct A as (L & n & N & A), A' as (L' & n' & N' & A').
    rewrite (message_fun _ n m N M) in A. rewrite (message_fun _ n' m' N' M') in A'. tauto. }
  destruct (T pw0 H0) as ((L & L') & T0 & T0').
  assert (Hm : m <> m').
  { intros E. subst m'. apply Hne. rewrite (data_parts data), (data_parts data').
    rewrite (message_inj _ _ m M M'), Es, (mac_tag_fun _ _ _ _ _ T0 T0'). reflexivity. }
  rewrite <- (map_length (fun pw => tag_r (first_block data pw)) pws).
  etransitivity; [apply (poly1305_differences m m' (slice 44 60 data) (slice 44 60 data') _ Hm ND)|].
  - intros r Hr. apply in_map_iff in Hr. destruct Hr as (pw & <- & Hpw). split; [apply tag_r_range|].
    exists (tag_s (first_block data pw)). exact (proj2 (T pw Hpw)).
  - apply Nat.mul_le_mono_l. unfold tag_blocks.
    destruct (Nat.le_ge_cases (length m) (length m')) as [G|G].
    + rewrite Nat.max_r by assumption. rewrite (message_blocks _ m' M'), skipn_length.
      apply Nat.add_le_mono_r, Nat.div_le_mono; lia.
    + rewrite Nat.max_l by assumption. rewrite (message_blocks _ m M), skipn_length.
      apply Nat.add_le_mono_r, Nat.div_le_mono; lia.
Qed.

Lemma bind_ok {E A B} (m : res E A) (k : A -> res E B) b :
  (let* x := m in k x) = Ok b -> exists a, m = Ok a.
Proof. destruct m; try discriminate. intros _. eexists. reflexivity. Qed.
Lemma map_err_ok {E F A} (f : E -> F) (m : res E A) a : map_err f m = Ok a -> m = Ok a.
Proof. destruct m; cbn; congruence. Qed.
Lemma bytes_opened P C data pw w : keychain_data_from_bytes P C data pw = Ok w -> exists d, decrypt P data pw = Ok d.
Proof.
  unfold keychain_data_from_bytes. intros H. apply bind_ok in H. destruct H as (d & H).
  exists d. exact (map_err_ok _ _ _ H).
Qed.
Lemma accepted_opens data pw : accepted data pw -> exists d, decrypt std data pw = Ok d.
Proof.
  intros [C o m kc H | pw' r out H | C o m n r out H | C out H | C o out H].
  - unfold keychain_from_data in H. apply bind_ok in H. destruct H as (w & H). exact (bytes_opened _ _ _ _ _ H).
  - unfold change_password in H. apply bind_ok in H. destruct H as (d & H). exists d. exact (map_err_ok _ _ _ H).
  - unfold add_network in H. destruct (ok_or _ _) as [f| | |]; try discriminate.
    cbn [bind] in H. apply bind_ok in H. destruct H as (w & H). exact (bytes_opened _ _ _ _ _ H).
  - unfold retrieve_mnemonic in H. apply bind_ok in H. destruct H as (w & H). exact (bytes_opened _ _ _ _ _ H).
  - unfold get_keys_data, rmap in H. destruct (keychain_data_from_bytes std C data pw) as [w| | |] eqn:E; try discriminate.
    exact (bytes_opened _ _ _ _ _ E).
Qed.
Theorem wallet_forgeries data data' pws :
  firstn 44 data = firstn 44 data' -> data <> data' ->
  NoDup (List.map (fun pw => tag_r (first_block data pw)) pws) ->
  (forall pw, In pw pws -> accepted data pw /\ accepted data' pw) ->
  (length pws <= 8 * tag_blocks (Nat.max (length data) (length data')))%nat.
Proof.
  intros Es Hne ND H. apply forgeries; try assumption.
  intros pw Hpw. destruct (H pw Hpw) as (A & A'). split; apply accepted_opens; assumption.
Qed.

(** Two messages under one nonce. *)
Lemma encrypt_start P d pw r : exists rest,
  fst (encrypt P d pw r) = (List.map r (seq 0 32) ++ List.map (fun i => r (32 + i)%nat) (seq 0 12)) ++ rest.
Proof. eexists. rewrite <- app_assoc. reflexivity. Qed.
Lemma changed P d data pw r : decrypt P data pw = Ok d -> change_password P data pw pw r = Ok (encrypt P d pw r).
Proof. intros H. unfold change_password. rewrite H. reflexivity. Qed.
Lemma one_nonce P d d' pw r : prims_ok P -> d <> [] -> d' <> [] -> d <> d' ->
  exists data data', firstn 44 data = firstn 44 data' /\ data <> data' /\
    change_password P data pw pw r = Ok (encrypt P d pw r) /\
    change_password P data' pw pw r = Ok (encrypt P d' pw r).
Proof.
  intros HP Hd Hd' Hne. exists (fst (encrypt P d pw r)), (fst (encrypt P d' pw r)).
  pose proof (decrypt_encrypt P HP d pw r Hd) as H1. pose proof (decrypt_encrypt P HP d' pw r Hd') as H2.
  split; [|split; [|split]].
  - destruct (encrypt_start P d pw r) as (e & ->), (encrypt_start P d' pw r) as (e' & ->).
    rewrite !first_exact by (rewrite app_length, !map_length, !seq_length; reflexivity). reflexivity.
  - intros E. rewrite E, H2 in H1. congruence.
  - exact (changed P d _ pw r H1).
  - exact (changed P d' _ pw r H2).
Qed.
Theorem forgery_case : exists data data' pw,
  firstn 44 data = firstn 44 data' /\ data <> data' /\ accepted data pw /\ accepted data' pw.
Proof.
  destruct (one_nonce std [x01] [x02] [0x70; 0x77] (fun i : nat => n2b (N.of_nat i)) std_ok
    ltac:(discriminate) ltac:(discriminate) ltac:(discriminate)) as (data & data' & E & Hne & H & H').
  exists data, data', [0x70; 0x77]. split; [exact E|]. split; [exact Hne|].
  exact (conj (accepted_changed _ _ _ _ _ H) (accepted_changed _ _ _ _ _ H')).
Qed.
