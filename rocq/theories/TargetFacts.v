(** Proofs about the width of [usize]. *)
From Verif Require Import Base Prims Bits Bip39 Errors Keys Manager Bip39Spec ManagerSpec Target TargetSpec.
From Verif Require Import BaseFacts BitsFacts Bip39Facts ManagerFacts.

Lemma modulus_split t : 3 <= width t -> modulus t = 8 * 2 ^ (width t - 3).
Proof.
  intros H. unfold modulus. change 8 with (2 ^ 3). rewrite <- N.pow_add_r. f_equal. lia.
Qed.
Lemma mul_small {E} t a b : a * b < modulus t -> mul (E := E) t a b = Ok (a * b).
Proof. intros H. unfold mul, wrap. destruct (N.leb_spec (modulus t) (a * b)); [lia|reflexivity]. Qed.
Lemma mul_large {E} t a b : modulus t <= a * b ->
  mul (E := E) t a b = match prof t with Debug => Panic | Release => Ok ((a * b) mod modulus t) end.
Proof. intros H. unfold mul, wrap. destruct (N.leb_spec (modulus t) (a * b)); [reflexivity|lia]. Qed.

Theorem small_slices t bs : fits t bs -> from_slice_on t bs = entropy_from_slice bs.
Proof.
  unfold fits. intros H. unfold from_slice_on, entropy_from_slice. rewrite mul_small by lia. reflexivity.
Qed.
Theorem small_readers t r n : fits t (r_buffer r) -> size r = Ok n -> size_on t r = Ok n.
Proof.
  unfold fits, size, size_on. intros H. rewrite mul_small by lia. cbn [bind]. unfold sub.
  destruct (_ <? _); [discriminate|]. cbn [bind]. auto.
Qed.

Theorem readers t r : 3 <= width t ->
  let bits := 8 * N.of_nat (length (r_buffer r)) in let i := state_index (r_state r) in
  size_on t r =
  match prof t with
  | Debug => if (bits <? modulus t) && (i <=? bits) then Ok ((bits - i) / 11) else Panic
  | Release => Ok ((bits + modulus t - i) mod modulus t / 11)
  end.
Proof.
  intros Hw bits i. assert (8 <= modulus t) as HM.
  { rewrite (modulus_split t Hw). pose proof (N.pow_nonzero 2 (width t - 3)). lia. }
  assert (i < 8) as Hi by (subst i; destruct (r_state r); reflexivity).
  assert (forall n, n < modulus t -> sub (E := unit) t n i =
    match prof t with Debug => if i <=? n then Ok (n - i) else Panic | Release => Ok ((n + modulus t - i) mod modulus t) end) as S.
  { intros n Hn. unfold sub, wrap. destruct (N.ltb_spec n i), (N.leb_spec i n); try lia; destruct (prof t); try reflexivity.
    - do 2 f_equal. lia.
    - f_equal. replace (n + modulus t - i) with (n - i + 1 * modulus t) by lia.
      rewrite N.mod_add, N.mod_small by lia. reflexivity. }
  unfold size_on. fold i. change NUM_BITS_PER_BLOCK with 11. replace (N.of_nat (length (r_buffer r)) * 8) with bits by (subst bits; lia).
  destruct (N.ltb_spec bits (modulus t)) as [F|F].
  - replace (mul t (N.of_nat (length (r_buffer r))) 8) with (Ok (E := unit) bits)
      by (rewrite mul_small by (subst bits; lia); f_equal; subst bits; lia).
    cbn [bind]. rewrite (S bits F). destruct (prof t); [|reflexivity]. now destruct (i <=? bits).
  - rewrite mul_large by (subst bits; lia). replace (N.of_nat (length (r_buffer r)) * 8) with bits by (subst bits; lia).
    destruct (prof t) eqn:Ep; [reflexivity|]. cbn [bind]. rewrite S by (apply N.mod_lt; lia). cbn [bind]. do 2 f_equal.
    pose proof (N.div_mod bits (modulus t) ltac:(lia)) as D. set (q := bits / modulus t) in *. set (m := bits mod modulus t) in *.
    replace (bits + modulus t - i) with (m + modulus t - i + q * modulus t) by nia. now rewrite N.mod_add by lia.
Qed.

Lemma new_prefix ty bs k : (k <= length bs)%nat -> (to_key_size ty / 8 <= k)%nat ->
  entropy_new ty bs = entropy_new ty (firstn k bs).
Proof.
  intros Hk Ht. unfold entropy_new. rewrite firstn_length, Nat.min_l by exact Hk.
  destruct (Nat.ltb_spec (length bs) (to_key_size ty / 8)).
  { exfalso. remember (to_key_size ty / 8)%nat as x. lia. }
  destruct (Nat.ltb_spec k (to_key_size ty / 8)).
  { exfalso. remember (to_key_size ty / 8)%nat as x. lia. }
  now rewrite firstn_firstn, Nat.min_l by exact Ht.
Qed.
Theorem large_slices t bs : 3 <= width t -> ~ fits t bs ->
  from_slice_on t bs =
  match prof t with
  | Debug => Panic
  | Release => entropy_from_slice (firstn (N.to_nat (N.of_nat (length bs) mod 2 ^ (width t - 3))) bs)
  end.
Proof.
  unfold fits. intros Hw H. unfold from_slice_on. rewrite mul_large by lia. destruct (prof t); [reflexivity|].
  cbn [bind]. rewrite (modulus_split t Hw), (N.mul_comm _ 8), N.mul_mod_distr_l by (try apply N.pow_nonzero; lia).
  set (k := N.of_nat (length bs) mod 2 ^ (width t - 3)) in *.
  assert (Hk : k <= N.of_nat (length bs)) by (apply N.mod_le, N.pow_nonzero; lia).
  unfold entropy_from_slice. rewrite firstn_length, Nat.min_l, N2Nat.id, (N.mul_comm k 8) by lia.
  destruct (from_entropy_size (8 * k)) as [ty| | |] eqn:E; try reflexivity. cbn [bind].
  apply from_entropy_size_ok in E. pose proof (type_bytes ty). apply new_prefix; [lia|].
  remember (to_key_size ty / 8)%nat as x. lia.
Qed.
Lemma firstn_repeat {A} (x : A) : forall k n, (k <= n)%nat -> firstn k (repeat x n) = repeat x k.
Proof. induction k as [|k IH]; intros [|n] H; cbn; try lia; [reflexivity..|]. rewrite IH by lia. reflexivity. Qed.
Lemma wrapped_slice n : N.of_nat n = 2 ^ 29 + 12 ->
  from_slice_on {| width := 32; prof := Release |} (repeat x00 n) = Ok {| e_type := Type9Words; e_bytes := repeat x00 12 |}.
Proof.
  intros H. rewrite large_slices; cbn [width prof]; [|discriminate|].
  - rewrite repeat_length, H. change (N.to_nat ((2 ^ 29 + 12) mod 2 ^ (32 - 3))) with 12%nat.
    rewrite firstn_repeat; [reflexivity|]. change (2 ^ 29 + 12) with 536870924 in H. lia.
  - unfold fits. rewrite repeat_length, H. discriminate.
Qed.
Theorem wrong_size_accepted : exists t bs, width t = 32 /\ prof t = Release /\
  N.of_nat (length bs) < 2 ^ 31 /\ ~ entropy_length (length bs) /\ exists e, from_slice_on t bs = Ok e.
Proof.
  assert (exists n, N.of_nat n = 2 ^ 29 + 12) as [n Hn] by (exists (N.to_nat (2 ^ 29 + 12)); apply N2Nat.id).
  exists {| width := 32; prof := Release |}, (repeat x00 n). rewrite repeat_length.
  split; [reflexivity|]. split; [reflexivity|]. split; [now rewrite Hn|]. split.
  - intros H. change (2 ^ 29 + 12) with 536870924 in Hn. cbn [entropy_length In] in H.
    assert (n <= 32)%nat by (unfold entropy_length in H; cbn [In] in H; lia). lia.
  - rewrite wrapped_slice by exact Hn. eauto.
Qed.

(** ** Words *)
Lemma words_fit t n : n < modulus t -> n / 32 * 3 < modulus t.
Proof. intros H. pose proof (N.mul_div_le n 32 ltac:(lia)). lia. Qed.
Theorem words_exact {E} t s : ss_min s < modulus t -> ss_max s < modulus t ->
  min_words (E := E) t s = Ok (3 * (ss_min s / 32)) /\ max_words (E := E) t s = Ok (3 * (ss_max s / 32)) /\
  size_words (E := E) t (ss_min s) = min_words t s.
Proof.
  intros H1 H2. unfold min_words, max_words, size_words. rewrite !mul_small by now apply words_fit.
  rewrite !(N.mul_comm _ 3). auto.
Qed.

(** ** Seed sizes *)
Lemma fold_max t fs : calculate_seed_size_on t fs =
  let '(min, max) := fold_left size_step fs (0, modulus t - 1) in
  if min =? 0 then Err (CantCalculateSeedSize min max)
  else if max <=? min then Err (CantCalculateSeedSize min max)
  else Ok min.
Proof. reflexivity. Qed.
Theorem sizes_on_64 t fs : width t = 64 -> calculate_seed_size_on t fs = calculate_seed_size fs.
Proof. intros H. unfold calculate_seed_size_on, calculate_seed_size, modulus. rewrite H. reflexivity. Qed.
Theorem sizes_independent t t' f fs : Forall (sizes_fit t) (f :: fs) -> Forall (sizes_fit t') (f :: fs) ->
  calculate_seed_size_on t (f :: fs) = calculate_seed_size_on t' (f :: fs).
Proof.
  intros H H'. apply Forall_inv in H as [_ H]. apply Forall_inv in H' as [_ H'].
  rewrite !fold_max. cbn [fold_left size_step].
  rewrite !(N.min_r _ (ss_max (f_seed_size f))) by lia. reflexivity.
Qed.
Theorem no_factories t : calculate_seed_size_on t [] = Err (CantCalculateSeedSize 0 (modulus t - 1)).
Proof. reflexivity. Qed.
Theorem words_demanded t fs s : Forall (sizes_fit t) fs -> calculate_seed_size_on t fs = Ok s ->
  exists w, size_words (E := kc_error) t s = Ok w /\
  (exists f, In f fs /\ min_words (E := kc_error) t (f_seed_size f) = Ok w) /\
  forall f, In f fs -> exists lo hi, min_words (E := kc_error) t (f_seed_size f) = Ok lo /\
    max_words (E := kc_error) t (f_seed_size f) = Ok hi /\ lo <= w <= hi.
Proof.
  intros Hfs. rewrite Forall_forall in Hfs. rewrite fold_max.
  pose proof (fold_sizes fs 0 (modulus t - 1)) as H. destruct (fold_left size_step fs _) as [lo hi].
  destruct H as (_ & _ & H1 & H2 & _).
  destruct (N.eqb_spec lo 0); [discriminate|]. destruct (N.leb_spec hi lo); [discriminate|]. intros [= <-].
  destruct H2 as [H2|(f & Hf & H2)]; [lia|].
  destruct (Hfs f Hf) as [Hmin Hmax]. destruct (words_exact (E := kc_error) t (f_seed_size f) Hmin Hmax) as (E1 & _ & E3).
  exists (3 * (lo / 32)). rewrite <- H2. rewrite E3, E1. split; [reflexivity|]. split; [eauto|].
  intros g Hg. destruct (Hfs g Hg) as [Gmin Gmax].
  destruct (words_exact (E := kc_error) t (f_seed_size g) Gmin Gmax) as (G1 & G2 & _).
  rewrite G1, G2. do 2 eexists. split; [reflexivity|]. split; [reflexivity|].
  destruct (H1 g Hg) as [Hl Hh].
  pose proof (N.div_le_mono (ss_min (f_seed_size g)) lo 32 ltac:(lia) Hl).
  pose proof (N.div_le_mono lo (ss_max (f_seed_size g)) 32 ltac:(lia) ltac:(lia)). lia.
Qed.
