(** Prime numbers: Fermat's theorem, Pocklington's criterion, and the primes
    of the two curves. *)
From Coq Require Import Znumtheory Permutation.
From Verif Require Import Base Prims StdCurve.
Open Scope Z_scope.

(** * Congruence *)
Definition cong (p a b : Z) : Prop := a mod p = b mod p.

Lemma cong_refl p a : cong p a a.
Proof. reflexivity. Qed.
Lemma cong_sym p a b : cong p a b -> cong p b a.
Proof. unfold cong; congruence. Qed.
Lemma cong_trans p a b c : cong p a b -> cong p b c -> cong p a c.
Proof. unfold cong; congruence. Qed.
Lemma cong_mul p a b c d : cong p a b -> cong p c d -> cong p (a * c) (b * d).
Proof.
  unfold cong. intros H1 H2.
  destruct (Z.eq_dec p 0) as [-> | Hp].
  { rewrite !Zmod_0_r in *. congruence. }
  rewrite (Z.mul_mod a c p), (Z.mul_mod b d p) by assumption. congruence.
Qed.
Lemma cong_mod p a : cong p (a mod p) a.
Proof.
  unfold cong. destruct (Z.eq_dec p 0) as [-> | Hp]; [now rewrite !Zmod_0_r|].
  now apply Z.mod_mod.
Qed.
Lemma cong_pow p a b e : 0 <= e -> cong p a b -> cong p (a ^ e) (b ^ e).
Proof.
  intros He H. pattern e. apply natlike_ind; [reflexivity| |assumption].
  intros x Hx IH. unfold Z.succ. rewrite !Z.pow_add_r, !Z.pow_1_r by lia.
  now apply cong_mul.
Qed.
Lemma cong_divide p a b : p <> 0 -> cong p a b <-> (p | a - b).
Proof.
  intros Hp. unfold cong. split; intros H.
  - apply Z.mod_divide; [assumption|]. rewrite Zminus_mod, H, Z.sub_diag. now apply Z.mod_0_l.
  - destruct H as [k Hk]. replace a with (b + k * p) by lia. now apply Z.mod_add.
Qed.
Lemma cong_cancel p a b c : prime p -> ~ (p | c) -> cong p (a * c) (b * c) -> cong p a b.
Proof.
  intros P Hc H. pose proof (prime_ge_2 p P).
  apply cong_divide in H; [|lia]. apply cong_divide; [lia|].
  replace (a * c - b * c) with ((a - b) * c) in H by ring.
  destruct (prime_mult p P _ _ H); tauto.
Qed.
Lemma cong_dvd p q a b : q <> 0 -> (q | p) -> p <> 0 -> cong p a b -> cong q a b.
Proof.
  intros Hq H Hp C. apply cong_divide; [assumption|].
  apply cong_divide in C; [|assumption]. eauto using Z.divide_trans.
Qed.

(** * Fermat's theorem *)
Definition prod (l : list Z) : Z := fold_right Z.mul 1 l.

Lemma prod_perm l l' : Permutation l l' -> prod l = prod l'.
Proof.
  unfold prod. induction 1; cbn; try congruence; ring.
Qed.
Lemma prod_scaled p a l :
  cong p (prod (map (fun x => (a * x) mod p) l)) (a ^ Z.of_nat (length l) * prod l).
Proof.
  induction l as [|x l IH]; [reflexivity|].
  cbn [map prod fold_right length]. rewrite Nat2Z.inj_succ. unfold Z.succ.
  rewrite Z.pow_add_r, Z.pow_1_r by lia.
  replace (a ^ Z.of_nat (length l) * a * (x * fold_right Z.mul 1 l))
    with (a * x * (a ^ Z.of_nat (length l) * prod l)) by (unfold prod; ring).
  apply cong_mul; [apply cong_mod|exact IH].
Qed.
Lemma prod_prime p l : prime p -> Forall (fun x => ~ (p | x)) l -> ~ (p | prod l).
Proof.
  intros P. pose proof (prime_ge_2 p P). induction 1 as [|x l Hx _ IH]; cbn.
  - intros [k Hk]. assert (k * p = 1) by lia. assert (p = 1 \/ p = -1) by (apply Z.divide_1_r; now exists k). lia.
  - intros D. destruct (prime_mult p P _ _ D); tauto.
Qed.

Lemma NoDup_map_on {A B} (f : A -> B) l :
  (forall x y, In x l -> In y l -> f x = f y -> x = y) -> NoDup l -> NoDup (map f l).
Proof.
  induction l as [|x l IH]; intros H N; [constructor|].
  inversion N as [|? ? Nx N']; subst. cbn. constructor.
  - intros Hx. apply in_map_iff in Hx. destruct Hx as (y & E & Hy).
    apply Nx. replace x with y; [assumption|]. apply H; cbn; auto.
  - apply IH; [|assumption]. intros y z Hy Hz. apply H; cbn; auto.
Qed.

Theorem fermat p a : prime p -> ~ (p | a) -> cong p (a ^ (p - 1)) 1.
Proof.
  intros P Ha. pose proof (prime_ge_2 p P) as H2.
  set (l := map Z.of_nat (seq 1 (Z.to_nat (p - 1)))).
  assert (Hlen : length l = Z.to_nat (p - 1)) by (unfold l; now rewrite map_length, seq_length).
  assert (Hin : forall x, In x l <-> 1 <= x <= p - 1).
  { intros x. unfold l. rewrite in_map_iff. split.
    - intros (n & <- & Hn). apply in_seq in Hn. lia.
    - intros Hx. exists (Z.to_nat x). rewrite in_seq. lia. }
  assert (Hnd : NoDup l).
  { unfold l. apply FinFun.Injective_map_NoDup; [|apply seq_NoDup]. intros x y. apply Nat2Z.inj. }
  assert (Hn : Forall (fun x => ~ (p | x)) l).
  { apply Forall_forall. intros x Hx D. apply Hin in Hx. apply Z.divide_pos_le in D; lia. }
  set (g := fun x => (a * x) mod p).
  assert (Hperm : Permutation (map g l) l).
  { apply NoDup_Permutation_bis.
    - apply NoDup_map_on; [|assumption]. intros x y Hx Hy E. unfold g in E.
      apply Hin in Hx, Hy.
      assert (C : cong p (x * a) (y * a)) by (unfold cong; now rewrite (Z.mul_comm x), (Z.mul_comm y)).
      apply cong_cancel in C; try assumption. unfold cong in C. rewrite !Z.mod_small in C by lia. assumption.
    - now rewrite map_length.
    - intros y Hy. apply in_map_iff in Hy. destruct Hy as (x & <- & Hx). apply Hin.
      pose proof (Z.mod_pos_bound (a * x) p ltac:(lia)). unfold g.
      assert ((a * x) mod p <> 0); [|lia].
      intros E. apply Z.mod_divide in E; [|lia].
      rewrite Forall_forall in Hn. specialize (Hn x Hx).
      destruct (prime_mult p P _ _ E); tauto. }
  pose proof (prod_scaled p a l) as C. fold g in C.
  rewrite (prod_perm _ _ Hperm), Hlen, Z2Nat.id in C by lia.
  apply cong_sym. apply (cong_cancel p _ _ (prod l) P).
  - now apply prod_prime.
  - now rewrite Z.mul_1_l.
Qed.

(** * Pocklington's criterion *)
Lemma prime_divisor n : 1 < n -> exists p, prime p /\ (p | n).
Proof.
  intros Hn. assert (H0 : 0 <= n) by lia. revert Hn. pattern n.
  apply Z_lt_induction; [|assumption]. clear n H0. intros n IH Hn.
  destruct (prime_dec n) as [P | C]; [exists n; split; [assumption|apply Z.divide_refl]|].
  destruct (not_prime_divide n Hn C) as (m & Hm & D).
  destruct (IH m ltac:(lia) ltac:(lia)) as (p & P & Dp).
  exists p. split; [assumption|]. eauto using Z.divide_trans.
Qed.
Lemma small_divisor n : 1 < n -> (forall p, prime p -> (p | n) -> n < p * p) -> prime n.
Proof.
  intros Hn H. destruct (prime_dec n) as [P | C]; [assumption|exfalso].
  destruct (not_prime_divide n Hn C) as (m & Hm & k & Hk).
  assert (Hk1 : 1 < k) by nia.
  destruct (prime_divisor m ltac:(lia)) as (p & P & Dp).
  destruct (prime_divisor k ltac:(lia)) as (q & Q & Dq).
  pose proof (H p P ltac:(rewrite Hk; now apply Z.divide_mul_r)).
  pose proof (H q Q ltac:(rewrite Hk; now apply Z.divide_mul_l)).
  apply Z.divide_pos_le in Dp; [|lia]. apply Z.divide_pos_le in Dq; [|lia].
  pose proof (prime_ge_2 p P). pose proof (prime_ge_2 q Q).
  assert (p * q <= n) by (rewrite Hk, Z.mul_comm; apply Z.mul_le_mono_nonneg; lia).
  assert (n * n < (p * p) * (q * q)) by (apply Z.mul_lt_mono_nonneg; lia).
  assert ((p * q) * (p * q) <= n * n) by (apply Z.mul_le_mono_nonneg; lia).
  lia.
Qed.

(** A witness [a] for a prime factor [q] of n - 1. *)
Definition witness (n q a : Z) : Prop :=
  (q | n - 1) /\ cong n (a ^ (n - 1)) 1 /\ Z.gcd (a ^ ((n - 1) / q) - 1) n = 1.

Lemma pow_mul_cong p a b e : 0 <= e -> cong p (a ^ b) 1 -> 0 <= b -> cong p (a ^ (b * e)) 1.
Proof.
  intros He H Hb. rewrite Z.pow_mul_r by lia. rewrite <- (Z.pow_1_l e He). now apply cong_pow.
Qed.

Lemma witness_divides n q a p : 1 < n -> prime q -> witness n q a ->
  prime p -> (p | n) -> (q | p - 1).
Proof.
  intros Hn Q (Dq & H1 & Hg) P Dp.
  pose proof (prime_ge_2 p P). pose proof (prime_ge_2 q Q).
  destruct (Zdivide_dec q (p - 1)) as [D | ND]; [assumption|exfalso].
  destruct Dq as (m & Hm).
  assert (Hm' : (n - 1) / q = m) by (rewrite Hm; apply Z.div_mul; lia).
  rewrite Hm' in Hg.
  assert (Hm0 : 0 < m) by nia.
  assert (Hpa : ~ (p | a)).
  { intros D. assert (C : cong p 0 1).
    { apply cong_trans with (a ^ (n - 1)).
      - apply cong_sym, cong_divide; [lia|]. rewrite Z.sub_0_r.
        replace (n - 1) with (1 + (n - 2)) by lia. rewrite Z.pow_add_r, Z.pow_1_r by lia.
        now apply Z.divide_mul_l.
      - apply (cong_dvd n); try assumption; lia. }
    apply cong_divide in C; [|lia]. apply Z.divide_opp_r in C. cbn in C.
    apply Z.divide_1_r in C. lia. }
  pose proof (fermat p a P Hpa) as Fm.
  (* u with u * q = 1 modulo p - 1 *)
  assert (Rel : rel_prime q (p - 1)) by now apply prime_rel_prime.
  destruct (rel_prime_bezout _ _ Rel) as [u v Huv].
  set (t := Z.abs u + Z.abs v).
  set (u' := u + t * (p - 1)).
  set (k := q * t - v).
  assert (Huk : u' * q = 1 + (p - 1) * k) by (unfold u', k; nia).
  assert (Ht : Z.abs u <= t /\ Z.abs v <= t) by (unfold t; lia).
  assert (t * 1 <= t * (p - 1)) by (apply Z.mul_le_mono_nonneg_l; lia).
  assert (1 * t <= q * t) by (apply Z.mul_le_mono_nonneg_r; lia).
  assert (0 <= u') by (unfold u'; lia).
  assert (0 <= k) by (unfold k; lia).
  assert (C1 : cong p (a ^ (m * (u' * q))) 1).
  { replace (m * (u' * q)) with ((n - 1) * u') by (rewrite Hm; ring).
    apply pow_mul_cong; [lia| |lia]. apply (cong_dvd n); try assumption; lia. }
  rewrite Huk in C1.
  replace (m * (1 + (p - 1) * k)) with (m + (p - 1) * (k * m)) in C1 by ring.
  assert (0 <= k * m) by (apply Z.mul_nonneg_nonneg; lia).
  assert (0 <= (p - 1) * (k * m)) by (apply Z.mul_nonneg_nonneg; lia).
  rewrite Z.pow_add_r in C1 by lia.
  assert (C2 : cong p (a ^ m * a ^ ((p - 1) * (k * m))) (a ^ m * 1)).
  { apply cong_mul; [reflexivity|]. apply pow_mul_cong; [assumption|exact Fm|lia]. }
  rewrite Z.mul_1_r in C2.
  assert (C3 : cong p (a ^ m) 1) by eauto using cong_trans, cong_sym.
  apply cong_divide in C3; [|lia].
  assert (D : (p | 1)) by (rewrite <- Hg; now apply Z.gcd_greatest).
  apply Z.divide_1_r in D. lia.
Qed.

Lemma coprime_prod_divides l n : Forall prime l -> NoDup l -> Forall (fun q => (q | n)) l -> (prod l | n).
Proof.
  intros P. revert n. induction P as [|q l Q P IH]; intros n ND D; [apply Z.divide_1_l|].
  inversion ND as [|? ? Nq ND']; subst. inversion D as [|? ? Dq D']; subst.
  cbn. destruct Dq as (m & ->).
  pose proof (prime_ge_2 q Q).
  rewrite (Z.mul_comm m q). apply Z.mul_divide_mono_l.
  apply IH; [assumption|]. apply Forall_forall. intros r Hr.
  rewrite Forall_forall in D', P. specialize (D' r Hr). specialize (P r Hr).
  destruct (prime_mult r P _ _ D') as [? | E]; [assumption|].
  apply prime_div_prime in E; try assumption. subst r. contradiction.
Qed.

Theorem pocklington n (l : list (Z * Z)) : 1 < n ->
  NoDup (map fst l) -> Forall (fun qa => prime (fst qa)) l ->
  Forall (fun qa => witness n (fst qa) (snd qa)) l ->
  n <= prod (map fst l) * prod (map fst l) -> prime n.
Proof.
  intros Hn ND P W Hl. apply small_divisor; [assumption|]. intros p Pp Dp.
  pose proof (prime_ge_2 p Pp).
  assert (D : (prod (map fst l) | p - 1)).
  { apply coprime_prod_divides; [now apply Forall_map|assumption|].
    apply Forall_map. apply Forall_forall. intros qa Hqa.
    rewrite Forall_forall in P, W.
    apply (witness_divides n (fst qa) (snd qa)); auto. }
  assert (0 <= prod (map fst l)).
  { clear - P. induction P as [|[q a] l Q P IH]; cbn in *; [lia|]. pose proof (prime_ge_2 q Q).
    apply Z.mul_nonneg_nonneg; [lia|exact IH]. }
  apply Z.divide_pos_le in D; [|lia]. nia.
Qed.

(** * Checking by computation *)

(** Reductions modulo n that need not be complete: of numbers above 2^k for an
    n near 2^k, and by a multiple of n that is near (Barrett). *)
Definition fold (k c x : Z) : Z := Z.land x (Z.ones k) + c * Z.shiftr x k.
Definition near (k m n x : Z) : Z := x - Z.shiftr (Z.shiftr x (k - 3) * m) (k + 7) * n.

Lemma fold_cong n k c x : 0 <= k -> n <> 0 -> (n | 2 ^ k - c) -> cong n (fold k c x) x.
Proof.
  intros Hk Hn (d & Hd). unfold fold. rewrite Z.land_ones, Z.shiftr_div_pow2 by assumption.
  apply cong_divide; [assumption|].
  pose proof (Z.div_mod x (2 ^ k) ltac:(apply Z.pow_nonzero; lia)) as E.
  set (q := x / 2 ^ k) in *. set (m := x mod 2 ^ k) in *.
  exists (- d * q). rewrite E. replace c with (2 ^ k - d * n) by lia. ring.
Qed.
Lemma near_cong n k m x : n <> 0 -> cong n (near k m n x) x.
Proof.
  intros Hn. apply cong_divide; [assumption|]. unfold near.
  exists (- Z.shiftr (Z.shiftr x (k - 3) * m) (k + 7)). ring.
Qed.

Section Power.
Variable red : Z -> Z.
Fixpoint power (a : Z) (e : positive) : Z :=
  match e with
  | xH => a
  | xO e => red (Z.square (power a e))
  | xI e => red (a * red (Z.square (power a e)))
  end.
Lemma power_ok n a e : (forall x, cong n (red x) x) -> cong n (power a e) (a ^ Zpos e).
Proof.
  intros R. induction e as [e IH | e IH |]; cbn [power].
  - eapply cong_trans; [apply R|]. rewrite Pos2Z.inj_xI, Z.pow_add_r, Z.pow_1_r by lia.
    rewrite Z.mul_comm. apply cong_mul; [|reflexivity].
    eapply cong_trans; [apply R|]. rewrite Z.square_spec.
    replace (2 * Zpos e) with (Zpos e + Zpos e) by lia. rewrite Z.pow_add_r by lia.
    now apply cong_mul.
  - eapply cong_trans; [apply R|]. rewrite Z.square_spec.
    rewrite Pos2Z.inj_xO. replace (2 * Zpos e) with (Zpos e + Zpos e) by lia.
    rewrite Z.pow_add_r by lia. now apply cong_mul.
  - rewrite Z.pow_1_r. reflexivity.
Qed.
Definition power_z (a e : Z) : Z := match e with Zpos e => power a e | _ => 1 end.
Lemma power_z_ok n a e : (forall x, cong n (red x) x) -> 0 <= e -> cong n (power_z a e) (a ^ e).
Proof.
  intros R He. destruct e as [|e|e]; [reflexivity|now apply power_ok|lia].
Qed.

(** The witnesses are all 2. *)
Definition check_primes (n : Z) (l : list Z) : bool :=
  match l with
  | [] => false
  | q :: l' =>
    let f := prod l in
    let g := power_z 2 ((n - 1) / f) in
    let h := power_z g (prod l') in
    ((n - 1) mod f =? 0) && (n <=? f * f) &&
    ((power_z h q - 1) mod n =? 0) && (Z.gcd (h - 1) n =? 1) &&
    forallb (fun q => (f mod q =? 0) && (Z.gcd (power_z g (f / q) - 1) n =? 1)) l'
  end.
End Power.

Lemma gcd_cong n a b : n <> 0 -> cong n a b -> Z.gcd (a - 1) n = Z.gcd (b - 1) n.
Proof.
  intros Hn C.
  assert (G : forall x, Z.gcd x n = Z.gcd (x mod n) n)
    by (intros x; rewrite Z.gcd_mod by assumption; apply Z.gcd_comm).
  rewrite (G (a - 1)), (G (b - 1)). f_equal. unfold cong in C.
  now rewrite <- Zminus_mod_idemp_l, C, Zminus_mod_idemp_l.
Qed.

Lemma prod_pos l : Forall prime l -> 0 < prod l.
Proof.
  induction 1 as [|q l Q P IH]; [reflexivity|].
  pose proof (prime_ge_2 q Q). apply Z.mul_pos_pos; [lia|exact IH].
Qed.

Lemma check n red l : 1 < n -> NoDup l -> Forall prime l ->
  (forall x, cong n (red x) x) -> check_primes red n l = true -> prime n.
Proof.
  intros Hn ND P R H. unfold check_primes in H. destruct l as [|q0 l']; [discriminate|].
  set (l := q0 :: l') in *. set (f := prod l) in *.
  pose proof (prod_pos l P) as Hf. fold f in Hf.
  assert (Hf' : 0 < prod l') by (apply prod_pos; now inversion P).
  assert (Ef : f = q0 * prod l') by reflexivity.
  assert (Hq0 : 2 <= q0) by (apply prime_ge_2; now inversion P).
  rewrite !andb_true_iff, !Z.eqb_eq, Z.leb_le, forallb_forall in H.
  destruct H as ((((H1 & H3) & H2) & H5) & H4).
  apply Z.mod_divide in H1; [|lia]. destruct H1 as (r & Hr).
  assert (Hr0 : 0 < r) by nia.
  assert (Er : (n - 1) / f = r) by (rewrite Hr; apply Z.div_mul; lia).
  rewrite Er in H2, H4, H5. set (g := power_z red 2 r) in *.
  assert (Cg : cong n g (2 ^ r)) by (apply power_z_ok; [assumption|lia]).
  assert (Cp : forall e, 0 <= e -> cong n (power_z red g e) (2 ^ (r * e))).
  { intros e He. eapply cong_trans; [apply power_z_ok; assumption|].
    rewrite Z.pow_mul_r by lia. now apply cong_pow. }
  assert (C1 : cong n (2 ^ (n - 1)) 1).
  { apply cong_trans with (power_z red (power_z red g (prod l')) q0).
    - rewrite Hr, Ef. replace (r * (q0 * prod l')) with ((r * prod l') * q0) by ring.
      rewrite Z.pow_mul_r by nia. apply cong_sym.
      eapply cong_trans; [apply power_z_ok; [assumption|lia]|].
      apply cong_pow; [lia|]. apply Cp. lia.
    - apply cong_divide; [lia|]. apply Z.mod_divide; [lia|assumption]. }
  assert (W : forall q, In q l -> (f mod q =? 0) && (Z.gcd (power_z red g (f / q) - 1) n =? 1) = true).
  { intros q [<- | Hq]; [|now apply H4].
    rewrite Ef, (Z.mul_comm q0), Z.mod_mul, Z.div_mul, Z.eqb_refl by lia.
    apply Z.eqb_eq in H5. rewrite H5. reflexivity. }
  apply (pocklington n (map (fun q => (q, 2)) l)); try assumption.
  - rewrite map_map, map_id. assumption.
  - apply Forall_map. exact P.
  - apply Forall_map. apply Forall_forall. intros q Hq.
    rewrite Forall_forall in P. specialize (P q Hq). pose proof (prime_ge_2 q P).
    specialize (W q Hq). rewrite andb_true_iff, !Z.eqb_eq in W. destruct W as (H6 & H7).
    apply Z.mod_divide in H6; [|lia]. destruct H6 as (k & Hk).
    assert (Hk0 : 0 < k) by nia.
    rewrite Hk, Z.div_mul in H7 by lia.
    split; [|split]; cbn [fst snd].
    + exists (r * k). rewrite Hr, Hk. ring.
    + exact C1.
    + replace ((n - 1) / q) with (r * k).
      * etransitivity; [|exact H7]. symmetry. apply gcd_cong; [lia|]. apply Cp. lia.
      * symmetry. replace (n - 1) with ((r * k) * q) by (rewrite Hr, Hk; ring). apply Z.div_mul. lia.
  - rewrite map_map, map_id. assumption.
Qed.

Fixpoint no_divisor (n d : Z) (fuel : nat) : bool :=
  match fuel with
  | O => true
  | S fuel => negb (n mod d =? 0) && no_divisor n (d + 1) fuel
  end.
Lemma no_divisor_ok n d fuel : 0 < d -> no_divisor n d fuel = true ->
  forall x, d <= x < d + Z.of_nat fuel -> ~ (x | n).
Proof.
  revert d. induction fuel as [|fuel IH]; intros d Hd H x Hx; [lia|].
  cbn in H. apply andb_true_iff in H. destruct H as (H1 & H2).
  destruct (Z.eq_dec x d) as [-> | Hne].
  - intros D. apply Z.mod_divide in D; [|lia]. rewrite D in H1. discriminate.
  - apply (IH (d + 1)); try assumption; lia.
Qed.
Lemma trial n : 1 < n -> no_divisor n 2 (Z.to_nat (Z.sqrt n)) = true -> prime n.
Proof.
  intros Hn H. apply small_divisor; [assumption|]. intros p P D.
  pose proof (prime_ge_2 p P).
  destruct (Z_lt_le_dec n (p * p)) as [? | Hle]; [assumption|exfalso].
  revert D. apply (no_divisor_ok n 2 (Z.to_nat (Z.sqrt n)) ltac:(lia) H).
  pose proof (Z.sqrt_nonneg n). apply Z.sqrt_le_square in Hle; lia.
Qed.

Ltac by_trial := apply trial; [reflexivity|vm_compute; reflexivity].
Ltac by_witnesses red l :=
  apply (check _ red l);
  [reflexivity
  |repeat (apply NoDup_cons; [cbn [In]; intuition discriminate|]); apply NoDup_nil
  |repeat (apply Forall_cons; [first [assumption|by_trial]|]); apply Forall_nil
  |first [intros; apply near_cong; discriminate
         |intros; repeat first [reflexivity|eapply cong_trans; [apply fold_cong|]];
          first [discriminate|apply Z.mod_divide; [discriminate|vm_compute; reflexivity]]]
  |vm_compute; reflexivity].
Ltac by_near k l :=
  match goal with |- prime ?n =>
    let m := eval vm_compute in (2 ^ (2 * k + 4) / n) in by_witnesses (near k m n) l
  end.

(** * The primes of the curves *)
Theorem ed_p_prime : prime (Z.of_N ed_p).
Proof.
  assert (H1 : prime 8574133) by by_trial.
  assert (H2 : prime 1919519569386763) by by_near 51 [19; 8574133].
  assert (H3 : prime 75445702479781427272750846543864801).
  { by_near 116 [75707; 1919519569386763]. }
  assert (H4 : prime 74058212732561358302231226437062788676166966415465897661863160754340907).
  { by_near 236 [353; 75445702479781427272750846543864801]. }
  by_witnesses (fun x => fold 255 19 (fold 255 19 x))
    [74058212732561358302231226437062788676166966415465897661863160754340907].
Qed.
Theorem secp_p_prime : prime (Z.of_N secp_p).
Proof.
  assert (H1 : prime 255515944373312847190720520512484175977).
  { by_near 128 [96557; 7240687; 107590001]. }
  assert (H2 : prime 205115282021455665897114700593932402728804164701536103180137503955397371).
  { by_near 237 [255515944373312847190720520512484175977]. }
  by_witnesses (fun x => fold 256 0x1000003d1 (fold 256 0x1000003d1 x))
    [205115282021455665897114700593932402728804164701536103180137503955397371].
Qed.
Theorem secp_n_prime : prime (Z.of_N secp_n).
Proof.
  assert (H1 : prime 107361793816595537) by by_near 57 [16699; 85831].
  assert (H2 : prime 174723607534414371449) by by_near 68 [120233; 44706919].
  set (r := fold 256 432420386565659656852420866394968145599).
  by_witnesses (fun x => r (r (r x))) [631; 107361793816595537; 174723607534414371449].
Qed.
Theorem ed_l_prime : prime (Z.of_N ed_l).
Proof.
  assert (H1 : prime 1257559732178653) by by_near 51 [531581; 1224481].
  assert (H2 : prime 4434155615661930479) by by_near 62 [1257559732178653].
  assert (H3 : prime 172054593956031949258510691) by by_near 88 [4434155615661930479].
  assert (H4 : prime 19757330305831588566944191468367130476339).
  { by_near 134 [172054593956031949258510691]. }
  assert (H5 : prime 276602624281642239937218680557139826668747).
  { by_near 138 [19757330305831588566944191468367130476339]. }
  set (r := fold 252 (-27742317777372353535851937790883648493)).
  by_witnesses (fun x => r (r (r x))) [276602624281642239937218680557139826668747].
Qed.
