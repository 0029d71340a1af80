(** The field of the integers modulo a prime, as a type with Leibniz equality,
    and the arithmetic of StdCurve.v in it. *)
From Coq Require Import Znumtheory Eqdep_dec Field_theory Field.
From Verif Require Import Base Prims StdCurve PrimeFacts.
Open Scope N_scope.

Section Fp.
Variable p : N.
Hypothesis prime_p : prime (Z.of_N p).
Hypothesis odd_p : 2 < p.

Definition Fp : Type := {x : N | (x <? p) = true}.
Definition val (a : Fp) : N := proj1_sig a.

Lemma val_lt a : val a < p.
Proof. apply N.ltb_lt. exact (proj2_sig a). Qed.
Lemma val_inj a b : val a = val b -> a = b.
Proof.
  destruct a as [x Hx], b as [y Hy]. cbn. intros ->. f_equal.
  apply UIP_dec. apply Bool.bool_dec.
Qed.
Lemma mod_lt x : (x mod p <? p) = true.
Proof. apply N.ltb_lt, N.mod_lt. lia. Qed.
Definition inj (x : N) : Fp := exist _ (x mod p) (mod_lt x).

Lemma val_of x : val (inj x) = x mod p.
Proof. reflexivity. Qed.
Lemma inj_eq x y : inj x = inj y <-> x mod p = y mod p.
Proof.
  split; intros H.
  - apply (f_equal val) in H. exact H.
  - now apply val_inj.
Qed.
Lemma inj_val a : inj (val a) = a.
Proof. apply val_inj. rewrite val_of. apply N.mod_small, val_lt. Qed.
Lemma inj_small x y : x < p -> y < p -> inj x = inj y -> x = y.
Proof. intros Hx Hy H. apply inj_eq in H. now rewrite !N.mod_small in H. Qed.
Lemma inj_mod x : inj (x mod p) = inj x.
Proof. apply inj_eq. apply N.mod_mod. lia. Qed.

Definition F0 : Fp := inj 0.
Definition F1 : Fp := inj 1.
Definition Fadd (a b : Fp) : Fp := inj (val a + val b).
Definition Fmul (a b : Fp) : Fp := inj (val a * val b).
Definition Fopp (a : Fp) : Fp := inj (p - val a).
Definition Fsub (a b : Fp) : Fp := Fadd a (Fopp b).
Definition Finv (a : Fp) : Fp := inj (finv p (val a)).
Definition Fdiv (a b : Fp) : Fp := Fmul a (Finv b).

Lemma inj_add x y : inj (x + y) = Fadd (inj x) (inj y).
Proof. apply inj_eq. rewrite !val_of. rewrite <- N.add_mod by lia. reflexivity. Qed.
Lemma inj_mul x y : inj (x * y) = Fmul (inj x) (inj y).
Proof. apply inj_eq. rewrite !val_of. rewrite <- N.mul_mod by lia. reflexivity. Qed.
Lemma Fadd_opp a : Fadd a (Fopp a) = F0.
Proof.
  unfold Fopp. rewrite <- (inj_val a) at 1. rewrite <- inj_add.
  pose proof (val_lt a). replace (val a + (p - val a)) with p by lia.
  apply inj_eq. now rewrite N.mod_same, N.mod_0_l by lia.
Qed.

Lemma of_inj a : exists x, a = inj x.
Proof. exists (val a). symmetry. apply inj_val. Qed.

Lemma F_ring : ring_theory F0 F1 Fadd Fmul Fsub Fopp eq.
Proof.
  constructor; intros; repeat match goal with a : Fp |- _ =>
    destruct (of_inj a) as (? & ->) end; unfold F0, F1;
    rewrite <- ?inj_add, <- ?inj_mul, <- ?inj_add, <- ?inj_mul.
  - f_equal.
  - f_equal; lia.
  - f_equal; lia.
  - f_equal; lia.
  - f_equal; lia.
  - f_equal; lia.
  - f_equal; lia.
  - reflexivity.
  - apply Fadd_opp.
Qed.

Lemma fpow_ok a e : fpow_pos p a e = (a ^ Npos e) mod p.
Proof.
  induction e as [e IH | e IH |]; cbn [fpow_pos]; unfold fmul.
  - rewrite IH. rewrite <- (N.mul_mod (a ^ Npos e)), N.mul_mod_idemp_l by lia.
    f_equal. replace (Npos e~1) with (Npos e + Npos e + 1) by lia.
    now rewrite !N.pow_add_r, N.pow_1_r.
  - rewrite IH, <- N.mul_mod by lia. f_equal.
    replace (Npos e~0) with (Npos e + Npos e) by lia. now rewrite N.pow_add_r.
  - now rewrite N.pow_1_r.
Qed.
Lemma finv_ok a : finv p a = (a ^ (p - 2)) mod p.
Proof.
  unfold finv. destruct (p - 2) as [|e] eqn:E; [lia|]. apply fpow_ok.
Qed.

Lemma of_N_cong x y : x mod p = y mod p <-> cong (Z.of_N p) (Z.of_N x) (Z.of_N y).
Proof. unfold cong. rewrite <- !N2Z.inj_mod. split; [congruence|apply N2Z.inj]. Qed.

Lemma finv_inverse a : inj a <> F0 -> inj (finv p a * a) = F1.
Proof.
  intros Ha. rewrite finv_ok. apply inj_eq. rewrite N.mul_mod_idemp_l by lia.
  replace (a ^ (p - 2) * a) with (a ^ (p - 1)).
  - apply of_N_cong. rewrite N2Z.inj_pow, N2Z.inj_sub by lia.
    apply fermat; [assumption|]. intros D. apply Ha. apply inj_eq. apply of_N_cong.
    apply cong_divide; [lia|]. now rewrite Z.sub_0_r.
  - replace (p - 1) with (p - 2 + 1) by lia. now rewrite N.pow_add_r, N.pow_1_r.
Qed.

Lemma F1_neq_F0 : F1 <> F0.
Proof. intros H. apply inj_small in H; lia. Qed.

Lemma F_field : field_theory F0 F1 Fadd Fmul Fsub Fopp Fdiv Finv eq.
Proof.
  constructor.
  - apply F_ring.
  - apply F1_neq_F0.
  - reflexivity.
  - intros a Ha. unfold Finv. rewrite <- (inj_val a) at 2. rewrite <- inj_mul.
    apply finv_inverse. now rewrite inj_val.
Qed.

Definition F_eq_dec (a b : Fp) : {a = b} + {a <> b}.
Proof.
  destruct (N.eq_dec (val a) (val b)) as [E | E].
  - left. now apply val_inj.
  - right. congruence.
Defined.

(** * The operations of StdCurve.v *)
Lemma inj_fadd x y : inj (fadd p x y) = Fadd (inj x) (inj y).
Proof. unfold fadd. now rewrite inj_mod, inj_add. Qed.
Lemma inj_fmul x y : inj (fmul p x y) = Fmul (inj x) (inj y).
Proof. unfold fmul. now rewrite inj_mod, inj_mul. Qed.
Lemma inj_fsub x y : inj (fsub p x y) = Fsub (inj x) (inj y).
Proof. unfold fsub, Fsub, Fopp. now rewrite inj_mod, inj_add, val_of. Qed.
Lemma inj_finv x : inj (finv p x) = Finv (inj x).
Proof.
  unfold Finv. apply inj_eq. rewrite !finv_ok, val_of. rewrite !N.mod_mod by lia.
  apply of_N_cong. rewrite !N2Z.inj_pow. apply cong_pow; [lia|].
  apply of_N_cong. now rewrite N.mod_mod by lia.
Qed.
Lemma fadd_lt x y : fadd p x y < p.
Proof. apply N.mod_lt. lia. Qed.
Lemma fmul_lt' x y : fmul p x y < p.
Proof. apply N.mod_lt. lia. Qed.
Lemma fsub_lt x y : fsub p x y < p.
Proof. apply N.mod_lt. lia. Qed.
Lemma finv_lt x : finv p x < p.
Proof. rewrite finv_ok. apply N.mod_lt. lia. Qed.

(** * Roots *)
Fixpoint Fpow (a : Fp) (k : nat) : Fp := match k with O => F1 | S k => Fmul a (Fpow a k) end.
Lemma inj_pow x k : inj (x ^ N.of_nat k) = Fpow (inj x) k.
Proof.
  induction k as [|k IH]; [reflexivity|].
  rewrite Nat2N.inj_succ, N.pow_succ_r', inj_mul, IH. reflexivity.
Qed.
Lemma no_root a k : inj a <> F0 -> Z.of_nat k <> 0%Z -> (Z.of_nat k | Z.of_N p - 1)%Z ->
  ((Z.of_N a ^ ((Z.of_N p - 1) / Z.of_nat k)) mod Z.of_N p)%Z <> 1%Z ->
  forall z, Fpow z k <> inj a.
Proof.
  intros Ha Hk (m & Hm) Hne z E. apply Hne.
  rewrite Hm, Z.div_mul by assumption.
  assert (Hp : (2 < Z.of_N p)%Z) by lia.
  rewrite <- (inj_val z), <- inj_pow in E. apply inj_eq, of_N_cong in E.
  rewrite N2Z.inj_pow, nat_N_Z in E.
  assert (Hm0 : (0 <= m)%Z) by nia.
  assert (C : cong (Z.of_N p) (Z.of_N a ^ m) 1).
  { apply cong_trans with ((Z.of_N (val z) ^ Z.of_nat k) ^ m)%Z.
    - apply cong_pow; [assumption|]. now apply cong_sym.
    - rewrite <- Z.pow_mul_r by lia. rewrite Z.mul_comm, <- Hm. apply fermat; [assumption|].
      intros D. apply Ha. apply inj_eq, of_N_cong. eapply cong_trans; [apply cong_sym, E|].
      apply cong_divide; [lia|]. rewrite Z.sub_0_r.
      destruct k as [|k]; [lia|]. rewrite Nat2Z.inj_succ, Z.pow_succ_r by lia.
      now apply Z.divide_mul_l. }
  unfold cong in C. rewrite C. apply Z.mod_1_l. lia.
Qed.
Lemma no_root_check red a k : inj a <> F0 -> Z.of_nat k <> 0%Z ->
  (forall x, cong (Z.of_N p) (red x) x) ->
  ((Z.of_N p - 1) mod Z.of_nat k =? 0)%Z = true ->
  (power_z red (Z.of_N a) ((Z.of_N p - 1) / Z.of_nat k) mod Z.of_N p =? 1)%Z = false ->
  forall z, Fpow z k <> inj a.
Proof.
  intros Ha Hk R D C. apply no_root; try assumption.
  - apply Z.mod_divide; [assumption|]. now apply Z.eqb_eq.
  - apply Z.eqb_neq in C. intros E. apply C. etransitivity; [|exact E].
    apply power_z_ok; [assumption|]. apply Z.div_pos; lia.
Qed.

(** * Integers *)
Definition injz (x : Z) : Fp := inj (Z.to_N (x mod Z.of_N p)).
Lemma injz_eq x y : injz x = injz y <-> cong (Z.of_N p) x y.
Proof.
  assert (Hp : (0 < Z.of_N p)%Z) by lia. unfold injz. rewrite inj_eq.
  pose proof (Z.mod_pos_bound x _ Hp). pose proof (Z.mod_pos_bound y _ Hp).
  rewrite !N.mod_small by lia. unfold cong. split; [|congruence]. intros E. lia.
Qed.
Lemma injz_of x : injz (Z.of_N x) = inj x.
Proof.
  unfold injz. rewrite <- N2Z.inj_mod, N2Z.id. apply inj_mod.
Qed.
Lemma of_injz a : injz (Z.of_N (val a)) = a.
Proof. rewrite injz_of. apply inj_val. Qed.
Lemma injz_rep x : exists n, injz x = inj n /\ cong (Z.of_N p) x (Z.of_N n).
Proof.
  exists (Z.to_N (x mod Z.of_N p)). split; [reflexivity|].
  assert (Hp : (0 < Z.of_N p)%Z) by lia.
  pose proof (Z.mod_pos_bound x _ Hp). rewrite Z2N.id by lia. apply cong_sym, cong_mod.
Qed.
Lemma cong_add q a b c d : q <> 0%Z -> cong q a b -> cong q c d -> cong q (a + c) (b + d).
Proof. unfold cong. intros Hq H1 H2. rewrite (Z.add_mod a c q), (Z.add_mod b d q) by assumption. congruence. Qed.
Lemma injz_add x y : injz (x + y) = Fadd (injz x) (injz y).
Proof.
  destruct (injz_rep x) as (a & -> & Ha), (injz_rep y) as (b & -> & Hb).
  rewrite <- inj_add, <- injz_of. apply injz_eq. rewrite N2Z.inj_add.
  apply cong_add; [lia|assumption|assumption].
Qed.
Lemma injz_mul x y : injz (x * y) = Fmul (injz x) (injz y).
Proof.
  destruct (injz_rep x) as (a & -> & Ha), (injz_rep y) as (b & -> & Hb).
  rewrite <- inj_mul, <- injz_of. apply injz_eq. rewrite N2Z.inj_mul. now apply cong_mul.
Qed.
Lemma injz_opp x : injz (- x) = Fopp (injz x).
Proof.
  destruct (injz_rep x) as (a & -> & Ha). unfold Fopp. rewrite val_of, <- injz_of. apply injz_eq.
  pose proof (N.mod_lt a p ltac:(lia)).
  rewrite N2Z.inj_sub, N2Z.inj_mod by lia.
  apply cong_divide; [lia|]. apply cong_divide in Ha; [|lia]. destruct Ha as (k & Hk).
  pose proof (Z.div_mod (Z.of_N a) (Z.of_N p) ltac:(lia)) as E.
  exists (- k - Z.of_N a / Z.of_N p - 1)%Z. nia.
Qed.
Lemma injz_sub x y : injz (x - y) = Fsub (injz x) (injz y).
Proof. unfold Z.sub. rewrite injz_add, injz_opp. reflexivity. Qed.
Lemma injz_zero x : injz x = F0 <-> (x mod Z.of_N p = 0)%Z.
Proof.
  unfold F0. rewrite <- (injz_of 0), injz_eq. unfold cong.
  change (Z.of_N 0) with 0%Z. rewrite Zmod_0_l. reflexivity.
Qed.
End Fp.
