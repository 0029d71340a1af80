(** The group of a twisted Edwards curve -x^2 + y^2 = 1 + d x^2 y^2 over a field
    in which -1 is a square and d is not. *)
From Coq Require Import Field Field_theory Ring Setoid.

Section Edwards.
Variable F : Type.
Variables (zero one : F) (add mul sub : F -> F -> F) (opp : F -> F) (div : F -> F -> F) (inv : F -> F).
Hypothesis fth : field_theory zero one add mul sub opp div inv eq.
Add Field ff : fth.
Infix "+" := add. Infix "*" := mul. Infix "-" := sub. Infix "/" := div.
Notation "0" := zero. Notation "1" := one. Notation "- x" := (opp x).
Variables d i : F.
Hypothesis eq_dec : forall a b : F, {a = b} + {a <> b}.
Hypothesis i_square : i * i = - (1).
Hypothesis d_nonsquare : forall z, z * z <> d.
Hypothesis two : 1 + 1 <> 0.

Definition one_zero : 1 <> 0 := F_1_neq_0 fth.

Lemma mul_zero a b : a * b = 0 -> a = 0 \/ b = 0.
Proof.
  intros H. destruct (eq_dec a 0) as [Ha | Ha]; [now left|right].
  transitivity (a * b / a); [field; assumption|]. rewrite H. field. assumption.
Qed.
Lemma mul_nonzero a b : a <> 0 -> b <> 0 -> a * b <> 0.
Proof. intros Ha Hb H. destruct (mul_zero _ _ H); tauto. Qed.
Lemma sub_zero a b : a - b = 0 -> a = b.
Proof. intros H. transitivity (a - b + b); [ring|]. rewrite H. ring. Qed.
Lemma square_zero a : a * a = 0 -> a = 0.
Proof. intros H. destruct (mul_zero _ _ H); assumption. Qed.

Definition on (q : F * F) : Prop :=
  let '(x, y) := q in y * y - x * x = 1 + d * (x * x) * (y * y).
Definition eadd (q r : F * F) : F * F :=
  let '(x1, y1) := q in
  let '(x2, y2) := r in
  let t := d * x1 * x2 * y1 * y2 in
  ((x1 * y2 + x2 * y1) / (1 + t), (y1 * y2 + x1 * x2) / (1 - t)).
Definition ezero : F * F := (0, 1).
Definition eneg (q : F * F) : F * F := (- fst q, snd q).

(** A ratio of squares is a square. *)
Lemma no_ratio a b : b <> 0 -> a * a <> d * (b * b).
Proof.
  intros Hb H. apply (d_nonsquare (a / b)).
  transitivity (a * a / (b * b)); [field; assumption|]. rewrite H. field. assumption.
Qed.
Lemma i_nonzero : i <> 0.
Proof.
  intros H. rewrite H in i_square. apply one_zero. transitivity (- (- (1))); [ring|].
  rewrite <- i_square. ring.
Qed.
Lemma weight y : 1 + d * (y * y) <> 0.
Proof.
  intros H. destruct (eq_dec y 0) as [-> | Hy].
  - apply one_zero. rewrite <- H. ring.
  - apply (no_ratio i y Hy). rewrite i_square. symmetry. apply sub_zero.
    rewrite <- H. ring.
Qed.

(** The denominators are not zero. *)
Lemma complete x1 y1 x2 y2 : on (x1, y1) -> on (x2, y2) ->
  let t := d * x1 * x2 * y1 * y2 in t * t <> 1.
Proof.
  cbn. intros H1 H2. set (t := d * x1 * x2 * y1 * y2). intros Ht.
  (* as for u = i * x *)
  assert (D1 : y1 * y1 - x1 * x1 - (1 + d * (x1 * x1) * (y1 * y1)) = 0) by (rewrite H1; ring).
  assert (D2 : y2 * y2 - x2 * x2 - (1 + d * (x2 * x2) * (y2 * y2)) = 0) by (rewrite H2; ring).
  assert (D3 : t * t - 1 = 0) by (rewrite Ht; ring).
  assert (D : y1 * y1 - x1 * x1 - (1 + d * (x1 * x1) * (y1 * y1)) + (t * t - 1) * (y1 * y1 - 1)
    - d * (x1 * x1) * (y1 * y1) * (y2 * y2 - x2 * x2 - (1 + d * (x2 * x2) * (y2 * y2))) = 0)
    by (rewrite D1, D2, D3; ring).
  assert (E1 : (i * x1 + t * y1) * (i * x1 + t * y1)
    = - d * (i * x1 * y1 * (i * x2 + y2)) * (i * x1 * y1 * (i * x2 + y2))).
  { apply sub_zero. etransitivity; [|exact D]. unfold t. ring [i_square]. }
  assert (E2 : (i * x1 - t * y1) * (i * x1 - t * y1)
    = - d * (i * x1 * y1 * (i * x2 - y2)) * (i * x1 * y1 * (i * x2 - y2))).
  { apply sub_zero. etransitivity; [|exact D]. unfold t. ring [i_square]. }
  assert (Nz : forall a b, a * a = - d * b * b -> b = 0).
  { intros a b H. destruct (eq_dec b 0) as [? | Hb]; [assumption|exfalso].
    apply (no_ratio (i * a) b Hb).
    transitivity (i * i * (a * a)); [ring|]. rewrite H, i_square. ring. }
  apply Nz in E1. apply Nz in E2.
  assert (Hx1 : x1 <> 0).
  { intros ->. apply one_zero. rewrite <- Ht. unfold t. ring. }
  assert (Hy1 : y1 <> 0).
  { intros ->. apply one_zero. rewrite <- Ht. unfold t. ring. }
  assert (Hy2 : y2 <> 0).
  { intros ->. apply one_zero. rewrite <- Ht. unfold t. ring. }
  pose proof i_nonzero as Hi.
  assert (S1 : i * x2 + y2 = 0).
  { destruct (mul_zero _ _ E1) as [E | E]; [|assumption]. exfalso.
    exact (mul_nonzero _ _ (mul_nonzero _ _ Hi Hx1) Hy1 E). }
  assert (S2 : i * x2 - y2 = 0).
  { destruct (mul_zero _ _ E2) as [E | E]; [|assumption]. exfalso.
    exact (mul_nonzero _ _ (mul_nonzero _ _ Hi Hx1) Hy1 E). }
  assert (S3 : (1 + 1) * y2 = 0).
  { transitivity ((i * x2 + y2) - (i * x2 - y2)); [ring|]. rewrite S1, S2. ring. }
  destruct (mul_zero _ _ S3); tauto.
Qed.
Lemma complete_plus x1 y1 x2 y2 : on (x1, y1) -> on (x2, y2) -> 1 + d * x1 * x2 * y1 * y2 <> 0.
Proof.
  intros H1 H2 E. apply (complete x1 y1 x2 y2 H1 H2). cbv zeta.
  replace (d * x1 * x2 * y1 * y2) with (- (1)); [ring|].
  transitivity (- (1) + (1 + d * x1 * x2 * y1 * y2)); [rewrite E|]; ring.
Qed.
Lemma complete_minus x1 y1 x2 y2 : on (x1, y1) -> on (x2, y2) -> 1 - d * x1 * x2 * y1 * y2 <> 0.
Proof.
  intros H1 H2 E. apply (complete x1 y1 x2 y2 H1 H2). cbv zeta.
  apply sub_zero in E. rewrite <- E. ring.
Qed.

(** * Points by numerators and denominators *)
Definition frac : Type := (F * F * F * F)%type.
Definition value (q : frac) : F * F := let '(X, A, Y, B) := q in (X / A, Y / B).
Definition proper (q : frac) : Prop := let '(X, A, Y, B) := q in A <> 0 /\ B <> 0.
Definition fradd (q r : frac) : frac :=
  let '(X1, A1, Y1, B1) := q in
  let '(X2, A2, Y2, B2) := r in
  let n := A1 * A2 * B1 * B2 in
  let t := d * X1 * X2 * Y1 * Y2 in
  (X1 * Y2 * A2 * B1 + X2 * Y1 * A1 * B2, n + t, Y1 * Y2 * A1 * A2 + X1 * X2 * B1 * B2, n - t).

Lemma fradd_ok q r : proper q -> proper r -> on (value q) -> on (value r) ->
  proper (fradd q r) /\ value (fradd q r) = eadd (value q) (value r).
Proof.
  destruct q as [[[X1 A1] Y1] B1], r as [[[X2 A2] Y2] B2]. unfold proper, value, fradd.
  intros (HA1 & HB1) (HA2 & HB2) O1 O2.
  pose proof (complete_plus _ _ _ _ O1 O2) as P. pose proof (complete_minus _ _ _ _ O1 O2) as M.
  assert (P' : A1 * A2 * B1 * B2 + d * X1 * X2 * Y1 * Y2 <> 0).
  { intros E. apply P.
    transitivity ((A1 * A2 * B1 * B2 + d * X1 * X2 * Y1 * Y2) / (A1 * A2 * B1 * B2));
      [field; auto|rewrite E; field; auto]. }
  assert (M' : A1 * A2 * B1 * B2 - d * X1 * X2 * Y1 * Y2 <> 0).
  { intros E. apply M.
    transitivity ((A1 * A2 * B1 * B2 - d * X1 * X2 * Y1 * Y2) / (A1 * A2 * B1 * B2));
      [field; auto|rewrite E; field; auto]. }
  split; [now split|]. unfold eadd. f_equal; field; auto 10.
Qed.
Lemma value_eq q r : proper q -> proper r ->
  (let '(X, A, Y, B) := q in let '(X', A', Y', B') := r in X * A' = X' * A /\ Y * B' = Y' * B) ->
  value q = value r.
Proof.
  destruct q as [[[X1 A1] Y1] B1], r as [[[X2 A2] Y2] B2]. unfold proper, value.
  intros (HA1 & HB1) (HA2 & HB2) (E1 & E2). f_equal.
  - transitivity (X1 * A2 / (A1 * A2)); [field; auto|]. rewrite E1. field; auto.
  - transitivity (Y1 * B2 / (B1 * B2)); [field; auto|]. rewrite E2. field; auto.
Qed.

(** x = X / w with w = 1 + d y^2, where X is a root of a polynomial in y. *)
Definition cover (X y : F) : frac := (X, 1 + d * (y * y), y, 1).
Lemma covered q : on q -> exists X y,
  X * X = (y * y - 1) * (1 + d * (y * y)) /\ value (cover X y) = q /\ proper (cover X y).
Proof.
  destruct q as [x y]. cbn. intros H. exists (x * (1 + d * (y * y))), y.
  pose proof (weight y) as W. split; [|split; [|split; [exact W|exact one_zero]]].
  - transitivity ((x * x + d * (x * x) * (y * y)) * (1 + d * (y * y))); [ring|]. f_equal.
    transitivity (1 + d * (x * x) * (y * y) - (1 - x * x)); [ring|]. rewrite <- H. ring.
  - f_equal; field; auto using one_zero.
Qed.

Lemma on_value q : proper q ->
  (let '(X, A, Y, B) := q in Y * Y * A * A - X * X * B * B = A * A * B * B + d * (X * X) * (Y * Y)) ->
  on (value q).
Proof.
  destruct q as [[[X A] Y] B]. unfold proper, value, on. intros (HA & HB) E.
  transitivity ((Y * Y * A * A - X * X * B * B) / (A * A * B * B)); [field; auto|].
  rewrite E. field; auto.
Qed.
Theorem on_eadd q r : on q -> on r -> on (eadd q r).
Proof.
  intros Hq Hr.
  destruct (covered q Hq) as (X1 & y1 & E1 & <- & P1).
  destruct (covered r Hr) as (X2 & y2 & E2 & <- & P2).
  destruct (fradd_ok _ _ P1 P2 Hq Hr) as (P & <-).
  apply on_value; [assumption|]. unfold fradd, cover. ring [E1 E2].
Qed.

Theorem eadd_assoc q r s : on q -> on r -> on s -> eadd (eadd q r) s = eadd q (eadd r s).
Proof.
  intros Hq Hr Hs.
  destruct (covered q Hq) as (X1 & y1 & E1 & <- & P1).
  destruct (covered r Hr) as (X2 & y2 & E2 & <- & P2).
  destruct (covered s Hs) as (X3 & y3 & E3 & <- & P3).
  destruct (fradd_ok _ _ P1 P2 Hq Hr) as (P12 & E12).
  destruct (fradd_ok _ _ P2 P3 Hr Hs) as (P23 & E23).
  rewrite <- E12, <- E23.
  assert (H12 : on (value (fradd (cover X1 y1) (cover X2 y2)))) by (rewrite E12; now apply on_eadd).
  assert (H23 : on (value (fradd (cover X2 y2) (cover X3 y3)))) by (rewrite E23; now apply on_eadd).
  destruct (fradd_ok _ _ P12 P3 H12 Hs) as (PL & EL).
  destruct (fradd_ok _ _ P1 P23 Hq H23) as (PR & ER).
  rewrite <- EL, <- ER. apply value_eq; try assumption.
  unfold fradd, cover. split; ring [E1 E2 E3].
Qed.
Theorem eadd_comm q r : eadd q r = eadd r q.
Proof.
  destruct q as [x1 y1], r as [x2 y2]. unfold eadd.
  replace (d * x2 * x1 * y2 * y1) with (d * x1 * x2 * y1 * y2) by ring.
  f_equal; f_equal; ring.
Qed.
Theorem eadd_zero q : eadd ezero q = q.
Proof.
  destruct q as [x y]. unfold eadd, ezero.
  replace (d * 0 * x * 1 * y) with 0 by ring. f_equal; field; auto using one_zero.
Qed.
Theorem eadd_neg q : on q -> eadd q (eneg q) = ezero.
Proof.
  destruct q as [x y]. intros H. unfold eadd, eneg, ezero. cbn [fst snd].
  assert (H' : on (- x, y)).
  { cbn in *. transitivity (y * y - x * x); [ring|]. rewrite H. ring. }
  pose proof (complete_plus _ _ _ _ H H') as P. pose proof (complete_minus _ _ _ _ H H') as M.
  f_equal.
  - field. exact P.
  - cbn in H. replace (y * y + x * - x) with (1 - d * x * - x * y * y); [field; exact M|].
    transitivity (1 + d * (x * x) * (y * y)); [ring|]. rewrite <- H. ring.
Qed.
Lemma on_ezero : on ezero.
Proof. cbn. ring. Qed.
Lemma on_eneg q : on q -> on (eneg q).
Proof.
  destruct q as [x y]. cbn. intros H. transitivity (y * y - x * x); [ring|]. rewrite H. ring.
Qed.

(** * Extended coordinates *)
Definition extended (a : F * F * F * F) (q : F * F) : Prop :=
  let '(X, Y, Z, T) := a in
  Z <> 0 /\ T * Z = X * Y /\ q = (X / Z, Y / Z).
Lemma extended_add X1 Y1 Z1 T1 X2 Y2 Z2 T2 q r :
  on q -> on r -> extended (X1, Y1, Z1, T1) q -> extended (X2, Y2, Z2, T2) r ->
  let a := (Y1 - X1) * (Y2 - X2) in
  let b := (Y1 + X1) * (Y2 + X2) in
  let c := T1 * ((1 + 1) * d) * T2 in
  let e := (1 + 1) * Z1 * Z2 in
  extended ((b - a) * (e - c), (e + c) * (b + a), (e - c) * (e + c), (b - a) * (b + a)) (eadd q r).
Proof.
  intros Oq Or (HZ1 & HT1 & ->) (HZ2 & HT2 & ->). cbv zeta.
  pose proof (complete_plus _ _ _ _ Oq Or) as P. pose proof (complete_minus _ _ _ _ Oq Or) as M.
  assert (ET1 : T1 = X1 * Y1 / Z1) by (rewrite <- HT1; field; assumption).
  assert (ET2 : T2 = X2 * Y2 / Z2) by (rewrite <- HT2; field; assumption).
  assert (HP : (1 + 1) * Z1 * Z2 + T1 * ((1 + 1) * d) * T2
    = (1 + 1) * (Z1 * Z2) * (1 + d * (X1 / Z1) * (X2 / Z2) * (Y1 / Z1) * (Y2 / Z2))).
  { rewrite ET1, ET2. field. auto. }
  assert (HM : (1 + 1) * Z1 * Z2 - T1 * ((1 + 1) * d) * T2
    = (1 + 1) * (Z1 * Z2) * (1 - d * (X1 / Z1) * (X2 / Z2) * (Y1 / Z1) * (Y2 / Z2))).
  { rewrite ET1, ET2. field. auto. }
  rewrite HP, HM. unfold eadd.
  set (t := d * (X1 / Z1) * (X2 / Z2) * (Y1 / Z1) * (Y2 / Z2)) in *. clearbody t.
  split; [|split].
  - auto 10 using mul_nonzero.
  - ring.
  - f_equal; field; auto 10.
Qed.
Lemma extended_neg X Y Z T q : extended (X, Y, Z, T) q -> extended (- X, Y, Z, - T) (eneg q).
Proof.
  intros (HZ & HT & ->). split; [assumption|]. split.
  - transitivity (- (T * Z)); [ring|]. rewrite HT. ring.
  - unfold eneg. cbn [fst snd]. f_equal. field. assumption.
Qed.
Lemma extended_zero : extended (0, 1, 1, 0) ezero.
Proof. split; [exact one_zero|]. split; [ring|]. unfold ezero. f_equal; field; exact one_zero. Qed.
Lemma extended_affine x y : extended (x, y, 1, x * y) (x, y).
Proof. split; [exact one_zero|]. split; [ring|]. f_equal; field; exact one_zero. Qed.
Lemma sub_from_zero x : 0 - x = - x.
Proof. ring. Qed.

(** * Projective coordinates *)
Lemma double_formula X Y Z : Z <> 0 -> on (X / Z, Y / Z) ->
  let A := X * X in let B := Y * Y in
  let C := Z * Z + Z * Z in
  let E := (X + Y) * (X + Y) - A - B in
  let G := B - A in let H := G - C in let K := - (A + B) in
  H * G <> 0 /\
  eadd (X / Z, Y / Z) (X / Z, Y / Z) = (E * H / (H * G), G * K / (H * G)).
Proof.
  intros HZ O. cbv zeta.
  pose proof (complete_plus _ _ _ _ O O) as P. pose proof (complete_minus _ _ _ _ O O) as M.
  unfold on in O. unfold eadd.
  set (x := X / Z) in *. set (y := Y / Z) in *.
  assert (EX : X = x * Z) by (unfold x; field; assumption).
  assert (EY : Y = y * Z) by (unfold y; field; assumption).
  clearbody x y. subst X Y.
  set (t := d * x * x * y * y) in *.
  assert (HG : (y * Z) * (y * Z) - (x * Z) * (x * Z) = Z * Z * (1 + t)).
  { transitivity (Z * Z * (y * y - x * x)); [ring|]. rewrite O. unfold t. ring. }
  assert (HF : Z * Z * (1 + t) - (Z * Z + Z * Z) = - (Z * Z * (1 - t))) by ring.
  rewrite HG, HF.
  assert (N : - (Z * Z * (1 - t)) <> 0).
  { intros E. apply (mul_nonzero _ _ (mul_nonzero _ _ HZ HZ) M).
    transitivity (- - (Z * Z * (1 - t))); [ring|]. rewrite E. ring. }
  assert (N' : Z * Z * (1 + t) <> 0) by auto using mul_nonzero.
  split; [auto using mul_nonzero|]. clearbody t.
  assert (M' : 1 - t <> 0) by assumption.
  f_equal; field; auto.
Qed.
Lemma add_formula X Y Z x2 y2 : Z <> 0 -> on (X / Z, Y / Z) -> on (x2, y2) ->
  let B := Z * Z in
  let C := X * x2 in
  let D := Y * y2 in
  let E := d * (C * D) in
  let H := B - E in
  let G := B + E in
  H * G <> 0 /\
  eadd (X / Z, Y / Z) (x2, y2)
  = (Z * H * ((X + Y) * (x2 + y2) - C - D) / (H * G), Z * G * (D + C) / (H * G)).
Proof.
  intros HZ O O2. cbv zeta.
  pose proof (complete_plus _ _ _ _ O O2) as P. pose proof (complete_minus _ _ _ _ O O2) as M.
  clear O O2. unfold eadd.
  set (x := X / Z) in *. set (y := Y / Z) in *.
  assert (EX : X = x * Z) by (unfold x; field; assumption).
  assert (EY : Y = y * Z) by (unfold y; field; assumption).
  clearbody x y. subst X Y.
  set (t := d * x * x2 * y * y2) in *.
  assert (HE : d * (x * Z * x2 * (y * Z * y2)) = Z * Z * t) by (unfold t; ring).
  rewrite HE. clearbody t. clear HE.
  assert (HF : Z * Z - Z * Z * t = Z * Z * (1 - t)) by ring.
  assert (HG : Z * Z + Z * Z * t = Z * Z * (1 + t)) by ring.
  rewrite HF, HG. split; [auto 10 using mul_nonzero|].
  f_equal; field; auto 10.
Qed.
Lemma mul_one x : x * 1 = x.
Proof. ring. Qed.
Lemma zero_ratio : 0 / 1 = 0 /\ 1 / 1 = 1 /\ 1 <> 0.
Proof. repeat split; [field|field|]; exact one_zero. Qed.
Lemma unit_ratio Y Z : Z <> 0 -> Y - Z = 0 -> (0, 1) = (0 / Z, Y / Z).
Proof. intros HZ E. apply sub_zero in E. subst Y. f_equal; field; assumption. Qed.
(** * The equations with d = - a / c, without division *)
Variables a c : F.
Hypothesis c_nonzero : c <> 0.
Hypothesis ratio : c * d = - a.
Lemma left_cancel x y : c * x = c * y -> x = y.
Proof. intros H. transitivity (c * x / c); [field; assumption|]. rewrite H. field. assumption. Qed.
Lemma on_equation x y : c * (y * y) + a * (x * x) * (y * y) = c + c * (x * x) <-> on (x, y).
Proof.
  unfold on. assert (E : a = - (c * d)) by (rewrite ratio; ring). rewrite E. split; intros H.
  - apply left_cancel. transitivity (c * (y * y) + - (c * d) * (x * x) * (y * y) + c * d * (x * x) * (y * y) - c * (x * x)); [ring|].
    rewrite H. ring.
  - transitivity (c * (y * y - x * x) + - (c * d) * (x * x) * (y * y) + c * (x * x)); [ring|]. rewrite H. ring.
Qed.
Lemma eadd_equation x1 y1 x2 y2 x3 y3 : on (x1, y1) -> on (x2, y2) ->
  let t := a * x1 * x2 * y1 * y2 in
  (c * x3 = c * (x1 * y2 + x2 * y1) + t * x3 /\ c * y3 + t * y3 = c * (y1 * y2 + x1 * x2)) <->
  eadd (x1, y1) (x2, y2) = (x3, y3).
Proof.
  intros H1 H2. cbv zeta. pose proof (complete_plus _ _ _ _ H1 H2) as N1. pose proof (complete_minus _ _ _ _ H1 H2) as N2.
  unfold eadd. cbv zeta in *. assert (E : a * x1 * x2 * y1 * y2 = - (c * (d * x1 * x2 * y1 * y2))).
  { replace a with (- (c * d)) by (rewrite ratio; ring). ring. }
  rewrite E. clear E. set (t := d * x1 * x2 * y1 * y2) in *. split.
  - intros (E1 & E2). f_equal.
    + transitivity ((1 + t) * x3 / (1 + t)); [|field; assumption]. f_equal. apply left_cancel.
      transitivity (c * (x1 * y2 + x2 * y1) + - (c * t) * x3 + c * t * x3); [ring|]. rewrite <- E1. ring.
    + transitivity ((1 - t) * y3 / (1 - t)); [|field; assumption]. f_equal. apply left_cancel.
      rewrite <- E2. ring.
  - intros [= <- <-]. split; field; assumption.
Qed.
(** A point is known from y and x up to its sign. *)
Lemma same_y x x' y : on (x, y) -> on (x', y) -> x = x' \/ x + x' = 0.
Proof.
  unfold on. intros H H'. pose proof (weight y) as W.
  assert (E : (1 + d * (y * y)) * ((x - x') * (x + x')) = 0).
  { transitivity (- (y * y - x * x - (1 + d * (x * x) * (y * y))) + (y * y - x' * x' - (1 + d * (x' * x') * (y * y)))); [ring|].
    rewrite H, H'. ring. }
  destruct (mul_zero _ _ E) as [|E']; [contradiction|]. destruct (mul_zero _ _ E') as [E2 | E2].
  - left. now apply sub_zero.
  - now right.
Qed.
End Edwards.
