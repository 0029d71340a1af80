(** The group of the curve y^2 = x^3 + b over a field in which -b is no cube:
    the addition by chords and tangents is associative.  The proof goes
    through the complete projective formulas of Renes, Costello and Batina. *)
From Coq Require Import Field Field_theory Ring Setoid.

Section Weierstrass.
Variable F : Type.
Variables (zero one : F) (add mul sub : F -> F -> F) (opp : F -> F) (div : F -> F -> F) (inv : F -> F).
Hypothesis fth : field_theory zero one add mul sub opp div inv eq.
Add Field ff : fth.
Infix "+" := add. Infix "*" := mul. Infix "-" := sub. Infix "/" := div.
Notation "0" := zero. Notation "1" := one. Notation "- x" := (opp x).
Notation "2" := (1 + 1). Notation "3" := (1 + 1 + 1).
Variable b : F.
Hypothesis eq_dec : forall x y : F, {x = y} + {x <> y}.
Hypothesis no_cube : forall x, x * x * x + b <> 0.
Hypothesis two : 2 <> 0.

Definition one_zero : 1 <> 0 := F_1_neq_0 fth.
Lemma mul_zero x y : x * y = 0 -> x = 0 \/ y = 0.
Proof.
  intros H. destruct (eq_dec x 0) as [Ha | Ha]; [now left|right].
  transitivity (x * y / x); [field; assumption|]. rewrite H. field. assumption.
Qed.
Lemma mul_nonzero x y : x <> 0 -> y <> 0 -> x * y <> 0.
Proof. intros Ha Hb H. destruct (mul_zero _ _ H); tauto. Qed.
Lemma sub_zero x y : x - y = 0 -> x = y.
Proof. intros H. transitivity (x - y + y); [ring|]. rewrite H. ring. Qed.
Lemma sub_nonzero x y : x <> y -> x - y <> 0.
Proof. intros H E. apply H. now apply sub_zero. Qed.

(** * Chords and tangents; [None] is the point at infinity *)
Definition on (q : option (F * F)) : Prop :=
  match q with None => True | Some (x, y) => y * y = x * x * x + b end.
Definition through (l x1 y1 x2 : F) : option (F * F) :=
  let x3 := l * l - x1 - x2 in
  Some (x3, l * (x1 - x3) - y1).
Definition wadd (q r : option (F * F)) : option (F * F) :=
  match q, r with
  | None, _ => r
  | _, None => q
  | Some (x1, y1), Some (x2, y2) =>
    if eq_dec x1 x2
    then if eq_dec y1 y2 then through (3 * x1 * x1 / (2 * y1)) x1 y1 x2 else None
    else through ((y2 - y1) / (x2 - x1)) x1 y1 x2
  end.
Definition wneg (q : option (F * F)) : option (F * F) :=
  match q with None => None | Some (x, y) => Some (x, - y) end.

Lemma y_nonzero x y : on (Some (x, y)) -> y <> 0.
Proof. cbn. intros H ->. apply (no_cube x). rewrite <- H. ring. Qed.

Lemma on_chord x1 y1 x2 y2 : on (Some (x1, y1)) -> on (Some (x2, y2)) -> x1 <> x2 ->
  on (through ((y2 - y1) / (x2 - x1)) x1 y1 x2).
Proof.
  intros H1 H2 N. cbn in *. assert (D : x2 - x1 <> 0) by (apply sub_nonzero; congruence).
  field_simplify_eq [H1 H2]; [ring [H1 H2]|assumption].
Qed.
Lemma on_tangent x y : on (Some (x, y)) -> on (through (3 * x * x / (2 * y)) x y x).
Proof.
  intros H. pose proof (y_nonzero _ _ H) as N. cbn in *.
  field_simplify_eq [H]; [ring [H]|auto].
Qed.
Theorem on_wadd q r : on q -> on r -> on (wadd q r).
Proof.
  destruct q as [[x1 y1]|]; [|trivial]. destruct r as [[x2 y2]|]; [|trivial]. intros H1 H2.
  unfold wadd. destruct (eq_dec x1 x2) as [<- | N]; [|now apply on_chord].
  destruct (eq_dec y1 y2) as [<- | N]; [now apply on_tangent|exact I].
Qed.

(** * The projective formulas *)
Definition proj : Type := (F * F * F)%type.
Definition padd (q r : proj) : proj :=
  let '(X1, Y1, Z1) := q in
  let '(X2, Y2, Z2) := r in
  ((X1 * Y2 + X2 * Y1) * (Y1 * Y2 - 3 * b * Z1 * Z2) - 3 * b * (Y1 * Z2 + Y2 * Z1) * (X1 * Z2 + X2 * Z1),
   (Y1 * Y2 + 3 * b * Z1 * Z2) * (Y1 * Y2 - 3 * b * Z1 * Z2) + 3 * 3 * b * X1 * X2 * (X1 * Z2 + X2 * Z1),
   (Y1 * Z2 + Y2 * Z1) * (Y1 * Y2 + 3 * b * Z1 * Z2) + 3 * X1 * X2 * (X1 * Y2 + X2 * Y1)).
Definition stands (a : proj) (q : option (F * F)) : Prop :=
  let '(X, Y, Z) := a in
  match q with
  | None => X = 0 /\ Y <> 0 /\ Z = 0
  | Some (x, y) => Z <> 0 /\ X = x * Z /\ Y = y * Z
  end.
Definition lift (q : option (F * F)) : proj :=
  match q with None => (0, 1, 0) | Some (x, y) => (x, y, 1) end.
Lemma stands_lift q : stands (lift q) q.
Proof.
  destruct q as [[x y]|]; cbn; (split; [|split]); try exact one_zero; ring.
Qed.
Definition pscale (c : F) (a : proj) : proj := let '(X, Y, Z) := a in (c * X, c * Y, c * Z).
Lemma stands_scaled a q : stands a q -> exists c, c <> 0 /\ a = pscale c (lift q).
Proof.
  destruct a as [[X Y] Z], q as [[x y]|]; cbn.
  - intros (H & -> & ->). exists Z. split; [assumption|]. f_equal; [f_equal|]; ring.
  - intros (-> & H & ->). exists Y. split; [assumption|]. f_equal; [f_equal|]; ring.
Qed.
Lemma scaled_stands c a q : c <> 0 -> stands a q -> stands (pscale c a) q.
Proof.
  destruct a as [[X Y] Z], q as [[x y]|]; cbn; intros Hc.
  - intros (H & -> & ->). split; [now apply mul_nonzero|]. split; ring.
  - intros (-> & H & ->). split; [ring|]. split; [now apply mul_nonzero|ring].
Qed.
Lemma padd_scaled c e q r : padd (pscale c q) (pscale e r) = pscale (c * c * (e * e)) (padd q r).
Proof.
  destruct q as [[X1 Y1] Z1], r as [[X2 Y2] Z2]. unfold padd, pscale.
  f_equal; [f_equal|]; ring.
Qed.

(** y of the difference of two points. *)
Lemma difference x1 y1 x2 y2 : on (Some (x1, y1)) -> on (Some (x2, y2)) -> x1 <> x2 ->
  (y1 + y2) * (y1 * y2 + 3 * b) + 3 * x1 * x2 * (x1 * y2 + x2 * y1) <> 0.
Proof.
  intros H1 H2 N E.
  assert (D : x2 - x1 <> 0) by (apply sub_nonzero; congruence).
  assert (H2' : on (Some (x2, - y2))) by (cbn in *; rewrite <- H2; ring).
  pose proof (on_chord _ _ _ _ H1 H2' N) as O.
  unfold through in O. apply y_nonzero in O. apply O. cbn in H1, H2.
  transitivity (((y1 + y2) * (y1 * y2 + 3 * b) + 3 * x1 * x2 * (x1 * y2 + x2 * y1))
    / ((x2 - x1) * (x2 - x1) * (x2 - x1))).
  - field_simplify_eq [H1 H2]; [ring [H1 H2]|assumption].
  - rewrite E. field. assumption.
Qed.

Lemma lift_add q r : on q -> on r -> stands (padd (lift q) (lift r)) (wadd q r).
Proof.
  intros Hq Hr. destruct q as [[x1 y1]|], r as [[x2 y2]|]; cbn [wadd lift].
  - destruct (eq_dec x1 x2) as [<- | N]; [destruct (eq_dec y1 y2) as [<- | N]|].
    + (* tangent *)
      pose proof (y_nonzero _ _ Hq) as Hy. unfold padd, through, stands. cbn in Hq.
      assert (HZ : (y1 * 1 + y1 * 1) * (y1 * y1 + 3 * b * 1 * 1) + 3 * x1 * x1 * (x1 * y1 + x1 * y1)
        = 2 * 2 * 2 * (y1 * y1 * y1)) by ring [Hq].
      rewrite HZ. split; [auto 10 using mul_nonzero|].
      split; field_simplify_eq [Hq]; auto; ring [Hq].
    + (* opposite points *)
      assert (Hy : y2 = - y1).
      { cbn in Hq, Hr. rewrite <- Hr in Hq.
        assert (E : (y1 - y2) * (y1 + y2) = 0) by (transitivity (y1 * y1 - y2 * y2); [ring|rewrite Hq; ring]).
        destruct (mul_zero _ _ E) as [E' | E']; [now apply sub_zero in E'|].
        transitivity (y1 + y2 - y1); [ring|]. rewrite E'. ring. }
      subst y2. pose proof (y_nonzero _ _ Hq) as Hy.
      pose proof (y_nonzero _ _ (on_tangent _ _ Hq)) as H2. unfold padd, stands. cbn in Hq.
      split; [ring|]. split; [|ring].
      intros E. apply H2.
      transitivity (((y1 * - y1 + 3 * b * 1 * 1) * (y1 * - y1 - 3 * b * 1 * 1) + 3 * 3 * b * x1 * x1 * (x1 * 1 + x1 * 1))
        / (2 * 2 * 2 * (y1 * y1 * y1))).
      * field_simplify_eq [Hq]; [ring [Hq]|auto 10 using mul_nonzero].
      * rewrite E. field. auto 10 using mul_nonzero.
    + (* chord *)
      assert (D : x2 - x1 <> 0) by (apply sub_nonzero; congruence).
      pose proof (difference _ _ _ _ Hq Hr N) as HZ. unfold padd, through, stands. cbn in Hq, Hr.
      split; [intros E; apply HZ; rewrite <- E; ring|].
      split.
      * set (X := _ - _). set (Z := _ + _ * (x1 * y2 + x2 * y1)).
        transitivity (X * ((x2 - x1) * (x2 - x1)) / ((x2 - x1) * (x2 - x1))); [field; assumption|].
        replace (X * ((x2 - x1) * (x2 - x1)))
          with (((y2 - y1) * (y2 - y1) - (x1 + x2) * ((x2 - x1) * (x2 - x1))) * Z); [field; assumption|].
        unfold X, Z. ring [Hq Hr].
      * set (Y := _ + _ * (x1 * 1 + x2 * 1)). set (Z := _ + _ * (x1 * y2 + x2 * y1)).
        transitivity (Y * ((x2 - x1) * (x2 - x1) * (x2 - x1)) / ((x2 - x1) * (x2 - x1) * (x2 - x1))); [field; assumption|].
        replace (Y * ((x2 - x1) * (x2 - x1) * (x2 - x1)))
          with (((y2 - y1) * ((2 * x1 + x2) * ((x2 - x1) * (x2 - x1)) - (y2 - y1) * (y2 - y1))
                 - y1 * ((x2 - x1) * (x2 - x1) * (x2 - x1))) * Z); [field; assumption|].
        unfold Y, Z. ring [Hq Hr].
  - pose proof (y_nonzero _ _ Hq) as Hy. unfold padd, stands.
    split; [|split; ring]. intros E. apply Hy. rewrite <- E. ring.
  - pose proof (y_nonzero _ _ Hr) as Hy. unfold padd, stands.
    split; [|split; ring]. intros E. apply Hy. rewrite <- E. ring.
  - unfold padd, stands. split; [ring|]. split; [|ring]. intros E. apply one_zero. rewrite <- E. ring.
Qed.
Lemma stands_add a c q r : on q -> on r -> stands a q -> stands c r -> stands (padd a c) (wadd q r).
Proof.
  intros Hq Hr Ha Hc. destruct (stands_scaled _ _ Ha) as (e & He & ->).
  destruct (stands_scaled _ _ Hc) as (f & Hf & ->).
  rewrite padd_scaled. apply scaled_stands; [auto using mul_nonzero|now apply lift_add].
Qed.
Lemma stands_equal a c q r : stands a q -> stands c r ->
  (let '(X, Y, Z) := a in let '(X', Y', Z') := c in X * Z' = X' * Z /\ Y * Z' = Y' * Z) -> q = r.
Proof.
  destruct a as [[X Y] Z], c as [[X' Y'] Z'], q as [[x y]|], r as [[x' y']|]; cbn.
  - intros (HZ & -> & ->) (HZ' & -> & ->) (E1 & E2). f_equal. f_equal.
    + transitivity (x * Z * Z' / (Z * Z')); [field; auto|]. rewrite E1. field; auto.
    + transitivity (y * Z * Z' / (Z * Z')); [field; auto|]. rewrite E2. field; auto.
  - intros (HZ & -> & ->) (-> & HY' & ->) (E1 & E2). exfalso.
    apply (mul_nonzero _ _ HY' HZ). rewrite <- E2. ring.
  - intros (-> & HY & ->) (HZ' & -> & ->) (E1 & E2). exfalso.
    apply (mul_nonzero _ _ HY HZ'). rewrite E2. ring.
  - reflexivity.
Qed.

Theorem wadd_zero q : wadd None q = q.
Proof. reflexivity. Qed.
Theorem wadd_zero_r q : wadd q None = q.
Proof. destruct q as [[x y]|]; reflexivity. Qed.
Theorem wadd_comm q r : on q -> on r -> wadd q r = wadd r q.
Proof.
  intros Hq Hr. apply (stands_equal _ _ _ _ (lift_add q r Hq Hr) (lift_add r q Hr Hq)).
  destruct (lift q) as [[X1 Y1] Z1], (lift r) as [[X2 Y2] Z2]. unfold padd. split; ring.
Qed.
Theorem wadd_assoc q r s : on q -> on r -> on s -> wadd (wadd q r) s = wadd q (wadd r s).
Proof.
  intros Hq Hr Hs.
  destruct q as [[x1 y1]|]; [|reflexivity].
  destruct r as [[x2 y2]|]; [|reflexivity].
  destruct s as [[x3 y3]|]; [|now rewrite !wadd_zero_r].
  set (q := Some (x1, y1)) in *. set (r := Some (x2, y2)) in *. set (s := Some (x3, y3)) in *.
  pose proof (stands_add _ _ _ _ (on_wadd _ _ Hq Hr) Hs (lift_add _ _ Hq Hr) (stands_lift s)) as L.
  pose proof (stands_add _ _ _ _ Hq (on_wadd _ _ Hr Hs) (stands_lift q) (lift_add _ _ Hr Hs)) as R.
  apply (stands_equal _ _ _ _ L R). unfold q, r, s in *. cbn in Hq, Hr, Hs.
  cbn [lift]. unfold padd. split; ring [Hq Hr Hs].
Qed.
Theorem wadd_neg q : on q -> wadd q (wneg q) = None.
Proof.
  destruct q as [[x y]|]; [|reflexivity]. intros H. pose proof (y_nonzero _ _ H) as Hy.
  cbn. destruct (eq_dec x x) as [_ | N]; [|congruence].
  destruct (eq_dec y (- y)) as [E | _]; [|reflexivity]. exfalso.
  apply (mul_nonzero _ _ two Hy). transitivity (y + y); [ring|]. rewrite E at 2. ring.
Qed.
Lemma on_wneg q : on q -> on (wneg q).
Proof. destruct q as [[x y]|]; [|trivial]. cbn. intros <-. ring. Qed.
Lemma cube_of x c : x * x * x + b = 0 -> c + b = 0 -> x * (x * (x * 1)) = c.
Proof.
  intros H1 H2. transitivity (x * x * x + b - b); [ring|]. rewrite H1, <- H2. ring.
Qed.

(** The equations of sums, without division. *)
Lemma line_iff l x1 y1 x2 x3 y3 :
  (x3 + x1 + x2 = l * l /\ y3 + y1 + l * x3 = l * x1) <-> through l x1 y1 x2 = Some (x3, y3).
Proof.
  unfold through. split.
  - intros (E1 & E2). assert (E : l * l - x1 - x2 = x3) by (rewrite <- E1; ring).
    rewrite E. do 2 f_equal. transitivity (l * x1 - l * x3 - y1); [ring|]. rewrite <- E2. ring.
  - intros [= <- <-]. split; ring.
Qed.
Lemma tangent_slope l x y : y <> 0 -> (l * (2 * y) = 3 * (x * x) <-> l = 3 * x * x / (2 * y)).
Proof.
  intros Hy. split.
  - intros E. transitivity (l * (2 * y) / (2 * y)); [field; auto|]. rewrite E. field. auto.
  - intros ->. field. auto.
Qed.
Lemma chord_slope l x1 y1 x2 y2 : x1 <> x2 ->
  (l * x2 + y1 = l * x1 + y2 <-> l = (y2 - y1) / (x2 - x1)).
Proof.
  intros N. assert (D : x2 - x1 <> 0) by (apply sub_nonzero; congruence). split.
  - intros E. transitivity (l * (x2 - x1) / (x2 - x1)); [field; assumption|].
    replace (l * (x2 - x1)) with (y2 - y1); [reflexivity|].
    transitivity (l * x1 + y2 - y1 - l * x1); [ring|]. rewrite <- E. ring.
  - intros ->. field. assumption.
Qed.
Lemma opposite_iff x y y' : on (Some (x, y)) -> on (Some (x, y')) -> (y + y' = 0 <-> y <> y').
Proof.
  intros H H'. split.
  - intros E <-. apply (mul_nonzero _ _ two (y_nonzero _ _ H)). rewrite <- E. ring.
  - intros N. cbn in H, H'.
    assert (E : (y - y') * (y + y') = 0) by (transitivity (y * y - y' * y'); [ring|rewrite H, H'; ring]).
    destruct (mul_zero _ _ E) as [E' | E']; [|assumption]. now apply sub_zero in E'.
Qed.

(** The algebra of an ECDSA signature: k is the nonce, c is e + r * d. *)
Lemma nonce_of k c : k <> 0 -> inv k * c <> 0 -> inv (inv k * c) * c = k.
Proof.
  intros Hk H. assert (c <> 0) by (intros E; apply H; rewrite E; ring).
  field. auto.
Qed.
Lemma nonce_opposite k c : k <> 0 -> inv k * c <> 0 -> inv (0 - inv k * c) * c = - k.
Proof.
  intros Hk H. assert (c <> 0) by (intros E; apply H; rewrite E; ring).
  assert (1 <> 0) by exact one_zero.
  assert (E : 0 - inv k * c = - (c / k)) by (field; assumption).
  rewrite E. assert (c / k <> 0) by (intros E'; apply H; rewrite <- E'; field; assumption).
  field. repeat split; try assumption. intros E'. apply H0. transitivity (- - c); [ring|]. rewrite E'. ring.
Qed.
Lemma inverse_unique w s : w * s = 1 -> s <> 0 -> w = inv s.
Proof. intros E H. transitivity (w * s * inv s); [field; assumption|]. rewrite E. field. assumption. Qed.
Lemma inverse_times s : s <> 0 -> inv s * s = 1.
Proof. intros H. field. assumption. Qed.
Lemma times_inverse k c : k <> 0 -> inv k * c * k = c.
Proof. intros H. field. assumption. Qed.
Lemma times_opposite k c : k <> 0 -> (0 - inv k * c) * (0 - k) = c.
Proof. intros H. field. assumption. Qed.
Lemma opposite_inverse s w : w * s = 1 -> (0 - w) * (0 - s) = 1.
Proof. intros E. etransitivity; [|exact E]. ring. Qed.
Lemma inverse_zero k c : k <> 0 -> (inv k * c = 0 <-> c = 0).
Proof.
  intros H. split; intros E.
  - transitivity (k * (inv k * c)); [field; assumption|]. rewrite E. ring.
  - rewrite E. ring.
Qed.
Lemma opposite_mul e w : e * (0 - w) = - (e * w).
Proof. ring. Qed.
Lemma opposite_parts e r d w :
  e * (0 - w) + r * (0 - w) * d + (e * w + r * w * d) = 0.
Proof. ring. Qed.
Lemma mul_cancel r x y : r <> 0 -> r * x = r * y -> x = y.
Proof. intros H E. transitivity (r * x / r); [field; assumption|]. rewrite E. field. assumption. Qed.
Lemma add_cancel_l x y z : z + x = z + y -> x = y.
Proof. intros H. transitivity (z + x - z); [ring|]. rewrite H. ring. Qed.
Lemma two_parts e r d w : e * w + r * w * d = w * (e + r * d).
Proof. ring. Qed.
Lemma nonce_from e r d w s k : w * s = 1 -> s * k = e + r * d -> e * w + r * w * d = k.
Proof. intros W E. rewrite two_parts, <- E. transitivity (w * s * k); [ring|]. rewrite W. ring. Qed.
Lemma nonce_back e r d w s : w * s = 1 -> s * (e * w + r * w * d) = e + r * d.
Proof. intros W. rewrite two_parts. transitivity (w * s * (e + r * d)); [ring|]. rewrite W. ring. Qed.
Lemma add_cancel x y z : x + z = y + z -> x = y.
Proof. intros H. transitivity (x + z - z); [ring|]. rewrite H. ring. Qed.
Lemma opposite_sum k : - k + k = 0.
Proof. ring. Qed.
Lemma over_square x z : z <> 0 -> x * (inv z * inv z) = x / (z * z).
Proof. intros H. field. assumption. Qed.
Lemma over_cube y z : z <> 0 -> y * (inv z * (inv z * inv z)) = y / (z * (z * z)).
Proof. intros H. field. assumption. Qed.

(** * Jacobian coordinates *)
Definition jaff (X Y Z : F) : option (F * F) := Some (X / (Z * Z), Y / (Z * (Z * Z))).

Lemma jac_affine x y : jaff x y 1 = Some (x, y).
Proof. unfold jaff. f_equal. f_equal; field; exact one_zero. Qed.
Lemma jac_tangent X Y Z : Z <> 0 -> on (jaff X Y Z) ->
  let y2 := Y * Y in
  let s := 2 * 2 * (X * y2) in
  let m := 3 * (X * X) in
  let x3 := m * m - 2 * s in
  2 * (Y * Z) <> 0 /\
  wadd (jaff X Y Z) (jaff X Y Z) = jaff x3 (m * (s - x3) - 2 * 2 * 2 * (y2 * y2)) (2 * (Y * Z)).
Proof.
  intros HZ O. cbv zeta. pose proof (y_nonzero _ _ O) as Hy.
  assert (HY : Y <> 0) by (intros ->; apply Hy; field; assumption).
  split; [auto using mul_nonzero|].
  unfold jaff, wadd. destruct (eq_dec _ _) as [_ | N]; [|congruence].
  destruct (eq_dec _ _) as [_ | N]; [|congruence].
  unfold through. f_equal. f_equal; field; auto.
Qed.
Lemma ratio_equal a c d e : c <> 0 -> e <> 0 -> d * c = a * e -> a / c = d / e.
Proof. intros Hc He H. transitivity (a * e / (c * e)); [field; auto|]. rewrite <- H. field. auto. Qed.
Lemma ratio_cross a c d e : c <> 0 -> e <> 0 -> a / c = d / e -> d * c = a * e.
Proof. intros Hc He H. transitivity (d / e * (c * e)); [field; auto|]. rewrite <- H. field. auto. Qed.
Lemma jac_chord X1 Y1 Z1 X2 Y2 Z2 : Z1 <> 0 -> Z2 <> 0 ->
  let u1 := X1 * (Z2 * Z2) in let u2 := X2 * (Z1 * Z1) in
  let s1 := Y1 * (Z2 * (Z2 * Z2)) in let s2 := Y2 * (Z1 * (Z1 * Z1)) in
  let h := u2 - u1 in let r := s2 - s1 in
  h <> 0 ->
  let h2 := h * h in let h3 := h * h2 in let v := u1 * h2 in
  let x3 := r * r - h3 - 2 * v in
  h * (Z1 * Z2) <> 0 /\
  wadd (jaff X1 Y1 Z1) (jaff X2 Y2 Z2) = jaff x3 (r * (v - x3) - s1 * h3) (h * (Z1 * Z2)).
Proof.
  intros H1 H2 u1 u2 s1 s2 h r Hh. cbv zeta. split; [auto using mul_nonzero|].
  unfold jaff, wadd. destruct (eq_dec _ _) as [E | _].
  - exfalso. apply Hh. unfold h, u1, u2. apply ratio_cross in E; auto using mul_nonzero.
    rewrite E. ring.
  - unfold through.
    assert (L : (Y2 / (Z2 * (Z2 * Z2)) - Y1 / (Z1 * (Z1 * Z1))) / (X2 / (Z2 * Z2) - X1 / (Z1 * Z1)) = r / (h * (Z1 * Z2))).
    { unfold r, h, s1, s2, u1, u2. field. repeat split; try assumption. }
    rewrite L. clear L.
    assert (A : X1 / (Z1 * Z1) = u1 / (Z1 * Z1 * (Z2 * Z2))) by (unfold u1; field; auto).
    assert (A2 : X2 / (Z2 * Z2) = (h + u1) / (Z1 * Z1 * (Z2 * Z2))) by (unfold h, u1, u2; field; auto).
    assert (B : Y1 / (Z1 * (Z1 * Z1)) = s1 / (Z1 * Z1 * Z1 * (Z2 * Z2 * Z2))) by (unfold s1; field; auto).
    rewrite A, A2, B. clearbody u1 h s1 r. f_equal. f_equal; field; auto.
Qed.
Lemma jac_same X1 Y1 Z1 X2 Y2 Z2 : Z1 <> 0 -> Z2 <> 0 ->
  X2 * (Z1 * Z1) - X1 * (Z2 * Z2) = 0 ->
  Y2 * (Z1 * (Z1 * Z1)) - Y1 * (Z2 * (Z2 * Z2)) = 0 -> jaff X1 Y1 Z1 = jaff X2 Y2 Z2.
Proof.
  intros H1 H2 E1 E2. apply sub_zero in E1, E2. unfold jaff. f_equal.
  f_equal; apply ratio_equal; auto using mul_nonzero.
Qed.
Lemma jac_opposite X1 Y1 Z1 X2 Y2 Z2 : Z1 <> 0 -> Z2 <> 0 ->
  X2 * (Z1 * Z1) - X1 * (Z2 * Z2) = 0 ->
  Y2 * (Z1 * (Z1 * Z1)) - Y1 * (Z2 * (Z2 * Z2)) <> 0 -> wadd (jaff X1 Y1 Z1) (jaff X2 Y2 Z2) = None.
Proof.
  intros H1 H2 E1 E2. apply sub_zero in E1. unfold jaff, wadd.
  destruct (eq_dec _ _) as [_ | N]; [|exfalso; apply N, ratio_equal; auto using mul_nonzero].
  destruct (eq_dec _ _) as [E | _]; [|reflexivity].
  exfalso. apply E2. apply ratio_cross in E; auto using mul_nonzero. rewrite E. ring.
Qed.
(** With the second point affine, as long as the result's Z is not zero. *)
Lemma jac_mixed X Y Z x2 y2 :
  let h := x2 * (Z * Z) - X in let r := y2 * (Z * (Z * Z)) - Y in
  Z * h <> 0 ->
  let h2 := h * h in let h3 := h * h2 in let v := X * h2 in
  let x3 := r * r - h3 - 2 * v in
  Z <> 0 /\ wadd (jaff X Y Z) (Some (x2, y2)) = jaff x3 (r * (v - x3) - Y * h3) (Z * h).
Proof.
  intros h r HZ. cbv zeta.
  assert (HZ' : Z <> 0) by (intros E; apply HZ; rewrite E; ring).
  assert (Hh : h <> 0) by (intros E; apply HZ; rewrite E; ring).
  split; [assumption|]. rewrite <- jac_affine.
  assert (E : x2 * (Z * Z) - X * (1 * 1) = h) by (unfold h; ring).
  assert (E' : y2 * (Z * (Z * Z)) - Y * (1 * (1 * 1)) = r) by (unfold r; ring).
  pose proof (jac_chord X Y Z x2 y2 1 HZ' one_zero) as C. cbv zeta in C. rewrite E, E' in C.
  destruct (C Hh) as (_ & ->).
  f_equal; ring.
Qed.
Lemma jac_negated X Y Z x y : Z <> 0 -> x * (Z * Z) - X = 0 -> y * (Z * (Z * Z)) + Y = 0 ->
  jaff X Y Z = Some (x, - y).
Proof.
  intros HZ HX HY. apply sub_zero in HX. unfold jaff. rewrite <- HX.
  assert (E : Y = - (y * (Z * (Z * Z)))) by (transitivity (y * (Z * (Z * Z)) + Y - y * (Z * (Z * Z))); [ring|rewrite HY; ring]).
  rewrite E. f_equal. f_equal; field; assumption.
Qed.
Lemma jac_mixed_factor Z h : Z * h <> 0 -> Z <> 0.
Proof. intros H E. apply H. rewrite E. ring. Qed.
Lemma product_factors Y Z : 2 * (Y * Z) <> 0 -> Z <> 0.
Proof. intros H E. apply H. rewrite E. ring. Qed.
End Weierstrass.
