(** The group of ed25519: the curve of StdCurve.v is an Edwards curve whose
    base point has the order [ed_l]. *)
From Coq Require Import Znumtheory Eqdep_dec Ring Field.
From Verif Require Import Base Prims StdCurve PrimeFacts FpFacts GroupFacts EdwardsFacts.
Open Scope N_scope.

Lemma ed_odd : 2 < ed_p.
Proof. reflexivity. Qed.
Definition Fe : Type := Fp ed_p.
Definition ei : N -> Fe := inj ed_p ed_odd.
Definition ez : Z -> Fe := injz ed_p ed_odd.
Definition e0 : Fe := F0 ed_p ed_odd.
Definition e1 : Fe := F1 ed_p ed_odd.
Definition eplus : Fe -> Fe -> Fe := Fadd ed_p ed_odd.
Definition emul : Fe -> Fe -> Fe := Fmul ed_p ed_odd.
Definition esub : Fe -> Fe -> Fe := Fsub ed_p ed_odd.
Definition eopp : Fe -> Fe := Fopp ed_p ed_odd.
Definition ediv : Fe -> Fe -> Fe := Fdiv ed_p ed_odd.
Definition einv : Fe -> Fe := Finv ed_p ed_odd.
Definition e_field : field_theory e0 e1 eplus emul esub eopp ediv einv eq :=
  F_field ed_p ed_p_prime ed_odd.
Definition e_dec : forall a b : Fe, {a = b} + {a <> b} := F_eq_dec ed_p.

Definition ered (x : Z) : Z := fold 255 19 (fold 255 19 x).
Lemma ered_cong x : cong (Z.of_N ed_p) (ered x) x.
Proof.
  unfold ered. eapply cong_trans; apply fold_cong;
  first [discriminate|apply Z.mod_divide; [discriminate|vm_compute; reflexivity]].
Qed.
Lemma ez_red x : ez (ered x) = ez x.
Proof. apply injz_eq. apply ered_cong. Qed.
Lemma ez_add x y : ez (x + y) = eplus (ez x) (ez y).
Proof. apply injz_add. Qed.
Lemma ez_sub x y : ez (x - y) = esub (ez x) (ez y).
Proof. apply injz_sub. Qed.
Lemma ez_mul x y : ez (x * y) = emul (ez x) (ez y).
Proof. apply injz_mul. Qed.
Lemma ez_opp x : ez (- x) = eopp (ez x).
Proof. apply injz_opp. Qed.
Lemma ez_square x : ez (Z.square x) = emul (ez x) (ez x).
Proof. rewrite Z.square_spec. apply ez_mul. Qed.
Lemma ez_ei x : ez (Z.of_N x) = ei x.
Proof. apply injz_of. Qed.
Lemma e_small x y : x < ed_p -> y < ed_p -> ei x = ei y -> x = y.
Proof. apply inj_small. Qed.

(** * The curve *)
Definition ed_i : N := 0x2b8324804fc1df0b2b4d00993dfbd7a72f431806ad2fe478c4ee1b274a0ea0b0.
Definition dd : Fe := ei ed_d.
Lemma i_square : emul (ei ed_i) (ei ed_i) = eopp e1.
Proof.
  change e1 with (ei 1). rewrite <- !ez_ei.
  rewrite <- ez_mul, <- ez_opp. apply injz_eq. vm_compute. reflexivity.
Qed.
Lemma d_nonsquare z : emul z z <> dd.
Proof.
  intros E. apply (no_root_check ed_p ed_p_prime ed_odd ered ed_d 2) with (z := z).
  - intros E0. apply inj_eq in E0. vm_compute in E0. discriminate.
  - discriminate.
  - exact ered_cong.
  - vm_compute. reflexivity.
  - vm_compute. reflexivity.
  - change (emul z (emul z e1) = dd). rewrite <- E. f_equal. apply (mul_one Fe e0 e1 eplus emul esub eopp ediv einv e_field).
Qed.
Lemma e_two : eplus e1 e1 <> e0.
Proof.
  change (eplus (ei 1) (ei 1) <> ei 0). unfold eplus, ei. rewrite <- inj_add. intros E.
  apply inj_eq in E. vm_compute in E. discriminate.
Qed.

Definition e_on : Fe * Fe -> Prop := on Fe e1 eplus emul esub dd.
Definition e_add : Fe * Fe -> Fe * Fe -> Fe * Fe := eadd Fe e1 eplus emul esub ediv dd.
Definition pt : Type := {q : Fe * Fe | e_on q}.
Lemma pt_eq (a b : pt) : proj1_sig a = proj1_sig b -> a = b.
Proof.
  destruct a as [[x y] Ha], b as [q Hb]. cbn. intros <-. f_equal. apply UIP_dec. exact e_dec.
Qed.
Definition gadd (a b : pt) : pt :=
  exist _ (e_add (proj1_sig a) (proj1_sig b))
    (on_eadd Fe e0 e1 eplus emul esub eopp ediv einv e_field dd (ei ed_i) e_dec i_square d_nonsquare e_two
       _ _ (proj2_sig a) (proj2_sig b)).
Definition gzero : pt :=
  exist _ (ezero Fe e0 e1) (on_ezero Fe e0 e1 eplus emul esub eopp ediv einv e_field dd).
Definition gneg (a : pt) : pt :=
  exist _ (eneg Fe eopp (proj1_sig a))
    (on_eneg Fe e0 e1 eplus emul esub eopp ediv einv e_field dd _ (proj2_sig a)).
Lemma g_assoc a b c : gadd (gadd a b) c = gadd a (gadd b c).
Proof.
  apply pt_eq. cbn. unfold e_add.
  apply (eadd_assoc Fe e0 e1 eplus emul esub eopp ediv einv e_field dd (ei ed_i) e_dec i_square d_nonsquare e_two);
  apply proj2_sig.
Qed.
Lemma g_comm a b : gadd a b = gadd b a.
Proof. apply pt_eq. cbn. apply (eadd_comm Fe e0 e1 eplus emul esub eopp ediv einv e_field). Qed.
Lemma g_ident a : gadd gzero a = a.
Proof. apply pt_eq. cbn. apply (eadd_zero Fe e0 e1 eplus emul esub eopp ediv einv e_field). Qed.
Lemma g_inverse a : gadd a (gneg a) = gzero.
Proof.
  apply pt_eq. cbn.
  apply (eadd_neg Fe e0 e1 eplus emul esub eopp ediv einv e_field dd (ei ed_i) e_dec i_square d_nonsquare e_two).
  apply proj2_sig.
Qed.
Definition gmul : N -> pt -> pt := multiple pt gadd gzero.

Lemma base_on : e_on (ei (fst ed_g), ei (snd ed_g)).
Proof.
  unfold e_on, on, dd. change e1 with (ei 1). rewrite <- !ez_ei.
  rewrite <- ?ez_mul, <- ?ez_sub, <- ?ez_add, <- ?ez_mul, <- ?ez_sub, <- ?ez_add.
  apply injz_eq. vm_compute. reflexivity.
Qed.
Definition gbase : pt := exist _ (ei (fst ed_g), ei (snd ed_g)) base_on.

(** * The order of the base point *)
Definition zpoint : Type := Z * Z * Z.
Definition zdbl (a : zpoint) : zpoint :=
  let '(X, Y, Z) := a in
  let A := ered (Z.square X) in
  let B := ered (Z.square Y) in
  let C := (2 * ered (Z.square Z))%Z in
  let E := (ered (Z.square (X + Y)) - A - B)%Z in
  let G := (B - A)%Z in
  let F := (G - C)%Z in
  let H := (- (A + B))%Z in
  (ered (E * F), ered (G * H), ered (F * G)).
Definition zadd (x2 y2 : Z) (a : zpoint) : zpoint :=
  let '(X, Y, Z) := a in
  let B := ered (Z.square Z) in
  let C := ered (X * x2) in
  let D := ered (Y * y2) in
  let E := ered (Z.of_N ed_d * ered (C * D)) in
  let F := (B - E)%Z in
  let G := (B + E)%Z in
  (ered (ered (Z * F) * (ered ((X + Y) * (x2 + y2)) - C - D)),
   ered (ered (Z * G) * (D + C)),
   ered (F * G)).
Definition zrep (a : zpoint) (g : pt) : Prop :=
  let '(X, Y, Z) := a in
  ez Z <> e0 /\ proj1_sig g = (ediv (ez X) (ez Z), ediv (ez Y) (ez Z)).

Ltac ez_push :=
  repeat first [rewrite ez_red|rewrite ez_square|rewrite ez_mul|rewrite ez_add|rewrite ez_sub|rewrite ez_opp].

Lemma zrep_dbl x a : zrep x a -> zrep (zdbl x) (gadd a a).
Proof.
  destruct x as [[X Y] Z]. intros (HZ & E). unfold zdbl, zrep. cbn [gadd proj1_sig].
  pose proof (proj2_sig a) as O. cbn beta in O. rewrite E in O |- *.
  replace (2 * ered (Z.square Z))%Z with (ered (Z.square Z) + ered (Z.square Z))%Z by lia.
  ez_push.
  now apply (double_formula Fe e0 e1 eplus emul esub eopp ediv einv e_field dd (ei ed_i) e_dec i_square d_nonsquare e_two).
Qed.

Lemma zrep_add x2 y2 (b : pt) x a : proj1_sig b = (ez x2, ez y2) -> zrep x a -> zrep (zadd x2 y2 x) (gadd a b).
Proof.
  intros Eb. destruct x as [[X Y] Z]. intros (HZ & E). unfold zadd, zrep. cbn [gadd proj1_sig].
  pose proof (proj2_sig a) as O. pose proof (proj2_sig b) as O2. cbn beta in O, O2.
  rewrite E in O |- *. rewrite Eb in O2 |- *.
  ez_push. rewrite ez_ei.
  now apply (add_formula Fe e0 e1 eplus emul esub eopp ediv einv e_field dd (ei ed_i) e_dec i_square d_nonsquare e_two).
Qed.

Lemma zrep_zero : zrep (0, 1, 1)%Z gzero.
Proof.
  unfold zrep. change (ez 1) with e1. change (ez 0) with e0.
  destruct (zero_ratio Fe e0 e1 eplus emul esub eopp ediv einv e_field) as (E1 & E2 & N).
  split; [exact N|]. cbn [gzero proj1_sig]. unfold ezero. now rewrite E1, E2.
Qed.

Definition base_x : Z := Z.of_N (fst ed_g).
Definition base_y : Z := Z.of_N (snd ed_g).
Definition order_run (l : list digit) : zpoint :=
  run zpoint zdbl (zadd base_x base_y) (zadd (- base_x) base_y) (0, 1, 1)%Z l.
Definition vanishes (a : zpoint) : bool :=
  let '(X, Y, Z) := a in (X mod Z.of_N ed_p =? 0)%Z && ((Y - Z) mod Z.of_N ed_p =? 0)%Z.
Lemma vanishes_zero a g : zrep a g -> vanishes a = true -> g = gzero.
Proof.
  destruct a as [[X Y] Z]. intros (HZ & E). unfold vanishes. rewrite andb_true_iff, !Z.eqb_eq.
  intros (HX & HY). apply (injz_zero _ ed_odd) in HX, HY. fold ez in HX, HY.
  rewrite ez_sub in HY. apply pt_eq. rewrite E. cbn. unfold ezero.
  change (ez X = e0) in HX. change (esub (ez Y) (ez Z) = e0) in HY. rewrite HX.
  symmetry. now apply (unit_ratio Fe e0 e1 eplus emul esub eopp ediv einv e_field).
Qed.

Definition order_digits : list digit := digits 260 ed_l.
Lemma order_value : pluses order_digits = ed_l + minuses order_digits.
Proof. vm_compute. reflexivity. Qed.
Lemma order_runs : vanishes (order_run order_digits) = true.
Proof. vm_compute. reflexivity. Qed.
Theorem base_order : gmul ed_l gbase = gzero.
Proof.
  apply (vanishes_zero (order_run order_digits)); [|exact order_runs].
  apply (run_multiple pt gadd gzero gneg g_assoc g_comm g_ident g_inverse zpoint zdbl
    (zadd base_x base_y) (zadd (- base_x) base_y) (0, 1, 1)%Z zrep).
  - exact zrep_dbl.
  - intros x a. apply zrep_add. unfold base_x, base_y. now rewrite !ez_ei.
  - intros x a. apply zrep_add. unfold base_x, base_y. cbn [proj1_sig gneg gbase]. unfold eneg.
    cbn [fst snd]. now rewrite ez_opp, !ez_ei.
  - exact zrep_zero.
  - exact order_value.
Qed.
