(** The group of secp256k1: the curve of StdCurve.v is y^2 = x^3 + 7 over a
    prime field, and its base point has the order [secp_n]. *)
From Coq Require Import Znumtheory Eqdep_dec Ring Field.
From Verif Require Import Base Prims StdCurve PrimeFacts FpFacts GroupFacts WeierstrassFacts.
Open Scope N_scope.

Lemma secp_odd : 2 < secp_p.
Proof. reflexivity. Qed.
Definition Fs : Type := Fp secp_p.
Definition si : N -> Fs := inj secp_p secp_odd.
Definition sz : Z -> Fs := injz secp_p secp_odd.
Definition s0 : Fs := F0 secp_p secp_odd.
Definition s1 : Fs := F1 secp_p secp_odd.
Definition splus : Fs -> Fs -> Fs := Fadd secp_p secp_odd.
Definition smul : Fs -> Fs -> Fs := Fmul secp_p secp_odd.
Definition ssub : Fs -> Fs -> Fs := Fsub secp_p secp_odd.
Definition sopp : Fs -> Fs := Fopp secp_p secp_odd.
Definition sdiv : Fs -> Fs -> Fs := Fdiv secp_p secp_odd.
Definition sinv : Fs -> Fs := Finv secp_p secp_odd.
Definition s_field : field_theory s0 s1 splus smul ssub sopp sdiv sinv eq :=
  F_field secp_p secp_p_prime secp_odd.
Definition s_dec : forall a b : Fs, {a = b} + {a <> b} := F_eq_dec secp_p.

Definition sred (x : Z) : Z := fold 256 0x1000003d1 (fold 256 0x1000003d1 x).
Lemma sred_cong x : cong (Z.of_N secp_p) (sred x) x.
Proof.
  unfold sred. eapply cong_trans; apply fold_cong;
  first [discriminate|apply Z.mod_divide; [discriminate|vm_compute; reflexivity]].
Qed.
Lemma sz_red x : sz (sred x) = sz x.
Proof. apply injz_eq. apply sred_cong. Qed.
Lemma sz_add x y : sz (x + y) = splus (sz x) (sz y).
Proof. apply injz_add. Qed.
Lemma sz_sub x y : sz (x - y) = ssub (sz x) (sz y).
Proof. apply injz_sub. Qed.
Lemma sz_mul x y : sz (x * y) = smul (sz x) (sz y).
Proof. apply injz_mul. Qed.
Lemma sz_opp x : sz (- x) = sopp (sz x).
Proof. apply injz_opp. Qed.
Lemma sz_square x : sz (Z.square x) = smul (sz x) (sz x).
Proof. rewrite Z.square_spec. apply sz_mul. Qed.
Lemma sz_si x : sz (Z.of_N x) = si x.
Proof. apply injz_of. Qed.

(** * The curve *)
Definition bb : Fs := si 7.
Lemma s_two : splus s1 s1 <> s0.
Proof.
  change (splus (si 1) (si 1) <> si 0). unfold splus, si. rewrite <- inj_add. intros E.
  apply inj_eq in E. vm_compute in E. discriminate.
Qed.
Lemma no_cube x : splus (smul (smul x x) x) bb <> s0.
Proof.
  intros E.
  apply (no_root_check secp_p secp_p_prime secp_odd sred (secp_p - 7) 3) with (z := x).
  - intros E0. apply inj_eq in E0. vm_compute in E0. discriminate.
  - discriminate.
  - exact sred_cong.
  - vm_compute. reflexivity.
  - vm_compute. reflexivity.
  - change (smul x (smul x (smul x s1)) = si (secp_p - 7)).
    apply (cube_of Fs s0 s1 splus smul ssub sopp sdiv sinv s_field bb); [exact E|].
    unfold bb, si, splus. rewrite <- inj_add. apply inj_eq. vm_compute. reflexivity.
Qed.

Definition spt : Type := option (Fs * Fs).
Definition s_on : spt -> Prop := on Fs splus smul bb.
Definition s_add : spt -> spt -> spt := wadd Fs s1 splus smul ssub sdiv s_dec.
Definition s_neg : spt -> spt := wneg Fs sopp.
Definition pt : Type := {q : spt | s_on q}.
Lemma pt_eq (a b : pt) : proj1_sig a = proj1_sig b -> a = b.
Proof.
  destruct a as [[[x y]|] Ha], b as [q Hb]; cbn; intros <-; f_equal.
  - apply UIP_dec. exact s_dec.
  - cbn in Ha, Hb. now destruct Ha, Hb.
Qed.
Definition gadd (a b : pt) : pt :=
  exist _ (s_add (proj1_sig a) (proj1_sig b))
    (on_wadd Fs s0 s1 splus smul ssub sopp sdiv sinv s_field bb s_dec no_cube s_two
       _ _ (proj2_sig a) (proj2_sig b)).
Definition gzero : pt := exist _ None I.
Definition gneg (a : pt) : pt :=
  exist _ (s_neg (proj1_sig a))
    (on_wneg Fs s0 s1 splus smul ssub sopp sdiv sinv s_field bb _ (proj2_sig a)).
Lemma g_assoc a b c : gadd (gadd a b) c = gadd a (gadd b c).
Proof.
  apply pt_eq. cbn [gadd proj1_sig]. unfold s_add.
  apply (wadd_assoc Fs s0 s1 splus smul ssub sopp sdiv sinv s_field bb s_dec no_cube s_two);
  apply proj2_sig.
Qed.
Lemma g_comm a b : gadd a b = gadd b a.
Proof.
  apply pt_eq. cbn [gadd proj1_sig]. unfold s_add.
  apply (wadd_comm Fs s0 s1 splus smul ssub sopp sdiv sinv s_field bb s_dec no_cube s_two);
  apply proj2_sig.
Qed.
Lemma g_ident a : gadd gzero a = a.
Proof. apply pt_eq. reflexivity. Qed.
Lemma g_inverse a : gadd a (gneg a) = gzero.
Proof.
  apply pt_eq. cbn [gadd gneg proj1_sig]. unfold s_add, s_neg.
  apply (wadd_neg Fs s0 s1 splus smul ssub sopp sdiv sinv s_field bb s_dec no_cube s_two).
  apply proj2_sig.
Qed.
Definition gmul : N -> pt -> pt := multiple pt gadd gzero.

Lemma base_on : s_on (Some (si (fst secp_g), si (snd secp_g))).
Proof.
  unfold s_on, on, bb. rewrite <- !sz_si.
  rewrite <- !sz_mul, <- sz_add.
  apply injz_eq. vm_compute. reflexivity.
Qed.
Definition gbase : pt := exist _ (Some (si (fst secp_g), si (snd secp_g))) base_on.

(** * The order of the base point *)
Definition zpoint : Type := option (Z * Z * Z).
Definition zdbl (a : zpoint) : zpoint :=
  match a with
  | None => None
  | Some (X, Y, Z) =>
    let y2 := sred (Z.square Y) in
    let s := (4 * sred (X * y2))%Z in
    let m := (3 * sred (Z.square X))%Z in
    let x3 := (sred (Z.square m) - 2 * s)%Z in
    Some (x3, (sred (m * (s - x3)) - 8 * sred (Z.square y2))%Z, (2 * sred (Y * Z))%Z)
  end.
Definition zadd (x2 y2 : Z) (a : zpoint) : zpoint :=
  match a with
  | None => Some (x2, y2, 1%Z)
  | Some (X, Y, Z) =>
    let z2 := sred (Z.square Z) in
    let h := (sred (x2 * z2) - X)%Z in
    let r := (sred (y2 * sred (Z * z2)) - Y)%Z in
    let h2 := sred (Z.square h) in
    let h3 := sred (h * h2) in
    let v := sred (X * h2) in
    let x3 := (sred (Z.square r) - h3 - 2 * v)%Z in
    Some (x3, (sred (r * (v - x3)) - sred (Y * h3))%Z, sred (Z * h))
  end.
Definition zrep (a : zpoint) (g : pt) : Prop :=
  match a with
  | None => g = gzero
  | Some (X, Y, Z) => sz Z <> s0 -> proj1_sig g = jaff Fs smul sdiv (sz X) (sz Y) (sz Z)
  end.

Lemma sz_1 : sz 1 = s1.
Proof. reflexivity. Qed.
Lemma sz_2 : sz 2 = splus s1 s1.
Proof. change 2%Z with (1 + 1)%Z. now rewrite sz_add. Qed.
Lemma sz_3 : sz 3 = splus (splus s1 s1) s1.
Proof. change 3%Z with (1 + 1 + 1)%Z. now rewrite !sz_add. Qed.
Lemma sz_4 : sz 4 = smul (splus s1 s1) (splus s1 s1).
Proof. change 4%Z with (2 * 2)%Z. now rewrite sz_mul, sz_2. Qed.
Lemma sz_8 : sz 8 = smul (smul (splus s1 s1) (splus s1 s1)) (splus s1 s1).
Proof. change 8%Z with (2 * 2 * 2)%Z. now rewrite !sz_mul, sz_2. Qed.
Ltac sz_push :=
  repeat first [rewrite sz_red|rewrite sz_square|rewrite sz_mul|rewrite sz_add|rewrite sz_sub|rewrite sz_opp];
  rewrite ?sz_2, ?sz_3, ?sz_4, ?sz_8.

Lemma zrep_dbl x a : zrep x a -> zrep (zdbl x) (gadd a a).
Proof.
  destruct x as [[[X Y] Z]|]; cbn [zrep zdbl].
  - intros H. sz_push. intros HZ.
    assert (HZ' : sz Z <> s0).
    { revert HZ. apply (product_factors Fs s0 s1 splus smul ssub sopp sdiv sinv s_field). }
    specialize (H HZ'). pose proof (proj2_sig a) as O. cbn beta in O. cbn [gadd proj1_sig].
    rewrite H in O |- *.
    now apply (jac_tangent Fs s0 s1 splus smul ssub sopp sdiv sinv s_field bb s_dec no_cube s_two).
  - intros ->. apply g_ident.
Qed.
Lemma zrep_add x2 y2 (b : pt) x a : proj1_sig b = Some (sz x2, sz y2) -> zrep x a -> zrep (zadd x2 y2 x) (gadd a b).
Proof.
  intros Eb. destruct x as [[[X Y] Z]|]; cbn [zrep zadd].
  - intros H. sz_push. intros HZ.
    assert (HZ' : sz Z <> s0).
    { revert HZ. apply (jac_mixed_factor Fs s0 s1 splus smul ssub sopp sdiv sinv s_field). }
    specialize (H HZ'). cbn [gadd proj1_sig]. rewrite H, Eb.
    now apply (jac_mixed Fs s0 s1 splus smul ssub sopp sdiv sinv s_field s_dec).
  - intros ->. intros _. rewrite g_ident, Eb. symmetry.
    apply (jac_affine Fs s0 s1 splus smul ssub sopp sdiv sinv s_field).
Qed.

Definition base_x : Z := Z.of_N (fst secp_g).
Definition base_y : Z := Z.of_N (snd secp_g).
Definition order_run (l : list digit) : zpoint :=
  run zpoint zdbl (zadd base_x base_y) (zadd base_x (- base_y)) None l.
Definition opposite (a : zpoint) : bool :=
  match a with
  | None => false
  | Some (X, Y, Z) =>
    let z2 := sred (Z.square Z) in
    negb (Z mod Z.of_N secp_p =? 0)%Z
    && ((base_x * z2 - X) mod Z.of_N secp_p =? 0)%Z && ((base_y * (Z * z2) + Y) mod Z.of_N secp_p =? 0)%Z
  end.
Lemma opposite_neg a g : zrep a g -> opposite a = true -> g = gneg gbase.
Proof.
  destruct a as [[[X Y] Z]|]; [|discriminate]. cbn [zrep opposite]. intros H.
  rewrite !andb_true_iff, negb_true_iff, Z.eqb_neq, !Z.eqb_eq. intros ((HZ & HX) & HY).
  assert (HZ' : sz Z <> s0) by (intros E; apply HZ; now apply (injz_zero _ secp_odd)).
  apply (injz_zero _ secp_odd) in HX, HY. fold sz s0 in HX, HY.
  rewrite sz_sub in HX. rewrite sz_add in HY. revert HX HY. sz_push. intros HX HY.
  apply pt_eq. rewrite (H HZ'). cbn [gneg gbase proj1_sig s_neg wneg].
  unfold base_x, base_y in HX, HY. rewrite !sz_si in HX, HY.
  now apply (jac_negated Fs s0 s1 splus smul ssub sopp sdiv sinv s_field).
Qed.

Definition order_digits : list digit := digits 260 (secp_n - 1).
Lemma order_value : pluses order_digits = (secp_n - 1) + minuses order_digits.
Proof. vm_compute. reflexivity. Qed.
Lemma order_runs : opposite (order_run order_digits) = true.
Proof. vm_compute. reflexivity. Qed.
Lemma base_before : gmul (secp_n - 1) gbase = gneg gbase.
Proof.
  apply (opposite_neg (order_run order_digits)); [|exact order_runs].
  apply (run_multiple pt gadd gzero gneg g_assoc g_comm g_ident g_inverse zpoint zdbl
    (zadd base_x base_y) (zadd base_x (- base_y)) None zrep).
  - exact zrep_dbl.
  - intros x a. apply zrep_add. unfold base_x, base_y. now rewrite !sz_si.
  - intros x a. apply zrep_add. unfold base_x, base_y. cbn [proj1_sig gneg gbase s_neg wneg].
    now rewrite sz_opp, !sz_si.
  - reflexivity.
  - exact order_value.
Qed.
Theorem base_order : gmul secp_n gbase = gzero.
Proof.
  assert (E : secp_n = N.succ (secp_n - 1)) by reflexivity.
  pose proof base_before as B. revert B E. generalize (secp_n - 1) as k. generalize secp_n as n.
  intros n k B ->. unfold gmul. rewrite multiple_succ. fold gmul. rewrite B. apply g_inverse.
Qed.
