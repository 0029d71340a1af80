(** The arithmetic of secp256k1 in StdCurve.v is that of the group, and its
    signatures verify. *)
From Coq Require Import Znumtheory Field_theory.
From Verif Require Import Base BaseFacts Prims StdHash StdCurve StdFacts Std PrimeFacts FpFacts GroupFacts WeierstrassFacts SecpGroupFacts.
Open Scope N_scope.

Lemma si_mul x y : si (fmul secp_p x y) = smul (si x) (si y).
Proof. apply inj_fmul. Qed.
Lemma si_times x y : si (x * y) = smul (si x) (si y).
Proof. apply inj_mul. Qed.
Lemma si_sub x y : si (fsub secp_p x y) = ssub (si x) (si y).
Proof. apply inj_fsub. Qed.
Lemma si_inv x : si (finv secp_p x) = sinv (si x).
Proof. apply inj_finv. Qed.
Lemma si_2 : si 2 = splus s1 s1.
Proof. rewrite <- sz_si. apply sz_2. Qed.
Lemma si_3 : si 3 = splus (splus s1 s1) s1.
Proof. rewrite <- sz_si. apply sz_3. Qed.
Lemma si_4 : si 4 = smul (splus s1 s1) (splus s1 s1).
Proof. rewrite <- sz_si. apply sz_4. Qed.
Lemma si_8 : si 8 = smul (smul (splus s1 s1) (splus s1 s1)) (splus s1 s1).
Proof. rewrite <- sz_si. apply sz_8. Qed.
Lemma si_zero x : x < secp_p -> si x = s0 -> x = 0.
Proof. intros H E. apply (inj_small secp_p secp_odd); [assumption|reflexivity|exact E]. Qed.
Ltac si_push :=
  repeat first [rewrite si_mul|rewrite si_sub|rewrite si_times];
  rewrite ?si_2, ?si_3, ?si_4, ?si_8.

(** * Jacobian coordinates *)
Definition jpoint (a : jac) : spt :=
  let '(x, y, z) := a in if z =? 0 then None else jaff Fs smul sdiv (si x) (si y) (si z).
Definition jrep (a : jac) (g : pt) : Prop :=
  let '(x, y, z) := a in z < secp_p /\ proj1_sig g = jpoint a.

Lemma jrep_zero : jrep jac_zero gzero.
Proof. split; reflexivity. Qed.

Lemma jdouble_point x y z : z <> 0 -> z < secp_p -> s_on (jpoint (x, y, z)) ->
  jpoint (jac_double (x, y, z)) = s_add (jpoint (x, y, z)) (jpoint (x, y, z)).
Proof.
  intros Hz Lz O. unfold jac_double, jpoint in *. destruct (N.eqb_spec z 0) as [? | _]; [contradiction|].
  assert (HZ : si z <> s0) by (intros E; apply Hz; now apply si_zero).
  destruct (jac_tangent Fs s0 s1 splus smul ssub sopp sdiv sinv s_field bb s_dec no_cube s_two _ _ _ HZ O) as (N & E).
  destruct (N.eqb_spec (fmul secp_p 2 (fmul secp_p y z)) 0) as [Z | _].
  - exfalso. apply N. rewrite <- si_2, <- !si_mul, Z. reflexivity.
  - si_push. unfold s_add. rewrite E. reflexivity.
Qed.
Lemma jrep_add a b g h : jrep a g -> jrep b h -> jrep (jac_add a b) (gadd g h).
Proof.
  destruct a as [[x1 y1] z1], b as [[x2 y2] z2]. intros (L1 & E1) (L2 & E2).
  pose proof (proj2_sig g) as O1. pose proof (proj2_sig h) as O2. cbn beta in O1, O2.
  rewrite E1 in O1. rewrite E2 in O2.
  assert (P : proj1_sig (gadd g h) = s_add (jpoint (x1, y1, z1)) (jpoint (x2, y2, z2))).
  { cbn [gadd proj1_sig]. now rewrite E1, E2. }
  unfold jac_add. destruct (N.eqb_spec z1 0) as [H1 | H1].
  { split; [assumption|]. rewrite P. unfold jpoint at 1. apply N.eqb_eq in H1. now rewrite H1. }
  destruct (N.eqb_spec z2 0) as [H2 | H2].
  { split; [assumption|]. rewrite P. unfold jpoint at 2. apply N.eqb_eq in H2. rewrite H2.
    unfold s_add. apply wadd_zero_r. }
  assert (Z1 : si z1 <> s0) by (intros E; apply H1; now apply si_zero).
  assert (Z2 : si z2 <> s0) by (intros E; apply H2; now apply si_zero).
  cbv zeta.
  set (hh := fsub secp_p (fmul secp_p x2 _) _). set (rr := fsub secp_p (fmul secp_p y2 _) _).
  assert (Eh : si hh = ssub (smul (si x2) (smul (si z1) (si z1))) (smul (si x1) (smul (si z2) (si z2)))).
  { unfold hh. now si_push. }
  assert (Er : si rr = ssub (smul (si y2) (smul (si z1) (smul (si z1) (si z1)))) (smul (si y1) (smul (si z2) (smul (si z2) (si z2))))).
  { unfold rr. now si_push. }
  assert (Lh : hh < secp_p) by (apply fsub_lt, secp_odd). assert (Lr : rr < secp_p) by (apply fsub_lt, secp_odd).
  assert (J1 : jpoint (x1, y1, z1) = jaff Fs smul sdiv (si x1) (si y1) (si z1)).
  { unfold jpoint. apply N.eqb_neq in H1. now rewrite H1. }
  assert (J2 : jpoint (x2, y2, z2) = jaff Fs smul sdiv (si x2) (si y2) (si z2)).
  { unfold jpoint. apply N.eqb_neq in H2. now rewrite H2. }
  destruct (N.eqb_spec hh 0) as [Hh | Hh].
  - rewrite Hh in Eh. symmetry in Eh. destruct (N.eqb_spec rr 0) as [Hr | Hr].
    + rewrite Hr in Er. symmetry in Er.
      assert (S : jpoint (x1, y1, z1) = jpoint (x2, y2, z2)).
      { rewrite J1, J2. now apply (jac_same Fs s0 s1 splus smul ssub sopp sdiv sinv s_field s_dec). }
      rewrite <- S in P. rewrite <- jdouble_point in P by assumption.
      unfold jac_double in *. split; [apply fmul_lt', secp_odd|exact P].
    + split; [reflexivity|]. rewrite P, J1, J2. unfold s_add.
      apply (jac_opposite Fs s0 s1 splus smul ssub sopp sdiv sinv s_field s_dec); try assumption.
      rewrite <- Er. intros E. apply Hr. now apply si_zero.
  - assert (Hh' : si hh <> s0) by (intros E; apply Hh; now apply si_zero).
    pose proof (jac_chord Fs s0 s1 splus smul ssub sopp sdiv sinv s_field s_dec
      (si x1) (si y1) (si z1) (si x2) (si y2) (si z2) Z1 Z2) as C. cbv zeta in C.
    rewrite <- Eh, <- Er in C. destruct (C Hh') as (N & E).
    split; [apply fmul_lt', secp_odd|].
    rewrite P, J1, J2. unfold s_add. rewrite E. unfold jpoint.
    destruct (N.eqb_spec (fmul secp_p hh (fmul secp_p z1 z2)) 0) as [Z | _].
    { exfalso. apply N. rewrite <- !si_mul, Z. reflexivity. }
    si_push. reflexivity.
Qed.

Lemma jrep_scale k a g : jrep a g -> jrep (secp_scale k a) (gmul k g).
Proof.
  apply (scale_rep pt gadd gzero g_assoc g_comm g_ident jac jac_add jac_zero jrep jrep_add jrep_zero).
Qed.
Lemma jrep_of x y (g : pt) : proj1_sig g = Some (si x, si y) -> jrep (jac_of (x, y)) g.
Proof.
  intros E. split; [reflexivity|]. rewrite E. unfold jpoint. cbn [fst snd].
  change (si 1) with s1. symmetry. apply (jac_affine Fs s0 s1 splus smul ssub sopp sdiv sinv s_field).
Qed.
Lemma jrep_base : jrep (jac_of secp_g) gbase.
Proof. apply (jrep_of (fst secp_g) (snd secp_g)). reflexivity. Qed.
Lemma jrep_affine x y z g : jrep (x, y, z) g -> z <> 0 ->
  proj1_sig g = Some (si (fst (affine (x, y, z))), si (snd (affine (x, y, z)))).
Proof.
  intros (L & E) Hz. rewrite E. unfold jpoint, affine. cbn [fst snd].
  destruct (N.eqb_spec z 0) as [? | _]; [contradiction|].
  assert (HZ : si z <> s0) by (intros E'; apply Hz; now apply si_zero).
  rewrite !si_mul, !si_inv. unfold jaff.
  rewrite (over_square Fs s0 s1 splus smul ssub sopp sdiv sinv s_field) by assumption.
  now rewrite (over_cube Fs s0 s1 splus smul ssub sopp sdiv sinv s_field) by assumption.
Qed.
Lemma affine_lt a : fst (affine a) < secp_p /\ snd (affine a) < secp_p.
Proof. destruct a as [[x y] z]. split; apply fmul_lt', secp_odd. Qed.
Lemma jrep_none x y z g : jrep (x, y, z) g -> (z = 0 <-> g = gzero).
Proof.
  intros (L & E). unfold jpoint in E. split.
  - intros Hz. apply pt_eq. rewrite E. apply N.eqb_eq in Hz. now rewrite Hz.
  - intros ->. destruct (N.eqb_spec z 0) as [|]; [assumption|discriminate].
Qed.

(** * The order *)
Lemma n_odd : 2 < secp_n.
Proof. reflexivity. Qed.
Definition Fn : Type := Fp secp_n.
Definition ni : N -> Fn := inj secp_n n_odd.
Definition n0 : Fn := F0 secp_n n_odd.
Definition n1 : Fn := F1 secp_n n_odd.
Definition nplus : Fn -> Fn -> Fn := Fadd secp_n n_odd.
Definition nmul : Fn -> Fn -> Fn := Fmul secp_n n_odd.
Definition nsub : Fn -> Fn -> Fn := Fsub secp_n n_odd.
Definition nopp : Fn -> Fn := Fopp secp_n n_odd.
Definition ndiv : Fn -> Fn -> Fn := Fdiv secp_n n_odd.
Definition ninv : Fn -> Fn := Finv secp_n n_odd.
Definition n_field : field_theory n0 n1 nplus nmul nsub nopp ndiv ninv eq :=
  F_field secp_n secp_n_prime n_odd.
Lemma n_dec : forall a b : Fn, {a = b} + {a <> b}.
Proof. exact (F_eq_dec secp_n). Qed.
Lemma ni_mul x y : ni (fmul secp_n x y) = nmul (ni x) (ni y).
Proof. apply inj_fmul. Qed.
Lemma ni_times x y : ni (x * y) = nmul (ni x) (ni y).
Proof. apply inj_mul. Qed.
Lemma ni_add x y : ni (x + y) = nplus (ni x) (ni y).
Proof. apply inj_add. Qed.
Lemma ni_sub x y : ni (fsub secp_n x y) = nsub (ni x) (ni y).
Proof. apply inj_fsub. Qed.
Lemma ni_inv x : ni (finv secp_n x) = ninv (ni x).
Proof. apply inj_finv. Qed.
Lemma ni_mod x : ni (x mod secp_n) = ni x.
Proof. apply inj_mod. Qed.
Lemma ni_zero x : ni x = n0 <-> x mod secp_n = 0.
Proof.
  change 0 with (0 mod secp_n) at 1. split; intros E; now apply (inj_eq secp_n n_odd x 0).
Qed.

(** Group lemmas, stated so that no conversion computes with the order. *)
Lemma g_cong j k : ni j = ni k -> gmul j gbase = gmul k gbase.
Proof.
  intros E. apply inj_eq in E. pose proof base_order as B.
  assert (Hn : secp_n <> 0) by discriminate. revert E B Hn. unfold gmul. generalize secp_n as n.
  intros n E B Hn. exact (multiple_cong pt gadd gzero g_assoc g_ident n j k gbase Hn B E).
Qed.
Lemma g_opposite j k : ni (j + k) = n0 -> gmul j gbase = gneg (gmul k gbase).
Proof.
  intros E. apply ni_zero in E. pose proof base_order as B.
  assert (Hn : secp_n <> 0) by discriminate. revert E B Hn. unfold gmul. generalize secp_n as n.
  intros n E B Hn. exact (multiple_opposite pt gadd gzero gneg g_assoc g_comm g_ident g_inverse n j k gbase Hn B E).
Qed.
Lemma gbase_nonzero : gbase <> gzero.
Proof. intros E. apply (f_equal (@proj1_sig _ _)) in E. discriminate. Qed.
Lemma g_nonzero k : ni k <> n0 -> gmul k gbase <> gzero.
Proof.
  intros Hk E. apply gbase_nonzero.
  assert (I : ni (finv secp_n k * k) = n1) by (apply (finv_inverse secp_n secp_n_prime n_odd); exact Hk).
  apply inj_eq in I. pose proof base_order as B. assert (Hn : secp_n <> 0) by discriminate.
  revert I B Hn E. unfold gmul. generalize (finv secp_n k) as j. generalize secp_n as n.
  intros n j I B Hn E. exact (multiple_inverse pt gadd gzero g_assoc g_comm g_ident n j k gbase Hn B I E).
Qed.
Lemma g_add j k : gadd (gmul j gbase) (gmul k gbase) = gmul (j + k) gbase.
Proof. symmetry. exact (multiple_add pt gadd gzero g_assoc g_ident j k gbase). Qed.
Lemma g_mul j k : gmul j (gmul k gbase) = gmul (j * k) gbase.
Proof. symmetry. exact (multiple_mul pt gadd gzero g_assoc g_ident j k gbase). Qed.
Lemma g_injective j k : gmul j gbase = gmul k gbase -> ni j = ni k.
Proof.
  intros E. destruct (n_dec (ni (j + (secp_n - k mod secp_n))) n0) as [Z | Z].
  - rewrite ni_add in Z.
    assert (K : nplus (ni k) (ni (secp_n - k mod secp_n)) = n0).
    { rewrite <- (ni_mod k), <- ni_add. apply ni_zero. pose proof (N.mod_lt k secp_n ltac:(discriminate)).
      replace (k mod secp_n + (secp_n - k mod secp_n)) with secp_n by lia. reflexivity. }
    apply (add_cancel Fn n0 n1 nplus nmul nsub nopp ndiv ninv n_field _ _ (ni (secp_n - k mod secp_n))). congruence.
  - exfalso. apply (g_nonzero _ Z). rewrite <- g_add, E, g_add.
    assert (K : ni (k + (secp_n - k mod secp_n)) = ni 0).
    { rewrite ni_add, <- (ni_mod k), <- ni_add. apply ni_zero. pose proof (N.mod_lt k secp_n ltac:(discriminate)).
      replace (k mod secp_n + (secp_n - k mod secp_n)) with secp_n by lia. reflexivity. }
    rewrite (g_cong _ _ K). reflexivity.
Qed.

(** * Public keys *)
Lemma pub_point k : ni k <> n0 ->
  proj1_sig (gmul k gbase) = Some (si (fst (std_secp_pub k)), si (snd (std_secp_pub k))).
Proof.
  intros Hk. unfold std_secp_pub.
  pose proof (jrep_scale (k mod secp_n) _ _ jrep_base) as R.
  rewrite (g_cong (k mod secp_n) k) in R by apply ni_mod.
  destruct (secp_scale (k mod secp_n) (jac_of secp_g)) as [[x y] z].
  apply (jrep_affine _ _ _ _ R). intros Hz. apply (g_nonzero k Hk). now apply (jrep_none _ _ _ _ R).
Qed.
Lemma pub_lt k : fst (std_secp_pub k) < secp_p /\ snd (std_secp_pub k) < secp_p.
Proof. apply affine_lt. Qed.

(** * Signatures *)
(** The x coordinate is that of the point and of its opposite. *)
Definition x_of (g : pt) : option N := option_map (fun q => val _ (fst q)) (proj1_sig g).
Lemma x_of_neg g : x_of (gneg g) = x_of g.
Proof. unfold x_of. cbn [gneg proj1_sig]. now destruct (proj1_sig g) as [[x y]|]. Qed.
Lemma x_of_pub k : ni k <> n0 -> x_of (gmul k gbase) = Some (fst (std_secp_pub k)).
Proof.
  intros Hk. unfold x_of. rewrite (pub_point k Hk). cbn [option_map fst]. f_equal.
  apply N.mod_small. apply pub_lt.
Qed.
Lemma x_of_rep x y z g a : jrep (x, y, z) g -> x_of g = Some a -> z <> 0 /\ fst (affine (x, y, z)) = a.
Proof.
  intros R Ha.
  assert (Hz : z <> 0).
  { intros Hz. apply (jrep_none _ _ _ _ R) in Hz. subst g. discriminate. }
  split; [assumption|]. unfold x_of in Ha. rewrite (jrep_affine _ _ _ _ R Hz) in Ha.
  cbn [option_map] in Ha. injection Ha as <-. symmetry. apply N.mod_small. apply affine_lt.
Qed.

(** What verification finds for a signature by [d] over [e] with nonce [k]. *)
Lemma verify_point m r s d k : ni d <> n0 -> ni k <> n0 ->
  0 < r < secp_n -> 0 < s < secp_n ->
  r = fst (std_secp_pub k) mod secp_n ->
  (let c := nplus (ni (of_be m)) (nmul (ni r) (ni d)) in
   nmul (ninv (ni s)) c = ni k \/ nmul (ninv (ni s)) c = nopp (ni k)) ->
  std_secp_verify m r s (std_secp_pub d) = true.
Proof.
  intros Hd Hk Hr Hs Er Hc. cbv zeta in Hc. unfold std_secp_verify.
  destruct (N.eqb_spec r 0) as [? | _]; [lia|]. destruct (N.eqb_spec s 0) as [? | _]; [lia|].
  destruct (N.leb_spec secp_n r) as [? | _]; [lia|]. destruct (N.leb_spec secp_n s) as [? | _]; [lia|].
  cbn [orb].
  set (e := of_be m mod secp_n). set (w := finv secp_n s).
  set (u1 := fmul secp_n e w). set (u2 := fmul secp_n r w).
  assert (Rd : jrep (jac_of (std_secp_pub d)) (gmul d gbase)).
  { pose proof (pub_point d Hd) as E. destruct (std_secp_pub d) as [dx dy]. now apply jrep_of. }
  pose proof (jrep_add _ _ _ _ (jrep_scale u1 _ _ jrep_base) (jrep_scale u2 _ _ Rd)) as R.
  rewrite g_mul, g_add in R.
  assert (En : ni (u1 + u2 * d) = nmul (ninv (ni s)) (nplus (ni (of_be m)) (nmul (ni r) (ni d)))).
  { rewrite ni_add, ni_times. unfold u1, u2. rewrite !ni_mul. unfold w, e. rewrite ni_inv, ni_mod.
    apply (two_parts Fn n0 n1 nplus nmul nsub nopp ndiv ninv n_field). }
  destruct (jac_add _ _) as [[x y] z].
  assert (X : x_of (gmul (u1 + u2 * d) gbase) = Some (fst (std_secp_pub k))).
  { destruct Hc as [Hc | Hc]; rewrite Hc in En.
    - rewrite (g_cong _ _ En). now apply x_of_pub.
    - rewrite (g_opposite (u1 + u2 * d) k); [rewrite x_of_neg; now apply x_of_pub|].
      rewrite ni_add, En. apply (opposite_sum Fn n0 n1 nplus nmul nsub nopp ndiv ninv n_field). }
  destruct (x_of_rep _ _ _ _ _ R X) as (Hz & Hx).
  destruct (N.eqb_spec z 0) as [? | _]; [contradiction|]. rewrite Hx. now apply N.eqb_eq.
Qed.

Lemma ni_small k : 0 < k < secp_n -> ni k <> n0.
Proof. intros H E. apply ni_zero in E. rewrite N.mod_small in E by lia. lia. Qed.

(** The signature made with a nonce. *)
Lemma sign_with_verifies m d k r s v : 0 < d < secp_n -> 0 < k < secp_n ->
  sign_with (of_be m mod secp_n) d k = Some (r, s, v) ->
  std_secp_verify m r s (std_secp_pub d) = true.
Proof.
  intros Hd Hk. unfold sign_with. pose proof (ni_small d Hd) as Nd. pose proof (ni_small k Hk) as Nk.
  destruct (std_secp_pub k) as [x y] eqn:Ep.
  set (r0 := x mod secp_n). set (s0 := fmul secp_n (finv secp_n k) _).
  destruct (N.eqb_spec r0 0) as [|Hr]; [discriminate|].
  destruct (N.eqb_spec s0 0) as [|Hs]; [discriminate|]. cbn [orb].
  assert (Lr : r0 < secp_n) by (apply N.mod_lt; discriminate).
  assert (Ls : s0 < secp_n) by (apply N.mod_lt; discriminate).
  assert (Es : ni s0 = nmul (ninv (ni k)) (nplus (ni (of_be m)) (nmul (ni r0) (ni d)))).
  { unfold s0. now rewrite ni_mul, ni_inv, ni_mod, ni_add, ni_mod, ni_times. }
  assert (Ns : nmul (ninv (ni k)) (nplus (ni (of_be m)) (nmul (ni r0) (ni d))) <> n0).
  { rewrite <- Es. apply ni_small. lia. }
  assert (Er : r0 = fst (std_secp_pub k) mod secp_n) by now rewrite Ep.
  destruct (secp_n / 2 <? s0); intros E; injection E as <- <- _.
  - assert (Lf : fsub secp_n secp_n s0 = secp_n - s0).
    { unfold fsub. rewrite (N.mod_small s0) by assumption.
      replace (secp_n + (secp_n - s0)) with (secp_n - s0 + 1 * secp_n) by lia.
      rewrite N.mod_add by discriminate. apply N.mod_small. lia. }
    apply (verify_point m r0 _ d k); try assumption; [lia|rewrite Lf; lia|].
    right. rewrite ni_sub, Es.
    assert (Z : ni secp_n = n0) by (apply ni_zero; reflexivity). rewrite Z.
    now apply (nonce_opposite Fn n0 n1 nplus nmul nsub nopp ndiv ninv n_field).
  - apply (verify_point m r0 s0 d k); try assumption; [lia|lia|].
    left. rewrite Es. now apply (nonce_of Fn n0 n1 nplus nmul nsub nopp ndiv ninv n_field).
Qed.
Lemma sign_loop_nonce fuel e d kv r s v : sign_loop fuel e d kv = Some (r, s, v) ->
  exists k, 0 < k < secp_n /\ sign_with e d k = Some (r, s, v).
Proof.
  revert kv. induction fuel as [|fuel IH]; intros [k v0]; cbn [sign_loop]; [discriminate|].
  set (nonce := of_be _). destruct (N.eqb_spec nonce 0) as [|Hn]; cbn [orb]; [apply IH|].
  destruct (N.leb_spec secp_n nonce) as [|Ln]; [apply IH|].
  destruct (sign_with e d nonce) as [sg|] eqn:E; [|apply IH].
  intros [= ->]. exists nonce. split; [lia|assumption].
Qed.
Local Strategy 1000 [sign_loop sign_with drbg_new].
Theorem std_secp_correct : secp_correct std.
Proof.
  intros m k r s v Hk H. change (std_secp_sign m k = Some (r, s, v)) in H.
  change (std_secp_verify m r s (std_secp_pub k) = true).
  unfold std_secp_sign in H. cbv zeta in H. apply sign_loop_nonce in H.
  destruct H as (nonce & Hn & E).
  exact (sign_with_verifies m k nonce r s v Hk Hn E).
Qed.
