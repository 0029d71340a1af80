(** ECDSA in StdCurve.v is what CurveSpec.v describes. *)
From Coq Require Import Znumtheory Field_theory.
From Verif Require Import Base BaseFacts Prims StdHash StdCurve StdFacts Std PrimeFacts FpFacts GroupFacts WeierstrassFacts SecpGroupFacts SecpSignFacts CurveSpec SecpCurveFacts.
Open Scope N_scope.

Lemma ni_eq x y : x mod secp_n = y mod secp_n <-> ni x = ni y.
Proof. symmetry. apply inj_eq. Qed.
Lemma jrep_out x y z g : jrep (x, y, z) g ->
  out (proj1_sig g) = if z =? 0 then None else Some (affine (x, y, z)).
Proof.
  intros R. destruct (N.eqb_spec z 0) as [Z | Z].
  - apply (jrep_none _ _ _ _ R) in Z. now subst g.
  - rewrite (jrep_affine _ _ _ _ R Z). destruct (affine_lt (x, y, z)) as (Hx & Hy). cbn [out]. unfold si.
    rewrite !val_of, !N.mod_small by assumption. now destruct (affine (x, y, z)).
Qed.
Lemma jrep_to q (H : secp_on (Some q)) : jrep (jac_of q) (to (Some q) H).
Proof. destruct q as [x y]. now apply jrep_of. Qed.

Lemma some_fst (a b : N) q : Some (a, b) = Some q -> a = fst q.
Proof. intros [= <-]. reflexivity. Qed.

Theorem ecdsa_exact m r s q : secp_on (Some q) ->
  (std_secp_verify m r s q = true <-> ecdsa_valid (of_be m) r s q).
Proof.
  intros Hq. unfold ecdsa_valid. rewrite order_n. unfold std_secp_verify.
  destruct (N.eqb_spec r 0) as [Hr | Hr]; [split; [discriminate|lia]|].
  destruct (N.eqb_spec s 0) as [Hs | Hs]; [split; [discriminate|lia]|].
  destruct (N.leb_spec secp_n r) as [Lr | Lr]; [split; [discriminate|lia]|].
  destruct (N.leb_spec secp_n s) as [Ls | Ls]; [split; [discriminate|lia]|].
  cbn [orb]. assert (Ns : ni s <> n0) by (apply ni_small; lia).
  set (e := of_be m). set (w := finv secp_n s).
  assert (U : forall c w', (w' * s) mod secp_n = 1 -> (c * w') mod secp_n = fmul secp_n c w).
  { intros c w' E. change 1 with (1 mod secp_n) in E. apply ni_eq in E. rewrite ni_times in E.
    apply (inverse_unique Fn n0 n1 nplus nmul nsub nopp ndiv ninv n_field) in E; [|assumption].
    unfold fmul. apply ni_eq. rewrite !ni_times. unfold w. now rewrite ni_inv, E. }
  assert (W : (w * s) mod secp_n = 1).
  { change 1 with (1 mod secp_n). apply ni_eq. rewrite ni_times. unfold w. rewrite ni_inv.
    now apply (inverse_times Fn n0 n1 nplus nmul nsub nopp ndiv ninv n_field). }
  assert (Ue : fmul secp_n (e mod secp_n) w = fmul secp_n e w).
  { unfold fmul. apply ni_eq. now rewrite !ni_times, ni_mod. }
  rewrite Ue.
  pose proof (jrep_add _ _ _ _ (jrep_scale (fmul secp_n e w) _ _ jrep_base)
                               (jrep_scale (fmul secp_n r w) _ _ (jrep_to q Hq))) as R.
  destruct (jac_add _ _) as [[x y] z]. pose proof (jrep_out _ _ _ _ R) as O.
  destruct (N.eqb_spec z 0) as [Z | Z].
  - split; [discriminate|]. intros (_ & _ & w' & a & b & x' & y' & Ew & Ta & Tb & S & _). exfalso.
    rewrite (U e w' Ew) in Ta. rewrite (U r w' Ew) in Tb.
    apply generator_times in Ta. apply (times_iff _ Hq) in Tb. subst a b.
    apply (sum_to _ _ _ (on_out _) (on_out _)) in S. rewrite !to_out, O in S. discriminate.
  - rewrite N.eqb_eq. split.
    + intros E. split; [lia|]. split; [lia|].
      exists w, (out (proj1_sig (gmul (fmul secp_n e w) gbase))),
        (out (proj1_sig (gmul (fmul secp_n r w) (to (Some q) Hq)))),
        (fst (affine (x, y, z))), (snd (affine (x, y, z))).
      split; [assumption|]. split; [now apply generator_times|]. split; [now apply (times_iff _ Hq)|].
      split; [|assumption].
      apply (sum_to _ _ _ (on_out _) (on_out _)). rewrite !to_out, O. now rewrite <- surjective_pairing.
    + intros (_ & _ & w' & a & b & x' & y' & Ew & Ta & Tb & S & E).
      rewrite (U e w' Ew) in Ta. rewrite (U r w' Ew) in Tb.
      apply generator_times in Ta. apply (times_iff _ Hq) in Tb. subst a b.
      apply (sum_to _ _ _ (on_out _) (on_out _)) in S. rewrite !to_out, O in S.
      apply some_fst in S. now rewrite <- S.
Qed.

(** * Signing *)
Lemma odd_mod y : (if N.odd y then 1 else 0) = y mod 2.
Proof. symmetry. rewrite <- N.bit0_mod, N.bit0_odd. now destruct (N.odd y). Qed.
Lemma flip_parity y : 0 < y < secp_p -> (secp_p - y) mod 2 = 1 - y mod 2.
Proof.
  intros H. rewrite <- !odd_mod. rewrite N.odd_sub by lia. change (N.odd secp_p) with true.
  now destruct (N.odd y).
Qed.
Lemma flip_number y (b : bool) :
  N.lxor ((if N.odd y then 1 else 0) + (if b then 2 else 0)) 1 = 1 - y mod 2 + (if b then 2 else 0).
Proof. rewrite <- odd_mod. destruct (N.odd y), b; reflexivity. Qed.

Lemma sign_with_made m d k r s v : 0 < k < secp_n ->
  sign_with (of_be m mod secp_n) d k = Some (r, s, v) ->
  (ecdsa_with (of_be m) d k r s v \/ ecdsa_with (of_be m) d (secp_order - k) r s v) /\
  0 < r < secp_order /\ 0 < s <= secp_order / 2.
Proof.
  intros Hk. unfold ecdsa_with. rewrite order_n. unfold sign_with. pose proof (ni_small k Hk) as Nk.
  destruct (pub_opposite k Hk) as (Eo & Py). destruct (pub_lt k) as (Hx & Hy).
  pose proof (proj2 (secp_public k ltac:(rewrite order_n; assumption))) as T.
  assert (Hj : 0 < secp_n - k < secp_n) by lia.
  pose proof (proj2 (secp_public (secp_n - k) ltac:(rewrite order_n; assumption))) as T'.
  rewrite Eo in T'. clear Eo. destruct (std_secp_pub k) as [x y]. cbn [fst snd] in *.
  set (r0 := x mod secp_n). set (s0 := fmul secp_n (finv secp_n k) _).
  destruct (N.eqb_spec r0 0) as [|Hr]; [discriminate|].
  destruct (N.eqb_spec s0 0) as [|Hs]; [discriminate|]. cbn [orb].
  assert (Lr : r0 < secp_n) by (apply N.mod_lt; discriminate).
  assert (Ls : s0 < secp_n) by (apply N.mod_lt; discriminate).
  assert (Es : ni s0 = nmul (ninv (ni k)) (nplus (ni (of_be m)) (nmul (ni r0) (ni d)))).
  { unfold s0. now rewrite ni_mul, ni_inv, ni_mod, ni_add, ni_mod, ni_times. }
  assert (Half : secp_n = 2 * (secp_n / 2) + 1) by reflexivity.
  destruct (N.ltb_spec (secp_n / 2) s0) as [Hi | Hi]; intros E; injection E as <- <- <-.
  - assert (Lf : fsub secp_n secp_n s0 = secp_n - s0).
    { unfold fsub. rewrite (N.mod_small s0) by assumption.
      replace (secp_n + (secp_n - s0)) with (secp_n - s0 + 1 * secp_n) by lia.
      rewrite N.mod_add by discriminate. apply N.mod_small. lia. }
    split; [|split; [lia|rewrite Lf; lia]].
    right. exists x, (secp_p - y). split; [lia|]. split; [assumption|]. split; [reflexivity|].
    split.
    + apply ni_eq. rewrite ni_times, ni_add, ni_times, ni_sub, Es.
      assert (Z : ni secp_n = n0) by (apply ni_zero; reflexivity). rewrite Z.
      assert (K : ni (secp_n - k) = nsub n0 (ni k)).
      { rewrite <- Z, <- ni_sub. unfold fsub. rewrite (N.mod_small k) by lia. rewrite ni_mod.
        apply ni_eq. replace (secp_n + (secp_n - k)) with (secp_n - k + 1 * secp_n) by lia.
        now rewrite N.mod_add by discriminate. }
      rewrite K. now apply (times_opposite Fn n0 n1 nplus nmul nsub nopp ndiv ninv n_field).
    + rewrite flip_parity by lia. apply flip_number.
  - split; [|split; lia].
    left. exists x, y. split; [assumption|]. split; [assumption|]. split; [reflexivity|].
    split; [|now rewrite odd_mod].
    apply ni_eq. rewrite ni_times, ni_add, ni_times, Es.
    now apply (times_inverse Fn n0 n1 nplus nmul nsub nopp ndiv ninv n_field).
Qed.
Local Strategy 1000 [sign_loop sign_with drbg_new].
Theorem ecdsa_signs m d r s v : std_secp_sign m d = Some (r, s, v) ->
  ecdsa_made (of_be m) d r s v /\ 0 < r < secp_order /\ 0 < s <= secp_order / 2.
Proof.
  intros H. unfold std_secp_sign in H. cbv zeta in H. apply sign_loop_nonce in H.
  destruct H as (nonce & Hn & E). apply (sign_with_made m d nonce) in E; [|exact Hn].
  destruct E as ([E | E] & B); (split; [now eexists; exact E|exact B]).
Qed.

(** * Recovery of the key *)
Theorem ecdsa_recovers e d r s v : 0 < d < secp_order -> ecdsa_made e d r s v ->
  exists x y a b c, secp_on (Some (x, y)) /\
    r = x mod secp_order /\ v = y mod 2 + (if secp_order <=? x then 2 else 0) /\
    secp_times s (Some (x, y)) a /\ secp_times e (Some secp_generator) b /\
    secp_times r (Some (std_secp_pub d)) c /\ secp_sum b c a.
Proof.
  intros Hd (k & x & y & Hk & T & Er & Es & Ev).
  destruct (secp_public d Hd) as (Od & _). rewrite order_n in *.
  pose proof (ni_small d Hd) as Nd.
  apply generator_times in T.
  assert (O : secp_on (Some (x, y))) by (rewrite T; apply on_out).
  assert (P : to _ O = gmul k gbase).
  { apply pt_eq. cbn [to proj1_sig]. rewrite T. apply into_out. }
  assert (Q : to _ Od = gmul d gbase).
  { apply pt_eq. cbn [to proj1_sig]. rewrite <- (pub_out d Nd). apply into_out. }
  exists x, y, (out (proj1_sig (gmul s (to _ O)))), (out (proj1_sig (gmul e gbase))),
    (out (proj1_sig (gmul r (to _ Od)))).
  split; [assumption|]. split; [assumption|]. split; [assumption|].
  split; [now apply (times_iff _ O)|]. split; [now apply generator_times|]. split; [now apply (times_iff _ Od)|].
  apply (sum_to _ _ _ (on_out _) (on_out _)). rewrite !to_out, P, Q, !g_mul, g_add.
  f_equal. f_equal. apply g_cong. now apply ni_eq.
Qed.

Lemma unreduce t : t < secp_p -> t = t mod secp_n + (if secp_n <=? t then secp_n else 0).
Proof.
  intros Ht. assert (B : secp_p < 2 * secp_n) by reflexivity. revert B Ht.
  assert (Hn : secp_n <> 0) by discriminate. revert Hn.
  generalize secp_p as p, secp_n as n. intros p n Hn B Ht.
  destruct (N.leb_spec n t) as [L | L].
  - assert (E : t = t - n + 1 * n) by lia. rewrite E at 2.
    rewrite N.mod_add by assumption. rewrite N.mod_small; lia.
  - rewrite N.mod_small; lia.
Qed.
Lemma flags y y' (a b : bool) :
  y mod 2 + (if a then 2 else 0) = y' mod 2 + (if b then 2 else 0) -> y mod 2 = y' mod 2 /\ a = b.
Proof.
  pose proof (N.mod_lt y 2 ltac:(discriminate)). pose proof (N.mod_lt y' 2 ltac:(discriminate)).
  revert H H0. generalize (y mod 2) as u, (y' mod 2) as u'. intros u u' H H'.
  destruct a, b; intros E; split; try reflexivity; lia.
Qed.
Lemma opposite_parity y y' : y <> 0 -> y < secp_p -> y' < secp_p -> (y + y') mod secp_p = 0 ->
  y mod 2 = y' mod 2 -> False.
Proof.
  intros Y L L' M E.
  assert (S : y' = secp_p - y).
  { clear E. assert (Hp : secp_p <> 0) by discriminate. revert Hp L L' M. generalize secp_p as p. intros p Hp L L' M.
    apply N.mod_divide in M; [|assumption]. destruct M as (c & M).
    assert (c = 1) by nia. subst c. lia. }
  rewrite S, flip_parity in E by lia.
  pose proof (N.mod_lt y 2 ltac:(discriminate)) as B. revert B E. generalize (y mod 2) as u. intros u B E. lia.
Qed.
Theorem ecdsa_one_key e d d' r s v : 0 < d < secp_order -> 0 < d' < secp_order -> 0 < r < secp_order ->
  ecdsa_made e d r s v -> ecdsa_made e d' r s v -> d = d'.
Proof.
  intros Hd Hd' Hr (k & x & y & Hk & T & Er & Es & Ev) (k' & x' & y' & Hk' & T' & Er' & Es' & Ev').
  rewrite order_n in *.
  apply generator_times in T, T'.
  assert (O : secp_on (Some (x, y))) by (rewrite T; apply on_out).
  assert (O' : secp_on (Some (x', y'))) by (rewrite T'; apply on_out).
  destruct (proj1 (on_iff _) O) as ((Lx & Ly) & C), (proj1 (on_iff _) O') as ((Lx' & Ly') & C').
  assert (V : y mod 2 = y' mod 2 /\ (secp_n <=? x) = (secp_n <=? x')) by (apply flags; congruence).
  destruct V as (Vy & Vx).
  assert (Ex : x = x').
  { rewrite (unreduce x Lx), (unreduce x' Lx'), <- Er, <- Er', Vx. reflexivity. }
  subst x'.
  assert (Ey : y = y').
  { destruct (N.eq_dec y y') as [|N]; [assumption|]. exfalso.
    assert (N' : si y <> si y') by (intros E; apply N; now apply si_inj).
    apply (opposite_iff Fs s0 s1 splus smul ssub sopp sdiv sinv s_field bb s_dec no_cube s_two (si x)) in N'; try assumption.
    rewrite <- si_plus in N'. apply (proj2 (si_eq (y + y') 0)) in N'. rewrite field_p in N'.
    change (0 mod secp_p) with 0 in N'.
    assert (Y : y <> 0).
    { intros Z. apply (y_nonzero Fs s0 s1 splus smul ssub sopp sdiv sinv s_field bb no_cube _ _ C). now rewrite Z. }
    apply (opposite_parity y y'); try assumption. }
  subst y'.
  assert (K : ni k = ni k').
  { apply g_injective. apply pt_eq. rewrite <- (into_out (proj1_sig (gmul k gbase))), <- (into_out (proj1_sig (gmul k' gbase))).
    now rewrite <- T, <- T'. }
  apply ni_eq in Es, Es'. rewrite ni_times, K, <- ni_times, Es' in Es.
  rewrite !ni_add, !ni_times in Es.
  apply (add_cancel_l Fn n0 n1 nplus nmul nsub nopp ndiv ninv n_field) in Es.
  apply (mul_cancel Fn n0 n1 nplus nmul nsub nopp ndiv ninv n_field) in Es; [|apply ni_small; lia].
  symmetry. apply (inj_small secp_n n_odd); [lia|lia|exact Es].
Qed.

(** * The other signature *)
Theorem ecdsa_malleable e d r s : 0 < d < secp_order ->
  ecdsa_valid e r s (std_secp_pub d) -> ecdsa_valid e r (secp_order - s) (std_secp_pub d).
Proof.
  intros Hd (Hr & Hs & w & a & b & x & y & Ew & Ta & Tb & S & E). destruct (secp_public d Hd) as (Od & _).
  unfold ecdsa_valid. rewrite order_n in *. pose proof (ni_small d Hd) as Nd.
  assert (Q : to _ Od = gmul d gbase).
  { apply pt_eq. cbn [to proj1_sig]. rewrite <- (pub_out d Nd). apply into_out. }
  assert (Z : ni secp_n = n0) by (apply ni_zero; reflexivity).
  assert (Neg : forall c, c <= secp_n -> ni (secp_n - c) = nsub n0 (ni c)).
  { intros c Hc. rewrite <- Z, <- ni_sub. unfold fsub. rewrite ni_mod.
    destruct (N.eq_dec c secp_n) as [-> |]; [now apply ni_eq|].
    rewrite (N.mod_small c) by lia.
    apply ni_eq. replace (secp_n + (secp_n - c)) with (secp_n - c + 1 * secp_n) by lia.
    now rewrite N.mod_add by discriminate. }
  set (w' := secp_n - w mod secp_n).
  pose proof (N.mod_lt w secp_n ltac:(discriminate)) as Lw.
  assert (Nw : ni w' = nsub n0 (ni w)) by (unfold w'; rewrite Neg by lia; now rewrite ni_mod).
  split; [assumption|]. split; [lia|].
  apply generator_times in Ta. apply (times_iff _ Od) in Tb. rewrite Q, g_mul in Tb. subst a b.
  apply (sum_to _ _ _ (on_out _) (on_out _)) in S. rewrite !to_out, g_add in S.
  set (g := gmul _ gbase) in S.
  exists w', (out (proj1_sig (gmul ((e * w') mod secp_n) gbase))),
    (out (proj1_sig (gmul ((r * w') mod secp_n) (to _ Od)))).
  assert (G : gadd (gmul ((e * w') mod secp_n) gbase) (gmul ((r * w') mod secp_n) (to _ Od)) = gneg g).
  { rewrite Q, g_mul, g_add. apply g_opposite.
    rewrite !ni_add, !ni_times, !ni_mod, !ni_times, Nw.
    apply (opposite_parts Fn n0 n1 nplus nmul nsub nopp ndiv ninv n_field). }
  assert (X : exists y', out (proj1_sig (gneg g)) = Some (x, y')).
  { cbn [gneg proj1_sig]. destruct (proj1_sig g) as [[gx gy]|]; [|discriminate].
    cbn [out s_neg wneg] in S |- *. injection S as -> _. now eexists. }
  destruct X as (y' & X). exists x, y'.
  split. { change 1 with (1 mod secp_n). apply ni_eq. rewrite ni_times, Nw, Neg by lia.
    apply (opposite_inverse Fn n0 n1 nplus nmul nsub nopp ndiv ninv n_field).
    rewrite <- ni_times. change n1 with (ni 1). apply ni_eq. exact Ew. }
  split; [now apply generator_times|]. split; [now apply (times_iff _ Od)|].
  split; [|assumption]. apply (sum_to _ _ _ (on_out _) (on_out _)). now rewrite !to_out, G, X.
Qed.

(** * Valid signatures are those made with some nonce *)
Theorem ecdsa_valid_made e d r s : 0 < d < secp_order ->
  (ecdsa_valid e r s (std_secp_pub d) <->
   0 < r < secp_order /\ 0 < s < secp_order /\ exists v, ecdsa_made e d r s v).
Proof.
  intros Hd. destruct (secp_public d Hd) as (Od & _). unfold ecdsa_valid, ecdsa_made, ecdsa_with. rewrite order_n in *.
  pose proof (ni_small d Hd) as Nd.
  assert (Q : to _ Od = gmul d gbase).
  { apply pt_eq. cbn [to proj1_sig]. rewrite <- (pub_out d Nd). apply into_out. }
  split.
  - intros (Hr & Hs & w & a & b & x & y & Ew & Ta & Tb & S & E). split; [assumption|]. split; [assumption|].
    apply generator_times in Ta. apply (times_iff _ Od) in Tb. rewrite Q, g_mul in Tb. subst a b.
    apply (sum_to _ _ _ (on_out _) (on_out _)) in S. rewrite !to_out, g_add in S.
    set (k := _ + _) in S. assert (K : ni k = nplus (nmul (ni e) (ni w)) (nmul (nmul (ni r) (ni w)) (ni d))).
    { unfold k. now rewrite ni_add, ni_times, !ni_mod, !ni_times. }
    eexists. exists (k mod secp_n), x, y. split; [|split; [|split; [|split; [|reflexivity]]]].
    + assert (Nz : k mod secp_n <> 0).
      { intros Z. apply ni_zero in Z. rewrite (g_cong k 0) in S by (rewrite Z; symmetry; apply ni_zero; reflexivity).
        discriminate S. }
      split; [apply N.neq_0_lt_0; exact Nz|]. apply N.mod_lt. discriminate.
    + apply generator_times. rewrite (g_cong (k mod secp_n) k) by apply ni_mod. exact S.
    + symmetry. exact E.
    + apply ni_eq. rewrite ni_times, ni_mod, ni_add, ni_times, K.
      apply (nonce_back Fn n0 n1 nplus nmul nsub nopp ndiv ninv n_field).
      rewrite <- ni_times. change n1 with (ni 1). apply ni_eq. exact Ew.
  - intros (Hr & Hs & v & k & x & y & Hk & T & Er & Es & _). split; [assumption|]. split; [assumption|].
    pose proof (ni_small s Hs) as Ns.
    assert (W : nmul (ni (finv secp_n s)) (ni s) = n1).
    { rewrite ni_inv. now apply (inverse_times Fn n0 n1 nplus nmul nsub nopp ndiv ninv n_field). }
    set (w := finv secp_n s) in *. clearbody w. apply ni_eq in Es. rewrite ni_times, ni_add, ni_times in Es.
    exists w, (out (proj1_sig (gmul ((e * w) mod secp_n) gbase))),
      (out (proj1_sig (gmul ((r * w) mod secp_n) (to _ Od)))), x, y.
    split. { change 1 with (1 mod secp_n). apply ni_eq. rewrite ni_times. exact W. }
    split; [now apply generator_times|]. split; [now apply (times_iff _ Od)|]. split; [|symmetry; exact Er].
    apply (sum_to _ _ _ (on_out _) (on_out _)). rewrite !to_out, Q, g_mul, g_add.
    apply generator_times in T. rewrite T. f_equal. f_equal. apply g_cong.
    rewrite ni_add, ni_times, !ni_mod, !ni_times. symmetry.
    exact (nonce_from Fn n0 n1 nplus nmul nsub nopp ndiv ninv n_field _ _ _ _ _ _ W Es).
Qed.

(** * The nonces *)
Lemma usable_iff m d k : 0 < k < secp_n ->
  (ecdsa_usable (of_be m) d k <-> sign_with (of_be m mod secp_n) d k <> None).
Proof.
  intros Hk. unfold ecdsa_usable, sign_with. rewrite order_n. pose proof (ni_small k Hk) as Nk.
  pose proof (proj2 (secp_public k ltac:(rewrite order_n; assumption))) as T.
  assert (U : forall x y, secp_times k (Some secp_generator) (Some (x, y)) -> (x, y) = std_secp_pub k).
  { intros x y T'. apply generator_times in T, T'. rewrite <- T in T'. now injection T'. }
  destruct (std_secp_pub k) as [x y]. set (r0 := x mod secp_n) in *. set (s0 := fmul secp_n (finv secp_n k) _).
  assert (S : s0 = 0 <-> (of_be m + r0 * d) mod secp_n = 0).
  { assert (Ls : s0 < secp_n) by (apply N.mod_lt; discriminate).
    rewrite <- ni_zero. assert (Z : s0 = 0 <-> ni s0 = n0).
    { rewrite ni_zero, N.mod_small by assumption. reflexivity. }
    rewrite Z. unfold s0. rewrite ni_mul, ni_inv, ni_mod, !ni_add, ni_mod.
    generalize (nplus (ni (of_be m)) (ni (r0 * d))) as c. intros c.
    exact (inverse_zero Fn n0 n1 nplus nmul nsub nopp ndiv ninv n_field (ni k) c Nk). }
  split.
  - intros (x' & y' & _ & T' & Hr & Hs). pose proof (U x' y' T') as E. injection E as -> ->. fold r0 in Hr, Hs.
    destruct (N.eqb_spec r0 0) as [|_]; [contradiction|].
    destruct (N.eqb_spec s0 0) as [Z|_]; [apply S in Z; contradiction|]. cbn [orb].
    destruct (_ <? _); discriminate.
  - intros H. exists x, y. split; [assumption|]. split; [assumption|]. fold r0.
    destruct (N.eqb_spec r0 0) as [|Hr]; [now destruct H|]. split; [assumption|].
    destruct (N.eqb_spec s0 0) as [|Hs]; [now destruct H|]. intros Z. apply Hs, S, Z.
Qed.
Lemma candidate_fun mac x h j k v : rfc6979 mac x h j k v -> forall k' v', rfc6979 mac x h j k' v' -> k = k' /\ v = v'.
Proof.
  induction 1 as [k0 v0 k1 v1 k2 v2 E1 E2 E3 E4 E5 E6 | j k v k1 v1 H IH E1 E2]; intros k' v' H'; inversion H'; subst; [auto|].
  match goal with R : rfc6979 _ _ _ j _ _ |- _ => destruct (IH _ _ R) as (<- & <-) end. auto.
Qed.
Definition good (e d : N) (v : bytes) : Prop := 0 < of_be v < secp_n /\ sign_with e d (of_be v) <> None.
Definition outcome (x h : bytes) (e d : N) (j last : nat) (o : option (N * N * N)) : Prop :=
  match o with
  | Some sg => exists i k' v', (i < last)%nat /\ rfc6979 std_hmac_sha256 x h i k' v' /\
      0 < of_be v' < secp_n /\ sign_with e d (of_be v') = Some sg /\
      forall i' k1 v1, (j <= i' < i)%nat -> rfc6979 std_hmac_sha256 x h i' k1 v1 -> ~ good e d v1
  | None => forall i' k1 v1, (j <= i' < last)%nat -> rfc6979 std_hmac_sha256 x h i' k1 v1 -> ~ good e d v1
  end.
Lemma outcome_later x h e d j last k v o : rfc6979 std_hmac_sha256 x h j k v -> ~ good e d v ->
  outcome x h e d (S j) last o -> outcome x h e d j last o.
Proof.
  intros R G H. assert (First : forall k1 v1, rfc6979 std_hmac_sha256 x h j k1 v1 -> ~ good e d v1).
  { intros k1 v1 R1. destruct (candidate_fun _ _ _ _ _ _ R _ _ R1) as (_ & <-). exact G. }
  destruct o as [sg|]; cbn [outcome] in *.
  - destruct H as (i & k2 & v2 & L & R2 & B & W & N). exists i, k2, v2. split; [lia|]. split; [assumption|].
    split; [assumption|]. split; [assumption|]. intros i' k1 v1 Li R1.
    destruct (Nat.eq_dec i' j) as [-> | Ne]; [now apply (First k1)|]. apply (N i' k1 v1); [lia|assumption].
  - intros i' k1 v1 Li R1. destruct (Nat.eq_dec i' j) as [-> | Ne]; [now apply (First k1)|].
    apply (H i' k1 v1); [lia|assumption].
Qed.
Lemma outcome_here x h e d j last k v sg : rfc6979 std_hmac_sha256 x h j k v -> (j < last)%nat -> 0 < of_be v < secp_n ->
  sign_with e d (of_be v) = Some sg -> outcome x h e d j last (Some sg).
Proof. intros R L B W. exists j, k, v. repeat (split; [assumption|]). intros i' k1 v1 L'. lia. Qed.
Local Strategy transparent [sign_loop].
Lemma loop_candidates x h e d fuel : forall j k v0 o,
  rfc6979 std_hmac_sha256 x h j k (std_hmac_sha256 k v0) ->
  sign_loop fuel e d (k, v0) = o -> outcome x h e d j (j + fuel) o.
Proof.
  induction fuel as [|fuel IH]; intros j k v0 o R.
  - intros <-. intros i' k1 v1 L. lia.
  - cbn [sign_loop]. generalize dependent (std_hmac_sha256 k v0). intros v R.
    assert (A : ~ good e d v -> sign_loop fuel e d (drbg_step k v [x00]) = o -> outcome x h e d j (j + S fuel) o).
    { intros G E. apply (outcome_later _ _ _ _ _ _ _ _ _ R G).
      replace (j + S fuel)%nat with (S j + fuel)%nat by lia.
      refine (IH (S j) (std_hmac_sha256 k (v ++ [x00])) _ o _ E).
      exact (rfc6979_next _ _ _ j k v _ _ R eq_refl eq_refl). }
    destruct (N.eqb_spec (of_be v) 0) as [Z | Z]; cbn [orb].
    { apply A. intros ((G & _) & _).  rewrite Z in G. discriminate G. }
    destruct (N.leb_spec secp_n (of_be v)) as [Ln | Ln].
    { apply A. intros ((_ & G) & _). apply N.le_ngt in Ln. contradiction. }
    destruct (sign_with e d (of_be v)) as [sg|] eqn:W.
    + intros <-. apply (outcome_here _ _ _ _ _ _ _ _ _ R); [lia|split; [now apply N.neq_0_lt_0|assumption]|exact W].
    + apply A. intros (_ & G). now apply G.
Qed.

Local Strategy 1000 [sign_loop].
Theorem ecdsa_nonce m d :
  let e := of_be m in
  let candidate := rfc6979 std_hmac_sha256 (be 32 d) (be 32 (e mod secp_order)) in
  (forall r s v, std_secp_sign m d = Some (r, s, v) ->
     exists j k0 t, candidate j k0 t /\ ecdsa_usable e d (of_be t) /\
       (ecdsa_with e d (of_be t) r s v \/ ecdsa_with e d (secp_order - of_be t) r s v) /\
       forall i k1 t', (i < j)%nat -> candidate i k1 t' -> ~ ecdsa_usable e d (of_be t')) /\
  (std_secp_sign m d = None ->
     forall i k1 t', (i < 100)%nat -> candidate i k1 t' -> ~ ecdsa_usable e d (of_be t')).
Proof.
  cbv zeta. rewrite order_n. set (e := of_be m mod secp_n).
  assert (R : exists k v, drbg_new (be 32 d) (be 32 e) = (k, v) /\
    rfc6979 std_hmac_sha256 (be 32 d) (be 32 e) 0 k (std_hmac_sha256 k v)).
  { do 2 eexists. split; [unfold drbg_new, drbg_step; reflexivity|]. cbv beta zeta. eapply rfc6979_first; reflexivity. }
  destruct R as (k & v & Ed & R). pose proof (loop_candidates _ _ e d 100 0 k v _ R eq_refl) as L.
  rewrite <- Ed in L. change (0 + 100)%nat with 100%nat in L.
  assert (U : forall t, ecdsa_usable (of_be m) d (of_be t) -> good e d t).
  { intros t Ht. assert (B : 0 < of_be t < secp_n).
    { destruct Ht as (x & y & B & _). rewrite order_n in B. exact B. }
    split; [exact B|]. exact (proj1 (usable_iff m d (of_be t) B) Ht). }
  unfold std_secp_sign. cbv zeta. fold e. revert L.
  generalize (sign_loop 100 e d (drbg_new (be 32 d) (be 32 e))) as o. intros o L. split.
  - intros r s v0 ->. destruct L as (i & k' & t & _ & R' & B & W & N).
    exists i, k', t. split; [assumption|].
    split; [apply (proj2 (usable_iff m d (of_be t) B)); fold e; rewrite W; discriminate|].
    split; [rewrite <- order_n; exact (proj1 (sign_with_made m d (of_be t) r s v0 B W))|].
    intros i' k1 t' Li R1 Ht. apply (N i' k1 t'); [lia|assumption|now apply U].
  - intros ->. intros i' k1 t' Li R1 Ht. apply (L i' k1 t'); [lia|assumption|now apply U].
Qed.
