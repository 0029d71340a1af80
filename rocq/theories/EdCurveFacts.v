(** ed25519 in StdCurve.v is what CurveSpec.v describes. *)
From Coq Require Import Znumtheory Field_theory.
From Verif Require Import Base BaseFacts Prims StdHash StdCurve StdFacts Std PrimeFacts FpFacts GroupFacts EdwardsFacts EdGroupFacts EdSignFacts CurveSpec.
Open Scope N_scope.

Lemma field_p : ed_field = ed_p.
Proof. reflexivity. Qed.
Lemma order_l : ed_order = ed_l.
Proof. reflexivity. Qed.
Lemma ei_eq x y : x mod ed_field = y mod ed_field <-> ei x = ei y.
Proof. rewrite field_p. symmetry. apply inj_eq. Qed.
Lemma ei_plus x y : ei (x + y) = eplus (ei x) (ei y).
Proof. apply inj_add. Qed.
Lemma ei_times x y : ei (x * y) = emul (ei x) (ei y).
Proof. apply inj_mul. Qed.
Lemma ei_square x : ei (x ^ 2) = emul (ei x) (ei x).
Proof. rewrite N.pow_2_r. apply ei_times. Qed.
Ltac ei_all := repeat first [rewrite ei_plus|rewrite ei_times|rewrite ei_square].

Definition fa : Fe := ei 121665.
Definition fc : Fe := ei 121666.
Lemma fc_nonzero : fc <> e0.
Proof. intros E. apply (inj_eq ed_p ed_odd) in E. vm_compute in E. discriminate. Qed.
Lemma f_ratio : emul fc dd = eopp fa.
Proof.
  unfold fc, fa, dd. rewrite <- !ez_ei, <- ez_mul, <- ez_opp. apply injz_eq. vm_compute. reflexivity.
Qed.

(** Points of the specification and of the group. *)
Definition point : Type := (N * N)%type.
Definition reduced (q : point) : Prop := fst q < ed_p /\ snd q < ed_p.
Definition into (q : point) : Fe * Fe := (ei (fst q), ei (snd q)).
Definition out (q : Fe * Fe) : point := (val _ (fst q), val _ (snd q)).
Lemma into_out q : into (out q) = q.
Proof. destruct q as [x y]. unfold into, out, ei. cbn [fst snd]. now rewrite !inj_val. Qed.
Lemma out_into q : reduced q -> out (into q) = q.
Proof.
  destruct q as [x y]. unfold reduced, into, out, ei. cbn [fst snd]. intros (Hx & Hy).
  rewrite !val_of, !N.mod_small by assumption. reflexivity.
Qed.
Lemma out_reduced q : reduced (out q).
Proof. split; apply val_lt. Qed.
Lemma out_iff q r : reduced r -> (r = out q <-> q = into r).
Proof.
  intros H. split; [intros ->; symmetry; apply into_out|]. intros ->. symmetry. now apply out_into.
Qed.
Lemma on_iff q : ed_on q <-> reduced q /\ e_on (into q).
Proof.
  destruct q as [x y]. unfold ed_on, reduced, into, e_on. cbn [fst snd].
  rewrite ei_eq, field_p. ei_all. fold fa fc.
  rewrite (on_equation Fe e0 e1 eplus emul esub eopp ediv einv e_field dd fa fc fc_nonzero f_ratio). tauto.
Qed.
Definition to (q : point) (H : ed_on q) : pt := exist _ (into q) (proj2 (proj1 (on_iff q) H)).
Lemma on_out (g : pt) : ed_on (out (proj1_sig g)).
Proof. apply on_iff. split; [apply out_reduced|]. rewrite into_out. exact (proj2_sig g). Qed.
Lemma to_out (g : pt) H : to (out (proj1_sig g)) H = g.
Proof. apply pt_eq. cbn [to proj1_sig]. apply into_out. Qed.
Lemma out_to q H : out (proj1_sig (to q H)) = q.
Proof. cbn [to proj1_sig]. apply out_into. now apply on_iff. Qed.
Lemma ei_inj x y : x < ed_p -> y < ed_p -> ei x = ei y -> x = y.
Proof. apply (inj_small ed_p ed_odd). Qed.

Lemma sum_iff q r s : ed_on q -> ed_on r -> (ed_sum q r s <-> s = out (e_add (into q) (into r))).
Proof.
  intros Hq Hr. destruct (proj1 (on_iff q) Hq) as (Rq & Oq), (proj1 (on_iff r) Hr) as (Rr & Or).
  destruct q as [x1 y1], r as [x2 y2], s as [x3 y3].
  assert (E : ed_sum (x1, y1) (x2, y2) (x3, y3) <->
    reduced (x3, y3) /\ e_add (into (x1, y1)) (into (x2, y2)) = into (x3, y3)).
  { unfold ed_sum. cbv zeta. rewrite !ei_eq, field_p. ei_all. fold fa fc.
    pose proof (eadd_equation Fe e0 e1 eplus emul esub eopp ediv einv e_field dd (ei ed_i) e_dec i_square d_nonsquare e_two
      fa fc fc_nonzero f_ratio (ei x1) (ei y1) (ei x2) (ei y2) (ei x3) (ei y3) Oq Or) as E. cbv zeta in E.
    unfold e_add, into. cbn [fst snd]. rewrite <- E. unfold reduced. cbn [fst snd]. tauto. }
  rewrite E. split.
  - intros (R & S). now apply out_iff.
  - intros S. assert (R : reduced (x3, y3)) by (rewrite S; apply out_reduced). split; [assumption|].
    now apply out_iff.
Qed.
Lemma sum_to q r s (Hq : ed_on q) (Hr : ed_on r) :
  ed_sum q r s <-> s = out (proj1_sig (gadd (to q Hq) (to r Hr))).
Proof. exact (sum_iff q r s Hq Hr). Qed.
Lemma sum_on q r s : ed_on q -> ed_on r -> ed_sum q r s -> ed_on s.
Proof. intros Hq Hr S. apply (sum_to _ _ _ Hq Hr) in S. rewrite S. apply on_out. Qed.
Lemma zero_out : out (proj1_sig gzero) = (0, 1).
Proof. apply (out_into (0, 1)). split; reflexivity. Qed.

Lemma times_iff q (H : ed_on q) k r : ed_times k q r <-> r = out (proj1_sig (gmul k (to q H))).
Proof.
  split.
  - intros T. induction T as [q | k q r s T IH S]; [symmetry; exact zero_out|].
    specialize (IH H). subst r. apply (sum_to _ _ _ H (on_out _)) in S. rewrite S, to_out.
    unfold gmul. now rewrite multiple_succ.
  - revert r. induction k as [|k IH] using N.peano_ind; intros r ->.
    + change (ed_times 0 q (out (proj1_sig gzero))). rewrite zero_out. apply ed_times_none.
    + apply ed_times_more with (r := out (proj1_sig (gmul k (to q H)))); [now apply IH|].
      apply (sum_to _ _ _ H (on_out _)). rewrite to_out. unfold gmul. now rewrite multiple_succ.
Qed.

(** * The group *)
Theorem ed_group :
  (forall q r, ed_on q -> ed_on r -> exists s, ed_sum q r s /\ ed_on s /\ forall s', ed_sum q r s' -> s' = s) /\
  (forall q r s, ed_on q -> ed_on r -> ed_sum q r s -> ed_sum r q s) /\
  (forall a b c ab bc abc, ed_on a -> ed_on b -> ed_on c ->
     ed_sum a b ab -> ed_sum b c bc -> ed_sum ab c abc -> ed_sum a bc abc) /\
  (ed_on (0, 1) /\ forall q, ed_on q -> ed_sum (0, 1) q q) /\
  (forall q, ed_on q -> exists r, ed_on r /\ ed_sum q r (0, 1)).
Proof.
  assert (H0 : ed_on (0, 1)) by (rewrite <- zero_out; apply on_out).
  assert (T0 : to (0, 1) H0 = gzero).
  { apply pt_eq. cbn [to proj1_sig]. rewrite <- zero_out. apply into_out. }
  split; [|split; [|split; [|split]]].
  - intros q r Hq Hr. exists (out (proj1_sig (gadd (to q Hq) (to r Hr)))).
    split; [now apply (sum_to _ _ _ Hq Hr)|]. split; [apply on_out|].
    intros s' S. now apply (sum_to _ _ _ Hq Hr) in S.
  - intros q r s Hq Hr S. apply (sum_to _ _ _ Hq Hr) in S. apply (sum_to _ _ _ Hr Hq).
    now rewrite g_comm.
  - intros a b c ab bc abc Ha Hb Hc S1 S2 S3.
    pose proof (sum_on _ _ _ Ha Hb S1) as Hab. pose proof (sum_on _ _ _ Hb Hc S2) as Hbc.
    apply (sum_to _ _ _ Hab Hc) in S3. apply (sum_to _ _ _ Ha Hbc).
    apply (sum_to _ _ _ Ha Hb) in S1. apply (sum_to _ _ _ Hb Hc) in S2. subst ab bc.
    rewrite to_out in S3 |- *. now rewrite <- g_assoc.
  - split; [assumption|]. intros q Hq. apply (sum_to _ _ _ H0 Hq). rewrite T0, g_ident. symmetry. apply out_to.
  - intros q Hq. exists (out (proj1_sig (gneg (to q Hq)))). split; [apply on_out|].
    apply (sum_to _ _ _ Hq (on_out _)). rewrite to_out, g_inverse. symmetry. exact zero_out.
Qed.

(** * The base point and encodings *)
Lemma flip_parity x : 0 < x < ed_p -> (ed_p - x) mod 2 = 1 - x mod 2.
Proof.
  intros H. rewrite <- !N.bit0_mod, !N.bit0_odd. rewrite N.odd_sub by lia. change (N.odd ed_p) with true.
  now destruct (N.odd x).
Qed.
Lemma parity_point x x' y : ed_on (x, y) -> ed_on (x', y) -> x mod 2 = x' mod 2 -> x = x'.
Proof.
  intros H H' P. destruct (proj1 (on_iff _) H) as ((Lx & _) & O), (proj1 (on_iff _) H') as ((Lx' & _) & O').
  cbn [fst snd] in Lx, Lx'.
  destruct (same_y Fe e0 e1 eplus emul esub eopp ediv einv e_field dd (ei ed_i) e_dec i_square d_nonsquare
    (ei x) (ei x') (ei y) O O') as [E | E]; [now apply ei_inj|].
  rewrite <- ei_plus in E. apply (proj2 (ei_eq (x + x') 0)) in E. rewrite field_p in E.
  change (0 mod ed_p) with 0 in E. clear - Lx Lx' P E.
  destruct (N.eq_dec x 0) as [-> | Nx].
  { rewrite N.add_0_l, N.mod_small in E by assumption. now symmetry. }
  exfalso. assert (S : x' = ed_p - x).
  { clear P. assert (Hp : ed_p <> 0) by discriminate. revert Hp Lx Lx' E. generalize ed_p as p. intros p Hp Lx Lx' E.
    apply N.mod_divide in E; [|assumption]. destruct E as (c & E).
    assert (c = 1) by nia. subst c. lia. }
  subst x'. rewrite flip_parity in P by lia.
  pose proof (N.mod_lt x 2 ltac:(discriminate)) as B. revert B P. generalize (x mod 2) as u. intros u B P. lia.
Qed.
Lemma ed_g_on : ed_on ed_g.
Proof. apply on_iff. split; [split; reflexivity|]. exact base_on. Qed.
Theorem ed_one_generator b : ed_generator b <-> b = ed_g.
Proof.
  split.
  - destruct b as [x y]. intros (O & Y & X). cbn [fst snd] in *.
    destruct (proj1 (on_iff _) O) as ((_ & Ly) & _). cbn [fst snd] in Ly.
    assert (E : y = snd ed_g).
    { apply ei_inj; [assumption|reflexivity|]. assert (I : exists k, (k * 5) mod ed_p = 1).
      { exists (finv ed_p 5). vm_compute. reflexivity. }
      destruct I as (k & I). apply (inj_eq ed_p ed_odd).
      assert (M : forall t, t mod ed_p = (k * (5 * t)) mod ed_p).
      { intros t. rewrite N.mul_assoc, N.mul_mod, I by discriminate. rewrite N.mul_1_l. symmetry. now apply N.mod_mod. }
      rewrite (M y), (M (snd ed_g)). rewrite (N.mul_mod k (5 * y)), (N.mul_mod k (5 * snd ed_g)) by discriminate.
      rewrite field_p in Y. rewrite Y. reflexivity. }
    subst y. destruct ed_g as [gx gy] eqn:G. f_equal. cbn [snd] in *.
    apply (parity_point _ _ gy); [assumption|rewrite <- G; exact ed_g_on|]. rewrite X.
    change gx with (fst (gx, gy)). rewrite <- G. reflexivity.
  - intros ->. split; [exact ed_g_on|]. split; vm_compute; reflexivity.
Qed.
Lemma generator_to H : to ed_g H = gbase.
Proof. apply pt_eq. reflexivity. Qed.
Lemma base_times k r : ed_times k ed_g r <-> r = out (proj1_sig (gmul k gbase)).
Proof. rewrite (times_iff _ ed_g_on), generator_to. reflexivity. Qed.

Lemma little_of_le b : little b = of_le b.
Proof. induction b as [|c b IH]; cbn; [reflexivity|now rewrite IH]. Qed.
Lemma encode_ok g : ed_encodes (encode g) (out (proj1_sig g)).
Proof.
  unfold ed_encodes, encode, out. destruct (proj1_sig g) as [x y]. cbn [fst snd].
  split; [apply le_length|]. rewrite little_of_le, <- N.bit0_mod, N.bit0_odd.
  pose proof (val_lt ed_p y) as Hy. assert (B : ed_p < 2 ^ 255) by reflexivity.
  rewrite of_le_le.
  - destruct (N.odd _); cbn [N.b2n]; lia.
  - apply N.lt_le_trans with (2 ^ 255 + 2 ^ 255); [destruct (N.odd _); lia|]. discriminate.
Qed.
Theorem ed_encoding_one b q r : ed_on q -> ed_on r -> ed_encodes b q -> ed_encodes b r -> q = r.
Proof.
  intros Hq Hr (_ & Eq) (_ & Er). rewrite Eq in Er.
  destruct (proj1 (on_iff _) Hq) as ((_ & Lq) & _), (proj1 (on_iff _) Hr) as ((_ & Lr) & _).
  destruct q as [x y], r as [x' y']. cbn [fst snd] in *.
  assert (B : ed_p < 2 ^ 255) by reflexivity.
  assert (E : y = y' /\ x mod 2 = x' mod 2).
  { clear Hq Hr Eq b. revert Er Lq Lr B. generalize (2 ^ 255) as t, ed_p as p, (x mod 2) as u, (x' mod 2) as u'.
    intros t p u u' Er Lq Lr B. assert (u = u') by nia. subst u'. lia. }
  destruct E as (-> & P). f_equal. now apply (parity_point _ _ y').
Qed.
Lemma little_inj (a b : bytes) : length a = length b -> little a = little b -> a = b.
Proof.
  revert b. induction a as [|c a IH]; intros [|d b]; cbn [length little]; try discriminate; [reflexivity|].
  intros [= L] E. pose proof (b2n_lt c). pose proof (b2n_lt d).
  assert (b2n c = b2n d /\ little a = little b) as (E1 & E2) by lia.
  f_equal; [now apply b2n_inj|now apply IH].
Qed.
Lemma encodes_one a b q : ed_encodes a q -> ed_encodes b q -> a = b.
Proof. intros (La & Ea) (Lb & Eb). apply little_inj; congruence. Qed.

(** * Keys and signatures *)
Lemma pk_first x : firstn 32 (std_ed_public x) = ed_pk x.
Proof. apply firstn_app_exact. apply ext_encode_length. Qed.
Lemma pk_encode x : ed_pk x = encode (gmul (of_le (kl x)) gbase).
Proof. apply erep_encode, erep_multiple. Qed.
Theorem ed_public_key x b : ed_generator b ->
  exists a, ed_times (little (firstn 32 x)) b a /\ ed_on a /\ ed_encodes (firstn 32 (std_ed_public x)) a.
Proof.
  intros Hb. apply ed_one_generator in Hb. subst b.
  exists (out (proj1_sig (gmul (of_le (kl x)) gbase))). rewrite little_of_le.
  split; [now apply base_times|]. split; [apply on_out|]. rewrite pk_first, pk_encode. apply encode_ok.
Qed.

Lemma g_reduce k h : gmul (h mod ed_l) (gmul k gbase) = gmul h (gmul k gbase).
Proof.
  assert (Hl : ed_l <> 0) by discriminate. pose proof base_order as B. revert Hl B.
  unfold gmul. generalize ed_l as l. intros l Hl B.
  apply (multiple_mod pt gadd gzero g_assoc g_ident l h); [assumption|].
  rewrite <- (multiple_mul pt gadd gzero g_assoc g_ident), N.mul_comm.
  rewrite (multiple_mul pt gadd gzero g_assoc g_ident), B.
  exact (multiple_zero pt gadd gzero g_ident k).
Qed.
Lemma g_difference u v r : gadd r u = v <-> r = gadd v (gneg u).
Proof.
  split.
  - intros <-. now rewrite g_assoc, g_inverse, g_comm, g_ident.
  - intros ->. rewrite g_assoc, (g_comm (gneg u)), g_inverse, g_comm. apply g_ident.
Qed.
Lemma g_mul_neg h u : gmul h (gneg u) = gneg (gmul h u).
Proof. exact (multiple_neg pt gadd gzero gneg g_assoc g_comm g_ident g_inverse h u). Qed.

Theorem eddsa_exact x m sg b a : ed_generator b -> ed_times (little (firstn 32 x)) b a ->
  (std_ed_verify x m sg = true <-> eddsa_valid std_sha512 a (firstn 32 (std_ed_public x)) m sg).
Proof.
  intros Hb Ta. apply ed_one_generator in Hb. subst b. apply base_times in Ta.
  rewrite little_of_le in Ta. fold (kl x) in Ta.
  unfold eddsa_valid. rewrite order_l, !little_of_le, pk_first. unfold std_ed_verify.
  destruct (Nat.eqb_spec (length sg) 64) as [L | L]; [|split; [discriminate|tauto]]. cbn [negb orb].
  set (s := of_le (skipn 32 sg)). destruct (N.leb_spec ed_l s) as [Ls | Ls]; [split; [discriminate|lia]|].
  set (h := of_le _). set (k := of_le (kl x)) in *.
  assert (Lr : length (firstn 32 sg) = 32%nat) by (rewrite firstn_length; lia).
  set (r := firstn 32 sg) in *.
  rewrite (erep_encode _ _ (erep_add _ _ _ _ (erep_multiple s) (erep_scale (h mod ed_l) _ _ (erep_neg _ _ (erep_multiple k))))).
  rewrite g_mul_neg, g_reduce. rewrite bytes_eqb_eq.
  assert (Oa : ed_on a) by (rewrite Ta; apply on_out).
  assert (A : to a Oa = gmul k gbase) by (apply pt_eq; cbn [to proj1_sig]; rewrite Ta; apply into_out).
  set (g := gadd _ _). split.
  - intros E. split; [assumption|]. split; [assumption|].
    exists ed_g, (out (proj1_sig g)), (out (proj1_sig (gmul h (to a Oa)))), (out (proj1_sig (gmul s gbase))).
    split; [now apply ed_one_generator|]. split; [rewrite E; apply encode_ok|]. split; [apply on_out|].
    split; [now apply (times_iff _ Oa)|]. split; [now apply base_times|].
    apply (sum_to _ _ _ (on_out _) (on_out _)). rewrite !to_out, A. f_equal. f_equal. symmetry.
    now apply g_difference.
  - intros (_ & _ & b & q & u & v & Hb & En & Oq & Tu & Tv & S). apply ed_one_generator in Hb. subst b.
    apply base_times in Tv. apply (times_iff _ Oa) in Tu. subst u v.
    apply (sum_to _ _ _ Oq (on_out _)) in S. rewrite to_out, A in S.
    apply (f_equal into) in S. rewrite !into_out in S. apply pt_eq in S. symmetry in S.
    apply g_difference in S. fold g in S.
    apply (encodes_one _ _ q); [assumption|]. rewrite <- (out_to q Oq), S. apply encode_ok.
Qed.

(** * The order *)
Lemma l_odd : 2 < ed_l.
Proof. reflexivity. Qed.
Lemma gbase_nonzero : gbase <> gzero.
Proof.
  intros E. apply (f_equal (fun g : pt => snd (out (proj1_sig g)))) in E. vm_compute in E. discriminate.
Qed.
Lemma g_zero_iff k : gmul k gbase = gzero <-> k mod ed_l = 0.
Proof.
  assert (Hl : ed_l <> 0) by discriminate. pose proof base_order as B. split.
  - intros E. destruct (N.eq_dec (k mod ed_l) 0) as [|Nz]; [assumption|]. exfalso. apply gbase_nonzero.
    assert (I : (finv ed_l k * k) mod ed_l = 1 mod ed_l).
    { apply (inj_eq ed_l l_odd). apply (finv_inverse ed_l ed_l_prime l_odd). intros Z. apply Nz.
      apply (inj_eq ed_l l_odd) in Z. rewrite Z. now apply N.mod_0_l. }
    revert I B Hl E. unfold gmul. generalize (finv ed_l k) as j. generalize ed_l as l.
    intros l j I B Hl E. exact (multiple_inverse pt gadd gzero g_assoc g_comm g_ident l j k gbase Hl B I E).
  - revert B Hl. unfold gmul. generalize ed_l as l. intros l B Hl E.
    rewrite <- (multiple_mod pt gadd gzero g_assoc g_ident l k gbase Hl B), E. reflexivity.
Qed.
Lemma g_equal_iff j k : gmul j gbase = gmul k gbase <-> j mod ed_l = k mod ed_l.
Proof.
  assert (Hl : ed_l <> 0) by discriminate.
  assert (D : forall i, gadd (gmul i gbase) (gmul (ed_l - k mod ed_l) gbase) = gmul (i + (ed_l - k mod ed_l)) gbase).
  { intros i. symmetry. exact (multiple_add pt gadd gzero g_assoc g_ident i _ gbase). }
  pose proof (N.mod_lt k ed_l Hl) as Lk.
  assert (K : (k + (ed_l - k mod ed_l)) mod ed_l = 0).
  { rewrite <- N.add_mod_idemp_l by assumption. replace (k mod ed_l + (ed_l - k mod ed_l)) with ed_l by lia.
    now apply N.mod_same. }
  split.
  - intros E. pose proof (D k) as Dk. rewrite <- E, D in Dk. rewrite (proj2 (g_zero_iff _) K) in Dk.
    apply g_zero_iff in Dk. pose proof (N.mod_lt j ed_l Hl) as Lj.
    rewrite <- N.add_mod_idemp_l in Dk by assumption. clear - Dk Lj Lk Hl.
    revert Dk Lj Lk Hl. generalize (j mod ed_l) as u, (k mod ed_l) as v, ed_l as l. intros u v l Dk Lu Lv Hl.
    apply N.mod_divide in Dk; [|assumption]. destruct Dk as (c & Dk).
    assert (c = 1) by nia. subst c. lia.
  - intros E. pose proof base_order as B. revert B Hl E. unfold gmul. generalize ed_l as l. intros l B Hl E.
    exact (multiple_cong pt gadd gzero g_assoc g_ident l j k gbase Hl B E).
Qed.
Theorem ed_generated b : ed_generator b ->
  prime (Z.of_N ed_order) /\ forall k, ed_times k b (0, 1) <-> k mod ed_order = 0.
Proof.
  intros Hb. apply ed_one_generator in Hb. subst b. rewrite order_l. split; [exact ed_l_prime|].
  intros k. rewrite base_times, <- g_zero_iff. split.
  - intros E. apply pt_eq. rewrite <- (into_out (proj1_sig (gmul k gbase))), <- E, <- zero_out. apply into_out.
  - intros ->. symmetry. exact zero_out.
Qed.
Theorem ed_public_one x y : firstn 32 (std_ed_public x) = firstn 32 (std_ed_public y) <->
  little (firstn 32 x) mod ed_order = little (firstn 32 y) mod ed_order.
Proof.
  rewrite !pk_first, !pk_encode, order_l. rewrite (little_of_le (firstn 32 x)), (little_of_le (firstn 32 y)).
  rewrite <- g_equal_iff. fold (kl x) (kl y). split.
  - intros E. apply pt_eq.
    rewrite <- (into_out (proj1_sig (gmul (of_le (kl x)) gbase))), <- (into_out (proj1_sig (gmul (of_le (kl y)) gbase))).
    f_equal. apply (ed_encoding_one (encode (gmul (of_le (kl x)) gbase))); [apply on_out|apply on_out|apply encode_ok|].
    rewrite E. apply encode_ok.
  - now intros ->.
Qed.
Theorem ed_base_point : exists b, ed_generator b /\ (forall b', ed_generator b' -> b' = b) /\
  prime (Z.of_N ed_order) /\ forall k, ed_times k b (0, 1) <-> k mod ed_order = 0.
Proof.
  exists ed_g. assert (H : ed_generator ed_g) by now apply ed_one_generator. split; [exact H|].
  split; [intros b' Hb'; now apply ed_one_generator|]. exact (ed_generated ed_g H).
Qed.
Theorem eddsa_signs x m :
  eddsa_made std_sha512 (little (firstn 32 x)) (slice 32 64 x) (firstn 32 (std_ed_public x)) m (std_ed_sign x m).
Proof.
  unfold eddsa_made. cbv zeta. rewrite order_l, pk_first.
  assert (F : firstn 32 (std_ed_sign x m) = ext_encode (ed_base (of_le (std_sha512 (kr x ++ m)) mod ed_l))).
  { unfold std_ed_sign. cbv zeta. apply firstn_app_exact, ext_encode_length. }
  assert (S : skipn 32 (std_ed_sign x m)
    = le 32 ((of_le (std_sha512 (firstn 32 (std_ed_sign x m) ++ ed_pk x ++ m)) mod ed_l * of_le (kl x)
              + of_le (std_sha512 (kr x ++ m)) mod ed_l) mod ed_l)).
  { rewrite F. unfold std_ed_sign. cbv zeta. apply skipn_app_exact, ext_encode_length. }
  fold (kl x) (kr x). rewrite S. clear S.
  rewrite (little_of_le (std_sha512 (kr x ++ m))). set (n := of_le (std_sha512 (kr x ++ m)) mod ed_l) in *.
  exists ed_g, (out (proj1_sig (gmul n gbase))). split; [now apply ed_one_generator|].
  split; [now apply base_times|]. split; [apply std_ed_sign_length|].
  split; [rewrite F, (erep_encode _ _ (erep_multiple n)); apply encode_ok|].
  match goal with |- little ?b = _ => rewrite (little_of_le b) end.
  rewrite (little_of_le (kl x)).
  match goal with |- context [little ?b] => rewrite (little_of_le b) end.
  set (h := of_le (std_sha512 _)). clearbody h n. clear F.
  assert (Hl : ed_l <> 0) by discriminate.
  rewrite of_le_le.
  - generalize (of_le (kl x)) as a. intros a. revert Hl. generalize ed_l as l. intros l Hl.
    rewrite <- N.add_mod_idemp_l, N.mul_mod_idemp_l, N.add_mod_idemp_l by exact Hl. now rewrite N.add_comm.
  - apply N.lt_trans with ed_l; [now apply N.mod_lt|reflexivity].
Qed.
