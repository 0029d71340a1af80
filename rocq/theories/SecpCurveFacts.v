(** secp256k1 in StdCurve.v is what CurveSpec.v describes. *)
From Coq Require Import Znumtheory Field_theory.
From Verif Require Import Base BaseFacts Prims StdHash StdCurve StdFacts Std PrimeFacts FpFacts GroupFacts WeierstrassFacts SecpGroupFacts SecpSignFacts CurveSpec.
Open Scope N_scope.

Lemma field_p : secp_field = secp_p.
Proof. vm_compute. reflexivity. Qed.
Lemma order_n : secp_order = secp_n.
Proof. vm_compute. reflexivity. Qed.
Lemma generator_g : secp_generator = secp_g.
Proof. vm_compute. reflexivity. Qed.

Lemma si_eq x y : x mod secp_field = y mod secp_field <-> si x = si y.
Proof. rewrite field_p. symmetry. apply inj_eq. Qed.
Lemma si_plus x y : si (x + y) = splus (si x) (si y).
Proof. apply inj_add. Qed.
Lemma si_square x : si (x ^ 2) = smul (si x) (si x).
Proof. rewrite N.pow_2_r. apply si_times. Qed.
Lemma si_cube x : si (x ^ 3) = smul (smul (si x) (si x)) (si x).
Proof.
  change 3 with (2 + 1). rewrite N.pow_add_r, N.pow_1_r, si_times. now rewrite si_square.
Qed.
Ltac si_all := rewrite ?si_plus, ?si_times, ?si_square, ?si_cube, ?si_plus, ?si_times, ?si_square, ?si_cube, ?si_2, ?si_3.

(** Points of the specification and of the group. *)
Definition point : Type := option (N * N).
Definition reduced (q : point) : Prop :=
  match q with None => True | Some (x, y) => x < secp_p /\ y < secp_p end.
Definition into (q : point) : spt := match q with None => None | Some (x, y) => Some (si x, si y) end.
Definition out (q : spt) : point := match q with None => None | Some (x, y) => Some (val _ x, val _ y) end.
Lemma into_out q : into (out q) = q.
Proof.
  destruct q as [[x y]|]; [|reflexivity]. cbn [out into]. unfold si. now rewrite !inj_val.
Qed.
Lemma out_into q : reduced q -> out (into q) = q.
Proof.
  destruct q as [[x y]|]; [|reflexivity]. cbn [out into reduced]. intros (Hx & Hy).
  unfold si. rewrite !val_of, !N.mod_small by assumption. reflexivity.
Qed.
Lemma out_reduced q : reduced (out q).
Proof. destruct q as [[x y]|]; [|exact I]. split; apply val_lt. Qed.
Lemma out_iff q r : reduced r -> (r = out q <-> into r = q).
Proof.
  intros H. split; [intros ->; apply into_out|]. intros <-. symmetry. now apply out_into.
Qed.
Lemma on_iff q : secp_on q <-> reduced q /\ s_on (into q).
Proof.
  destruct q as [[x y]|]; unfold secp_on, reduced, into, s_on, on; [|tauto].
  rewrite si_eq. rewrite field_p. si_all. fold bb. tauto.
Qed.
Definition to (q : point) (H : secp_on q) : pt := exist _ (into q) (proj2 (proj1 (on_iff q) H)).
Lemma on_out (g : pt) : secp_on (out (proj1_sig g)).
Proof. apply on_iff. split; [apply out_reduced|]. rewrite into_out. exact (proj2_sig g). Qed.
Lemma to_out (g : pt) H : to (out (proj1_sig g)) H = g.
Proof. apply pt_eq. cbn [to proj1_sig]. apply into_out. Qed.
Lemma out_to q H : out (proj1_sig (to q H)) = q.
Proof. cbn [to proj1_sig]. apply out_into. now apply on_iff. Qed.

Lemma line_of l x1 y1 x2 x3 y3 :
  secp_line l x1 y1 x2 x3 y3 <->
  reduced (Some (x3, y3)) /\ through Fs smul ssub (si l) (si x1) (si y1) (si x2) = Some (si x3, si y3).
Proof.
  unfold secp_line. rewrite !si_eq. rewrite field_p. si_all. cbn [reduced].
  rewrite <- (line_iff Fs s0 s1 splus smul ssub sopp sdiv sinv s_field). tauto.
Qed.

Lemma si_inj x y : x < secp_p -> y < secp_p -> si x = si y -> x = y.
Proof. apply (inj_small secp_p secp_odd). Qed.
Lemma si_val a : exists x, si x = a /\ x < secp_p.
Proof. exists (val _ a). split; [apply inj_val|apply val_lt]. Qed.

Lemma sum_iff q r s : secp_on q -> secp_on r ->
  (secp_sum q r s <-> s = out (s_add (into q) (into r))).
Proof.
  intros Hq Hr. destruct (proj1 (on_iff q) Hq) as (Rq & Oq), (proj1 (on_iff r) Hr) as (Rr & Or).
  split.
  - intros S. apply out_iff.
    + inversion S as [q' |q' |x y y' E | l x y x3 y3 Hy El L | l x1 y1 x2 y2 x3 y3 N El L]; subst; try assumption; try exact I.
      * now apply line_of in L.
      * now apply line_of in L.
    + inversion S as [q' |q' |x y y' E | l x y x3 y3 Hy El L | l x1 y1 x2 y2 x3 y3 N El L]; subst; cbn [into] in *.
      * reflexivity.
      * symmetry. unfold s_add. apply wadd_zero_r.
      * unfold s_add, wadd. destruct (s_dec (si x) (si x)) as [_ | N]; [|congruence].
        destruct (s_dec (si y) (si y')) as [E' | _]; [|reflexivity]. exfalso.
        assert (Z : splus (si y) (si y') = s0).
        { rewrite <- si_plus. apply (proj1 (si_eq (y + y') 0)). rewrite E. now rewrite field_p. }
        revert Z E'. apply (opposite_iff Fs s0 s1 splus smul ssub sopp sdiv sinv s_field bb s_dec no_cube s_two (si x)); assumption.
      * unfold s_add, wadd. destruct (s_dec (si x) (si x)) as [_ | N]; [|congruence].
        destruct (s_dec (si y) (si y)) as [_ | N]; [|congruence].
        apply line_of in L. destruct L as (_ & L). rewrite <- L. symmetry.
        apply si_eq in El. revert El. si_all. intros El.
        pose proof (y_nonzero Fs s0 s1 splus smul ssub sopp sdiv sinv s_field bb no_cube _ _ Oq) as Ny.
        apply (proj1 (tangent_slope Fs s0 s1 splus smul ssub sopp sdiv sinv s_field s_two (si l) (si x) (si y) Ny)) in El.
        now rewrite <- El.
      * unfold s_add, wadd. unfold reduced in Rq, Rr. destruct (s_dec (si x1) (si x2)) as [E | N'].
        { exfalso. apply N. apply si_inj; tauto. }
        apply line_of in L. destruct L as (_ & L). rewrite <- L. symmetry.
        apply si_eq in El. revert El. si_all. intros El.
        apply (chord_slope Fs s0 s1 splus smul ssub sopp sdiv sinv s_field) in El; [|assumption].
        now rewrite <- El.
  - intros ->. destruct q as [[x1 y1]|]; [|change (secp_sum None r (out (into r))); rewrite out_into by assumption; constructor].
    destruct r as [[x2 y2]|]; [|change (secp_sum (Some (x1, y1)) None (out (into (Some (x1, y1))))); rewrite out_into by assumption; constructor].
    cbn [into] in *. unfold s_add, wadd. unfold reduced in Rq, Rr.
    destruct (s_dec (si x1) (si x2)) as [E | N]; [destruct (s_dec (si y1) (si y2)) as [E' | N]|].
    + apply si_inj in E; [|tauto|tauto]. apply si_inj in E'; [|tauto|tauto]. subst x2 y2.
      pose proof (y_nonzero Fs s0 s1 splus smul ssub sopp sdiv sinv s_field bb no_cube _ _ Oq) as Ny.
      set (lam := sdiv _ _). destruct (si_val lam) as (l & El & _).
      destruct (through _ _ _ lam _ _ _) as [[x3 y3]|] eqn:T; [|discriminate].
      cbn [out]. apply sum_tangent with (l := l).
      * intros E. apply Ny. now rewrite E.
      * apply si_eq. si_all. rewrite El.
        now apply (tangent_slope Fs s0 s1 splus smul ssub sopp sdiv sinv s_field s_two).
      * apply line_of. split; [split; apply val_lt|]. rewrite El, T. unfold si. now rewrite !inj_val.
    + apply si_inj in E; [|tauto|tauto]. subst x2. cbn [out]. apply sum_opposite.
      apply (opposite_iff Fs s0 s1 splus smul ssub sopp sdiv sinv s_field bb s_dec no_cube s_two (si x1)) in N; try assumption.
      rewrite <- si_plus in N. apply (proj2 (si_eq (y1 + y2) 0)) in N. rewrite N. now rewrite field_p.
    + set (lam := sdiv _ _). destruct (si_val lam) as (l & El & _).
      destruct (through _ _ _ lam _ _ _) as [[x3 y3]|] eqn:T; [|discriminate].
      cbn [out]. apply sum_chord with (l := l).
      * congruence.
      * apply si_eq. si_all. rewrite El.
        now apply (chord_slope Fs s0 s1 splus smul ssub sopp sdiv sinv s_field).
      * apply line_of. split; [split; apply val_lt|]. rewrite El, T. unfold si. now rewrite !inj_val.
Qed.
Lemma sum_to q r s (Hq : secp_on q) (Hr : secp_on r) :
  secp_sum q r s <-> s = out (proj1_sig (gadd (to q Hq) (to r Hr))).
Proof. exact (sum_iff q r s Hq Hr). Qed.
Lemma sum_on q r s : secp_on q -> secp_on r -> secp_sum q r s -> secp_on s.
Proof. intros Hq Hr S. apply (sum_to _ _ _ Hq Hr) in S. rewrite S. apply on_out. Qed.

Lemma times_iff q (H : secp_on q) k r : secp_times k q r <-> r = out (proj1_sig (gmul k (to q H))).
Proof.
  split.
  - intros T. induction T as [q | k q r s T IH S]; [reflexivity|].
    specialize (IH H). subst r. apply (sum_to _ _ _ H (on_out _)) in S. rewrite S, to_out.
    unfold gmul. now rewrite multiple_succ.
  - revert r. induction k as [|k IH] using N.peano_ind; intros r ->.
    + apply times_none.
    + apply times_more with (r := out (proj1_sig (gmul k (to q H)))); [now apply IH|].
      apply (sum_to _ _ _ H (on_out _)). rewrite to_out. unfold gmul. now rewrite multiple_succ.
Qed.

(** * The group *)
Theorem secp_group :
  (forall q r, secp_on q -> secp_on r -> exists s, secp_sum q r s /\ secp_on s /\ forall s', secp_sum q r s' -> s' = s) /\
  (forall q r s, secp_on q -> secp_on r -> secp_sum q r s -> secp_sum r q s) /\
  (forall a b c ab bc abc, secp_on a -> secp_on b -> secp_on c ->
     secp_sum a b ab -> secp_sum b c bc -> secp_sum ab c abc -> secp_sum a bc abc) /\
  (forall q, secp_on q -> exists r, secp_on r /\ secp_sum q r None).
Proof.
  split; [|split; [|split]].
  - intros q r Hq Hr. exists (out (proj1_sig (gadd (to q Hq) (to r Hr)))).
    split; [now apply (sum_to _ _ _ Hq Hr)|]. split; [apply on_out|].
    intros s' S. now apply (sum_to _ _ _ Hq Hr) in S.
  - intros q r s Hq Hr S. apply (sum_to _ _ _ Hq Hr) in S. apply (sum_to _ _ _ Hr Hq).
    now rewrite g_comm.
  - intros a b c ab bc abc Ha Hb Hc S1 S2 S3.
    pose proof (sum_on _ _ _ Ha Hb S1) as Hab. pose proof (sum_on _ _ _ Hb Hc S2) as Hbc.
    apply (sum_to _ _ _ Hab Hc) in S3. apply (sum_to _ _ _ Ha Hbc).
    apply (sum_to _ _ _ Ha Hb) in S1. apply (sum_to _ _ _ Hb Hc) in S2. subst ab bc.
    rewrite to_out in S3 |- *. now rewrite <- g_assoc.
  - intros q Hq. exists (out (proj1_sig (gneg (to q Hq)))). split; [apply on_out|].
    apply (sum_to _ _ _ Hq (on_out _)). rewrite to_out, g_inverse. reflexivity.
Qed.

Lemma generator_on : secp_on (Some secp_generator).
Proof.
  rewrite generator_g. apply on_iff. split; [split; reflexivity|]. exact base_on.
Qed.
Lemma generator_to H : to (Some secp_generator) H = gbase.
Proof. apply pt_eq. cbn [to proj1_sig]. rewrite generator_g. reflexivity. Qed.
Lemma generator_times k r : secp_times k (Some secp_generator) r <-> r = out (proj1_sig (gmul k gbase)).
Proof. rewrite (times_iff _ generator_on), generator_to. reflexivity. Qed.

Theorem secp_generated :
  secp_on (Some secp_generator) /\ prime (Z.of_N secp_order) /\
  forall k, secp_times k (Some secp_generator) None <-> k mod secp_order = 0.
Proof.
  split; [exact generator_on|]. rewrite order_n. split; [exact secp_n_prime|].
  intros k. rewrite generator_times. split.
  - intros E. destruct (n_dec (ni k) n0) as [Z | Z]; [now apply ni_zero|].
    exfalso. apply (g_nonzero k Z). apply pt_eq. destruct (proj1_sig (gmul k gbase)) as [[x y]|]; [discriminate|reflexivity].
  - intros E. apply ni_zero in E. rewrite (g_cong k 0 E). reflexivity.
Qed.

(** * Public keys *)
Lemma pub_out k : ni k <> n0 -> out (proj1_sig (gmul k gbase)) = Some (std_secp_pub k).
Proof.
  intros Hk. rewrite (pub_point k Hk). destruct (pub_lt k) as (Hx & Hy). cbn [out]. unfold si.
  rewrite !val_of, !N.mod_small by assumption. now destruct (std_secp_pub k).
Qed.
Theorem secp_public k : 0 < k < secp_order ->
  secp_on (Some (std_secp_pub k)) /\ secp_times k (Some secp_generator) (Some (std_secp_pub k)).
Proof.
  rewrite order_n. intros Hk. pose proof (ni_small k Hk) as Nk. split.
  - rewrite <- pub_out by assumption. apply on_out.
  - apply generator_times. symmetry. now apply pub_out.
Qed.
Theorem secp_public_one j k : 0 < j < secp_order -> 0 < k < secp_order ->
  std_secp_pub j = std_secp_pub k -> j = k.
Proof.
  rewrite order_n. intros Hj Hk E. pose proof (ni_small j Hj) as Nj. pose proof (ni_small k Hk) as Nk.
  assert (G : gmul j gbase = gmul k gbase).
  { apply pt_eq. rewrite <- (into_out (proj1_sig (gmul j gbase))), <- (into_out (proj1_sig (gmul k gbase))).
    now rewrite !pub_out, E. }
  apply g_injective in G. apply (inj_small secp_n n_odd); [lia|lia|exact G].
Qed.

Lemma si_opp y : y < secp_p -> sopp (si y) = si (secp_p - y).
Proof. intros H. unfold sopp, Fopp, si. now rewrite val_of, N.mod_small. Qed.
Lemma some_inj (a b c d : Fs) : Some (a, b) = Some (c, d) -> a = c /\ b = d.
Proof. intros E. injection E as -> ->. split; reflexivity. Qed.
Lemma pub_opposite k : 0 < k < secp_n ->
  std_secp_pub (secp_n - k) = (fst (std_secp_pub k), secp_p - snd (std_secp_pub k)) /\
  0 < snd (std_secp_pub k).
Proof.
  intros Hk. pose proof (ni_small k Hk) as Nk.
  assert (Nj : ni (secp_n - k) <> n0) by (apply ni_small; lia).
  destruct (pub_lt k) as (Hx & Hy). destruct (pub_lt (secp_n - k)) as (Hx' & Hy').
  assert (E : gmul (secp_n - k) gbase = gneg (gmul k gbase)).
  { apply g_opposite. apply ni_zero. replace (secp_n - k + k) with secp_n by lia. reflexivity. }
  pose proof (proj2_sig (gmul k gbase)) as O. cbn beta in O. rewrite (pub_point k Nk) in O.
  pose proof (y_nonzero Fs s0 s1 splus smul ssub sopp sdiv sinv s_field bb no_cube _ _ O) as Ny.
  assert (Py : 0 < snd (std_secp_pub k)).
  { apply N.neq_0_lt_0. intros Z. apply Ny. now rewrite Z. }
  split; [|assumption].
  pose proof (pub_point _ Nj) as P. rewrite E in P. cbn [gneg proj1_sig] in P.
  rewrite (pub_point k Nk) in P. cbn [s_neg wneg] in P. apply some_inj in P. destruct P as (P1 & P2).
  rewrite si_opp in P2 by assumption.
  destruct (std_secp_pub k) as [x y], (std_secp_pub (secp_n - k)) as [x' y']. cbn [fst snd] in *.
  f_equal.
  - symmetry. now apply si_inj.
  - symmetry. apply si_inj; [lia|assumption|assumption].
Qed.
