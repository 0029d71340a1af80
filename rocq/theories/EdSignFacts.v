(** The arithmetic of ed25519 in StdCurve.v is that of the group, and its
    signatures verify. *)
From Coq Require Import Znumtheory.
From Verif Require Import Base BaseFacts Prims StdHash StdCurve StdFacts Std PrimeFacts FpFacts GroupFacts EdwardsFacts EdGroupFacts.
Open Scope N_scope.

(** * Little-endian numbers *)
Lemma of_le_le k n : n < 256 ^ N.of_nat k -> of_le (le k n) = n.
Proof.
  revert n. induction k as [|k IH]; intros n Hn; cbn [le of_le].
  - cbn in Hn. lia.
  - rewrite Nat2N.inj_succ, N.pow_succ_r' in Hn. rewrite b2n_n2b, IH.
    + rewrite N.add_comm. symmetry. apply N.div_mod. discriminate.
    + apply N.div_lt_upper_bound; lia.
Qed.

Lemma firstn_app_exact {A} (a b : list A) k : length a = k -> firstn k (a ++ b) = a.
Proof. intros <-. rewrite firstn_app, firstn_all, Nat.sub_diag. apply app_nil_r. Qed.
Lemma skipn_app_exact {A} (a b : list A) k : length a = k -> skipn k (a ++ b) = b.
Proof. intros <-. now rewrite skipn_app, skipn_all, Nat.sub_diag. Qed.

(** * Extended coordinates *)
Definition coords (a : ext) : Fe * Fe * Fe * Fe :=
  let '(x, y, z, t) := a in (ei x, ei y, ei z, ei t).
Definition erep (a : ext) (g : pt) : Prop :=
  extended Fe e0 emul ediv (coords a) (proj1_sig g).

Lemma ei_mul x y : ei (fmul ed_p x y) = emul (ei x) (ei y).
Proof. apply inj_fmul. Qed.
Lemma ei_sub x y : ei (fsub ed_p x y) = esub (ei x) (ei y).
Proof. apply inj_fsub. Qed.
Lemma ei_add x y : ei (fadd ed_p x y) = eplus (ei x) (ei y).
Proof. apply inj_fadd. Qed.
Lemma ei_inv x : ei (finv ed_p x) = einv (ei x).
Proof. apply inj_finv. Qed.

Lemma erep_add a b g h : erep a g -> erep b h -> erep (ext_add a b) (gadd g h).
Proof.
  destruct a as [[[x1 y1] z1] t1], b as [[[x2 y2] z2] t2]. intros Ha Hb.
  pose proof (extended_add Fe e0 e1 eplus emul esub eopp ediv einv e_field dd (ei ed_i) e_dec i_square d_nonsquare e_two
    _ _ _ _ _ _ _ _ _ _ (proj2_sig g) (proj2_sig h) Ha Hb) as H. cbv zeta in H.
  unfold erep, ext_add, coords. cbn [gadd proj1_sig]. unfold e_add.
  assert (T : ei 2 = eplus e1 e1) by (unfold ei, eplus, e1, F1; rewrite <- inj_add; reflexivity).
  assert (D : forall x y, ei (x * y) = emul (ei x) (ei y)) by (intros; apply inj_mul).
  rewrite !ei_mul, !ei_sub, !ei_add, !ei_mul, !D, !ei_sub, !ei_add, !T. exact H.
Qed.
Lemma erep_neg a g : erep a g -> erep (ext_neg a) (gneg g).
Proof.
  destruct a as [[[x y] z] t]. intros H. unfold erep, ext_neg, coords. cbn [gneg proj1_sig].
  rewrite !ei_sub. change (ei 0) with e0.
  rewrite !(sub_from_zero Fe e0 e1 eplus emul esub eopp ediv einv e_field).
  now apply (extended_neg Fe e0 e1 eplus emul esub eopp ediv einv e_field).
Qed.
Lemma erep_zero : erep ext_zero gzero.
Proof. apply (extended_zero Fe e0 e1 eplus emul esub eopp ediv einv e_field). Qed.
Lemma erep_base : erep (ext_of ed_g) gbase.
Proof.
  unfold erep, ext_of, coords. rewrite ei_mul. cbn [gbase proj1_sig].
  apply (extended_affine Fe e0 e1 eplus emul esub eopp ediv einv e_field).
Qed.

Lemma erep_scale k a g : erep a g -> erep (ed_scale k a) (gmul k g).
Proof.
  apply (scale_rep pt gadd gzero g_assoc g_comm g_ident ext ext_add ext_zero erep erep_add erep_zero).
Qed.
Lemma erep_multiple k : erep (ed_base k) (gmul k gbase).
Proof. apply erep_scale, erep_base. Qed.

(** The encoding is that of the point. *)
Definition encode (g : pt) : bytes :=
  let '(x, y) := proj1_sig g in
  le 32 (val _ y + (if N.odd (val _ x) then 2 ^ 255 else 0)).
Lemma erep_encode a g : erep a g -> ext_encode a = encode g.
Proof.
  destruct a as [[[x y] z] t]. intros (_ & _ & E). unfold ext_encode, encode. rewrite E.
  assert (V : forall u, val _ (ediv (ei u) (ei z)) = fmul ed_p u (finv ed_p z)).
  { intros u. unfold ediv, Fdiv. fold emul einv. rewrite <- ei_inv, <- ei_mul.
    unfold ei. rewrite val_of. apply N.mod_small. apply FpFacts.fmul_lt'. exact ed_odd. }
  now rewrite !V.
Qed.

(** * Signatures *)
Lemma g_combination h a n :
  gadd (gmul ((h * a + n) mod ed_l) gbase) (gmul h (gneg (gmul a gbase))) = gmul n gbase.
Proof.
  assert (Hl : ed_l <> 0) by discriminate. pose proof base_order as B. revert Hl B.
  unfold gmul. generalize ed_l as l. intros l Hl B.
  exact (combination pt gadd gzero gneg g_assoc g_comm g_ident g_inverse l h a n gbase Hl B).
Qed.
Theorem std_ed_correct : ed_correct std.
Proof.
  intros x m. cbn [ed_verify ed_sign std]. unfold std_ed_sign.
  set (n := of_le (std_sha512 (kr x ++ m)) mod ed_l).
  set (r := ext_encode (ed_base n)).
  set (h := of_le (std_sha512 (r ++ ed_pk x ++ m)) mod ed_l).
  set (a := of_le (kl x)). set (s := (h * a + n) mod ed_l).
  assert (Hr : length r = 32%nat) by apply ext_encode_length.
  assert (Hs : s < ed_l) by (apply N.mod_lt; discriminate).
  unfold std_ed_verify.
  rewrite app_length, Hr, le_length. cbn [Nat.add Nat.eqb negb orb].
  rewrite (firstn_app_exact r) by assumption. rewrite (skipn_app_exact r) by assumption.
  rewrite of_le_le by (eapply N.lt_trans; [exact Hs|reflexivity]).
  destruct (N.leb_spec ed_l s) as [? | _]; [lia|].
  fold h. fold a. apply bytes_eqb_eq.
  unfold r. rewrite (erep_encode _ _ (erep_multiple n)).
  rewrite (erep_encode _ _ (erep_add _ _ _ _ (erep_multiple s) (erep_scale h _ _ (erep_neg _ _ (erep_multiple a))))).
  f_equal. symmetry. unfold s. clearbody a h n. apply g_combination.
Qed.
