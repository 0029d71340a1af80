(** Roots of polynomials modulo a prime, and the prime of Poly1305. *)
From Coq Require Import ZArith Znumtheory List Lia.
From Verif Require Import PrimeFacts.
Import ListNotations.
Open Scope Z_scope.

Theorem poly_p_prime : prime (2 ^ 130 - 5).
Proof.
  assert (H1 : prime 4024685905107147541) by by_near 62 [37003; 221101].
  assert (H2 : prime 897064739519922787230182993783) by by_near 100 [4024685905107147541].
  by_witnesses (fun x => fold 130 5 (fold 130 5 x)) [897064739519922787230182993783].
Qed.

(** Coefficients, the constant first. *)
Fixpoint value (l : list Z) (x : Z) : Z :=
  match l with [] => 0 | c :: l => c + x * value l x end.
Fixpoint quotient (a : Z) (l : list Z) : list Z :=
  match l with
  | [] => []
  | _ :: l' => match l' with [] => [] | _ => value l' a :: quotient a l' end
  end.

Lemma quotient_length a l : length (quotient a l) = pred (length l).
Proof.
  induction l as [|c l IH]; [reflexivity|]. cbn [quotient length pred].
  destruct l as [|d l]; [reflexivity|]. cbn [length] in *. rewrite IH. reflexivity.
Qed.
Lemma quotient_value a l x : value l x - value l a = (x - a) * value (quotient a l) x.
Proof.
  induction l as [|c l IH]; [cbn; ring|].
  destruct l as [|d l]; [cbn; ring|].
  change (quotient a (c :: d :: l)) with (value (d :: l) a :: quotient a (d :: l)).
  remember (d :: l) as m. cbn [value].
  transitivity (x * (value m x - value m a) + (x - a) * value m a); [ring|].
  rewrite IH. ring.
Qed.

Section Prime.
Variable p : Z.
Hypothesis prime_p : prime p.

Definition vanish (l : list Z) : Prop := Forall (fun c => (p | c)) l.

Lemma vanish_value l x : vanish l -> (p | value l x).
Proof.
  induction 1; cbn [value]; [apply Z.divide_0_r|].
  apply Z.divide_add_r; [assumption|]. apply Z.divide_mul_r. assumption.
Qed.
Lemma vanish_quotient a c l : vanish (quotient a (c :: l)) -> vanish l.
Proof.
  revert c. induction l as [|d l IH]; intros c H; [constructor|].
  change (quotient a (c :: d :: l)) with (value (d :: l) a :: quotient a (d :: l)) in H.
  inversion H as [|? ? H1 H2]; subst.
  pose proof (IH d H2) as H3. constructor; [|assumption].
  cbn [value] in H1. pose proof (vanish_value l a H3) as H4.
  replace d with (d + a * value l a - a * value l a) by ring.
  apply Z.divide_sub_r; [assumption|]. apply Z.divide_mul_r. assumption.
Qed.

(** As many roots as coefficients: all coefficients vanish. *)
Lemma roots l rs : NoDup rs -> (forall r, In r rs -> 0 <= r < p /\ (p | value l r)) ->
  (length l <= length rs)%nat -> vanish l.
Proof.
  remember (length l) as n eqn:En. revert l rs En.
  induction n as [|n IH]; intros l rs En ND HR Hn.
  - destruct l; [constructor|discriminate].
  - destruct l as [|c l]; [discriminate|].
    destruct rs as [|a rs]; [cbn in Hn; lia|].
    inversion ND as [|? ? Ha ND']; subst.
    pose proof (HR a (or_introl eq_refl)) as (Ba & Va).
    assert (Hq : vanish (quotient a (c :: l))).
    { apply (IH _ rs).
      - rewrite quotient_length. cbn [length pred]. injection En as <-. reflexivity.
      - assumption.
      - intros r Hr. destruct (HR r (or_intror Hr)) as (Br & Vr). split; [assumption|].
        assert (D : (p | (r - a) * value (quotient a (c :: l)) r)).
        { rewrite <- quotient_value. apply Z.divide_sub_r; assumption. }
        apply prime_mult in D; [|assumption]. destruct D as [D|D]; [exfalso|assumption].
        destruct (Z.eq_dec r a) as [-> | Hne]; [contradiction|].
        destruct (Z_lt_le_dec a r).
        + apply Z.divide_pos_le in D; lia.
        + apply Z.divide_opp_r in D. apply Z.divide_pos_le in D; lia.
      - cbn [length] in Hn. lia. }
    apply vanish_quotient in Hq. constructor; [|assumption].
    cbn [value] in Va. pose proof (vanish_value l a Hq).
    replace c with (c + a * value l a - a * value l a) by ring.
    apply Z.divide_sub_r; [assumption|]. apply Z.divide_mul_r. assumption.
Qed.
End Prime.

(** Differences of coefficients. *)
Fixpoint minus (l m : list Z) : list Z :=
  match l, m with
  | [], _ => map Z.opp m
  | _, [] => l
  | c :: l, d :: m => (c - d) :: minus l m
  end.
Lemma value_opp l x : value (map Z.opp l) x = - value l x.
Proof. induction l as [|c l IH]; cbn [map value]; [reflexivity|]. rewrite IH. ring. Qed.
Lemma value_minus l m x : value (minus l m) x = value l x - value m x.
Proof.
  revert m. induction l as [|c l IH]; intros m.
  - cbn [minus value]. rewrite value_opp. ring.
  - destruct m as [|d m]; cbn [minus value]; [ring|]. rewrite IH. ring.
Qed.
Lemma minus_length l m : length (minus l m) = Nat.max (length l) (length m).
Proof.
  revert m. induction l as [|c l IH]; intros m; cbn [minus].
  - apply map_length.
  - destruct m as [|d m]; cbn [length Nat.max]; [reflexivity|]. now rewrite IH.
Qed.
(** With all coefficients in (0, p) only equal lists have a vanishing difference. *)
Lemma vanish_minus p l m : Forall (fun c => 0 < c < p) l -> Forall (fun c => 0 < c < p) m ->
  vanish p (minus l m) -> l = m.
Proof.
  intros Hl. revert m. induction Hl as [|c l Hc Hl IH]; intros m Hm V.
  - destruct Hm as [|d m Hd Hm]; [reflexivity|exfalso].
    cbn [minus map] in V. inversion V as [|? ? V1 V2]; subst.
    apply Z.divide_opp_r, Z.divide_pos_le in V1; lia.
  - destruct Hm as [|d m Hd Hm]; cbn [minus] in V; inversion V as [|? ? V1 V2]; subst.
    + exfalso. apply Z.divide_pos_le in V1; lia.
    + rewrite (IH m Hm V2). f_equal.
      destruct (Z_lt_le_dec d c).
      * apply Z.divide_pos_le in V1; lia.
      * destruct (Z.eq_dec c d); [assumption|].
        apply Z.divide_opp_r, Z.divide_pos_le in V1; lia.
Qed.

(** The list falls into as many parts as there are values of [f]. *)
Lemma parts {A} (f : A -> Z) ds (l : list A) k :
  (forall a, In a l -> In (f a) ds) ->
  (forall d, In d ds -> (length (filter (fun a => (f a =? d)%Z) l) <= k)%nat) ->
  (length l <= length ds * k)%nat.
Proof.
  revert l. induction ds as [|d ds IH]; intros l H1 H2.
  - destruct l as [|a l]; [cbn; lia|]. destruct (H1 a (or_introl eq_refl)).
  - set (here := filter (fun a => f a =? d) l).
    set (rest := filter (fun a => negb (f a =? d)) l).
    assert (E : length l = (length here + length rest)%nat).
    { subst here rest. clear. induction l as [|a l IH]; [reflexivity|].
      cbn [filter]. destruct (f a =? d); cbn [negb length]; lia. }
    assert (length here <= k)%nat by (apply H2; now left).
    assert (length rest <= length ds * k)%nat.
    { apply IH.
      - intros a Ha. apply filter_In in Ha. destruct Ha as (Ha & Hn).
        destruct (H1 a Ha) as [E' | ?]; [|assumption]. rewrite E', Z.eqb_refl in Hn. discriminate.
      - intros e He. etransitivity; [|exact (H2 e (or_intror He))].
        clear. subst rest. induction l as [|a l IH]; [reflexivity|].
        cbn [filter]. destruct (f a =? d); cbn [negb filter]; destruct (f a =? e); cbn [length]; lia. }
    cbn [length]. lia.
Qed.
