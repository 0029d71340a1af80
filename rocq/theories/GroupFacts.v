(** Multiples in a commutative group. *)
From Verif Require Import Base StdCurve.
Open Scope N_scope.

Section Group.
Variable G : Type.
Variables (op : G -> G -> G) (zero : G) (neg : G -> G).
Hypothesis assoc : forall a b c, op (op a b) c = op a (op b c).
Hypothesis comm : forall a b, op a b = op b a.
Hypothesis ident : forall a, op zero a = a.
Hypothesis inverse : forall a, op a (neg a) = zero.

(** The sum of k copies. *)
Definition multiple (k : N) (a : G) : G := N.iter k (op a) zero.

Lemma multiple_0 a : multiple 0 a = zero.
Proof. reflexivity. Qed.
Lemma multiple_succ k a : multiple (N.succ k) a = op a (multiple k a).
Proof. unfold multiple. now rewrite N.iter_succ. Qed.
Lemma ident_r a : op a zero = a.
Proof. rewrite comm. apply ident. Qed.
Lemma multiple_1 a : multiple 1 a = a.
Proof. change 1 with (N.succ 0). rewrite multiple_succ, multiple_0. apply ident_r. Qed.
Lemma multiple_add j k a : multiple (j + k) a = op (multiple j a) (multiple k a).
Proof.
  induction j as [|j IH] using N.peano_ind.
  - rewrite N.add_0_l, multiple_0, ident. reflexivity.
  - rewrite N.add_succ_l, !multiple_succ, IH, assoc. reflexivity.
Qed.
Lemma multiple_zero k : multiple k zero = zero.
Proof.
  induction k as [|k IH] using N.peano_ind; [reflexivity|].
  now rewrite multiple_succ, IH, ident.
Qed.
Lemma multiple_mul j k a : multiple (j * k) a = multiple j (multiple k a).
Proof.
  induction j as [|j IH] using N.peano_ind; [reflexivity|].
  rewrite N.mul_succ_l, N.add_comm, multiple_add, IH, multiple_succ. reflexivity.
Qed.
Lemma multiple_op k a b : multiple k (op a b) = op (multiple k a) (multiple k b).
Proof.
  induction k as [|k IH] using N.peano_ind; [now rewrite !multiple_0, ident|].
  rewrite !multiple_succ, IH, !assoc. f_equal.
  rewrite <- (assoc b), (comm b), assoc. reflexivity.
Qed.
Lemma cancel a b c : op a b = op a c -> b = c.
Proof.
  intros H. rewrite <- (ident b), <- (ident c), <- (inverse a), (comm a).
  now rewrite !assoc, H.
Qed.
Lemma neg_unique a b : op a b = zero -> b = neg a.
Proof. intros H. apply (cancel a). now rewrite inverse. Qed.
Lemma multiple_neg k a : multiple k (neg a) = neg (multiple k a).
Proof.
  apply neg_unique. rewrite <- multiple_op, inverse. apply multiple_zero.
Qed.
Lemma neg_neg a : neg (neg a) = a.
Proof. symmetry. apply neg_unique. rewrite comm. apply inverse. Qed.
Lemma neg_zero : neg zero = zero.
Proof. symmetry. apply neg_unique. apply ident. Qed.

(** Elements whose multiple by n is zero. *)
Lemma multiple_mod n k a : n <> 0 -> multiple n a = zero -> multiple (k mod n) a = multiple k a.
Proof.
  intros Hn H. rewrite (N.div_mod k n) at 2 by assumption.
  rewrite multiple_add, N.mul_comm, multiple_mul, H, multiple_zero, ident. reflexivity.
Qed.
Lemma multiple_cong n j k a : n <> 0 -> multiple n a = zero -> j mod n = k mod n ->
  multiple j a = multiple k a.
Proof.
  intros Hn H E. now rewrite <- (multiple_mod n j), <- (multiple_mod n k), E.
Qed.

Lemma multiple_inverse n j k a : n <> 0 -> multiple n a = zero -> (j * k) mod n = 1 mod n ->
  multiple k a = zero -> a = zero.
Proof.
  intros Hn H E Hk. rewrite <- (multiple_1 a), <- (multiple_cong n (j * k) 1 a Hn H E).
  now rewrite multiple_mul, Hk, multiple_zero.
Qed.
Lemma multiple_opposite n j k a : n <> 0 -> multiple n a = zero -> (j + k) mod n = 0 ->
  multiple j a = neg (multiple k a).
Proof.
  intros Hn H E. apply neg_unique. rewrite comm, <- multiple_add, <- (multiple_mod n) by assumption.
  now rewrite E.
Qed.

(** What the verifier of a signature computes. *)
Lemma combination n h a k g : n <> 0 -> multiple n g = zero ->
  op (multiple ((h * a + k) mod n) g) (multiple h (neg (multiple a g))) = multiple k g.
Proof.
  intros Hn H. rewrite multiple_mod by assumption.
  rewrite multiple_neg, <- multiple_mul, multiple_add, (comm (multiple (h * a) g)).
  now rewrite assoc, inverse, ident_r.
Qed.

(** Double, add and subtract, by digits with the lowest first. *)
Inductive digit := Zero | Plus | Minus.
Fixpoint digits (fuel : nat) (n : N) : list digit :=
  match fuel with
  | O => []
  | S fuel =>
    if n =? 0 then []
    else if N.even n then Zero :: digits fuel (n / 2)
    else if n mod 4 =? 1 then Plus :: digits fuel (n / 2)
    else Minus :: digits fuel (n / 2 + 1)
  end.
Definition pluses (l : list digit) : N :=
  fold_right (fun d v => match d with Plus => v + v + 1 | _ => v + v end) 0 l.
Definition minuses (l : list digit) : N :=
  fold_right (fun d v => match d with Minus => v + v + 1 | _ => v + v end) 0 l.

Section Digits.
Variable A : Type.
Variables (dbl plus minus : A -> A) (z : A).
Variable rep : A -> G -> Prop.
Variable g : G.
Hypothesis rep_dbl : forall x a, rep x a -> rep (dbl x) (op a a).
Hypothesis rep_plus : forall x a, rep x a -> rep (plus x) (op a g).
Hypothesis rep_minus : forall x a, rep x a -> rep (minus x) (op a (neg g)).
Hypothesis rep_zero : rep z zero.

Definition run (l : list digit) : A :=
  fold_right (fun d x => match d with
                         | Zero => dbl x | Plus => plus (dbl x) | Minus => minus (dbl x) end) z l.
Definition net (l : list digit) : G := op (multiple (pluses l) g) (neg (multiple (minuses l) g)).
Lemma op_swap a b c d : op (op a b) (op c d) = op (op a c) (op b d).
Proof. rewrite !assoc. f_equal. rewrite <- !assoc. f_equal. apply comm. Qed.
Lemma neg_op a b : neg (op a b) = op (neg a) (neg b).
Proof. symmetry. apply neg_unique. now rewrite op_swap, !inverse, ident. Qed.
Lemma run_rep l : rep (run l) (net l).
Proof.
  induction l as [|d l IH].
  - unfold net. cbn [pluses minuses fold_right]. rewrite multiple_0, inverse. exact rep_zero.
  - assert (H : rep (dbl (run l)) (op (multiple (pluses l + pluses l) g) (neg (multiple (minuses l + minuses l) g)))).
    { rewrite !multiple_add, neg_op, op_swap. apply rep_dbl, IH. }
    unfold net. destruct d; cbn [run pluses minuses fold_right]; fold (run l) (pluses l) (minuses l).
    + exact H.
    + rewrite (multiple_add (pluses l + pluses l)), multiple_1.
      replace (op (op (multiple (pluses l + pluses l) g) g) (neg (multiple (minuses l + minuses l) g)))
        with (op (op (multiple (pluses l + pluses l) g) (neg (multiple (minuses l + minuses l) g))) g);
        [now apply rep_plus|].
      rewrite !assoc. f_equal. apply comm.
    + rewrite (multiple_add (minuses l + minuses l)), multiple_1, neg_op, <- assoc.
      now apply rep_minus.
Qed.
Lemma run_multiple n l : pluses l = n + minuses l -> rep (run l) (multiple n g).
Proof.
  intros H. pose proof (run_rep l) as R. unfold net in R. rewrite H, multiple_add, assoc, inverse in R.
  rewrite comm, ident in R. exact R.
Qed.
End Digits.

(** Double and add, in a representation of the group. *)
Variable A : Type.
Variables (add : A -> A -> A) (z : A).
Variable rep : A -> G -> Prop.
Hypothesis rep_add : forall x y a b, rep x a -> rep y b -> rep (add x y) (op a b).
Hypothesis rep_zero : rep z zero.

Lemma times_rep e x a : rep x a -> rep (times add e x) (multiple (Npos e) a).
Proof.
  intros H. induction e as [e IH | e IH |]; cbn [times].
  - replace (Npos e~1) with (Npos e + Npos e + 1) by lia. rewrite !multiple_add, multiple_1.
    auto.
  - replace (Npos e~0) with (Npos e + Npos e) by lia. rewrite !multiple_add. auto.
  - now rewrite multiple_1.
Qed.
Lemma scale_rep k x a : rep x a -> rep (scale z add k x) (multiple k a).
Proof.
  intros H. destruct k as [|e]; cbn [scale]; [exact rep_zero|now apply times_rep].
Qed.
End Group.
