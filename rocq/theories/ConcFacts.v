(** Facts about threads that share the random source. *)
From Verif Require Import Base BaseFacts Str Prims Bip39 Dict Errors FMap Crypt CryptSpec CryptFacts Data Keys Mnemonic
  Manager Conc ConcSpec.

Section S.
Variable A : Type.
Variable src : nat -> option byte.
Notation proc := (proc A).
Notation thread := (thread A).
Notation sys := (sys A).

(** ** Progress of a call *)
Inductive went : proc -> list (nat * nat) -> proc -> Prop :=
| went_here p : went p [] p
| went_draw p l n k s b : went p l (Draw n k) -> length b = n -> chunk src s b ->
    went p (l ++ [(s, n)]) (k b).

Lemma went_uses p l p' : went p l p' -> forall l' a, uses src p' l' a -> uses src p (l ++ l') a.
Proof.
  induction 1; intros l' a U; [exact U|]. rewrite <- app_assoc. apply IHwent.
  cbn [app]. now apply uses_draw with (b := b).
Qed.

Lemma chunk_snoc s b x : chunk src s b -> src (s + length b)%nat = Some x -> chunk src s (b ++ [x]).
Proof.
  intros H E i Hi. rewrite app_length in Hi. cbn in Hi. destruct (Nat.eq_dec i (length b)) as [->|Hn].
  - rewrite E, nth_error_app2, Nat.sub_diag by lia. reflexivity.
  - rewrite nth_error_app1 by lia. apply H. lia.
Qed.

Lemma nth_error_skipn' {B} (l : list B) a b : nth_error (skipn a l) b = nth_error l (a + b).
Proof. revert a. induction l as [|x l IH]; intros [|a]; cbn; try reflexivity; [now destruct b|apply IH]. Qed.

Lemma nth_error_Some_lt {B} (l : list B) i x : nth_error l i = Some x -> (i < length l)%nat.
Proof. intros H. apply nth_error_Some. congruence. Qed.

(** ** One thread *)
Definition tinv (ps : list proc) (g : nat -> list (nat * nat)) (base q : nat) (m : lock) (t : thread) : Prop :=
  let j := length (done _ t) in
  (forall j' o, nth_error (done _ t) j' = Some o -> exists p, nth_error ps j' = Some p /\
     match o with Some a => uses src p (g j') a | None => m = Poisoned end) /\
  (forall j', (j < j')%nat -> g j' = []) /\
  match cur _ t with
  | Idle => rest _ t = [] /\ j = length ps /\ g j = []
  | Ready p' => exists p, nth_error ps j = Some p /\ went p (g j) p' /\ rest _ t = skipn (S j) ps
  | Filling n acc k => exists p, nth_error ps j = Some p /\ went p (g j) (Draw (length acc + n) k) /\
      rest _ t = skipn (S j) ps /\ chunk src base acc /\ q = (base + length acc)%nat
  end.

Definition filling (t : thread) : Prop := match cur _ t with Filling _ _ _ => True | _ => False end.

Lemma begin_next_inv ps g base q m r :
  (forall j' o, nth_error r j' = Some o -> exists p, nth_error ps j' = Some p /\
     match o with Some a => uses src p (g j') a | None => m = Poisoned end) ->
  (length r <= length ps)%nat ->
  (forall j', (length r <= j')%nat -> g j' = []) ->
  tinv ps g base q m (begin_next A (skipn (length r) ps) r) /\ ~ filling (begin_next A (skipn (length r) ps) r).
Proof.
  intros H Hl Hg. unfold begin_next, tinv, filling. cbn [done cur rest].
  destruct (skipn (length r) ps) as [|p l] eqn:E.
  - split; [|easy]. split; [exact H|]. split; [intros; apply Hg; lia|]. split; [reflexivity|].
    assert (length ps <= length r)%nat.
    { rewrite <- (firstn_skipn (length r) ps), E, app_nil_r. apply firstn_le_length. }
    split; [lia|apply Hg; lia].
  - split; [|easy]. split; [exact H|]. split; [intros; apply Hg; lia|].
    assert (nth_error ps (length r) = Some p) as Hn.
    { replace (length r) with (length r + 0)%nat by lia. rewrite <- nth_error_skipn', E. reflexivity. }
    exists p. split; [exact Hn|]. split; [rewrite Hg by lia; constructor|].
    replace (S (length r)) with (length r + 1)%nat by lia. rewrite <- skipn_skipn, E. reflexivity.
Qed.

Lemma finish_inv ps g base q m t o p :
  (forall j' o, nth_error (done _ t) j' = Some o -> exists p, nth_error ps j' = Some p /\
     match o with Some a => uses src p (g j') a | None => m = Poisoned end) ->
  (forall j', (length (done _ t) < j')%nat -> g j' = []) ->
  nth_error ps (length (done _ t)) = Some p -> rest _ t = skipn (S (length (done _ t))) ps ->
  match o with Some a => uses src p (g (length (done _ t))) a | None => m = Poisoned end ->
  tinv ps g base q m (finish A t o) /\ ~ filling (finish A t o).
Proof.
  intros H Hg Hn Hr Ho. unfold finish. rewrite Hr.
  replace (S (length (done _ t))) with (length (done A t ++ [o])) by (rewrite app_length; cbn; lia).
  apply begin_next_inv.
  - intros j' o' Hj. destruct (Nat.eq_dec j' (length (done _ t))) as [->|Hne].
    + rewrite nth_error_app2, Nat.sub_diag in Hj by lia. cbn in Hj. injection Hj as <-. eauto.
    + apply H. rewrite nth_error_app1 in Hj; [exact Hj|].
      apply nth_error_Some_lt in Hj. rewrite app_length in Hj. cbn in Hj. lia.
  - rewrite app_length. cbn. apply nth_error_Some_lt in Hn. lia.
  - intros j'. rewrite app_length. cbn. intros. apply Hg. lia.
Qed.

Lemma tinv_other ps g base q m base' q' m' t : ~ filling t -> (m = Poisoned -> m' = Poisoned) ->
  tinv ps g base q m t -> tinv ps g base' q' m' t.
Proof.
  unfold tinv, filling. intros Hf Hm (H & Hg & Hc). split; [|split; [exact Hg|]].
  - intros j' o Hj. destruct (H j' o Hj) as (p & Hp & Ho). exists p. split; [exact Hp|]. destruct o; auto.
  - destruct (cur _ t); [exact Hc|exact Hc|now destruct Hf].
Qed.

Lemma tinv_g ps g g' base q m t : (forall j, g' j = g j) -> tinv ps g base q m t -> tinv ps g' base q m t.
Proof.
  unfold tinv. intros E (H & Hg & Hc). split; [|split].
  - intros j' o Hj. rewrite E. auto.
  - intros. rewrite E. auto.
  - rewrite !E. exact Hc.
Qed.

(** ** All threads *)
Record sinv (calls : list (list proc)) (G : nat -> nat -> list (nat * nat)) (base : nat) (st : sys) : Prop := {
  i_disj : disjoint G;
  i_ord : ordered G;
  i_end : forall i j x s n, nth_error (G i j) x = Some (s, n) -> (s + n <= base)%nat;
  i_len : length (threads _ st) = length calls;
  i_thr : forall i t, nth_error (threads _ st) i = Some t ->
    exists ps, nth_error calls i = Some ps /\ tinv ps (G i) base (pos _ st) (mutex _ st) t;
  i_one : forall i i' t t', nth_error (threads _ st) i = Some t -> nth_error (threads _ st) i' = Some t' ->
    filling t -> filling t' -> i = i';
  i_held : mutex _ st = Held <-> exists i t, nth_error (threads _ st) i = Some t /\ filling t;
  i_base : mutex _ st <> Held -> base = pos _ st;
  i_pois : mutex _ st = Poisoned -> src (pos _ st) = None;
  i_src : forall q, (q < pos _ st)%nat -> src q <> None
}.

Lemma nth_mid {B} (l1 l2 : list B) x y i : i <> length l1 -> nth_error (l1 ++ x :: l2) i = nth_error (l1 ++ y :: l2) i.
Proof.
  intros H. destruct (Nat.lt_ge_cases i (length l1)).
  - rewrite !nth_error_app1 by lia. reflexivity.
  - rewrite !nth_error_app2 by lia. destruct (i - length l1)%nat eqn:E; [lia|reflexivity].
Qed.
Lemma nth_at {B} (l1 l2 : list B) x : nth_error (l1 ++ x :: l2) (length l1) = Some x.
Proof. rewrite nth_error_app2, Nat.sub_diag by lia. reflexivity. Qed.

(** Replacing one thread by one that is not filling, others not filling either. *)
Lemma replace_inv calls G G' base base' b t a t' m m' q q' :
  sinv calls G base {| threads := b ++ t :: a; mutex := m; pos := q |} ->
  disjoint G' -> ordered G' ->
  (forall i j x s n, nth_error (G' i j) x = Some (s, n) -> (s + n <= base')%nat) ->
  (forall i j, i <> length b -> G' i j = G i j) ->
  (m = Poisoned -> m' = Poisoned) ->
  (forall ps, nth_error calls (length b) = Some ps -> tinv ps (G (length b)) base q m t ->
     tinv ps (G' (length b)) base' q' m' t') ->
  (m = Held -> filling t) ->
  (filling t' <-> m' = Held) ->
  (m' <> Held -> base' = q') -> (m' = Poisoned -> src q' = None) -> (forall x, (x < q')%nat -> src x <> None) ->
  sinv calls G' base' {| threads := b ++ t' :: a; mutex := m'; pos := q' |}.
Proof.
  intros [D O E L T1 On Hh Hb Hp Hs] D' O' E' HG Hm Ht Hf Hf' Hb' Hp' Hs'. cbn [threads mutex pos] in *.
  assert (Hno : forall i t0, nth_error (b ++ t' :: a) i = Some t0 -> i <> length b -> ~ filling t0).
  { intros i t0 Hi Hne Hfi. rewrite (nth_mid b a t' t i Hne) in Hi.
    assert (m = Held) as Hm1 by (apply Hh; eauto). apply Hne. eapply On; eauto using nth_at. }
  constructor; cbn [threads mutex pos]; auto.
  - rewrite <- L. rewrite !app_length. reflexivity.
  - intros i t0 Hi. destruct (Nat.eq_dec i (length b)) as [->|Hne].
    + rewrite nth_at in Hi. injection Hi as <-. destruct (T1 _ _ (nth_at b a t)) as (ps & Hps & Hti). eauto.
    + pose proof (Hno i t0 Hi Hne) as Hnf. rewrite (nth_mid b a t' t i Hne) in Hi.
      destruct (T1 _ _ Hi) as (ps & Hps & Hti). exists ps. split; [exact Hps|].
      apply tinv_g with (g := G i); [intros j; now apply HG|]. eapply tinv_other; eauto.
  - intros i i' t0 t0' Hi Hi' F F'.
    destruct (Nat.eq_dec i (length b)) as [->|Hne]; [|now destruct (Hno _ _ Hi Hne)].
    destruct (Nat.eq_dec i' (length b)) as [->|Hne]; [reflexivity|now destruct (Hno _ _ Hi' Hne)].
  - rewrite <- Hf'. split.
    + intros F. exists (length b), t'. split; [apply nth_at|exact F].
    + intros (i & t0 & Hi & F). destruct (Nat.eq_dec i (length b)) as [->|Hne]; [|now destruct (Hno _ _ Hi Hne)].
      rewrite nth_at in Hi. now injection Hi as <-.
Qed.

Lemma quiet_inv calls G base b t a t' m q :
  sinv calls G base {| threads := b ++ t :: a; mutex := m; pos := q |} ->
  (forall ps, nth_error calls (length b) = Some ps -> tinv ps (G (length b)) base q m t ->
     tinv ps (G (length b)) base q m t') ->
  ~ filling t -> ~ filling t' ->
  sinv calls G base {| threads := b ++ t' :: a; mutex := m; pos := q |}.
Proof.
  intros [D O E L T1 On Hh Hb Hp Hs] Ht F F'. cbn [threads mutex pos] in *.
  assert (Hnth : forall i t0, nth_error (b ++ t' :: a) i = Some t0 -> filling t0 ->
    i <> length b /\ nth_error (b ++ t :: a) i = Some t0).
  { intros i t0 Hi Hf. destruct (Nat.eq_dec i (length b)) as [->|Hne].
    - rewrite nth_at in Hi. injection Hi as <-. contradiction.
    - rewrite (nth_mid b a t' t i Hne) in Hi. auto. }
  constructor; cbn [threads mutex pos]; auto.
  - rewrite <- L. rewrite !app_length. reflexivity.
  - intros i t0 Hi. destruct (Nat.eq_dec i (length b)) as [->|Hne].
    + rewrite nth_at in Hi. injection Hi as <-. destruct (T1 _ _ (nth_at b a t)) as (ps & Hps & Hti). eauto.
    + rewrite (nth_mid b a t' t i Hne) in Hi. auto.
  - intros i i' t0 t0' Hi Hi' F0 F0'. destruct (Hnth _ _ Hi F0), (Hnth _ _ Hi' F0'). eapply On; eauto.
  - rewrite Hh. split; intros (i & t0 & Hi & Hf).
    + exists i, t0. split; [|exact Hf]. destruct (Nat.eq_dec i (length b)) as [->|Hne].
      * rewrite nth_at in Hi. injection Hi as <-. contradiction.
      * now rewrite (nth_mid b a t' t i Hne).
    + destruct (Hnth _ _ Hi Hf). eauto.
Qed.

Definition gadd (G : nat -> nat -> list (nat * nat)) (i j : nat) (c : nat * nat) : nat -> nat -> list (nat * nat) :=
  fun i' j' => if (i' =? i)%nat && (j' =? j)%nat then G i j ++ [c] else G i' j'.

Lemma gadd_at G i j c : gadd G i j c i j = G i j ++ [c].
Proof. unfold gadd. now rewrite !Nat.eqb_refl. Qed.
Lemma gadd_other G i j c i' j' : (i', j') <> (i, j) -> gadd G i j c i' j' = G i' j'.
Proof.
  unfold gadd. intros H. destruct (Nat.eqb_spec i' i); [|reflexivity]. destruct (Nat.eqb_spec j' j); [|reflexivity].
  subst. congruence.
Qed.
Lemma gadd_cases G i j c i' j' x y : nth_error (gadd G i j c i' j') x = Some y ->
  nth_error (G i' j') x = Some y \/ i' = i /\ j' = j /\ x = length (G i j) /\ y = c.
Proof.
  destruct (Nat.eq_dec i' i) as [->|Hi].
  2: rewrite gadd_other by congruence; auto.
  destruct (Nat.eq_dec j' j) as [->|Hj].
  2: rewrite gadd_other by congruence; auto.
  rewrite gadd_at. intros H. destruct (Nat.lt_ge_cases x (length (G i j))).
  - rewrite nth_error_app1 in H by lia. auto.
  - rewrite nth_error_app2 in H by lia. destruct (x - length (G i j))%nat eqn:E; cbn in H.
    + injection H as <-. right. repeat split. lia.
    + now destruct n.
Qed.

Lemma gadd_ok G i j base n :
  disjoint G -> ordered G ->
  (forall i j x s n, nth_error (G i j) x = Some (s, n) -> (s + n <= base)%nat) ->
  (forall j', (j < j')%nat -> G i j' = []) ->
  disjoint (gadd G i j (base, n)) /\ ordered (gadd G i j (base, n)) /\
  (forall i' j' x s m, nth_error (gadd G i j (base, n) i' j') x = Some (s, m) -> (s + m <= base + n)%nat).
Proof.
  intros D O E Z. split; [|split].
  - intros i1 j1 x1 s1 n1 i2 j2 x2 s2 n2 H1 H2. unfold apart. apply gadd_cases in H1, H2.
    destruct H1 as [H1|(? & ? & ? & [= ? ?])], H2 as [H2|(? & ? & ? & [= ? ?])].
    + eapply D; eauto.
    + right. left. subst. eapply E; eauto.
    + right. right. subst. eapply E; eauto.
    + left. congruence.
  - intros i1 j1 x1 s1 n1 j2 x2 s2 n2 H1 H2 Hlt. apply gadd_cases in H1, H2.
    destruct H1 as [H1|(? & ? & ? & [= ? ?])], H2 as [H2|(? & ? & ? & [= ? ?])].
    + eapply O; eauto.
    + subst. eapply E; eauto.
    + exfalso. subst. destruct Hlt as [Hlt|[<- Hlt]].
      * rewrite Z in H2 by congruence. now destruct x2.
      * apply nth_error_Some_lt in H2. lia.
    + lia.
  - intros i1 j1 x1 s1 n1 H1. apply gadd_cases in H1. destruct H1 as [H1|(? & ? & ? & [= ? ?])]; [|lia].
    apply E in H1. lia.
Qed.

Lemma step_inv calls G base st st' : sinv calls G base st -> sys_step A src st st' ->
  exists G' base', sinv calls G' base' st'.
Proof.
  intros I S. destruct S as [b t a t' m m' q q' L].
  pose proof (i_thr _ _ _ _ I) as HT. cbn [threads mutex pos] in HT. specialize (HT _ _ (nth_at b a t)).
  destruct HT as (ps & Hps & HT). pose proof I as [D O E Ln T1 On Hh Hb Hp Hs]. cbn [threads mutex pos] in *.
  destruct L as [t r l q Hc|t n k q Hc|t n k q Hc|t n acc k q x Hc Hx|t n acc k q Hc Hx|t acc k q Hc].
  - exists G, base.
    assert (tinv ps (G (length b)) base q l (finish A t (Some r)) /\ ~ filling (finish A t (Some r))) as X.
    { unfold tinv in HT. rewrite Hc in HT. destruct HT as (H & Hg & p & Hn & Hw & Hr).
      eapply finish_inv; eauto. rewrite <- (app_nil_r (G _ _)). eapply went_uses; eauto. constructor. }
    apply quiet_inv with (t := t); auto.
    + intros ps' Hps' _. assert (ps' = ps) as -> by congruence. apply X.
    + unfold filling. now rewrite Hc.
    + apply X.
  - exists G, base. apply replace_inv with (G := G) (base := base) (t := t) (m := Free) (q := q); auto; try discriminate.
    + intros ps' Hps' (H & Hg & HC). unfold tinv. cbn [goto done cur rest].
      rewrite Hc in HC. destruct HC as (p & Hn & Hw & Hr). split; [|split; [exact Hg|]].
      * intros j' o Hj. destruct (H j' o Hj) as (p' & Hp' & Ho). exists p'. split; [exact Hp'|]. destruct o; [exact Ho|discriminate].
      * exists p. cbn [length Nat.add]. repeat (split; [assumption|]). split; [intros i Hi; cbn in Hi; lia|].
        rewrite Nat.add_0_r. symmetry. apply Hb. discriminate.
    + unfold filling. cbn. tauto.
  - exists G, base.
    assert (forall b' q', tinv ps (G (length b)) b' q' Poisoned (finish A t None) /\ ~ filling (finish A t None)) as X.
    { intros b' q'. unfold tinv in HT. rewrite Hc in HT. destruct HT as (H & Hg & p & Hn & Hw & Hr).
      eapply finish_inv; eauto. }
    apply quiet_inv with (t := t); auto.
    + intros ps' Hps' _. assert (ps' = ps) as -> by congruence. apply X.
    + unfold filling. now rewrite Hc.
    + apply (X 0%nat 0%nat).
  - exists G, base. apply replace_inv with (G := G) (base := base) (t := t) (m := Held) (q := q); auto; try discriminate.
    + intros ps' Hps' (H & Hg & HC). unfold tinv. cbn [goto done cur rest].
      rewrite Hc in HC. destruct HC as (p & Hn & Hw & Hr & Hch & ->). split; [|split; [exact Hg|]].
      * exact H.
      * exists p. rewrite !app_length. cbn [length]. replace (length acc + 1 + n)%nat with (length acc + S n)%nat by lia.
        repeat (split; [assumption|]). split; [now apply chunk_snoc|lia].
    + intros _. unfold filling. now rewrite Hc.
    + unfold filling. cbn. tauto.
    + congruence.
    + intros y Hy. destruct (Nat.eq_dec y q) as [->|]; [congruence|]. apply Hs. lia.
  - assert (forall b' q', tinv ps (G (length b)) b' q' Poisoned (finish A t None) /\ ~ filling (finish A t None)) as X.
    { intros b' q'. unfold tinv in HT. rewrite Hc in HT. destruct HT as (H & Hg & p & Hn & Hw & Hr & _).
      eapply finish_inv; eauto. intros j' o Hj. destruct (H j' o Hj) as (p' & Hp' & Ho).
      exists p'. split; [exact Hp'|]. destruct o; [exact Ho|discriminate]. }
    exists G, q. apply replace_inv with (G := G) (base := base) (t := t) (m := Held) (q := q); auto; try discriminate.
    + intros i j x s n0 Hi. apply E in Hi. unfold tinv in HT. rewrite Hc in HT.
      destruct HT as (_ & _ & p & _ & _ & _ & _ & ->). lia.
    + intros ps' Hps' _. assert (ps' = ps) as -> by congruence. apply X.
    + intros _. unfold filling. now rewrite Hc.
    + split; [|discriminate]. intros F. now destruct (X 0%nat 0%nat).
  - unfold tinv in HT. rewrite Hc in HT. destruct HT as (H & Hg & p & Hn & Hw & Hr & Hch & ->).
    set (j := length (done _ t)) in *.
    destruct (gadd_ok G (length b) j base (length acc) D O E Hg) as (D' & O' & E').
    exists (gadd G (length b) j (base, length acc)), (base + length acc)%nat.
    apply replace_inv with (G := G) (base := base) (t := t) (m := Held) (q := (base + length acc)%nat); auto; try discriminate.
    + intros i j' Hi. apply gadd_other. congruence.
    + intros ps' Hps' _. assert (ps' = ps) as -> by congruence. unfold tinv. cbn [goto done cur rest]. fold j.
      split; [|split].
      * intros j' o Hj. destruct (H j' o Hj) as (p' & Hp' & Ho). exists p'. split; [exact Hp'|].
        destruct o; [|discriminate]. rewrite gadd_other; [exact Ho|]. apply nth_error_Some_lt in Hj. fold j in Hj.
        intros [= ->]. lia.
      * intros j' Hj. rewrite gadd_other; [auto|]. intros [= ->]. lia.
      * exists p. split; [exact Hn|]. split; [|exact Hr]. rewrite gadd_at.
        rewrite Nat.add_0_r in Hw. now apply went_draw with (n := length acc).
    + intros _. unfold filling. now rewrite Hc.
    + unfold filling. cbn. split; [easy|discriminate].
Qed.

Lemma init_inv calls : sinv calls (fun _ _ => []) 0 (init A calls).
Proof.
  assert (forall i t, nth_error (threads _ (init A calls)) i = Some t ->
    exists ps, nth_error calls i = Some ps /\ t = begin_next A ps []) as X.
  { intros i t Hi. cbn [threads init] in Hi. rewrite nth_error_map in Hi.
    destruct (nth_error calls i) as [ps|]; [|discriminate]. injection Hi as <-. eauto. }
  assert (forall i t, nth_error (threads _ (init A calls)) i = Some t -> ~ filling t) as NF.
  { intros i t Hi. apply X in Hi. destruct Hi as (ps & _ & ->). unfold filling, begin_next. now destruct ps. }
  constructor; try discriminate.
  - intros i j x s n i' j' x' s' n' H. now destruct x.
  - intros i j x s n j' x' s' n' H. now destruct x.
  - intros i j x s n H. now destruct x.
  - cbn. apply map_length.
  - intros i t Hi. apply X in Hi. destruct Hi as (ps & Hi & ->). exists ps. split; [exact Hi|].
    change (begin_next A ps []) with (begin_next A (skipn (length (@nil (option A))) ps) []).
    apply begin_next_inv; [intros [|j] o; discriminate|cbn; lia|reflexivity].
  - intros i i' t t' Hi Hi' F. now destruct (NF _ _ Hi).
  - cbn. split; [discriminate|]. intros (i & t & Hi & F). now destruct (NF _ _ Hi).
  - reflexivity.
  - cbn. lia.
Qed.

Lemma steps_inv calls st : steps src (init A calls) st -> exists G base, sinv calls G base st.
Proof.
  intros H. remember (init A calls) as s0 eqn:E. induction H as [|s0 s1 s2 H IH S]; subst.
  - eauto using init_inv.
  - destruct (IH eq_refl) as (G & base & I). eapply step_inv; eauto.
Qed.
End S.
