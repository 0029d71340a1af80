(** Theorems about threads that share the random source. *)
From Verif Require Import Base BaseFacts Str Prims Bip39 Dict Errors FMap Crypt CryptSpec CryptFacts Data Keys Mnemonic
  Manager Conc ConcSpec ConcFacts.

Section S.
Variable A : Type.
Variable src : nat -> option byte.

(** ** What the calls get *)
Theorem calls_chunks (calls : list (list (proc A))) st : steps src (init A calls) st ->
  exists G, disjoint G /\ ordered G /\
  (forall i j x s n, nth_error (G i j) x = Some (s, n) -> (s + n <= pos _ st)%nat) /\
  (forall q, (q < pos _ st)%nat -> src q <> None) /\
  length (threads _ st) = length calls /\
  forall i t j o, nth_error (threads _ st) i = Some t -> nth_error (done _ t) j = Some o ->
    exists l p, nth_error calls i = Some l /\ nth_error l j = Some p /\
    match o with
    | Some a => uses src p (G i j) a
    | None => src (pos _ st) = None
    end.
Proof.
  intros H. apply steps_inv in H. destruct H as (G & base & I). exists G.
  split; [apply I|]. split; [apply I|].
  assert (base <= pos _ st)%nat as Hb.
  { destruct (mutex _ st) eqn:E; try (rewrite (i_base _ _ _ _ _ _ I); [lia|congruence]).
    apply (i_held _ _ _ _ _ _ I) in E. destruct E as (i & t & Hi & F).
    destruct (i_thr _ _ _ _ _ _ I i t Hi) as (ps & _ & _ & _ & HC). unfold filling in F.
    destruct (cur _ t); try easy. destruct HC as (p & _ & _ & _ & _ & ->). lia. }
  split. { intros i j x s n E. apply (i_end _ _ _ _ _ _ I) in E. lia. }
  split; [apply I|]. split; [apply I|].
  intros i t j o Hi Hj. destruct (i_thr _ _ _ _ _ _ I i t Hi) as (ps & Hps & Hd & _).
  destruct (Hd j o Hj) as (p & Hp & Ho). exists ps, p. split; [exact Hps|]. split; [exact Hp|].
  destruct o; [exact Ho|]. now apply (i_pois _ _ _ _ _ _ I).
Qed.

(** ** Nothing gets stuck *)
Theorem calls_progress (calls : list (list (proc A))) st : steps src (init A calls) st ->
  (exists st', sys_step A src st st') \/
  (mutex _ st <> Held /\ forall i t, nth_error (threads _ st) i = Some t -> cur _ t = Idle /\
     exists l, nth_error calls i = Some l /\ length (done _ t) = length l).
Proof.
  intros H. apply steps_inv in H. destruct H as (G & base & I).
  assert (Hsplit : forall i t, nth_error (threads _ st) i = Some t -> exists b a, threads _ st = b ++ t :: a).
  { intros i t Hi. apply nth_error_split in Hi. destruct Hi as (b & a & E & _). eauto. }
  assert (Hgo : forall i t t' m' q', nth_error (threads _ st) i = Some t ->
    lstep A src t (mutex _ st) (pos _ st) t' m' q' -> exists st', sys_step A src st st').
  { intros i t t' m' q' Hi L. destruct (Hsplit i t Hi) as (b & a & E).
    destruct st as [th m q]. cbn [threads mutex pos] in *. subst th. eexists. exact (s_step A src b t a t' m m' q q' L). }
  destruct (mutex _ st) eqn:Em.
  2: { left. pose proof Em as Eh. apply (i_held _ _ _ _ _ _ I) in Eh. destruct Eh as (i & t & Hi & F).
    unfold filling in F. destruct (cur _ t) as [|p|n acc k] eqn:Ec; try easy. destruct n as [|n].
    - eapply Hgo; [exact Hi|]. eapply l_unlock; eauto.
    - destruct (src (pos _ st)) as [x|] eqn:Ex.
      + eapply Hgo; [exact Hi|]. eapply l_byte; eauto.
      + eapply Hgo; [exact Hi|]. eapply l_fail; eauto. }
  - destruct (Forall_Exists_dec (fun t => cur A t = Idle)) with (l := threads _ st) as [Ha|He].
    { intros t. destruct (cur _ t); [now left|right; discriminate|right; discriminate]. }
    + right. split; [discriminate|]. intros i t Hi.
      assert (cur A t = Idle) as Hc by (rewrite Forall_forall in Ha; apply Ha; eapply nth_error_In; eauto).
      split; [exact Hc|]. destruct (i_thr _ _ _ _ _ _ I i t Hi) as (ps & Hps & _ & _ & HC). rewrite Hc in HC.
      exists ps. intuition.
    + left. apply Exists_exists in He. destruct He as (t & Hin & Hc). apply In_nth_error in Hin. destruct Hin as (i & Hi).
      destruct (cur _ t) as [|p|n acc k] eqn:Ec; [congruence| |].
      * destruct p as [a|n k]; (eapply Hgo; [exact Hi|]); [eapply l_return|eapply l_lock]; eauto.
      * assert (Free = Held) as X; [|discriminate]. rewrite <- Em. apply (i_held _ _ _ _ _ _ I).
        exists i, t. split; [exact Hi|]. unfold filling. now rewrite Ec.
  - destruct (Forall_Exists_dec (fun t => cur A t = Idle)) with (l := threads _ st) as [Ha|He].
    { intros t. destruct (cur _ t); [now left|right; discriminate|right; discriminate]. }
    + right. split; [discriminate|]. intros i t Hi.
      assert (cur A t = Idle) as Hc by (rewrite Forall_forall in Ha; apply Ha; eapply nth_error_In; eauto).
      split; [exact Hc|]. destruct (i_thr _ _ _ _ _ _ I i t Hi) as (ps & Hps & _ & _ & HC). rewrite Hc in HC.
      exists ps. intuition.
    + left. apply Exists_exists in He. destruct He as (t & Hin & Hc). apply In_nth_error in Hin. destruct Hin as (i & Hi).
      destruct (cur _ t) as [|p|n acc k] eqn:Ec; [congruence| |].
      * destruct p as [a|n k]; (eapply Hgo; [exact Hi|]); [eapply l_return|eapply l_poisoned]; eauto.
      * assert (Poisoned = Held) as X; [|discriminate]. rewrite <- Em. apply (i_held _ _ _ _ _ _ I).
        exists i, t. split; [exact Hi|]. unfold filling. now rewrite Ec.
Qed.

(** ** Every execution ends *)
Definition tstep (t' t : thread A) : Prop := exists m q m' q', lstep A src t m q t' m' q'.

Lemma tstep_acc_list l : forall r, Acc tstep (begin_next A l r).
Proof.
  induction l as [|p l IH]; intros r.
  - constructor. intros t' (m & q & m' & q' & L). inversion L; subst; cbn in *; discriminate.
  - unfold begin_next. cbn [tl]. revert r. induction p as [a|n k IHp]; intros r.
    + constructor. intros t' (m & q & m' & q' & L).
      inversion L; subst; cbn [cur] in *; try discriminate; unfold finish; cbn [rest done]; apply IH; auto.
    + assert (forall x acc, Acc tstep {| cur := Filling x acc k; rest := l; done := r |}) as F.
      { intros x. induction x as [|x IHx]; intros acc; constructor; intros t' (m & q & m' & q' & L);
          inversion L; subst; cbn [cur] in *; try discriminate;
          try (match goal with H : Filling _ _ _ = Filling _ _ _ |- _ => injection H; intros; subst; clear H end);
          try discriminate; try (unfold finish; cbn [rest done]; apply IH; auto).
        - unfold goto. cbn [rest done]. apply IHp.
        - unfold goto. cbn [rest done]. apply IHx. }
      constructor. intros t' (m & q & m' & q' & L).
      inversion L; subst; cbn [cur] in *; try discriminate;
        try (match goal with H : Ready _ = Ready _ |- _ => injection H; intros; subst; clear H end).
      * unfold goto. cbn [rest done]. apply F.
      * unfold finish. cbn [rest done]. apply IH; auto.
Qed.

Inductive one_of : list (thread A) -> list (thread A) -> Prop :=
| one_of_step b t a t' : tstep t' t -> one_of (b ++ t' :: a) (b ++ t :: a).

Lemma one_of_acc l : Forall (Acc tstep) l -> Acc one_of l.
Proof.
  induction 1 as [|t l Ht _ IH].
  - constructor. intros l' S. inversion S. destruct b; discriminate.
  - revert t Ht. induction IH as [l _ IHl]. intros t Ht. induction Ht as [t Ht' IHt].
    constructor. intros l' S. inversion S as [b t0 a t' T E1 E2]. destruct b as [|t1 b].
    + cbn [app] in *. injection E2 as -> ->. now apply IHt.
    + cbn [app] in *. injection E2 as -> <-. apply IHl; [now constructor|now constructor].
Qed.

Theorem calls_end (calls : list (list (proc A))) : Acc (fun st' st => sys_step A src st st') (init A calls).
Proof.
  assert (Acc one_of (threads _ (init A calls))) as H.
  { apply one_of_acc. cbn [threads init]. apply Forall_map, Forall_forall. intros l _. apply tstep_acc_list. }
  revert H. generalize (init A calls). intros st. remember (threads _ st) as th eqn:E. intros H. revert st E.
  induction H as [th _ IH]. intros st E. constructor. intros st' S. destruct S as [b t a t' m m' q q' L]. cbn [threads] in E.
  apply IH with (y := b ++ t' :: a); [|reflexivity]. subst th. constructor. red. eauto.
Qed.

Theorem calls_complete (calls : list (list (proc A))) : exists st, steps src (init A calls) st /\
  mutex _ st <> Held /\ forall i t, nth_error (threads _ st) i = Some t -> cur _ t = Idle /\
     exists l, nth_error calls i = Some l /\ length (done _ t) = length l.
Proof.
  assert (forall st, Acc (fun st' st => sys_step A src st st') st -> steps src (init A calls) st ->
    exists st', steps src (init A calls) st' /\ mutex _ st' <> Held /\
    forall i t, nth_error (threads _ st') i = Some t -> cur _ t = Idle /\
     exists l, nth_error calls i = Some l /\ length (done _ t) = length l) as H.
  { intros st H. induction H as [st _ IH]. intros Hs. destruct (calls_progress _ _ Hs) as [(st' & S)|F].
    - apply (IH st' S). econstructor; eauto.
    - exists st. auto. }
  apply (H _ (calls_end calls)). constructor.
Qed.

(** ** Calls alone *)
Lemma uses_alone (p : proc A) l a : uses src p l a -> exists b, taken src l b /\
  (length b = fold_right (fun c n => snd c + n) 0 l)%nat /\
  forall r, starts_with b r -> alone p r = a.
Proof.
  induction 1 as [a|n k s b l a Hl Hc H (b' & (bs & Hf & ->) & Hlen & IH)].
  - exists []. split; [|split; [reflexivity|reflexivity]]. exists []. split; [constructor|reflexivity].
  - exists (b ++ concat bs). split.
    { exists (b :: bs). split; [|reflexivity]. constructor; [|exact Hf]. auto. }
    split. { rewrite app_length, Hlen, Hl. reflexivity. }
    intros r Hr. cbn [alone]. unfold fill.
    assert (map r (seq 0 n) = b) as Eb.
    { apply bytes_ext; [now rewrite map_length, seq_length|]. rewrite map_length, seq_length. intros i Hi.
      rewrite (nth_indep _ x00 (r 0%nat)) by (rewrite map_length, seq_length; lia).
      rewrite map_nth, seq_nth by lia. cbn [Nat.add].
      specialize (Hr i). rewrite app_length in Hr. rewrite nth_error_app1 in Hr by lia.
      f_equal. symmetry. apply nth_error_nth. apply Hr. lia. }
    rewrite Eb. apply IH. intros i Hi. specialize (Hr (n + i)%nat). rewrite app_length in Hr.
    rewrite nth_error_app2 in Hr by lia. replace (n + i - length b)%nat with i in Hr by lia. apply Hr. lia.
Qed.
End S.

Section Ops.
Variable P : prims.

Lemma alone_pmap {A B} (f : A -> B) p r : alone (pmap f p) r = f (alone p r).
Proof. revert r. induction p as [a|n k IH]; intros r; cbn [pmap alone]; [reflexivity|apply IH]. Qed.

Lemma alone_encrypt d pw r : alone (encrypt_proc P d pw) r = fst (encrypt P d pw r).
Proof. unfold encrypt_proc, encrypt. cbn [alone fill]. destruct (aead_encrypt _ _ _ _). reflexivity. Qed.

Lemma alone_lift {A B} (x : res kc_error A) (k : A -> proc (res kc_error B)) r :
  alone (lift x k) r = bind x (fun a => alone (k a) r).
Proof. destruct x; reflexivity. Qed.

Lemma alone_seal o w pw r : alone (seal_proc P o w pw) r = Ok (OData (fst (seal P o w pw r))).
Proof. unfold seal_proc. rewrite alone_pmap, alone_encrypt. reflexivity. Qed.

Lemma bind_rmap {E A B D} (x : res E A) (f : A -> res E B) (g : B -> D) :
  rmap g (bind x f) = bind x (fun a => rmap g (f a)).
Proof. destruct x; reflexivity. Qed.
Lemma bind_ext {E A B} (x : res E A) (f g : A -> res E B) : (forall a, f a = g a) -> bind x f = bind x g.
Proof. intros H. destruct x; cbn; auto. Qed.

Theorem op_alone_eq x r : alone (op_proc P x) r = op_alone P x r.
Proof.
  destruct x as [m lang|o1 o2 m seed pw|o1 o2 m mn pw lang|d old new|C o m d pw n]; cbn [op_proc op_alone].
  - unfold generate_proc, generate_mnemonic, generate_entropy. rewrite alone_lift.
    destruct (from_entropy_size (m_seed_size m)) as [t|e| |]; cbn [map_err bind rmap]; try reflexivity.
    cbn [alone]. unfold entropy_generate. destruct (fill _ r) as [b r']. cbn [bind map_err e_bytes].
    rewrite alone_lift. destruct (mnemonic_from_entropy P b _); reflexivity.
  - unfold new_keychain_proc, keychain_data_from_seed, new_keychain_data. rewrite alone_lift, bind_rmap.
    apply bind_ext. intros c. rewrite alone_lift, bind_rmap. apply bind_ext. intros ks. now rewrite alone_seal.
  - unfold new_keychain_proc, keychain_data_from_mnemonic, new_keychain_data. rewrite alone_lift, bind_rmap.
    apply bind_ext. intros c. rewrite alone_lift, bind_rmap. apply bind_ext. intros ks. now rewrite alone_seal.
  - unfold change_password. rewrite alone_lift, bind_rmap. apply bind_ext. intros x.
    now rewrite alone_pmap, alone_encrypt.
  - unfold add_network. rewrite alone_lift, bind_rmap. apply bind_ext. intros f.
    rewrite alone_lift, bind_rmap. apply bind_ext. intros w. destruct (get n (w_keys w)); [reflexivity|].
    rewrite alone_lift, bind_rmap. apply bind_ext. intros s. rewrite alone_lift, bind_rmap. apply bind_ext. intros k.
    now rewrite alone_seal.
Qed.

Theorem op_uses src x l a : uses src (op_proc P x) l a -> exists b, taken src l b /\
  forall r, starts_with b r -> op_alone P x r = a.
Proof.
  intros H. destruct (uses_alone _ _ _ _ _ H) as (b & Ht & _ & Hr). exists b. split; [exact Ht|].
  intros r Hs. rewrite <- op_alone_eq. auto.
Qed.

Theorem encrypt_uses src d pw l a : prims_ok P -> uses src (encrypt_proc P d pw) l a ->
  exists s t salt nonce, l = [(s, 32%nat); (t, 12%nat)] /\ length salt = 32%nat /\ length nonce = 12%nat /\
  chunk src s salt /\ chunk src t nonce /\ is_sealed P pw salt nonce d a /\
  (d <> [] -> decrypt P a pw = Ok d).
Proof.
  intros HP H. destruct (uses_alone _ _ _ _ _ H) as (b & (bs & Hf & ->) & _ & Hr).
  inversion H as [|n k s salt l1 a1 Hl1 Hc1 H1]; subst. inversion H1 as [|n k t nonce l2 a2 Hl2 Hc2 H2]; subst.
  exists s, t, salt, nonce. inversion H2; subst. split; [reflexivity|]. split; [exact Hl1|]. split; [exact Hl2|].
  split; [exact Hc1|]. split; [exact Hc2|]. clear H1 H2.
  set (r := fun i => nth i (concat bs) x00).
  assert (starts_with (concat bs) r) as Hs.
  { intros i Hi. unfold r. now apply nth_error_nth'. }
  specialize (Hr r Hs). rewrite alone_encrypt in Hr. split.
  - apply (sealed_iff P HP). reflexivity.
  - intros Hd. rewrite <- Hr. now apply (decrypt_encrypt P HP).
Qed.

Theorem op_threads src (calls : list (list op)) st :
  steps src (init _ (map (map (op_proc P)) calls)) st -> exists G, disjoint G /\ ordered G /\
  forall i t j a, nth_error (threads _ st) i = Some t -> nth_error (done _ t) j = Some (Some a) ->
    exists l x b, nth_error calls i = Some l /\ nth_error l j = Some x /\ taken src (G i j) b /\
    forall r, starts_with b r -> op_alone P x r = a.
Proof.
  intros H. destruct (calls_chunks _ _ _ _ H) as (G & D & O & _ & _ & _ & R). exists G. split; [exact D|]. split; [exact O|].
  intros i t j a Hi Hj. destruct (R i t j (Some a) Hi Hj) as (l & p & Hl & Hp & U).
  rewrite nth_error_map in Hl. destruct (nth_error calls i) as [ops|] eqn:Ei; [|discriminate]. injection Hl as <-.
  rewrite nth_error_map in Hp. destruct (nth_error ops j) as [x|] eqn:Ej; [|discriminate]. injection Hp as <-.
  destruct (op_uses _ _ _ _ U) as (b & Hb & Hr). exists ops, x, b. auto.
Qed.

Theorem encrypt_threads src (calls : list (list (bytes * str))) st : prims_ok P ->
  steps src (init _ (map (map (fun c => encrypt_proc P (fst c) (snd c))) calls)) st ->
  exists salt_at nonce_at : nat -> nat -> nat,
  (forall i t j a, nth_error (threads _ st) i = Some t -> nth_error (done _ t) j = Some (Some a) ->
    exists l d pw salt nonce, nth_error calls i = Some l /\ nth_error l j = Some (d, pw) /\
    length salt = 32%nat /\ length nonce = 12%nat /\
    chunk src (salt_at i j) salt /\ chunk src (nonce_at i j) nonce /\
    is_sealed P pw salt nonce d a /\ (d <> [] -> decrypt P a pw = Ok d) /\
    (salt_at i j + 32 <= nonce_at i j)%nat /\
    (forall i' t' j' a', nth_error (threads _ st) i' = Some t' -> nth_error (done _ t') j' = Some (Some a') ->
      (i, j) <> (i', j') -> apart (salt_at i j) 32 (salt_at i' j') 32 /\
      apart (nonce_at i j) 12 (nonce_at i' j') 12 /\ apart (salt_at i j) 32 (nonce_at i' j') 12)).
Proof.
  intros HP H. destruct (calls_chunks _ _ _ _ H) as (G & D & O & _ & _ & _ & R).
  exists (fun i j => fst (nth 0 (G i j) (0, 0)%nat)), (fun i j => fst (nth 1 (G i j) (0, 0)%nat)).
  assert (X : forall i t j a, nth_error (threads _ st) i = Some t -> nth_error (done _ t) j = Some (Some a) ->
    exists l d pw s n salt nonce, nth_error calls i = Some l /\ nth_error l j = Some (d, pw) /\
      G i j = [(s, 32%nat); (n, 12%nat)] /\ length salt = 32%nat /\ length nonce = 12%nat /\
      chunk src s salt /\ chunk src n nonce /\ is_sealed P pw salt nonce d a /\
      (d <> [] -> decrypt P a pw = Ok d)).
  { intros i t j a Hi Hj. destruct (R i t j (Some a) Hi Hj) as (l & p & Hl & Hp & U).
    rewrite nth_error_map in Hl. destruct (nth_error calls i) as [ops|] eqn:Ei; [|discriminate]. injection Hl as <-.
    rewrite nth_error_map in Hp. destruct (nth_error ops j) as [[d pw]|] eqn:Ej; [|discriminate]. injection Hp as <-.
    cbn [fst snd] in U. destruct (encrypt_uses _ _ _ _ _ HP U) as (s & n & salt & nonce & H0).
    exists ops, d, pw, s, n, salt, nonce. split; [reflexivity|]. split; [exact Ej|]. exact H0. }
  intros i t j a Hi Hj. destruct (X i t j a Hi Hj) as (l & d & pw & s & n & salt & nonce & H1 & H2 & EG & H3 & H4 & H5 & H6 & H7 & H8).
  rewrite EG. cbn [nth fst]. exists l, d, pw, salt, nonce. repeat (split; [assumption|]).
  split. { apply (O i j 0%nat s 32%nat j 1%nat n 12%nat); [now rewrite EG|now rewrite EG|lia]. }
  intros i' t' j' a' Hi' Hj' Hne.
  destruct (X i' t' j' a' Hi' Hj') as (l' & d' & pw' & s' & n' & salt' & nonce' & _ & _ & EG' & _).
  rewrite EG'. cbn [nth fst]. unfold apart.
  split; [|split].
  - destruct (D i j 0%nat s 32%nat i' j' 0%nat s' 32%nat) as [E|E]; [now rewrite EG|now rewrite EG'|congruence|exact E].
  - destruct (D i j 1%nat n 12%nat i' j' 1%nat n' 12%nat) as [E|E]; [now rewrite EG|now rewrite EG'|congruence|exact E].
  - destruct (D i j 0%nat s 32%nat i' j' 1%nat n' 12%nat) as [E|E]; [now rewrite EG|now rewrite EG'|congruence|exact E].
Qed.
End Ops.
