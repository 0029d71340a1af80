(** Proofs about programs with a failing random source. *)
From Coq Require Import Strings.String.
From Verif Require Import Base Str Prims Bip39 Dict KeyPath Errors FMap Crypt Data XPrv Keys Mnemonic
  Keychain Manager Features ManagerSpec Display Conc ConcSpec Ffi FfiSpec FfiCallSpec FfiWalletSpec Failing FailingSpec.
From Verif Require Import FMapFacts ManagerFacts MnemonicFacts LifeFacts FfiFacts FfiTheorems FfiWalletFacts ConcTheorems.
Open Scope list_scope.
Local Strategy 1000 [XPrv.derive XPrv.derive_loop XPrv.derive_step XPrv.xprv_from_data].

(** ** The source *)
Definition bytes_of (src : source) : rng := fun q => match src q with Some b => b | None => x00 end.
Definition shift (r : rng) (q : nat) : rng := fun i => r (q + i)%nat.

Lemma receive_some src q n b : receive src q n = Some b -> forall r : rng, (forall i, (i < n)%nat -> src (q + i)%nat = Some (r i)) ->
  b = map r (seq 0 n).
Proof.
  revert q b. induction n as [|n IH]; intros q b; cbn [receive seq map].
  - intros [= <-]. reflexivity.
  - intros E r Hr. pose proof (Hr 0%nat ltac:(lia)) as H0. rewrite Nat.add_0_r in H0. rewrite H0 in E.
    destruct (receive src (S q) n) as [b'|] eqn:E'; [|discriminate]. injection E as <-. f_equal.
    rewrite (IH _ _ E' (fun i => r (S i))); [|intros i Hi; rewrite <- (Hr (S i)) by lia; f_equal; lia].
    rewrite <- seq_shift, map_map. reflexivity.
Qed.
Lemma receive_iff src q n : (exists b, receive src q n = Some b) <-> forall i, (i < n)%nat -> src (q + i)%nat <> None.
Proof.
  revert q. induction n as [|n IH]; intros q; cbn [receive].
  - split; [lia|]. intros _. now exists [].
  - split.
    + intros (b & E). destruct (src q) as [c|] eqn:Eq; [|discriminate].
      destruct (receive src (S q) n) as [b'|] eqn:E'; [|discriminate]. intros [|i] Hi.
      * rewrite Nat.add_0_r. congruence.
      * replace (q + S i)%nat with (S q + i)%nat by lia. apply IH; [eauto|lia].
    + intros H. destruct (src q) as [c|] eqn:Eq; [|now destruct (H 0%nat ltac:(lia)); rewrite Nat.add_0_r].
      destruct (proj2 (IH (S q))) as [b ->]; [|now exists (c :: b)].
      intros i Hi. replace (S q + i)%nat with (q + S i)%nat by lia. apply H. lia.
Qed.
Lemma receive_known src q n : (forall i, (i < n)%nat -> src (q + i)%nat <> None) ->
  receive src q n = Some (fst (fill n (shift (bytes_of src) q))).
Proof.
  intros H. destruct (proj2 (receive_iff src q n) H) as [b E]. rewrite E. f_equal. cbn [fill fst].
  apply (receive_some _ _ _ _ E). intros i Hi. unfold shift, bytes_of. specialize (H i Hi). destruct (src (q + i)%nat); congruence.
Qed.
Lemma receive_length src q n b : receive src q n = Some b -> List.length b = n.
Proof.
  revert q b. induction n as [|n IH]; intros q b; cbn [receive]; [now intros [= <-]|].
  destruct (src q); [|discriminate]. destruct (receive src (S q) n) eqn:E; [|discriminate]. intros [= <-].
  cbn. f_equal. now apply IH in E.
Qed.

(** ** Calls *)
Lemma alone_ext {A} (p : proc A) r r' : (forall i, r i = r' i) -> alone p r = alone p r'.
Proof.
  revert r r'. induction p as [a|n k IH]; intros r r' H; cbn [alone fill]; [reflexivity|].
  rewrite (map_ext r r' H). apply IH. intros i. apply H.
Qed.
Lemma attempt_some {A} (p : proc A) src q d a : attempt p src q d = Some a -> alone p (shift (bytes_of src) q) = a.
Proof.
  revert q. induction p as [b|n k IH]; intros q; cbn [attempt alone].
  - now intros [= ->].
  - destruct d; [discriminate|]. destruct (receive src q n) as [b|] eqn:E; [|discriminate]. intros H.
    assert (b = fst (fill n (shift (bytes_of src) q))) as ->.
    { rewrite receive_known in E; [congruence|]. apply receive_iff. eauto. }
    apply IH in H. rewrite <- H. cbn [fill fst]. apply alone_ext. intros i. unfold shift. f_equal. lia.
Qed.

(** A call that takes [n] bytes, in whatever portions. *)
Fixpoint takes {A} (n : nat) (p : proc A) : Prop :=
  match p with
  | Ret _ => n = 0%nat
  | Draw m k => (0 < m <= n)%nat /\ forall b, List.length b = m -> takes (n - m) (k b)
  end.
Lemma attempt_works {A} (p : proc A) src q n : takes n p -> (forall i, (i < n)%nat -> src (q + i)%nat <> None) ->
  attempt p src q false = Some (alone p (shift (bytes_of src) q)).
Proof.
  revert q n. induction p as [b|m k IH]; intros q n; cbn [attempt alone takes]; [reflexivity|].
  intros [Hm Hk] H. rewrite receive_known by (intros i Hi; apply H; lia). cbn [fill fst].
  rewrite (IH _ _ (n - m)%nat).
  - f_equal. apply alone_ext. intros i. unfold shift. f_equal. lia.
  - apply Hk. now rewrite map_length, seq_length.
  - intros i Hi. rewrite <- Nat.add_assoc. apply H. lia.
Qed.
Lemma attempt_fails {A} (p : proc A) src q n j : takes n p -> (j < n)%nat -> src (q + j)%nat = None ->
  attempt p src q false = None.
Proof.
  revert q n j. induction p as [b|m k IH]; intros q n j; cbn [attempt takes]; [lia|].
  intros [Hm Hk] Hj E. destruct (receive src q m) as [b|] eqn:Er; [|reflexivity].
  destruct (Nat.lt_ge_cases j m) as [L|L].
  - destruct (proj1 (receive_iff src q m) (ex_intro _ b Er) j L E).
  - apply (IH b _ (n - m)%nat (j - m)%nat); [apply Hk; now apply receive_length in Er|lia|].
    rewrite <- E. f_equal. lia.
Qed.
Lemma attempt_poisoned {A} (p : proc A) src q n : takes n p -> (0 < n)%nat -> attempt p src q true = None.
Proof. destruct p; cbn [takes attempt]; [lia|reflexivity]. Qed.
Lemma alone_take {A} (p : proc A) n r r' : takes n p -> (forall i, (i < n)%nat -> r i = r' i) -> alone p r = alone p r'.
Proof.
  revert n r r'. induction p as [a|m k IH]; intros n r r'; cbn [takes alone fill]; [reflexivity|].
  intros [Hm Hk] H. assert (map r (seq 0 m) = map r' (seq 0 m)) as ->.
  { apply map_ext_in. intros i Hi. apply in_seq in Hi. apply H. lia. }
  apply (IH _ (n - m)%nat); [apply Hk; now rewrite map_length, seq_length|]. intros i Hi. apply H. lia.
Qed.

(** Either a call ends without taking anything and without success, or it takes
    [n] bytes and its results are as [Q] says. *)
Definition early_or {A} (n : nat) (Q : res kc_error A -> Prop) (p : proc (res kc_error A)) : Prop :=
  (exists r, p = Ret r /\ forall x, r <> Ok x) \/ (takes n p /\ forall r, Q (alone p r)).
Lemma early_lift {A B} n Q (x : res kc_error A) (k : A -> proc (res kc_error B)) :
  (forall a, x = Ok a -> early_or n Q (k a)) -> early_or n Q (lift x k).
Proof. intros H. destruct x; cbn [lift]; [now apply H|left..]; eexists; (split; [reflexivity|discriminate]). Qed.
Lemma takes_pmap {A B} (f : A -> B) n p : takes n p -> takes n (pmap f p).
Proof. revert n. induction p as [a|m k IH]; intros n; cbn [takes pmap]; [auto|]. intros [Hm Hk]. split; [exact Hm|]. auto. Qed.

Section P.
Variable P : prims.
Hypothesis HP : prims_ok P.
Variable C : data_config.
Variable T : texts.
Variable bd : build.

Definition is_data (r : res kc_error output) : Prop := exists b, r = Ok (OData b).
Lemma takes_encrypt d pw : takes 44 (encrypt_proc P d pw).
Proof.
  unfold encrypt_proc, SALT_SIZE, NONCE_SIZE. cbn [takes]. split; [lia|]. intros b _. split; [lia|]. intros b' _.
  destruct (aead_encrypt _ _ _ _). reflexivity.
Qed.
Lemma early_seal o w pw : early_or 44 is_data (seal_proc P o w pw).
Proof. right. split; [apply takes_pmap, takes_encrypt|]. intros r. rewrite alone_seal. eexists. reflexivity. Qed.

Definition generate_need : nat := if with_bitcoin (b_features bd) || with_ethereum (b_features bd) then 16 else 12.
Definition op_need (x : op) : nat := match x with OpGenerate _ _ => generate_need | _ => 44%nat end.
Lemma op_early x : (forall m l, x = OpGenerate m l -> m_seed_size m = N.of_nat (8 * generate_need)) ->
  early_or (op_need x) (match x with OpGenerate _ _ => fun _ => True | _ => is_data end) (op_proc P x).
Proof.
  intros Hs. destruct x as [m lang|o1 o2 m seed pw|o1 o2 m mn pw lang|d old new|C' o m d pw n]; cbn [op_proc op_need].
  - right. split; [|trivial]. unfold generate_proc. rewrite (Hs m lang eq_refl). unfold generate_need.
    destruct (_ || _).
    + change (from_entropy_size _) with (@Ok bip39_error Type_ Type12Words). cbn [map_err lift].
      change (to_key_size Type12Words / 8)%nat with 16%nat. cbn [takes]. split; [lia|]. intros b _. rewrite Nat.sub_diag.
      destruct (mnemonic_from_entropy P b _); reflexivity.
    + change (from_entropy_size _) with (@Ok bip39_error Type_ Type9Words). cbn [map_err lift].
      change (to_key_size Type9Words / 8)%nat with 12%nat. cbn [takes]. split; [lia|]. intros b _. rewrite Nat.sub_diag.
      destruct (mnemonic_from_entropy P b _); reflexivity.
  - unfold new_keychain_proc. apply early_lift. intros c _. apply early_lift. intros ks _. apply early_seal.
  - unfold new_keychain_proc. apply early_lift. intros c _. apply early_lift. intros ks _. apply early_seal.
  - apply early_lift. intros c _. right. split; [apply takes_pmap, takes_encrypt|]. intros r. rewrite alone_pmap. eexists. reflexivity.
  - apply early_lift. intros f _. apply early_lift. intros w _. destruct (get n (w_keys w)).
    + left. eexists. split; [reflexivity|discriminate].
    + apply early_lift. intros c _. apply early_lift. intros k _. apply early_seal.
Qed.

Lemma held_size m : with_networks P (built_network_all (b_features bd)) = Ok m -> m_seed_size m = N.of_nat (8 * generate_need).
Proof.
  intros E. pose proof (c_size P bd m E) as H. destruct (builtin_size P _ m E) as (t & Hs & Ht & _). rewrite Hs in *.
  unfold c_words, generate_need in *. destruct (_ || _), Ht as [->| ->]; try discriminate H; reflexivity.
Qed.

(** ** Closures *)
Definition generates {t} (a : api t) : bool := match a with GenerateMnemonic _ _ => true | _ => false end.
Lemma closures t (a : api t) v n s e h : needs bd a = Some (v, n) ->
  exists (f : manager -> res kc_error op) (g : output -> res kc_error (val t * heap)),
    (forall src bad, f_body P C bd a s e src h bad
       = let w := with_source P (s TManager v) f src h bad in ((let* o := fst w in g o), snd w)) /\
    (forall r, body P C bd a s (with_rng e r) h
       = let* m := rust_manager h (s TManager v) in let* x := f m in let* o := op_alone P x r in g o) /\
    (forall m, (exists x, f m = Ok x /\ op_need x = n /\ (forall m' l, x = OpGenerate m' l -> m' = m) /\
                (generates a = false -> forall m' l, x <> OpGenerate m' l)) \/ f m = Panic) /\
    (generates a = false -> forall b, exists y, g (OData b) = Ok y).
Proof.
  destruct a; unfold needs; try discriminate; intros [= <- <-]; cbn [f_body body with_rng env_o1 env_o2 env_rng generates].
  - exists (fun m => Ok (OpGenerate m (language_rust lang))), (fun o => match o with OText x => to_cstr x h | OData _ => Undef end).
    split; [reflexivity|]. split; [|split; [|discriminate]].
    + intros r. apply bind_ext. intros M. cbn [bind op_alone]. destruct (generate_mnemonic _ _ _ _) as [[? ?]| | |]; reflexivity.
    + intros M. left. eexists. split; [reflexivity|]. split; [reflexivity|]. split; [congruence|discriminate].
  - exists (fun M => let* password := rust_str password in Ok (OpFromSeed (env_o1 e) (env_o2 e) M seed password)),
      (fun o => match o with OData b => Ok (data_ptr b h) | OText _ => Undef end).
    split; [reflexivity|]. split; [|split].
    + intros r. apply bind_ext. intros M. destruct (rust_str password); cbn [bind op_alone]; try reflexivity.
      destruct (keychain_data_from_seed _ _ _ _ _ _ _) as [[? ?]| | |]; reflexivity.
    + intros M. unfold rust_str. destruct (of_utf8 password); cbn [bind]; [left|now right].
      eexists. split; [reflexivity|]. split; [reflexivity|]. split; discriminate.
    + intros _ b. destruct (data_ptr b h) eqn:E. eexists. reflexivity.
  - exists (fun M => let* mnemonic := rust_str mnemonic in let* password := rust_str password in
        Ok (OpFromMnemonic (env_o1 e) (env_o2 e) M mnemonic password (language_rust lang))),
      (fun o => match o with OData b => Ok (data_ptr b h) | OText _ => Undef end).
    split; [reflexivity|]. split; [|split].
    + intros r. apply bind_ext. intros M. destruct (rust_str mnemonic); cbn [bind op_alone]; try reflexivity.
      destruct (rust_str password); cbn [bind op_alone]; try reflexivity.
      destruct (keychain_data_from_mnemonic _ _ _ _ _ _ _ _) as [[? ?]| | |]; reflexivity.
    + intros M. unfold rust_str. destruct (of_utf8 mnemonic); cbn [bind]; [|now right].
      destruct (of_utf8 password); cbn [bind]; [left|now right].
      eexists. split; [reflexivity|]. split; [reflexivity|]. split; discriminate.
    + intros _ b. eexists. reflexivity.
  - exists (fun M => let* password := rust_str password in Ok (OpAdd C (env_o1 e) M data password n0)),
      (fun o => match o with OData b => Ok (data_ptr b h) | OText _ => Undef end).
    split; [reflexivity|]. split; [|split].
    + intros r. apply bind_ext. intros M. destruct (rust_str password); cbn [bind op_alone]; try reflexivity.
      destruct (add_network _ _ _ _ _ _ _ _) as [[? ?]| | |]; reflexivity.
    + intros M. unfold rust_str. destruct (of_utf8 password); cbn [bind]; [left|now right].
      eexists. split; [reflexivity|]. split; [reflexivity|]. split; discriminate.
    + intros _ b. eexists. reflexivity.
  - exists (fun M => let* old_password := rust_str old_password in let* new_password := rust_str new_password in
        Ok (OpChange data old_password new_password)),
      (fun o => match o with OData b => Ok (data_ptr b h) | OText _ => Undef end).
    split; [reflexivity|]. split; [|split].
    + intros r. apply bind_ext. intros M. destruct (rust_str old_password); cbn [bind op_alone]; try reflexivity.
      destruct (rust_str new_password); cbn [bind op_alone]; try reflexivity.
      destruct (change_password _ _ _ _ _) as [[? ?]| | |]; reflexivity.
    + intros M. unfold rust_str. destruct (of_utf8 old_password); cbn [bind]; [|now right].
      destruct (of_utf8 new_password); cbn [bind]; [left|now right].
      eexists. split; [reflexivity|]. split; [reflexivity|]. split; discriminate.
    + intros _ b. eexists. reflexivity.
Qed.

Lemma without_need t (a : api t) s e src h bad r : needs bd a = None ->
  f_body P C bd a s e src h bad = (body P C bd a s (with_rng e r) h, bad).
Proof. destruct a; unfold needs; try discriminate; reflexivity. Qed.

(** In any state, the closure does what it does with the bytes of the source, or
    panics. *)
Lemma closure_cases t (a : api t) s e src h bad :
  (exists r, f_body P C bd a s e src h bad = (body P C bd a s (with_rng e r) h, bad)) \/
  (exists bad', f_body P C bd a s e src h bad = (Panic, bad')).
Proof.
  destruct (needs bd a) as [[v n]|] eqn:En.
  - destruct (closures t a v n s e h En) as (f & g & Ef & Eb & _). rewrite Ef. cbv zeta. unfold with_source.
    destruct (rust_manager h (s TManager v)) as [m|k| |] eqn:Em; cbn [bind];
      try (left; exists (bytes_of src); rewrite Eb; cbn [bind]; reflexivity).
    destruct (f m) as [x|k| |] eqn:Ex; cbn [fst snd bind];
      try (left; exists (bytes_of src); rewrite Eb; cbn [bind]; rewrite Ex; cbn [bind]; reflexivity).
    destruct (attempt (op_proc P x) src 0 _) as [o|] eqn:Ea; cbn [fst snd bind].
    + left. exists (bytes_of src). rewrite Eb; cbn [bind]. rewrite Ex. cbn [bind]. apply attempt_some in Ea.
      rewrite <- op_alone_eq. now rewrite <- Ea.
    + right. eexists. reflexivity.
  - left. exists (fun _ => x00). now apply without_need.
Qed.

(** ** Outcomes *)
Lemma panic_reported t (a : api t) out err e src s h bad bad' : no_nul (utf8 (env_panic e)) ->
  f_body P C bd a s e src h bad = (Panic, bad') ->
  reports_panic err e s h bad' (f_entry P C T bd a out err e src s h bad).
Proof.
  intros Hn Ef. unfold f_entry. rewrite Ef. cbn [handle]. unfold error_panic.
  unfold to_cstr. rewrite (proj2 (has_nul_spec _) Hn). destruct (alloc (BText (utf8 (env_panic e))) h) as [p h'] eqn:Eal. cbn [bind response].
  eexists _, h', _. split; [reflexivity|]. split; [apply (upd_assigned s TError err)|]. split; [reflexivity|].
  split; [now apply text_alloc in Eal|].
  intros i Hi. revert Eal. unfold alloc. destruct (_ =? 0); intros [= <- <-]; [reflexivity|]. cbn [live get].
    destruct (N.eqb_spec i (next h)); [contradiction|reflexivity].
Qed.
Lemma entry_as t (a : api t) out err e src s h bad r :
  f_body P C bd a s e src h bad = (body P C bd a s (with_rng e r) h, bad) ->
  as_with P C T bd a out err e s h bad r (f_entry P C T bd a out err e src s h bad).
Proof.
  intros E. unfold as_with, f_entry, entry. rewrite E. cbn [with_rng env_panic].
  destruct (handle T (env_panic e) (body P C bd a s (with_rng e r) h) h) as [[x h']| | |]; cbn [bind]; try reflexivity.
  destruct (response x out err s). reflexivity.
Qed.

Lemma poisoned_in bad i : poisoned bad (At i) = true <-> In i bad.
Proof.
  cbn. rewrite existsb_exists. split.
  - intros (x & Hx & E). apply N.eqb_eq in E. now subst x.
  - intros H. exists i. split; [exact H|]. apply N.eqb_refl.
Qed.

(** ** Programs *)
Lemma step_simulated x st bad : exists x',
  rmap fst (f_step P C T bd x (st, bad)) = run_step P C T bd x' st /\
  (permitted (fst (fst x), snd x) st -> permitted x' st) /\ (careful (fst (fst x), snd x) st -> careful x' st).
Proof.
  destruct x as [[e src] c], st as [s h]. cbn [fst snd f_step]. destruct c as [t a out err|t v].
  - destruct (closure_cases t a s e src h bad) as [(r & E)|(bad' & E)].
    + exists (with_rng e r, Call a out err). unfold run_step. cbn [fst snd].
      rewrite (entry_as t a out err e src s h bad r E). split; [|split; intros H; exact H].
      destruct (entry _ _ _ _ _ _ _ _ _ _) as [[[b s'] h']| | |]; reflexivity.
    + exists (e, Call (KeypathFromString [xff]) out err). unfold run_step. cbn [fst snd].
      assert (body P C bd (KeypathFromString [xff]) s e h = Panic) as Ep by reflexivity.
      split; [|split].
      * unfold f_entry, entry. rewrite E, Ep. cbn [handle]. unfold error_panic.
        destruct (to_cstr (env_panic e) h) as [[p h']| | |]; reflexivity.
      * intros [He _]. split; [exact He|exact I].
      * intros [_ He]. split; [reflexivity|exact He].
  - exists (e, Delete t v). unfold run_step. cbn [fst snd]. split; [|auto].
    destruct (delete t v s h) as [[s' h']| | |]; reflexivity.
Qed.
Lemma run_simulated l : forall st bad, f_along P C T bd permitted l (st, bad) -> exists l',
  List.length l' = List.length l /\ rmap fst (f_run P C T bd l (st, bad)) = run P C T bd l' st /\
  along P C T bd permitted l' st /\ (f_along P C T bd careful l (st, bad) -> along P C T bd careful l' st).
Proof.
  induction l as [|x l IH]; intros st bad; cbn [f_along f_run].
  - intros _. exists []. repeat split.
  - intros [Hx Hl]. destruct (step_simulated x st bad) as (x' & Ex & Hp & Hc).
    destruct (f_step P C T bd x (st, bad)) as [[st' bad']|e| |] eqn:E; cbn [rmap bind fst] in Ex |- *.
    + destruct (IH st' bad' (Hl _ eq_refl)) as (l' & Hn & Er & Ha & Hk). exists (x' :: l'). cbn [run along]. rewrite <- Ex. cbn [bind].
      split; [cbn; now f_equal|]. split; [exact Er|]. split.
      * split; [exact (Hp Hx)|]. now intros st'' [= <-].
      * intros [Hcx Hcl]. split; [exact (Hc Hcx)|]. intros st'' [= <-]. apply Hk, Hcl. reflexivity.
    + destruct e.
    + exists (x' :: repeat x' (List.length l)). cbn [run along]. rewrite <- Ex. cbn [bind]. split; [cbn; f_equal; apply repeat_length|].
      split; [reflexivity|]. split; [split; [exact (Hp Hx)|discriminate]|]. intros [Hcx _]. split; [exact (Hc Hcx)|discriminate].
    + exists (x' :: repeat x' (List.length l)). cbn [run along]. rewrite <- Ex. cbn [bind]. split; [cbn; f_equal; apply repeat_length|].
      split; [reflexivity|]. split; [split; [exact (Hp Hx)|discriminate]|]. intros [Hcx _]. split; [exact (Hc Hcx)|discriminate].
Qed.

Theorem f_reached_reached st bad : f_reached P C T bd st bad -> reached P C T bd st.
Proof.
  intros (l & Hl & E). destruct (run_simulated l start [] Hl) as (l' & _ & Er & Ha & _). exists l'. split; [exact Ha|].
  rewrite <- Er, E. reflexivity.
Qed.
Theorem f_safe l : f_along P C T bd permitted l (start, []) ->
  f_run P C T bd l (start, []) <> Undef /\
  forall st bad, f_run P C T bd l (start, []) = Ok (st, bad) ->
    exclusive st /\ (forall t v, val_ok (snd st) t (fst st t v)) /\
    (f_along P C T bd careful l (start, []) ->
       (forall i, get i (live (snd st)) <> None -> exists t v, In i (refs (snd st) t (fst st t v))) /\
       ((forall t v, refs (snd st) t (fst st t v) = []) -> live (snd st) = [])).
Proof.
  intros Hl. destruct (run_simulated l start [] Hl) as (l' & _ & Er & Ha & Hc).
  destruct (program_safe P HP C T bd l' Ha) as [Hu Hs]. split.
  - intros E. rewrite E in Er. now rewrite <- Er in Hu.
  - intros st bad E. rewrite E in Er. cbn [rmap bind fst] in Er. symmetry in Er. destruct (Hs st Er) as [A B].
    split; [exact A|]. split; [exact B|]. intros Hk. now apply (no_leak P HP C T bd l' st Ha (Hc Hk)).
Qed.

(** ** The managers that have become unusable *)
Lemma step_next x st st' : inv P bd st -> permitted x st -> run_step P C T bd x st = Ok st' -> next (snd st) <= next (snd st').
Proof.
  destruct st as [s h], x as [e [t a out err|t v]]; intros Hi [He Hp]; cbn [fst snd] in *; unfold run_step; cbn [fst snd].
  - pose proof (entry_cases P HP C T bd t a out err e s h Hi Hp He) as H.
    destruct (body P C bd a s e h) as [[x h']|ke| |].
    + destruct H as [E F]. rewrite E. cbn [bind]. intros [= <-]. exact (proj1 (proj1 F)).
    + destruct H as [[_ E]|(_ & p & h' & E & _ & _ & F)]; rewrite E; cbn [bind]; [discriminate|]. intros [= <-]. exact (proj1 (proj1 F)).
    + destruct H as [[_ E]|(_ & p & h' & E & _ & _ & F)]; rewrite E; cbn [bind]; [discriminate|]. intros [= <-]. exact (proj1 (proj1 F)).
    + destruct H.
  - destruct (delete_step P bd t v s h Hi) as (s' & h' & E & _ & (W1 & _) & _).
    + intros ->. exact Hp.
    + intros ->. exact Hp.
    + rewrite E. intros [= <-]. cbn [snd]. lia.
Qed.
Lemma body_bad t (a : api t) s e src h bad i : In i (snd (f_body P C bd a s e src h bad)) ->
  In i bad \/ exists m, get i (live h) = Some (BManager m).
Proof.
  destruct (needs bd a) as [[v n]|] eqn:En.
  - destruct (closures t a v n s e h En) as (f & g & Ef & _). rewrite Ef. cbn [snd]. unfold with_source.
    destruct (rust_manager h (s TManager v)) as [m|k| |] eqn:Em; cbn [bind snd]; auto.
    destruct (f m); cbn [snd]; auto. destruct (attempt _ _ _ _); cbn [snd]; auto.
    unfold poison. destruct (poisoned bad (s TManager v)); [auto|]. destruct (s TManager v) as [| |j]; auto. intros [<-|H]; [right|auto].
    exists m. unfold rust_manager in Em. cbn in Em. destruct (get j (live h)) as [[]|]; congruence.
  - rewrite (without_need _ _ _ _ _ _ _ (fun _ => x00) En). cbn [snd]. auto.
Qed.
Lemma step_bad x st bad st' bad' : f_step P C T bd x (st, bad) = Ok (st', bad') -> forall i, In i bad' ->
  In i bad \/ exists m, get i (live (snd st)) = Some (BManager m).
Proof.
  destruct x as [[e src] c], st as [s h]. cbn [f_step]. destruct c as [t a out err|t v].
  - unfold f_entry. pose proof (body_bad t a s e src h bad) as H. destruct (f_body P C bd a s e src h bad) as [r b]. cbn [snd] in H.
    destruct (handle T (env_panic e) r h) as [[x h']| | |]; cbn [bind]; try discriminate. destruct (response x out err s).
    cbn [bind]. intros [= _ <-]. exact H.
  - destruct (delete t v s h) as [st2| | |]; cbn [bind]; try discriminate. intros [= _ <-]. auto.
Qed.
Lemma bad_old l : forall st bad st' bad', (forall i, In i bad -> i < next (snd st)) ->
  f_along P C T bd permitted l (st, bad) -> reached P C T bd st ->
  f_run P C T bd l (st, bad) = Ok (st', bad') -> forall i, In i bad' -> i < next (snd st').
Proof.
  induction l as [|x l IH]; intros st bad st' bad' Hb; cbn [f_along f_run].
  - intros _ _ [= <- <-]. exact Hb.
  - intros [Hx Hl] Hr E. destruct (f_step P C T bd x (st, bad)) as [[st1 bad1]| | |] eqn:E1; try discriminate. cbn [bind] in E.
    destruct (step_simulated x st bad) as (x' & Ex & Hp & _). rewrite E1 in Ex. cbn [rmap bind fst] in Ex. symmetry in Ex.
    assert (inv P bd st) as Hi by (now apply (reached_inv P HP C T bd)).
    assert (reached P C T bd st1) as Hr1.
    { destruct Hr as (k & Hk & Ek). exists (k ++ [x']). split.
      - apply along_snoc; [exact Hk|]. intros st2 E2. assert (st2 = st) as -> by congruence. exact (Hp Hx).
      - rewrite run_snoc, Ek. exact Ex. }
    apply (IH st1 bad1 st' bad'); [|now apply Hl|exact Hr1|exact E].
    pose proof (step_next x' st st1 Hi (Hp Hx) Ex) as Hn. intros i Hin. apply (step_bad x st bad st1 bad1 E1) in Hin as [Hin|[m Hm]].
    + apply Hb in Hin. lia.
    + apply (inv_heap P bd _ Hi) in Hm as [Hm _]. lia.
Qed.
Theorem fresh_manager st bad e src out err : c_networks bd <> [] -> f_reached P C T bd st bad ->
  exists s' h' i m, f_entry P C T bd ManagerNew out err e src (fst st) (snd st) bad = Ok (true, s', h', bad) /\
    s' TManager out = At i /\ ~ In i bad /\ get i (live h') = Some (BManager m).
Proof.
  intros Hne Hr. pose proof Hr as (l & Hl & El).
  pose proof (bad_old l start [] st bad ltac:(intros i []) Hl (starting P C T bd) El) as Hb.
  unfold f_entry, f_body. cbn [asks body]. destruct (c_manager P bd Hne) as [m Em]. rewrite Em. cbn [bind].
  unfold alloc. cbn [layout_of manager_layout l_size N.eqb handle bind response].
  eexists _, _, (next (snd st)), m. split; [reflexivity|]. split; [apply (upd_assigned (fst st) TManager out)|].
  split; [|cbn [live get]; now rewrite N.eqb_refl]. intros H. apply Hb in H. lia.
Qed.

(** ** One call *)
Theorem failing_call t (a : api t) v n i s h bad e out err : f_reached P C T bd (s, h) bad -> env_ok e ->
  no_nul (utf8 (env_panic e)) -> needs bd a = Some (v, n) -> s TManager v = At i ->
  let o src := f_entry P C T bd a out err e src s h bad in
  (* it fails before it needs bd a random byte *)
  (forall src r, as_with P C T bd a out err e s h bad r (o src) /\
     forall s' h', entry P C T bd a out err (with_rng e r) s h <> Ok (true, s', h')) \/
  (* it succeeds with every working source *)
  (forall r, exists s' h', entry P C T bd a out err (with_rng e r) s h = Ok (true, s', h')) /\
  forall src,
    (In i bad -> reports_panic err e s h bad (o src)) /\
    (~ In i bad -> forall r, (forall q, (q < n)%nat -> src q = Some (r q)) ->
       as_with P C T bd a out err e s h bad r (o src)) /\
    (~ In i bad -> (exists q, (q < n)%nat /\ src q = None) -> reports_panic err e s h (i :: bad) (o src)).
Proof.
  intros Hr He Hn En Ev o. pose proof (f_reached_reached _ _ Hr) as Hr'.
  assert (val_ok h TManager (s TManager v)) as Hv.
  { pose proof Hr' as (l' & Hl' & El'). apply (proj2 (program_safe P HP C T bd l' Hl') (s, h) El'). }
  rewrite Ev in Hv. destruct Hv as [m Hm].
  destruct (closures t a v n s e h En) as (f & g & Ef & Eb & Hf & Hg).
  assert (rust_manager (E := kc_error) h (s TManager v) = Ok m) as Em by (rewrite Ev; cbn; now rewrite Hm).
  assert (with_networks P (built_network_all (b_features bd)) = Ok m) as EM.
  { apply (manager_held P HP C T s h v m Hr'). exists i. auto. }
  assert (forall r k, (let* x := f m in let* o := op_alone P x r in g o) = k -> (forall x, k <> Ok x) ->
    forall s' h', entry P C T bd a out err (with_rng e r) s h <> Ok (true, s', h')) as Hno.
  { intros r k Ek Hk s' h'. unfold entry. rewrite Eb, Em. cbn [bind]. rewrite Ek. cbn [with_rng env_panic].
    destruct k as [x|ke| |]; [now destruct (Hk x)| | |]; cbn [handle].
    - destruct (error_new T ke h) as [[p h1]| | |]; discriminate.
    - destruct (error_panic _ h) as [[p h1]| | |]; discriminate.
    - discriminate. }
  destruct (Hf m) as [(x & Ex & Ene & Hgm & Hgen)|Ex].
  2:{ left. intros src r. split.
      - apply entry_as. rewrite Ef. cbv zeta. unfold with_source. rewrite Eb, Em. cbn [bind]. rewrite Ex. reflexivity.
      - apply (Hno r Panic); [now rewrite Ex|discriminate]. }
  assert (forall m' l, x = OpGenerate m' l -> m_seed_size m' = N.of_nat (8 * generate_need)) as Hsz.
  { intros m' l ->. rewrite (Hgm m' l eq_refl). exact (held_size m EM). }
  destruct (op_early x Hsz) as [(k & Ek & Hk)|[Ht HQ]].
  - left. intros src r. split.
    + apply entry_as. rewrite Ef. cbv zeta. unfold with_source. rewrite Eb, Em. cbn [bind]. rewrite Ex. cbn [bind].
      rewrite <- op_alone_eq, Ek. reflexivity.
    + apply (Hno r (let* o := k in g o)); [rewrite Ex; cbn [bind]; now rewrite <- op_alone_eq, Ek|].
      intros y. destruct k; [now destruct (Hk a0)|discriminate..].
  - right. rewrite Ene in Ht. assert (0 < n)%nat as Hpos by (rewrite <- Ene; destruct x; cbn [op_need]; unfold generate_need; try destruct (_ || _); lia).
    assert (forall src, f_body P C bd a s e src h bad = match attempt (op_proc P x) src 0 (poisoned bad (At i)) with
        | Some r => ((let* o := r in g o), bad) | None => (Panic, poison bad (At i)) end) as Ef'.
    { intros src. rewrite Ef. cbv zeta. unfold with_source. rewrite Em. cbn [bind]. rewrite Ex, Ev.
      destruct (attempt _ _ _ _); reflexivity. }
    split.
    + intros r. destruct (generates a) eqn:Ega.
      * destruct a; try discriminate. assert (exists l, same_language lang l) as [l El] by (destruct lang; eexists; constructor).
        destruct (generating P HP C T bd lang l m0 m s h (with_rng e r)) as (tx & Hgv & _); try assumption.
        -- injection En as <- <-. exists i. auto.
        -- destruct (Hgv out err) as (y & s' & h' & E & _). eauto.
      * assert (is_data (alone (op_proc P x) r)) as (b & Eal).
        { specialize (HQ r). destruct x; [now destruct (Hgen eq_refl m0 language)|exact HQ..]. }
        destruct (Hg eq_refl b) as ([y h'] & Ey). unfold entry. rewrite Eb, Em. cbn [bind]. rewrite Ex. cbn [bind].
        rewrite <- op_alone_eq, Eal. cbn [bind]. rewrite Ey. cbn [handle bind response]. eauto.
    + intros src. split; [|split].
      * intros Hin. apply panic_reported with (bad := bad); [exact Hn|]. rewrite Ef'. apply poisoned_in in Hin. rewrite Hin.
        rewrite (attempt_poisoned _ _ _ n Ht Hpos). unfold poison. now rewrite Hin.
      * intros Hin r Hq. apply entry_as. rewrite Ef'.
        destruct (poisoned bad (At i)) eqn:Ep; [now apply poisoned_in in Ep|].
        rewrite (attempt_works _ _ _ n Ht) by (intros q Hlt; cbn; rewrite Hq by exact Hlt; discriminate).
        rewrite Eb, Em. cbn [bind]. rewrite Ex. cbn [bind]. rewrite <- op_alone_eq.
        rewrite (alone_take _ n (shift (bytes_of src) 0) r Ht); [reflexivity|]. intros q Hlt. unfold shift, bytes_of. cbn. now rewrite Hq.
      * intros Hin (q & Hlt & Eq). apply panic_reported with (bad := bad); [exact Hn|]. rewrite Ef'.
        destruct (poisoned bad (At i)) eqn:Ep; [now apply poisoned_in in Ep|].
        rewrite (attempt_fails _ src 0%nat n q Ht Hlt Eq). unfold poison. now rewrite Ep.
Qed.

(** ** The other calls *)
Theorem other_call t (a : api t) (s : store) h bad e src out err r :
  needs bd a = None \/ (exists v n, needs bd a = Some (v, n) /\ s TManager v = Null) ->
  as_with P C T bd a out err e s h bad r (f_entry P C T bd a out err e src s h bad).
Proof.
  intros [E|(v & n & E & Ev)]; apply entry_as.
  - now apply without_need.
  - destruct (closures t a v n s e h E) as (f & g & Ef & Eb & _). rewrite Ef, Eb, Ev. reflexivity.
Qed.

(** ** Sources that work *)
Lemma receive_all src (r : rng) : works src r -> forall n q, receive src q n = Some (map (shift r q) (seq 0 n)).
Proof.
  intros H n q. rewrite receive_known by (intros i _; rewrite H; discriminate). cbn [fill fst]. f_equal.
  apply map_ext. intros i. unfold shift, bytes_of. now rewrite H.
Qed.
Lemma attempt_all {A} (p : proc A) src r : works src r -> forall q, attempt p src q false = Some (alone p (shift r q)).
Proof.
  intros H. induction p as [a|n k IH]; intros q; cbn [attempt alone]; [reflexivity|].
  rewrite (receive_all src r H). cbn [fill fst]. rewrite IH. f_equal. apply alone_ext. intros i. unfold shift. f_equal. lia.
Qed.
Lemma body_works t (a : api t) s e src h : works src (env_rng e) ->
  f_body P C bd a s e src h [] = (body P C bd a s (with_rng e (env_rng e)) h, []).
Proof.
  intros H. destruct (needs bd a) as [[v n]|] eqn:En; [|now apply without_need].
  destruct (closures t a v n s e h En) as (f & g & Ef & Eb & _). rewrite Ef, Eb. cbv zeta. unfold with_source.
  destruct (rust_manager h (s TManager v)) as [m|k| |]; cbn [bind]; try reflexivity.
  destruct (f m) as [x|k| |]; cbn [bind]; try reflexivity.
  assert (poisoned [] (s TManager v) = false) as -> by (destruct (s TManager v); reflexivity).
  rewrite (attempt_all _ _ _ H). cbn [fst snd]. f_equal. rewrite <- op_alone_eq.
  now rewrite (alone_ext (op_proc P x) (shift (env_rng e) 0) (env_rng e) (fun i => eq_refl)).
Qed.
Theorem working_run l : Forall (fun x => works (snd (fst x)) (env_rng (fst (fst x)))) l -> forall st,
  f_run P C T bd l (st, []) = rmap (fun st => (st, [])) (run P C T bd (map (fun x => (fst (fst x), snd x)) l) st).
Proof.
  intros Hl. induction Hl as [|[[e src] c] l Hx Hl IH]; intros st; cbn [f_run run map fst snd] in *; [reflexivity|].
  assert (f_step P C T bd (e, src, c) (st, []) = rmap (fun st => (st, [])) (run_step P C T bd (e, c) st)) as ->.
  { destruct st as [s h]. cbn [f_step]. unfold run_step. cbn [fst snd]. destruct c as [t a out err|t v].
    - rewrite (entry_as t a out err e src s h [] (env_rng e) (body_works t a s e src h Hx)).
      replace (with_rng e (env_rng e)) with e by (destruct e; reflexivity).
      destruct (entry _ _ _ _ _ _ _ _ _ _) as [[[b s'] h']| | |]; reflexivity.
    - destruct (delete t v s h) as [[s' h']| | |]; reflexivity. }
  destruct (run_step P C T bd (e, c) st) as [st'| | |]; cbn [rmap bind]; [apply IH|reflexivity..].
Qed.

(** ** Once unusable, always unusable *)
Theorem stays l : forall st bad st' bad', f_run P C T bd l (st, bad) = Ok (st', bad') -> incl bad bad'.
Proof.
  induction l as [|[[e src] c] l IH]; intros st bad st' bad'; cbn [f_run].
  - intros [= _ <-]. apply incl_refl.
  - destruct (f_step P C T bd (e, src, c) (st, bad)) as [[st1 bad1]| | |] eqn:E; try discriminate. cbn [bind]. intros E'.
    apply IH in E'. apply incl_tran with bad1; [|exact E']. revert E. destruct st as [s h]. cbn [f_step]. destruct c as [t a out err|t v].
    + unfold f_entry. assert (incl bad (snd (f_body P C bd a s e src h bad))) as H.
      { destruct (needs bd a) as [[v n]|] eqn:En.
        - destruct (closures t a v n s e h En) as (f & g & Ef & _). rewrite Ef. cbn [snd]. unfold with_source.
          destruct (let* m := _ in f m); cbn [snd]; try apply incl_refl. destruct (attempt _ _ _ _); cbn [snd]; [apply incl_refl|].
          unfold poison. destruct (poisoned _ _); [apply incl_refl|]. destruct (s TManager v); try apply incl_refl. apply incl_tl, incl_refl.
        - rewrite (without_need _ _ _ _ _ _ _ (fun _ => x00) En). apply incl_refl. }
      destruct (f_body P C bd a s e src h bad) as [r b]. cbn [snd] in H.
      destruct (handle T (env_panic e) r h) as [[x h']| | |]; cbn [bind]; try discriminate. destruct (response x out err s).
      cbn [bind]. intros [= _ <-]. exact H.
    + destruct (delete t v s h) as [st2| | |]; cbn [bind]; try discriminate. intros [= _ <-]. apply incl_refl.
Qed.
End P.
