(** Proofs about C programs with threads. *)
From Coq Require Import Strings.String.
From Verif Require Import Base Str Prims Bip39 Dict KeyPath Errors FMap Crypt Data XPrv Keys Mnemonic
  Keychain Manager Features ManagerSpec Display Conc ConcSpec Ffi FfiSpec FfiCallSpec FfiWalletSpec Failing FailingSpec.
From Verif Require Import FMapFacts ManagerFacts MnemonicFacts LifeFacts FfiFacts FfiTheorems FfiWalletFacts ConcTheorems FailingFacts.
From Verif Require Import Threads ThreadsSpec.
Open Scope list_scope.
Local Strategy 1000 [XPrv.derive XPrv.derive_loop XPrv.derive_step XPrv.xprv_from_data].

(** ** Lists *)
Lemma put_length {A} i (x : A) l : List.length (put i x l) = List.length l.
Proof. revert i. induction l as [|y l IH]; intros [|i]; cbn; auto. Qed.
Lemma put_same {A} i (x y : A) l : nth_error l i = Some y -> nth_error (put i x l) i = Some x.
Proof. revert i. induction l as [|z l IH]; intros [|i]; cbn; try discriminate; auto. Qed.
Lemma put_other {A} i j (x : A) l : j <> i -> nth_error (put i x l) j = nth_error l j.
Proof. revert i j. induction l as [|z l IH]; intros [|i] [|j] H; cbn; auto; try congruence. Qed.
Lemma put_cases {A} i j (x y : A) l : nth_error (put i x l) j = Some y -> (j = i /\ y = x) \/ (j <> i /\ nth_error l j = Some y).
Proof.
  destruct (Nat.eq_dec j i) as [->|Hne].
  - destruct (nth_error l i) as [z|] eqn:E.
    + rewrite (put_same i x z l E). intros [= <-]. auto.
    + assert (nth_error (put i x l) i = None) as -> by (apply nth_error_None; rewrite put_length; now apply nth_error_None).
      discriminate.
  - rewrite put_other by exact Hne. auto.
Qed.

(** ** The bytes of a call *)
Definition agrees (src : source) (r : rng) : Prop := forall q b, src q = Some b -> r q = b.
Lemma bytes_agree src : agrees src (bytes_of src).
Proof. intros q b E. unfold bytes_of. now rewrite E. Qed.
Lemma receive_agrees src q n b r : receive src q n = Some b -> agrees src r -> b = map (shift r q) (seq 0 n).
Proof.
  intros E Ha. apply (receive_some _ _ _ _ E). intros i Hi.
  destruct (src (q + i)%nat) as [x|] eqn:Ex; [|now destruct (proj1 (receive_iff src q n) (ex_intro _ b E) i Hi)].
  f_equal. unfold shift. symmetry. now apply Ha.
Qed.
Lemma receive_not src q n : receive src q n = None -> exists i, (i < n)%nat /\ src (q + i)%nat = None.
Proof.
  revert q. induction n as [|n IH]; intros q; cbn [receive]; [discriminate|].
  destruct (src q) as [x|] eqn:E.
  - destruct (receive src (S q) n) eqn:E'; [discriminate|]. intros _. destruct (IH _ E') as (i & Hi & Hn).
    exists (S i). split; [lia|]. rewrite <- Hn. f_equal. lia.
  - intros _. exists 0%nat. split; [lia|]. now rewrite Nat.add_0_r.
Qed.

Section P.
Variable P : prims.
Hypothesis HP : prims_ok P.
Variable C : data_config.
Variable T : texts.
Variable bd : build.

(** ** Closures *)
Lemma asks_object t (a : api t) s e p f : asks C a s e = Some (p, f) ->
  exists v n, object a = Some (TManager, v) /\ p = s TManager v /\ needs bd a = Some (v, n) /\
    forall s', asks C a s' e = Some (s' TManager v, f).
Proof. destruct a; cbn [asks]; try discriminate; intros [= <- <-]; eexists _, _; repeat split. Qed.
Lemma asks_op t (a : api t) s e p f v n : asks C a s e = Some (p, f) -> needs bd a = Some (v, n) -> forall m,
  (exists x, f m = Ok x /\ op_need bd x = n /\ forall m' l, x = OpGenerate m' l -> m' = m) \/ f m = Panic.
Proof.
  destruct a; cbn [asks]; try discriminate; intros [= <- <-]; unfold needs; intros [= <- <-] M; unfold rust_str.
  - left. eexists. split; [reflexivity|]. split; [reflexivity|]. congruence.
  - destruct (of_utf8 password); cbn [bind]; [left|now right]. eexists. split; [reflexivity|]. split; [reflexivity|]. discriminate.
  - destruct (of_utf8 mnemonic); cbn [bind]; [|now right]. destruct (of_utf8 password); cbn [bind]; [left|now right].
    eexists. split; [reflexivity|]. split; [reflexivity|]. discriminate.
  - destruct (of_utf8 password); cbn [bind]; [left|now right]. eexists. split; [reflexivity|]. split; [reflexivity|]. discriminate.
  - destruct (of_utf8 old_password); cbn [bind]; [|now right]. destruct (of_utf8 new_password); cbn [bind]; [left|now right].
    eexists. split; [reflexivity|]. split; [reflexivity|]. discriminate.
Qed.
Lemma asks_body t (a : api t) s e p f : asks C a s e = Some (p, f) -> forall r h,
  body P C bd a s (with_rng e r) h = give (let* m := rust_manager h p in let* x := f m in op_alone P x r) h.
Proof.
  destruct a; cbn [asks]; try discriminate; intros [= <- <-] r h; cbn [body with_rng env_o1 env_o2 env_rng]; unfold give;
    destruct (rust_manager h (s TManager m)) as [M| | |]; cbn [bind]; try reflexivity.
  - cbn [op_alone]. destruct (generate_mnemonic _ _ _ _) as [[? ?]| | |]; reflexivity.
  - destruct (rust_str password); cbn [bind op_alone]; try reflexivity.
    destruct (keychain_data_from_seed _ _ _ _ _ _ _) as [[? ?]| | |]; reflexivity.
  - destruct (rust_str mnemonic); cbn [bind op_alone]; try reflexivity.
    destruct (rust_str password); cbn [bind op_alone]; try reflexivity.
    destruct (keychain_data_from_mnemonic _ _ _ _ _ _ _ _) as [[? ?]| | |]; reflexivity.
  - destruct (rust_str password); cbn [bind op_alone]; try reflexivity.
    destruct (add_network _ _ _ _ _ _ _ _) as [[? ?]| | |]; reflexivity.
  - destruct (rust_str old_password); cbn [bind op_alone]; try reflexivity.
    destruct (rust_str new_password); cbn [bind op_alone]; try reflexivity.
    destruct (change_password _ _ _ _ _) as [[? ?]| | |]; reflexivity.
Qed.
Lemma plain_body t (a : api t) s e : asks C a s e = None -> forall r h s', 
  (forall t v, object a = Some (t, v) -> s t v = s' t v) ->
  body P C bd a s e h = body P C bd a s' (with_rng e r) h.
Proof.
  destruct a; cbn [asks]; try discriminate; intros _ r h s' H; cbn [body with_rng env_o1 env_o2 env_rng]; try reflexivity;
    cbn [object] in H; rewrite (H _ _ eq_refl); reflexivity.
Qed.

(** ** What an action leaves alone *)
Definition frame (w : list (ty * var)) (st st' : store * heap) : Prop :=
  forall t v, ~ In (t, v) w ->
    fst st' t v = fst st t v /\ refs (snd st') t (fst st t v) = refs (snd st) t (fst st t v) /\
    forall i, In i (refs (snd st) t (fst st t v)) -> get i (live (snd st')) = get i (live (snd st)).
Lemma assign_frame s h t v x h' w : inv P bd (s, h) -> fresh_val P bd h h' t x -> In (t, v) w ->
  frame w (s, h) (upd s t v x, h').
Proof.
  intros [Hh Hv _] ((F1a & F1b) & _) Hw t' v' Hn. cbn [fst snd] in *.
  assert (forall i, In i (refs h t' (s t' v')) -> get i (live h') = get i (live h)) as Ha.
  { intros i Hi. apply F1b. eapply refs_below; [exact Hh|apply Hv|exact Hi]. }
  split; [apply upd_other; congruence|]. split; [|exact Ha].
  apply refs_agree; [apply Hv|exact Ha|]. intros i Hi E. now rewrite F1b.
Qed.
Lemma call_frame t (a : api t) out err e s h b s' h' : inv P bd (s, h) -> api_ok a -> env_ok e ->
  entry P C T bd a out err e s h = Ok (b, s', h') ->
  frame [(t, out); (TError, err)] (s, h) (s', h') /\ (b = false -> frame [(TError, err)] (s, h) (s', h')).
Proof.
  intros Hi Ha He E. pose proof (entry_cases P HP C T bd t a out err e s h Hi Ha He) as H.
  destruct (body P C bd a s e h) as [[x h1]|ke| |].
  - destruct H as [H F]. rewrite H in E. injection E as <- <- <-. split; [|discriminate].
    apply assign_frame; [exact Hi|exact F|now left].
  - destruct H as [[_ H]|(_ & p & h1 & H & _ & _ & F)]; [congruence|]. rewrite H in E. injection E as <- <- <-.
    split; [|intros _]; (apply assign_frame; [exact Hi|exact F|cbn; auto]).
  - destruct H as [[_ H]|(_ & p & h1 & H & _ & _ & F)]; [congruence|]. rewrite H in E. injection E as <- <- <-.
    split; [|intros _]; (apply assign_frame; [exact Hi|exact F|cbn; auto]).
  - destruct H.
Qed.
Lemma delete_frame t v s h s' h' : inv P bd (s, h) ->
  (t = TString -> refs h t (s t v) <> []) -> (t = TNetworks -> refs h t (s t v) = []) ->
  delete t v s h = Ok (s', h') -> frame [(t, v)] (s, h) (s', h').
Proof.
  intros Hi H1 H2 E. destruct (delete_step P bd t v s h Hi H1 H2) as (s1 & h1 & E1 & _ & (_ & _ & W) & _ & _ & Ho & _).
  assert (s1 = s' /\ h1 = h') as [-> ->] by (split; congruence).
  intros t' v' Hn. cbn [fst snd]. assert ((t', v') <> (t, v)) as Hne by (intros E2; apply Hn; left; congruence).
  destruct (Ho t' v' Hne) as [A B]. split; [exact A|]. split; [exact B|]. intros i Hin. apply W. intros Hin'.
  destruct Hi as [_ _ [_ Hx]]. apply Hne. now apply (Hx t' v' t v i).
Qed.

(** ** Places *)
Definition ongoing (s : store) (h : heap) (c : call) (p : addr) (q : nat) (k : proc (res kc_error output)) : Prop :=
  exists v n f, object (c_api c) = Some (TManager, v) /\ needs bd (c_api c) = Some (v, n) /\
    asks C (c_api c) s (c_env c) = Some (p, f) /\
    let r := (let* m := rust_manager h p in f m) in
    r <> Undef /\
    (forall g, agrees (c_src c) g -> alone (lift r (op_proc P)) g = alone k (shift g q)) /\
    ((exists a, k = Ret a) \/ (exists i, p = At i) /\ (q <= n)%nat /\ takes (n - q) k).
Definition place_ok (s : store) (h : heap) (x : place) : Prop :=
  match x with
  | Outside => True
  | Plain c s0 => asks C (c_api c) s0 (c_env c) = None /\ forall t v, object (c_api c) = Some (t, v) -> s0 t v = s t v
  | Between c p q k => ongoing s h c p q k
  | Locked c p q n k => ongoing s h c p q (Draw n k)
  | Unwinding c p => True
  end.

Lemma manager_frame {E} w s h s' h' v : frame w (s, h) (s', h') -> ~ In (TManager, v) w ->
  rust_manager (E := E) h' (s TManager v) = rust_manager h (s TManager v).
Proof.
  intros F Hn. destruct (F TManager v Hn) as (_ & _ & Hg). cbn [fst snd refs] in Hg. unfold rust_manager.
  destruct (s TManager v) as [| |i]; cbn [is_null read]; try reflexivity. rewrite Hg by (now left). reflexivity.
Qed.
Lemma ongoing_frame w s h s' h' c p q k : frame w (s, h) (s', h') ->
  (forall o, object (c_api c) = Some o -> ~ In o w) -> ongoing s h c p q k -> ongoing s' h' c p q k.
Proof.
  intros F Hn (v & n & f & Eo & En & Ea & H). destruct (asks_object _ _ _ _ _ _ Ea) as (v' & n' & Eo' & Ep & _ & Es).
  assert (v' = v) as -> by congruence. exists v, n, f. split; [exact Eo|]. split; [exact En|].
  specialize (Hn _ Eo). assert (s' TManager v = p) as Es'.
  { destruct (F TManager v Hn) as [A _]. cbn [fst] in A. congruence. }
  split; [rewrite Es, Es'; reflexivity|]. cbv zeta in H |- *. rewrite Ep in H |- *.
  rewrite (manager_frame w s h s' h' v F Hn). exact H.
Qed.
Lemma place_frame w s h s' h' x : frame w (s, h) (s', h') ->
  (forall c o, call_at x = Some c -> object (c_api c) = Some o -> ~ In o w) -> place_ok s h x -> place_ok s' h' x.
Proof.
  intros F Hn. destruct x as [|c s0|c p q k|c p q n k|c p]; cbn [place_ok call_at] in *; try trivial.
  - intros [A B]. split; [exact A|]. intros t v Eo. rewrite (B t v Eo). symmetry.
    exact (proj1 (F t v (Hn c _ eq_refl Eo))).
  - apply ongoing_frame with w; [exact F|]. intros o. now apply Hn.
  - apply ongoing_frame with w; [exact F|]. intros o. now apply Hn.
Qed.

(** The manager of a call that is going on is there. *)
Lemma ongoing_alive s h c p q k : inv P bd (s, h) -> ongoing s h c p q k -> alive h p = true.
Proof.
  intros Hi (v & n & f & Eo & En & Ea & _). destruct (asks_object _ _ _ _ _ _ Ea) as (v' & _ & _ & Ep & _).
  pose proof (inv_vals P bd _ Hi TManager v') as Hv. cbn [fst snd val_ok] in Hv. rewrite <- Ep in Hv.
  destruct p as [| |i]; cbn [alive read]; try reflexivity. destruct Hv as [m ->]. reflexivity.
Qed.
(** Its result is that of the call alone. *)
Lemma ongoing_result s h c p q a : ongoing s h c p q (Ret a) -> forall g, agrees (c_src c) g ->
  give a h = body P C bd (c_api c) s (with_rng (c_env c) g) h.
Proof.
  intros (v & n & f & Eo & En & Ea & Hu & Hg & _) g Ha. rewrite (asks_body _ _ _ _ _ _ Ea g h).
  specialize (Hg g Ha). cbn [alone] in Hg. rewrite <- Hg. f_equal.
  destruct (rust_manager h p) as [m| | |]; cbn [bind lift alone]; try reflexivity.
  destruct (f m); cbn [bind lift alone]; try reflexivity. apply op_alone_eq.
Qed.
(** It goes on. *)
Lemma ongoing_more s h c p q n k b : ongoing s h c p q (Draw n k) -> receive (c_src c) q n = Some b ->
  ongoing s h c p (q + n) (k b).
Proof.
  intros (v & N & f & Eo & En & Ea & Hu & Hg & Ht) Er. exists v, N, f. split; [exact Eo|]. split; [exact En|]. split; [exact Ea|].
  cbv zeta in *. split; [exact Hu|]. split.
  - intros g Ha. rewrite (Hg g Ha). cbn [alone fill fst]. rewrite (receive_agrees _ _ _ _ _ Er Ha).
    apply alone_ext. intros i. unfold shift. f_equal. lia.
  - destruct Ht as [[a Ht]|(Hp & Hq & Hm & Ht)]; [discriminate|].
    specialize (Ht b (receive_length _ _ _ _ Er)). right. split; [exact Hp|]. split; [lia|].
    replace (N - (q + n))%nat with (N - q - n)%nat by lia. exact Ht.
Qed.
(** It begins. *)
Lemma ongoing_begins s h c p f : reached P C T bd (s, h) -> asks C (c_api c) s (c_env c) = Some (p, f) ->
  (let* m := rust_manager h p in f m) <> Undef /\
  ongoing s h c p 0 (lift (let* m := rust_manager h p in f m) (op_proc P)).
Proof.
  intros Hr Ea. pose proof (reached_inv P HP C T bd _ Hr) as Hi.
  destruct (asks_object _ _ _ _ _ _ Ea) as (v & n & Eo & Ep & En & Es).
  pose proof (inv_vals P bd _ Hi TManager v) as Hv. cbn [fst snd val_ok] in Hv. rewrite <- Ep in Hv.
  assert ((let* m := rust_manager h p in f m) <> Undef /\
    ((exists a, lift (let* m := rust_manager h p in f m) (op_proc P) = Ret a) \/
     (exists i, p = At i) /\ (0 <= n)%nat /\ takes (n - 0) (lift (let* m := rust_manager h p in f m) (op_proc P)))) as [A B].
  { destruct p as [| |i]; [cbn; split; [discriminate|left; eauto]|destruct Hv|].
    destruct Hv as [m Hm]. unfold rust_manager. cbn [is_null read]. rewrite Hm. cbn [bind].
    destruct (asks_op _ _ _ _ _ _ _ _ Ea En m) as [(x & Ex & Ene & Hgm)|Ex]; rewrite Ex; [|split; [discriminate|left; cbn; eauto]].
    split; [discriminate|]. cbn [lift]. rewrite Nat.sub_0_r, <- Ene.
    destruct (op_early P bd x) as [(r & Er & _)|[Ht _]].
    - intros m' l El. rewrite (Hgm m' l El). apply (held_size P bd).
      apply (manager_held P HP C T s h v m Hr). exists i. split; [congruence|exact Hm].
    - left. rewrite Er. eauto.
    - right. split; [eauto|]. split; [lia|exact Ht]. }
  split; [exact A|]. exists v, n, f. split; [exact Eo|]. split; [exact En|]. split; [exact Ea|]. cbv zeta.
  split; [exact A|]. split; [|exact B]. intros g _. apply alone_ext. intros i. reflexivity.
Qed.

(** ** States *)
Definition is_locked (x : place) : Prop := match x with Locked _ _ _ _ _ => True | _ => False end.
Record locks_ok (held : list N) (l : list place) : Prop := {
  lo_held : forall j c p q n k, nth_error l j = Some (Locked c p q n k) -> exists i, p = At i /\ In i held;
  lo_thread : forall i, In i held -> exists j c q n k, nth_error l j = Some (Locked c (At i) q n k);
  lo_one : forall j c p q n k j' c' q' n' k', nth_error l j = Some (Locked c p q n k) ->
    nth_error l j' = Some (Locked c' p q' n' k') -> j = j' }.
Definition at_call (l : list place) (j : nat) (c : call) : Prop := exists x, nth_error l j = Some x /\ call_at x = Some c.
Record tinv (st : tstate) : Prop := {
  ti_reached : reached P C T bd (t_store st, t_heap st);
  ti_serial : serial P C T bd (t_done st) (t_store st, t_heap st);
  ti_places : forall j x, nth_error (t_places st) j = Some x -> place_ok (t_store st) (t_heap st) x;
  ti_calls : forall j c, at_call (t_places st) j c -> env_ok (c_env c) /\ api_ok (c_api c);
  ti_clash : forall j c j' c', at_call (t_places st) j c -> at_call (t_places st) j' c' -> j <> j' -> ~ clash (ACall c) (ACall c');
  ti_locks : locks_ok (t_held st) (t_places st) }.
Definition tcare (st : tstate) : Prop :=
  held (t_store st, t_heap st) /\
  forall j c, at_call (t_places st) j c ->
    refs (t_heap st) (c_ty c) (t_store st (c_ty c) (c_out c)) = [] /\
    refs (t_heap st) TError (t_store st TError (c_err c)) = [].

Lemma clash_sym x y : clash x y -> clash y x.
Proof. intros (w & [[A [B|B]]|[A B]]); exists w; auto. Qed.
Lemma at_put l i x j c : at_call (put i x l) j c -> (j = i /\ call_at x = Some c) \/ (j <> i /\ at_call l j c).
Proof.
  intros (y & Hy & Ey). apply put_cases in Hy as [[-> ->]|[Hne Hy]]; [auto|]. right. split; [exact Hne|]. exists y. auto.
Qed.
(** A thread that neither locks nor unlocks. *)
Lemma locks_move held l i x y : nth_error l i = Some y -> ~ is_locked y -> ~ is_locked x -> locks_ok held l -> locks_ok held (put i x l).
Proof.
  intros Ey Hy Hx [A B D]. split.
  - intros j c p q n k E. apply put_cases in E as [[-> E]|[_ E]]; [subst x; destruct (Hx I)|eauto].
  - intros m Hm. destruct (B m Hm) as (j & c & q & n & k & E). exists j, c, q, n, k. rewrite put_other; [exact E|].
    intros ->. rewrite Ey in E. injection E as ->. destruct (Hy I).
  - intros j c p q n k j' c' q' n' k' E E'. apply put_cases in E as [[-> E]|[_ E]]; [subst x; destruct (Hx I)|].
    apply put_cases in E' as [[-> E']|[_ E']]; [subst x; destruct (Hx I)|eauto].
Qed.
Lemma locks_lock held l i y a c q n k : nth_error l i = Some y -> ~ is_locked y -> ~ In a held -> locks_ok held l ->
  locks_ok (a :: held) (put i (Locked c (At a) q n k) l).
Proof.
  intros Ey Hy Ha [A B D]. split.
  - intros j c' p q' n' k' E. apply put_cases in E as [[-> E]|[_ E]].
    + injection E as -> -> -> -> _. exists a. split; [reflexivity|now left].
    + destruct (A _ _ _ _ _ _ E) as (b & -> & Hb). exists b. split; [reflexivity|now right].
  - intros m [<-|Hm].
    + exists i, c, q, n, k. now apply put_same with y.
    + destruct (B m Hm) as (j & c' & q' & n' & k' & E). exists j, c', q', n', k'. rewrite put_other; [exact E|].
      intros ->. rewrite Ey in E. injection E as ->. destruct (Hy I).
  - assert (forall j c' q' n' k', nth_error l j = Some (Locked c' (At a) q' n' k') -> False) as Hno.
    { intros j c' q' n' k' E. destruct (A _ _ _ _ _ _ E) as (b & Eb & Hb). injection Eb as <-. contradiction. }
    intros j c1 p q1 n1 k1 j' c2 q2 n2 k2 E E'. apply put_cases in E as [[-> E]|[_ E]]; apply put_cases in E' as [[-> E']|[_ E']].
    + reflexivity.
    + injection E as _ -> _ _ _. now apply Hno in E'.
    + injection E' as _ -> _ _ _. now apply Hno in E.
    + eauto.
Qed.
Lemma locks_unlock held l i a c q n k x : nth_error l i = Some (Locked c (At a) q n k) -> ~ is_locked x -> locks_ok held l ->
  locks_ok (filter (fun i => negb (existsb (N.eqb i) [a])) held) (put i x l).
Proof.
  intros Ei Hx [A B D].
  assert (forall m, In m (filter (fun i => negb (existsb (N.eqb i) [a])) held) <-> In m held /\ m <> a) as Hf.
  { intros m. rewrite filter_In. cbn [existsb]. rewrite orb_false_r, negb_true_iff, N.eqb_neq. reflexivity. }
  split.
  - intros j c' p q' n' k' E. apply put_cases in E as [[-> E]|[Hj E]]; [subst x; destruct (Hx I)|].
    destruct (A _ _ _ _ _ _ E) as (b & -> & Hb). exists b. split; [reflexivity|]. apply Hf. split; [exact Hb|].
    intros ->. apply Hj. eapply D; [exact E|exact Ei].
  - intros m Hm. apply Hf in Hm as [Hm Hne]. destruct (B m Hm) as (j & c' & q' & n' & k' & E). exists j, c', q', n', k'.
    rewrite put_other; [exact E|]. intros ->. congruence.
  - intros j c1 p q1 n1 k1 j' c2 q2 n2 k2 E E'. apply put_cases in E as [[-> E]|[_ E]]; [subst x; destruct (Hx I)|].
    apply put_cases in E' as [[-> E']|[_ E']]; [subst x; destruct (Hx I)|eauto].
Qed.

(** *** A thread moves within its call *)
Lemma move_ok (st st' : tstate) i x y c : tinv st -> nth_error (t_places st) i = Some y -> call_at y = Some c -> call_at x = Some c ->
  t_store st' = t_store st -> t_heap st' = t_heap st -> t_done st' = t_done st -> t_places st' = put i x (t_places st) ->
  place_ok (t_store st) (t_heap st) x -> locks_ok (t_held st') (t_places st') ->
  tinv st' /\ (tcare st -> tcare st').
Proof.
  intros [H1 H2 H3 H4 H5 H6] Ey Cy Cx Es Eh Ed Ep Hx Hl.
  assert (forall j c', at_call (t_places st') j c' -> at_call (t_places st) j c') as Hat.
  { intros j c' H. rewrite Ep in H. apply at_put in H as [[-> H]|[_ H]]; [|exact H]. exists y. split; [exact Ey|]. congruence. }
  split.
  - split; rewrite ?Es, ?Eh, ?Ed; auto.
    + intros j z Hz. rewrite Ep in Hz. apply put_cases in Hz as [[-> ->]|[_ Hz]]; [exact Hx|eauto].
    + intros j c' H. apply (H4 j). auto.
    + intros j c1 j' c2 A B. apply H5; auto.
  - intros [A B]. split; rewrite ?Es, ?Eh; [exact A|]. intros j c' H. apply (B j). auto.
Qed.

(** *** The variables and the memory change *)
Lemma object_uses c o : object (c_api c) = Some o -> In o (uses (ACall c)).
Proof. intros E. cbn [uses]. rewrite E. now left. Qed.
Lemma no_clash_frame st w s' h' i x : tinv st ->
  frame w (t_store st, t_heap st) (s', h') ->
  (forall j c, at_call (put i x (t_places st)) j c -> j <> i -> forall o, In o w -> ~ In o (writes (ACall c)) /\ ~ In o (uses (ACall c))) ->
  (forall j y, nth_error (put i x (t_places st)) j = Some y -> j <> i -> place_ok s' h' y) /\
  ((forall j c, at_call (t_places st) j c ->
     refs (t_heap st) (c_ty c) (t_store st (c_ty c) (c_out c)) = [] /\ refs (t_heap st) TError (t_store st TError (c_err c)) = []) ->
   forall j c, at_call (put i x (t_places st)) j c -> j <> i ->
     refs h' (c_ty c) (s' (c_ty c) (c_out c)) = [] /\ refs h' TError (s' TError (c_err c)) = []).
Proof.
  intros Hi F Hn. split.
  - intros j y Hy Hj. assert (nth_error (t_places st) j = Some y) as Hy' by (rewrite put_other in Hy by exact Hj; exact Hy).
    apply place_frame with w (t_store st) (t_heap st); [exact F| |now apply (ti_places _ Hi j)].
    intros c o Hc Ho Hw. apply (Hn j c) in Hw; [|exists y; auto|exact Hj]. destruct Hw as [_ Hw]. apply Hw. now apply object_uses.
  - intros Hc j c H Hj. assert (at_call (t_places st) j c) as H' by (apply at_put in H as [[-> _]|[_ H]]; [contradiction|exact H]).
    destruct (Hc j c H') as [A B].
    assert (forall w', In w' (writes (ACall c)) -> ~ In w' w) as Hd.
    { intros w' Hw' Hin. apply (Hn j c) in Hin; [|exact H|exact Hj]. tauto. }
    destruct (F (c_ty c) (c_out c)) as (E1 & E2 & _); [apply Hd; now left|].
    destruct (F TError (c_err c)) as (E3 & E4 & _); [apply Hd; right; now left|]. cbn [fst snd] in *.
    rewrite E1, E3, E2, E4. auto.
Qed.

Lemma step_reached st x st' : reached P C T bd st -> permitted x st -> run_step P C T bd x st = Ok st' -> reached P C T bd st'.
Proof.
  intros (k & Hk & Ek) Hp E. exists (k ++ [x]). split.
  - apply along_snoc; [exact Hk|]. intros st2 E2. assert (st2 = st) as -> by congruence. exact Hp.
  - rewrite run_snoc, Ek. exact E.
Qed.
Lemma panic_spec msg h p h' : error_panic msg h = Ok (p, h') ->
  error_code (e_type p) = (-1)%Z /\ points_to_text h' (e_message p) (utf8 msg) /\
  forall i, i <> next h -> get i (live h') = get i (live h).
Proof.
  unfold error_panic, to_cstr. destruct (has_nul (utf8 msg)); [discriminate|].
  destruct (alloc (BText (utf8 msg)) h) as [a h1] eqn:E. cbn [bind]. intros [= <- <-]. cbn [e_type e_message].
  split; [reflexivity|]. split; [now apply text_alloc in E|]. intros i Hi. revert E. unfold alloc.
  destruct (_ =? 0); intros [= <- <-]; [reflexivity|]. cbn [live get]. destruct (N.eqb_spec i (next h)); [contradiction|reflexivity].
Qed.

(** *** A call ends *)
Lemma finish_ok st i c cut r x : tinv st -> nth_error (t_places st) i = Some x -> call_at x = Some c -> ~ is_locked x ->
  ((cut = None /\ forall g, agrees (c_src c) g -> r = body P C bd (c_api c) (t_store st) (with_rng (c_env c) g) (t_heap st)) \/
   (exists p, cut = Some p /\ r = Panic)) ->
  finish T i c cut r st = Panic \/
  exists st', finish T i c cut r st = Ok st' /\ tinv st' /\ (tcare st -> tcare st').
Proof.
  intros Hi Ex Cx Lx Hr. pose proof (reached_inv P HP C T bd _ (ti_reached _ Hi)) as Hinv.
  destruct (ti_calls _ Hi i c) as [He Ha]; [exists x; auto|].
  (* the end as a step of a program without threads *)
  assert (finish T i c cut r st = Panic \/ exists s' h',
    finish T i c cut r st = Ok (move i Outside (record i (ACall c) cut s' h' st)) /\
    reached P C T bd (s', h') /\ frame (writes (ACall c)) (t_store st, t_heap st) (s', h') /\
    serial P C T bd (t_done st ++ [{| f_thread := i; f_action := ACall c; f_cut := cut |}]) (s', h') /\
    (tcare st -> held (s', h'))) as H.
  { destruct Hr as [[-> Hr]|(p & -> & ->)].
    - set (g := bytes_of (c_src c)). pose proof (Hr g (bytes_agree _)) as Eb.
      assert (forall g, agrees (c_src c) g ->
        finish T i c None r st = let* '(_, s', h') := entry P C T bd (c_api c) (c_out c) (c_err c) (with_rng (c_env c) g) (t_store st) (t_heap st) in
          Ok (move i Outside (record i (ACall c) None s' h' st))) as Ef.
      { intros g' Hg'. unfold finish, entry. rewrite <- (Hr g' Hg'). cbn [with_rng env_panic].
        destruct (handle T (env_panic (c_env c)) r (t_heap st)) as [[y h']| | |]; cbn [bind]; try reflexivity.
        destruct (response y (c_out c) (c_err c) (t_store st)). reflexivity. }
      assert (env_ok (with_rng (c_env c) g)) as He' by exact He.
      destruct (call_step P HP C T bd _ (c_api c) (c_out c) (c_err c) (with_rng (c_env c) g) _ _ Hinv Ha He')
        as [E|(b & s' & h' & E & Hi' & Hh)].
      + left. rewrite (Ef g (bytes_agree _)), E. reflexivity.
      + right. exists s', h'. pose proof (Ef g (bytes_agree _)) as Ef'. rewrite E in Ef'. cbn [bind] in Ef'.
        split; [exact Ef'|]. split; [|split; [|split]].
        * apply (step_reached (t_store st, t_heap st) (with_rng (c_env c) g, Call (c_api c) (c_out c) (c_err c)));
            [exact (ti_reached _ Hi)|split; [exact He'|exact Ha]|]. unfold run_step. cbn [fst snd]. now rewrite E.
        * now apply call_frame with (c_api c) (with_rng (c_env c) g) b.
        * apply serial_call with (t_store st) (t_heap st) b; [exact (ti_serial _ Hi)|]. intros g' Hg'. rewrite <- E.
          unfold entry. rewrite <- (Hr g' Hg'), <- Eb. reflexivity.
        * intros [Hhd Hc]. destruct (Hc i c) as [A B]; [exists x; auto|]. now apply Hh.
    - assert (body P C bd (KeypathFromString [xff]) (t_store st) (c_env c) (t_heap st) = Panic) as Ep by reflexivity.
      assert (finish T i c (Some p) Panic st =
        let* '(_, s', h') := entry P C T bd (KeypathFromString [xff]) (c_out c) (c_err c) (c_env c) (t_store st) (t_heap st) in
          Ok (move i Outside (record i (ACall c) (Some p) s' h' st))) as Ef.
      { unfold finish, entry. rewrite Ep. cbn [handle].
        destruct (error_panic (env_panic (c_env c)) (t_heap st)) as [[e h']| | |]; reflexivity. }
      destruct (call_step P HP C T bd _ (KeypathFromString [xff]) (c_out c) (c_err c) (c_env c) _ _ Hinv I He)
        as [E|(b & s' & h' & E & Hi' & Hh)].
      + left. rewrite Ef, E. reflexivity.
      + right. exists s', h'. rewrite E in Ef. cbn [bind] in Ef. split; [exact Ef|].
        assert (b = false /\ exists e, error_panic (env_panic (c_env c)) (t_heap st) = Ok (e, h') /\ s' = upd (t_store st) TError (c_err c) e)
          as [-> (e & Ee & ->)].
        { revert E. unfold entry. rewrite Ep. cbn [handle].
          destruct (error_panic (env_panic (c_env c)) (t_heap st)) as [[e h1]| | |]; cbn [bind response]; try discriminate.
          intros [= <- <- <-]. eauto. }
        split; [|split; [|split]].
        * apply (step_reached (t_store st, t_heap st) (c_env c, Call (KeypathFromString [xff]) (c_out c) (c_err c)));
            [exact (ti_reached _ Hi)|split; [exact He|exact I]|]. unfold run_step. cbn [fst snd]. now rewrite E.
        * intros t v Hn. apply (call_frame TPath (KeypathFromString [xff]) _ _ _ _ _ _ _ _ Hinv I He E); [reflexivity|].
          intros [Hw|[]]. apply Hn. cbn. auto.
        * apply serial_cut with (t_store st) (t_heap st); [exact (ti_serial _ Hi)|].
          destruct (panic_spec _ _ _ _ Ee) as (A & B & D). eexists _, _, e. split; [reflexivity|].
          split; [apply upd_assigned|]. auto.
        * intros [Hhd Hc]. destruct (Hc i c) as [A B]; [exists x; auto|]. now apply Hh. }
  destruct H as [H|(s' & h' & Ef & Hre & F & Hs & Hh)]; [now left|right]. eexists. split; [exact Ef|].
  assert (forall j c', at_call (put i Outside (t_places st)) j c' -> j <> i /\ at_call (t_places st) j c') as Hat.
  { intros j c' H. apply at_put in H as [[_ H]|H]; [discriminate|exact H]. }
  destruct (no_clash_frame st (writes (ACall c)) s' h' i Outside Hi F) as [Hp Hc].
  { intros j c' H Hj o Ho. destruct (Hat j c' H) as [_ H'].
    assert (~ clash (ACall c) (ACall c')) as Hn by (apply (ti_clash _ Hi i c j c'); [exists x; auto|exact H'|congruence]).
    split; intros Hin; apply Hn; exists o; auto. }
  unfold move, record. split.
  - split; cbn [t_store t_heap t_bad t_held t_places t_done].
    + exact Hre.
    + exact Hs.
    + intros j y Hy. destruct (Nat.eq_dec j i) as [->|Hj]; [|now apply (Hp j)].
      apply put_cases in Hy as [[_ ->]|[Hne _]]; [exact I|congruence].
    + intros j c' H. apply (ti_calls _ Hi j). now apply Hat.
    + intros j c1 j' c2 A B. apply (ti_clash _ Hi); now apply Hat.
    + apply locks_move with x; [exact Ex|exact Lx|intros []|exact (ti_locks _ Hi)].
  - intros Hk. split; cbn [t_store t_heap t_bad t_held t_places t_done]; [now apply Hh|].
    intros j c' H. apply (Hc (proj2 Hk) j c' H). exact (proj1 (Hat j c' H)).
Qed.

(** *** Steps *)
Lemma go_ok st i x : tinv st -> nth_error (t_places st) i = Some x ->
  go P C T bd i x st = Panic \/
  exists st', go P C T bd i x st = Ok st' /\ tinv st' /\ (tcare st -> tcare st').
Proof.
  intros Hi Ex. pose proof (reached_inv P HP C T bd _ (ti_reached _ Hi)) as Hinv.
  pose proof (ti_places _ Hi i x Ex) as Hx.
  destruct x as [|c s0|c p q [r|n k]|c p q n k|c p]; cbn [go place_ok] in *.
  - right. eauto.
  - apply finish_ok with (Plain c s0); [exact Hi|exact Ex|reflexivity|intros []|]. left. split; [reflexivity|].
    intros g _. destruct Hx as [A B]. now apply plain_body.
  - rewrite (ongoing_alive _ _ _ _ _ _ Hinv Hx).
    apply finish_ok with (Between c p q (Ret r)); [exact Hi|exact Ex|reflexivity|intros []|]. left. split; [reflexivity|].
    intros g Hg. now apply ongoing_result with p q.
  - rewrite (ongoing_alive _ _ _ _ _ _ Hinv Hx). cbn [negb]. right.
    destruct (locked (t_held st) p) eqn:El; [eauto|].
    destruct (poisoned (t_bad st) p) eqn:Ep; eexists; (split; [reflexivity|]).
    + apply move_ok with i (Unwinding c p) (Between c p q (Draw n k)) c; try reflexivity; try assumption.
      apply locks_move with (Between c p q (Draw n k)); [exact Ex|intros []|intros []|exact (ti_locks _ Hi)].
    + apply move_ok with i (Locked c p q n k) (Between c p q (Draw n k)) c; try reflexivity; try assumption.
      destruct Hx as (v & N & f & _ & _ & _ & _ & _ & [[a Hk]|((m & ->) & _)]); [discriminate|].
      cbn [move locking t_held t_places lock_of app]. apply locks_lock with (Between c (At m) q (Draw n k)); [exact Ex|intros []| |exact (ti_locks _ Hi)].
      intros Hin. apply poisoned_in in Hin. unfold locked in El. congruence.
  - rewrite (ongoing_alive _ _ _ _ _ _ Hinv Hx). cbn [negb]. right.
    assert (exists m, p = At m) as [m ->].
    { destruct (lo_held _ _ (ti_locks _ Hi) _ _ _ _ _ _ Ex) as (m & -> & _). eauto. }
    destruct (receive (c_src c) q n) as [b|] eqn:Er; eexists; (split; [reflexivity|]).
    + apply move_ok with i (Between c (At m) (q + n) (k b)) (Locked c (At m) q n k) c; try reflexivity; try assumption.
      * now apply ongoing_more.
      * cbn [move unlocking t_held t_places lock_of]. apply locks_unlock with c q n k; [exact Ex|intros []|exact (ti_locks _ Hi)].
    + apply move_ok with i (Unwinding c (At m)) (Locked c (At m) q n k) c; try reflexivity; try assumption.
      cbn [move poisoning unlocking t_held t_places lock_of]. apply locks_unlock with c q n k; [exact Ex|intros []|exact (ti_locks _ Hi)].
  - apply finish_ok with (Unwinding c p); [exact Hi|exact Ex|reflexivity|intros []|]. right. eauto.
Qed.

Lemma begin_ok st i x : tinv st -> may (Begin i x) st ->
  begin P C i x st = Panic \/
  exists st', begin P C i x st = Ok st' /\ tinv st' /\ (with_care (Begin i x) st -> tcare st -> tcare st').
Proof.
  intros Hi (Eo & Hp & Hn). pose proof (reached_inv P HP C T bd _ (ti_reached _ Hi)) as Hinv. right.
  destruct x as [c|t v]; cbn [begin].
  - assert (exists y, begin P C i (ACall c) st = Ok (move i y st) /\ call_at y = Some c /\ ~ is_locked y /\ place_ok (t_store st) (t_heap st) y)
      as (y & Ey & Cy & Ly & Hy).
    { cbn [begin]. destruct (asks C (c_api c) (t_store st) (c_env c)) as [[p f]|] eqn:Ea.
      - destruct (ongoing_begins _ _ _ _ _ (ti_reached _ Hi) Ea) as [Hu Ho].
        exists (Between c p 0 (lift (let* m := rust_manager (t_heap st) p in f m) (op_proc P))).
        split; [|split; [reflexivity|split; [intros []|exact Ho]]].
        destruct (let* m := rust_manager (t_heap st) p in f m); congruence.
      - exists (Plain c (t_store st)). split; [reflexivity|]. split; [reflexivity|]. split; [intros []|]. split; [exact Ea|auto]. }
    cbn [begin] in Ey. rewrite Ey. eexists. split; [reflexivity|]. unfold move. split.
    + destruct Hi as [H1 H2 H3 H4 H5 H6]. split; cbn [t_store t_heap t_bad t_held t_places t_done]; auto.
      * intros j z Hz. apply put_cases in Hz as [[-> ->]|[_ Hz]]; [exact Hy|eauto].
      * intros j c' H. apply at_put in H as [[-> H]|[_ H]]; [|eauto]. assert (c' = c) as -> by congruence. exact Hp.
      * intros j c1 j' c2 A B Hj. apply at_put in A as [[-> A]|[Ha A]]; apply at_put in B as [[-> B]|[Hb B]].
        -- congruence.
        -- assert (c1 = c) as -> by congruence. now apply (Hn j').
        -- assert (c2 = c) as -> by congruence. intros Hc. apply clash_sym in Hc. revert Hc. now apply (Hn j).
        -- now apply (H5 j c1 j').
      * apply locks_move with Outside; [exact Eo|intros []|exact Ly|exact H6].
    + intros Hk [A B]. split; cbn [t_store t_heap t_bad t_held t_places t_done]; [exact A|].
      intros j c' H. apply at_put in H as [[-> H]|[_ H]]; [|eauto]. assert (c' = c) as -> by congruence. exact Hk.
  - assert (t = TString -> refs (t_heap st) t (t_store st t v) <> []) as H1 by (intros ->; exact Hp).
    assert (t = TNetworks -> refs (t_heap st) t (t_store st t v) = []) as H2 by (intros ->; exact Hp).
    destruct (delete_step P bd t v _ _ Hinv H1 H2) as (s' & h' & E & _ & _ & _ & _ & _ & Hh).
    rewrite E. cbn [bind]. eexists. split; [reflexivity|].
    pose proof (delete_frame t v _ _ _ _ Hinv H1 H2 E) as F.
    assert (forall j c, at_call (t_places st) j c -> j <> i) as Hne.
    { intros j c (y & Hy & Cy) ->. rewrite Eo in Hy. injection Hy as <-. discriminate. }
    assert (put i Outside (t_places st) = t_places st) as Eput.
    { clear -Eo. revert i Eo. induction (t_places st) as [|y l IH]; intros [|i]; cbn [put nth_error]; try reflexivity.
      - intros [= ->]. reflexivity.
      - intros E. f_equal. auto. }
    destruct (no_clash_frame st [(t, v)] s' h' i Outside Hi F) as [Hpl Hc].
    { rewrite Eput. intros j c H _ o [<-|[]]. specialize (Hn j c H). split; intros Hin; apply Hn; exists (t, v); left; (split; [now left|auto]). }
    rewrite Eput in Hpl, Hc. unfold record. split.
    + destruct Hi as [I1 I2 I3 I4 I5 I6]. split; cbn [t_store t_heap t_bad t_held t_places t_done]; auto.
      * apply (step_reached (t_store st, t_heap st) ({| env_o1 := fun _ l => l; env_o2 := fun _ l => l; env_rng := fun _ => x00; env_panic := [] |}, Delete t v)).
        -- exact I1.
        -- split; [split; intros V l; reflexivity|]. exact Hp.
        -- exact E.
      * apply serial_delete with (t_store st) (t_heap st); assumption.
      * intros j y Hy. destruct (Nat.eq_dec j i) as [->|Hj]; [|now apply (Hpl j)]. rewrite Eo in Hy. injection Hy as <-. exact I.
    + intros _ [A B]. split; cbn [t_store t_heap t_bad t_held t_places t_done]; [now apply Hh|].
      intros j c H. apply (Hc B j c H). now apply (Hne j c).
Qed.

Theorem t_step_ok ev st : tinv st -> may ev st ->
  t_step P C T bd ev st = Panic \/
  exists st', t_step P C T bd ev st = Ok st' /\ tinv st' /\ (with_care ev st -> tcare st -> tcare st').
Proof.
  intros Hi Hm. destruct ev as [i x|i]; cbn [t_step].
  - rewrite (proj1 Hm). now apply begin_ok.
  - destruct (nth_error (t_places st) i) as [x|] eqn:Ex; [|right; eauto].
    destruct (go_ok st i x Hi Ex) as [E|(st' & E & H1 & H2)]; [now left|right]. eauto.
Qed.
Lemma t_start_inv n : tinv (t_start n).
Proof.
  assert (forall j x, nth_error (t_places (t_start n)) j = Some x -> x = Outside) as Ho.
  { intros j x H. apply nth_error_In in H. now apply repeat_spec in H. }
  assert (forall j c, at_call (t_places (t_start n)) j c -> False) as Hc.
  { intros j c (x & Hx & Ex). apply Ho in Hx as ->. discriminate. }
  split; cbn [t_start t_store t_heap t_bad t_held t_done].
  - apply starting.
  - apply serial_none.
  - intros j x Hx. apply Ho in Hx as ->. exact I.
  - intros j c H. destruct (Hc j c H).
  - intros j c j' c' H. destruct (Hc j c H).
  - split.
    + intros j c p q m k H. now apply Ho in H.
    + intros i [].
    + intros j c p q m k j' c' q' m' k' H. now apply Ho in H.
Qed.
Lemma t_start_care n : tcare (t_start n).
Proof.
  split; [apply start_held|]. intros j c (x & Hx & Ex). apply nth_error_In in Hx. apply repeat_spec in Hx as ->. discriminate.
Qed.
Theorem t_run_ok l : forall st, tinv st -> t_along P C T bd may l st ->
  t_run P C T bd l st = Panic \/
  exists st', t_run P C T bd l st = Ok st' /\ tinv st' /\ (t_along P C T bd with_care l st -> tcare st -> tcare st').
Proof.
  induction l as [|ev l IH]; intros st Hi Hl; cbn [t_run t_along] in *.
  - right. eauto.
  - destruct Hl as [Hm Hl]. destruct (t_step_ok ev st Hi Hm) as [E|(st1 & E & Hi1 & Hc1)]; rewrite E; cbn [bind]; [now left|].
    destruct (IH st1 Hi1 (Hl st1 E)) as [E'|(st2 & E' & Hi2 & Hc2)]; [now left|right].
    exists st2. split; [exact E'|]. split; [exact Hi2|]. intros [A B] H0. apply Hc2; auto.
Qed.
Theorem t_reached_inv n l st : t_reached P C T bd n l st -> tinv st.
Proof.
  intros [Hl E]. destruct (t_run_ok l _ (t_start_inv n) Hl) as [E'|(st' & E' & Hi & _)]; [congruence|].
  assert (st' = st) as -> by congruence. exact Hi.
Qed.
End P.
