(** Theorems about C programs with threads. *)
From Coq Require Import Strings.String.
From Verif Require Import Base Str Prims Bip39 Dict KeyPath Errors FMap Crypt Data XPrv Keys Mnemonic
  Keychain Manager Features ManagerSpec Display Conc ConcSpec Ffi FfiSpec FfiCallSpec FfiWalletSpec Failing FailingSpec.
From Verif Require Import FMapFacts ManagerFacts MnemonicFacts LifeFacts FfiFacts FfiTheorems FfiWalletFacts ConcTheorems FailingFacts.
From Verif Require Import Threads ThreadsSpec ThreadsFacts.
Open Scope list_scope.
Local Strategy 1000 [XPrv.derive XPrv.derive_loop XPrv.derive_step XPrv.xprv_from_data].

Section P.
Variable P : prims.
Hypothesis HP : prims_ok P.
Variable C : data_config.
Variable T : texts.
Variable bd : build.

(** ** Safety *)
Theorem t_serial n l st : t_reached P C T bd n l st -> serial P C T bd (t_done st) (t_store st, t_heap st).
Proof. intros H. exact (ti_serial _ _ _ _ _ (t_reached_inv P HP C T bd n l st H)). Qed.
Theorem t_program n l st : t_reached P C T bd n l st -> reached P C T bd (t_store st, t_heap st).
Proof. intros H. exact (ti_reached _ _ _ _ _ (t_reached_inv P HP C T bd n l st H)). Qed.
Theorem t_safe n l : t_along P C T bd may l (t_start n) ->
  t_run P C T bd l (t_start n) <> Undef /\
  forall st, t_run P C T bd l (t_start n) = Ok st ->
    let sh := (t_store st, t_heap st) in
    exclusive sh /\ (forall t v, val_ok (t_heap st) t (t_store st t v)) /\
    (t_along P C T bd with_care l (t_start n) ->
       (forall i, get i (live (t_heap st)) <> None -> exists t v, In i (refs (t_heap st) t (t_store st t v))) /\
       ((forall t v, refs (t_heap st) t (t_store st t v) = []) -> live (t_heap st) = [])).
Proof.
  intros Hl. destruct (t_run_ok P HP C T bd l _ (t_start_inv P C T bd n) Hl) as [E|(st' & E & Hi & Hc)]; rewrite E.
  - split; [discriminate|discriminate].
  - split; [discriminate|]. intros st [= <-]. cbv zeta.
    destruct (reached_inv P HP C T bd _ (ti_reached _ _ _ _ _ Hi)) as [Hh Hv He]. cbn [fst snd] in *.
    split; [exact He|]. split; [exact Hv|]. intros Hw. destruct (Hc Hw (t_start_care n)) as [Hk _].
    split; [exact Hk|]. intros H0. destruct (live (t_heap st')) as [|[i b] m] eqn:El; [reflexivity|exfalso].
    destruct (Hk i) as (t & v & Hin); cbn [fst snd] in *; [rewrite El; cbn [get]; rewrite N.eqb_refl; discriminate|].
    rewrite H0 in Hin. destruct Hin.
Qed.
Theorem one_holder n l st : t_reached P C T bd n l st -> forall j c p q m k j' c' q' m' k',
  nth_error (t_places st) j = Some (Locked c p q m k) -> nth_error (t_places st) j' = Some (Locked c' p q' m' k') -> j = j'.
Proof. intros H. exact (lo_one _ _ (ti_locks _ _ _ _ _ (t_reached_inv P HP C T bd n l st H))). Qed.

(** ** Executions *)
Lemma t_run_app l l' st : t_run P C T bd (l ++ l') st = let* st := t_run P C T bd l st in t_run P C T bd l' st.
Proof.
  revert st. induction l as [|ev l IH]; intros st; cbn [t_run app]; [reflexivity|].
  destruct (t_step P C T bd ev st); cbn [bind]; auto.
Qed.
Lemma t_along_app ok l l' st : t_along P C T bd ok (l ++ l') st <->
  t_along P C T bd ok l st /\ forall st', t_run P C T bd l st = Ok st' -> t_along P C T bd ok l' st'.
Proof.
  revert st. induction l as [|ev l IH]; intros st; cbn [t_run t_along app].
  - split; [intros H; split; [exact I|]; now intros st' [= <-]|]. intros [_ H]. now apply H.
  - split.
    + intros [A B]. split; [split; [exact A|]; intros st' E; now apply IH, B|].
      intros st' E. destruct (t_step P C T bd ev st) as [st1| | |] eqn:E1; try discriminate. cbn [bind] in E.
      now apply (proj1 (IH st1) (B st1 eq_refl)).
    + intros [[A B] D]. split; [exact A|]. intros st' E. apply IH. split; [now apply B|]. intros st2 E2. apply D.
      rewrite E. exact E2.
Qed.
Lemma t_reached_snoc n l ev st : t_reached P C T bd n (l ++ [ev]) st ->
  exists st0, t_reached P C T bd n l st0 /\ may ev st0 /\ t_step P C T bd ev st0 = Ok st.
Proof.
  intros [A E]. apply t_along_app in A as [A B]. rewrite t_run_app in E.
  destruct (t_run P C T bd l (t_start n)) as [st0| | |] eqn:E0; try discriminate. cbn [bind t_run] in E.
  exists st0. split; [split; [exact A|exact E0]|]. destruct (B st0 eq_refl) as [Hm _]. split; [exact Hm|].
  destruct (t_step P C T bd ev st0); cbn [bind] in E; congruence.
Qed.

(** ** What is done *)
Lemma finish_result i c cut r st st' : finish T i c cut r st = Ok st' ->
  t_places st' = put i Outside (t_places st) /\ t_done st' = t_done st ++ [{| f_thread := i; f_action := ACall c; f_cut := cut |}] /\
  t_bad st' = t_bad st /\ t_held st' = t_held st.
Proof.
  unfold finish. destruct (handle T (env_panic (c_env c)) r (t_heap st)) as [[y h']| | |]; cbn [bind]; try discriminate.
  destruct (response y (c_out c) (c_err c) (t_store st)). intros [= <-]. repeat split.
Qed.
(** A step of a call ends it, changes where the thread is in it, or waits. *)
Lemma go_result i x st st' c : nth_error (t_places st) i = Some x -> call_at x = Some c -> go P C T bd i x st = Ok st' ->
  (exists cut, t_places st' = put i Outside (t_places st) /\ t_bad st' = t_bad st /\
     (cut = None \/ exists p, cut = Some p /\ x = Unwinding c p) /\
     t_done st' = t_done st ++ [{| f_thread := i; f_action := ACall c; f_cut := cut |}]) \/
  (exists y, call_at y = Some c /\ t_places st' = put i y (t_places st) /\ t_done st' = t_done st) \/
  st' = st.
Proof.
  intros Ex Cx. destruct x as [|c' s0|c' p q [r|m k]|c' p q m k|c' p]; cbn [go call_at] in *; try discriminate; injection Cx as ->.
  - intros E. apply finish_result in E as (A & B & D & _). left. exists None. auto.
  - destruct (alive _ _); [|discriminate]. intros E. apply finish_result in E as (A & B & D & _). left. exists None. auto.
  - destruct (negb _); [discriminate|]. destruct (locked _ _); [intros [= <-]; auto|].
    destruct (poisoned _ _); intros [= <-]; right; left; eexists; (split; [|split; reflexivity]); reflexivity.
  - destruct (negb _); [discriminate|].
    destruct (receive _ _ _) as [b|]; intros [= <-]; right; left; eexists; (split; [|split; reflexivity]); reflexivity.
  - intros E. apply finish_result in E as (A & B & D & _). left. exists (Some p). split; [exact A|]. split; [exact D|]. split; [right; eauto|exact B].
Qed.
Lemma begin_result i x st st' : begin P C i x st = Ok st' ->
  match x with
  | ACall c => exists y, call_at y = Some c /\ t_places st' = put i y (t_places st) /\ t_done st' = t_done st /\ t_bad st' = t_bad st /\
      t_store st' = t_store st /\ (forall c p, y <> Unwinding c p)
  | ADelete _ _ => t_places st' = t_places st /\ t_bad st' = t_bad st /\
      t_done st' = t_done st ++ [{| f_thread := i; f_action := x; f_cut := None |}]
  end.
Proof.
  destruct x as [c|t v]; cbn [begin].
  - destruct (asks C (c_api c) (t_store st) (c_env c)) as [[p f]|].
    + destruct (let* m := rust_manager (t_heap st) p in f m); intros E; try discriminate; injection E as <-;
        eexists; (split; [|split; [reflexivity|split; [reflexivity|split; [reflexivity|split; [reflexivity|discriminate]]]]]); reflexivity.
    + intros [= <-]. eexists. split; [|split; [reflexivity|split; [reflexivity|split; [reflexivity|split; [reflexivity|discriminate]]]]]. reflexivity.
  - destruct (delete t v (t_store st) (t_heap st)) as [[s h]| | |]; cbn [bind]; try discriminate. intros [= <-]. repeat split.
Qed.
Lemma begun_app i l l' : begun i (l ++ l') = begun i l ++ begun i l'.
Proof. induction l as [|[j x|j] l IH]; cbn [begun app]; [reflexivity| |exact IH]. destruct (j =? i)%nat; cbn [app]; now rewrite IH. Qed.
Lemma done_more i st st' f : t_done st' = t_done st ++ [f] ->
  done_by i st' = done_by i st ++ if (f_thread f =? i)%nat then [f_action f] else [].
Proof.
  intros E. unfold done_by. rewrite E, filter_app, map_app. f_equal. cbn [filter]. now destruct (f_thread f =? i)%nat.
Qed.
Theorem all_begun n l : forall st, t_reached P C T bd n l st ->
  List.length (t_places st) = n /\ forall i, done_by i st ++ under_way i st = begun i l.
Proof.
  induction l as [|ev l IH] using rev_ind; intros st Hr.
  - destruct Hr as [_ [= <-]]. split; [apply repeat_length|]. intros i. unfold under_way. cbn [t_start t_places].
    destruct (nth_error (repeat Outside n) i) as [x|] eqn:E; [|reflexivity]. apply nth_error_In, repeat_spec in E as ->. reflexivity.
  - apply t_reached_snoc in Hr as (st0 & Hr & Hm & E). destruct (IH st0 Hr) as [Hlen H0]. clear IH.
    destruct ev as [j x|j]; cbn [t_step] in E.
    + rewrite (proj1 Hm) in E. pose proof (begin_result _ _ _ _ E) as B. destruct x as [c|t v].
      * destruct B as (y & Cy & Ep & Ed & _). rewrite Ep. split; [now rewrite put_length|]. intros i. rewrite begun_app. cbn [begun].
        rewrite <- H0. unfold done_by, under_way. rewrite Ed, Ep, <- app_assoc. f_equal.
        destruct (Nat.eqb_spec j i) as [->|Hne].
        -- rewrite (put_same i y Outside) by apply Hm. rewrite Cy, (proj1 Hm). reflexivity.
        -- rewrite put_other by congruence. now rewrite app_nil_r.
      * destruct B as (Ep & _ & Ed). rewrite Ep. split; [exact Hlen|]. intros i. rewrite begun_app, (done_more i _ _ _ Ed), <- H0.
        cbn [begun f_thread f_action]. unfold under_way. rewrite Ep. destruct (Nat.eqb_spec j i) as [->|Hne].
        -- rewrite (proj1 Hm). cbn [call_at]. now rewrite !app_nil_r.
        -- now rewrite !app_nil_r.
    + assert (forall i, begun i (l ++ [Go j]) = begun i l) as Eb by (intros i; rewrite begun_app; apply app_nil_r).
      destruct (nth_error (t_places st0) j) as [x|] eqn:Ex.
      2:{ injection E as <-. split; [exact Hlen|]. intros i. now rewrite Eb. }
      destruct (call_at x) as [c|] eqn:Cx.
      2:{ assert (x = Outside) as -> by (destruct x; (reflexivity || discriminate)). injection E as <-. split; [exact Hlen|]. intros i. now rewrite Eb. }
      destruct (go_result _ _ _ _ _ Ex Cx E) as [(cut & Ep & _ & _ & Ed)|[(y & Cy & Ep & Ed)| ->]].
      * rewrite Ep. split; [now rewrite put_length|]. intros i. rewrite Eb, <- H0, (done_more i _ _ _ Ed). cbn [f_thread f_action].
        unfold under_way. rewrite Ep. destruct (Nat.eqb_spec j i) as [->|Hne].
        -- rewrite (put_same i Outside x _ Ex), Ex, Cx. cbn [call_at]. now rewrite app_nil_r.
        -- rewrite put_other by congruence. now rewrite app_nil_r.
      * rewrite Ep. split; [now rewrite put_length|]. intros i. rewrite Eb, <- H0. unfold done_by, under_way. rewrite Ed, Ep. f_equal.
        destruct (Nat.eq_dec i j) as [->|Hne].
        -- now rewrite (put_same j y x _ Ex), Ex, Cx, Cy.
        -- now rewrite put_other.
      * split; [exact Hlen|]. intros i. now rewrite Eb.
Qed.

(** ** Progress *)
Fixpoint draws (src : source) (k : proc (res kc_error output)) (q : nat) : nat :=
  match k with
  | Ret _ => 0
  | Draw n k => match receive src q n with Some b => 2 + draws src (k b) (q + n) | None => 2 end
  end.
Definition left (x : place) : nat :=
  match x with
  | Outside => 0
  | Plain _ _ => 1
  | Between c p q k => 1 + draws (c_src c) k q
  | Locked c p q n k => 2 + match receive (c_src c) q n with Some b => draws (c_src c) (k b) (q + n) | None => 0 end
  | Unwinding _ _ => 1
  end.
Definition total (l : list place) : nat := list_sum (map left l).
Lemma total_put i x y l : nth_error l i = Some y -> (total (put i x l) + left y = total l + left x)%nat.
Proof.
  unfold total. revert i. induction l as [|z l IH]; intros [|i]; cbn [nth_error put map list_sum fold_right]; try discriminate.
  - intros [= ->]. unfold list_sum in *. cbn [fold_right]. lia.
  - intros E. apply IH in E. unfold list_sum in *. cbn [fold_right]. lia.
Qed.
Lemma go_less i x st st' : nth_error (t_places st) i = Some x -> go P C T bd i x st = Ok st' ->
  st' = st \/ (total (t_places st') < total (t_places st))%nat.
Proof.
  intros Ex. assert (forall y, (left y < left x)%nat -> (total (put i y (t_places st)) < total (t_places st))%nat) as Hlt.
  { intros y Hy. pose proof (total_put i y x _ Ex). lia. }
  destruct x as [|c s0|c p q [r|m k]|c p q m k|c p]; cbn [go left draws] in *.
  - intros [= <-]. now left.
  - intros E. apply finish_result in E as (-> & _). right. apply Hlt. cbn. lia.
  - destruct (alive _ _); [|discriminate]. intros E. apply finish_result in E as (-> & _). right. apply Hlt. cbn. lia.
  - destruct (negb _); [discriminate|]. destruct (locked _ _); [intros [= <-]; now left|].
    destruct (poisoned _ _); intros [= <-]; right; apply Hlt; cbn [left]; destruct (receive _ _ _); lia.
  - destruct (negb _); [discriminate|].
    destruct (receive _ _ _) as [b|]; intros [= <-]; right; apply Hlt; cbn [left]; lia.
  - intros E. apply finish_result in E as (-> & _). right. apply Hlt. cbn. lia.
Qed.
Theorem calls_end st : Acc (fun st' st => (exists i, t_step P C T bd (Go i) st = Ok st') /\ st' <> st) st.
Proof.
  remember (total (t_places st)) as n eqn:En. revert st En. induction n as [n IH] using (well_founded_induction lt_wf).
  intros st ->. constructor. intros st' [[i E] Hne]. cbn [t_step] in E.
  destruct (nth_error (t_places st) i) as [x|] eqn:Ex; [|congruence].
  destruct (go_less i x st st' Ex E) as [->|Hlt]; [congruence|]. now apply (IH _ Hlt).
Qed.
Lemma quiet_dec l : (forall j x, nth_error l j = Some x -> x = Outside) \/ exists j x, nth_error l j = Some x /\ x <> Outside.
Proof.
  induction l as [|y l IH].
  - left. intros [|j] x; discriminate.
  - destruct IH as [IH|(j & x & E & Hx)]; [|right; exists (S j), x; auto].
    assert (y = Outside \/ y <> Outside) as [->|Hy] by (destruct y; auto; right; discriminate).
    + left. intros [|j] x; cbn [nth_error]; [congruence|]. apply IH.
    + right. exists 0%nat, y. auto.
Qed.
Lemma go_moves i x st st' : nth_error (t_places st) i = Some x -> x <> Outside -> go P C T bd i x st = Ok st' ->
  (exists c p q m k, x = Between c p q (Draw m k) /\ locked (t_held st) p = true) \/ t_places st' <> t_places st.
Proof.
  intros Ex Hx E.
  assert (forall y, t_places st' = put i y (t_places st) -> y <> x -> t_places st' <> t_places st) as Hne.
  { intros y Ep Hy Eq. rewrite Eq in Ep. apply Hy. pose proof (put_same i y x _ Ex) as Es. rewrite <- Ep, Ex in Es. congruence. }
  destruct x as [|c s0|c p q [r|m k]|c p q m k|c p]; cbn [go] in *; [congruence|..].
  - apply finish_result in E as (Ep & _). right. apply (Hne Outside); [exact Ep|discriminate].
  - destruct (alive _ _); [|discriminate]. apply finish_result in E as (Ep & _). right. apply (Hne Outside); [exact Ep|discriminate].
  - destruct (negb _); [discriminate|]. destruct (locked (t_held st) p) eqn:El; [left; eauto 10|].
    right. destruct (poisoned _ _); injection E as <-; eapply Hne; try reflexivity; discriminate.
  - destruct (negb _); [discriminate|]. right. destruct (receive _ _ _); injection E as <-; eapply Hne; try reflexivity; discriminate.
  - apply finish_result in E as (Ep & _). right. apply (Hne Outside); [exact Ep|discriminate].
Qed.
Theorem progress n l st : t_reached P C T bd n l st ->
  quiet st \/ exists j, t_step P C T bd (Go j) st = Panic \/
    exists st', t_step P C T bd (Go j) st = Ok st' /\ t_places st' <> t_places st.
Proof.
  intros Hr. pose proof (t_reached_inv P HP C T bd n l st Hr) as Hi.
  assert (forall j x, nth_error (t_places st) j = Some x -> x <> Outside ->
    (exists c p q m k, x = Between c p q (Draw m k) /\ locked (t_held st) p = true) \/
    t_step P C T bd (Go j) st = Panic \/ exists st', t_step P C T bd (Go j) st = Ok st' /\ t_places st' <> t_places st) as Hgo.
  { intros j x Ex Hx. cbn [t_step]. rewrite Ex. destruct (go_ok P HP C T bd st j x Hi Ex) as [E|(st' & E & _)]; [auto|].
    destruct (go_moves j x st st' Ex Hx E) as [H|H]; [auto|]. right. right. eauto. }
  destruct (quiet_dec (t_places st)) as [H|(j & x & Ex & Hx)]; [now left|right].
  destruct (Hgo j x Ex Hx) as [(c & p & q & m & k & -> & El)|H]; [|eauto].
  destruct p as [| |i]; try discriminate. apply poisoned_in in El.
  destruct (lo_thread _ _ (ti_locks _ _ _ _ _ Hi) i El) as (j' & c' & q' & m' & k' & E').
  destruct (Hgo j' _ E') as [(? & ? & ? & ? & ? & [=] & _)|H]; [discriminate|]. eauto.
Qed.
Theorem complete n l st : t_reached P C T bd n l st ->
  exists l', Forall (fun ev => exists i, ev = Go i) l' /\
    (t_run P C T bd (l ++ l') (t_start n) = Panic \/ exists st', t_reached P C T bd n (l ++ l') st' /\ quiet st').
Proof.
  revert l. induction (calls_end st) as [st _ IH]. intros l Hr.
  destruct (progress n l st Hr) as [Hq|(j & Hj)].
  - exists []. split; [constructor|]. right. exists st. now rewrite app_nil_r.
  - destruct Hr as [Ha E].
    assert (forall st1, t_step P C T bd (Go j) st = Ok st1 -> t_reached P C T bd n (l ++ [Go j]) st1) as Hr1.
    { intros st1 E1. split.
      - apply t_along_app. split; [exact Ha|]. intros st2 _. split; [exact I|]. intros st3 _. exact I.
      - rewrite t_run_app, E. cbn [bind t_run]. now rewrite E1. }
    destruct Hj as [Ep|(st1 & E1 & Hne)].
    + exists [Go j]. split; [repeat constructor; eauto|]. left. rewrite t_run_app, E. cbn [bind t_run]. now rewrite Ep.
    + destruct (IH st1) with (l := l ++ [Go j]) as (l' & Hg & Hl').
      * split; [eauto|]. intros ->. congruence.
      * now apply Hr1.
      * exists (Go j :: l'). split; [constructor; eauto|]. change (Go j :: l') with ([Go j] ++ l'). rewrite app_assoc. exact Hl'.
Qed.

(** A thread waits only for the holder of the lock that it wants. *)
Theorem waits n l st j x : t_reached P C T bd n l st -> nth_error (t_places st) j = Some x -> x <> Outside ->
  t_step P C T bd (Go j) st = Ok st ->
  exists c p q m k j' c' q' m' k', x = Between c p q (Draw m k) /\ nth_error (t_places st) j' = Some (Locked c' p q' m' k').
Proof.
  intros Hr Ex Hx E. pose proof (t_reached_inv P HP C T bd n l st Hr) as Hi. cbn [t_step] in E. rewrite Ex in E.
  destruct (go_moves j x st st Ex Hx E) as [(c & p & q & m & k & -> & El)|H]; [|congruence].
  destruct p as [| |i]; try discriminate. apply poisoned_in in El.
  destruct (lo_thread _ _ (ti_locks _ _ _ _ _ Hi) i El) as (j' & c' & q' & m' & k' & E'). repeat eexists. exact E'.
Qed.

(** ** What the contract is for *)
Lemma dead_object t (a : api t) s e h t' v i : object a = Some (t', v) -> ids (pointer (s t' v)) = [i] -> get i (live h) = None ->
  body P C bd a s e h = Undef.
Proof.
  assert (forall p E, ids p = [i] -> get i (live h) = None -> rust_manager (E := E) h p = Undef) as Hm.
  { intros [| |k] E [= ->] Eg. unfold rust_manager. cbn [is_null read]. now rewrite Eg. }
  assert (forall p E, ids p = [i] -> get i (live h) = None -> rust_keychain (E := E) h p = Undef) as Hk.
  { intros [| |k] E [= ->] Eg. unfold rust_keychain. cbn [is_null read]. now rewrite Eg. }
  destruct a; cbn [object]; try discriminate; intros [= <- <-] Ei Eg; cbn [pointer] in Ei; cbn [body];
    first [rewrite (Hm _ _ Ei Eg)|rewrite (Hk _ _ Ei Eg)]; reflexivity.
Qed.
Theorem deleted n l st i j x c t v : t_reached P C T bd n l st -> nth_error (t_places st) i = Some Outside ->
  nth_error (t_places st) j = Some x -> call_at x = Some c -> (forall p, x <> Unwinding c p) ->
  object (c_api c) = Some (t, v) -> refs (t_heap st) t (t_store st t v) <> [] ->
  exists st', t_step P C T bd (Begin i (ADelete t v)) st = Ok st' /\ t_step P C T bd (Go j) st' = Undef.
Proof.
  intros Hr Eo Ex Cx Hu Ob Hne. pose proof (t_reached_inv P HP C T bd n l st Hr) as Hi.
  assert (t = TManager \/ t = TKeychain) as Ht by (destruct (c_api c); cbn [object] in Ob; try discriminate; injection Ob as <- <-; auto).
  assert (exists k, ids (pointer (t_store st t v)) = [k] /\ refs (t_heap st) t (t_store st t v) = [k]) as (k & Ek & Er).
  { destruct Ht as [-> | ->]; cbn [refs pointer] in *; destruct (t_store st _ v) as [| |k]; cbn [ids] in *; try contradiction; exists k; auto. }
  destruct (delete_step P bd t v (t_store st) (t_heap st)) as (s1 & h1 & E1 & _ & (_ & W & _) & _).
  - exact (reached_inv P HP C T bd _ (ti_reached _ _ _ _ _ Hi)).
  - intros ->. destruct Ht; discriminate.
  - intros ->. destruct Ht; discriminate.
  - cbn [t_step]. rewrite Eo. cbn [begin]. rewrite E1. cbn [bind]. eexists. split; [reflexivity|].
    cbn [record t_places]. rewrite Ex. specialize (W k). rewrite Er in W. specialize (W (or_introl eq_refl)).
    pose proof (ti_places _ _ _ _ _ Hi j x Ex) as Hx.
    assert (forall p q y, ongoing P C bd (t_store st) (t_heap st) c p q y -> alive h1 p = false) as Hd.
    { intros p q y (v' & m & f & Ob' & _ & Ea & _). destruct (asks_object C bd _ _ _ _ _ _ Ea) as (v2 & _ & Ob2 & Ep & _).
      rewrite Ob in Ob2. injection Ob2 as -> <-. cbn [pointer] in Ek. rewrite <- Ep in Ek.
      destruct p as [| |k']; try discriminate. injection Ek as ->. cbn [alive read]. now rewrite W. }
    destruct x as [|c' s0|c' p q [r|m y]|c' p q m y|c' p]; cbn [call_at] in Cx; try discriminate; injection Cx as ->; cbn [go t_heap record place_ok] in *.
    + rewrite (dead_object _ (c_api c) s0 (c_env c) h1 t v k Ob); [reflexivity| |exact W]. destruct Hx as [_ Hx]. now rewrite (Hx t v Ob).
    + now rewrite (Hd _ _ _ Hx).
    + now rewrite (Hd _ _ _ Hx).
    + now rewrite (Hd _ _ _ Hx).
    + now destruct (Hu p).
Qed.

Theorem done_grows l : forall st st', t_run P C T bd l st = Ok st' -> exists d, t_done st' = t_done st ++ d.
Proof.
  induction l as [|ev l IH]; intros st st'; cbn [t_run].
  - intros [= <-]. exists []. now rewrite app_nil_r.
  - destruct (t_step P C T bd ev st) as [st1| | |] eqn:E; try discriminate. cbn [bind]. intros H.
    destruct (IH _ _ H) as [d ->]. cut (exists d', t_done st1 = t_done st ++ d').
    { intros [d' ->]. exists (d' ++ d). now rewrite app_assoc. }
    destruct ev as [j x|j]; cbn [t_step] in E.
    + destruct (nth_error (t_places st) j) as [[]|]; try (injection E as <-; exists []; now rewrite app_nil_r). apply begin_result in E. destruct x as [c|t v].
      * destruct E as (y & _ & _ & Ed & _). rewrite Ed. exists []. now rewrite app_nil_r.
      * destruct E as (_ & _ & Ed). rewrite Ed. eauto.
    + destruct (nth_error (t_places st) j) as [x|] eqn:Ex; [|injection E as <-; exists []; now rewrite app_nil_r].
      destruct (call_at x) as [c|] eqn:Cx.
      2:{ assert (x = Outside) as -> by (destruct x; (reflexivity || discriminate)). injection E as <-. exists []. now rewrite app_nil_r. }
      destruct (go_result _ _ _ _ _ Ex Cx E) as [(cut & _ & _ & _ & ->)|[(y & _ & _ & ->)| ->]]; eauto; exists []; now rewrite app_nil_r.
Qed.

(** ** Panics in [fill_bytes] *)
Definition managed (x : place) : option (call * addr) :=
  match x with
  | Between c p _ _ => Some (c, p)
  | Locked c p _ _ _ => Some (c, p)
  | Unwinding c p => Some (c, p)
  | _ => None
  end.
Definition blamed (n : nat) (l : list event) (p : addr) : Prop :=
  exists j c, began P C T bd n l j c p /\ fails bd c.
Lemma began_more n l l' j c p : began P C T bd n l j c p -> began P C T bd n (l ++ l') j c p.
Proof.
  intros (l1 & l2 & st & v & -> & H). exists l1, (l2 ++ l'), st, v. split; [now rewrite <- app_assoc|exact H].
Qed.
Lemma blamed_more n l l' p : blamed n l p -> blamed n (l ++ l') p.
Proof. intros (j & c & H & F). exists j, c. split; [now apply began_more|exact F]. Qed.
Lemma poison_in bad p i : In i (poison bad p) -> In i bad \/ p = At i.
Proof.
  unfold poison. destruct (poisoned bad p); [auto|]. destruct p as [| |m]; auto. intros [<-|H]; auto.
Qed.
Lemma ongoing_fails s h c p q m k : ongoing P C bd s h c p q (Draw m k) -> receive (c_src c) q m = None -> fails bd c.
Proof.
  intros (v & N & f & Eo & En & Ea & _ & _ & [[a Hk]|(_ & Hq & Hm & _)]) Er; [discriminate|].
  destruct (receive_not _ _ _ Er) as (i & Hi & Hs). exists v, N, (q + i)%nat. split; [exact En|]. split; [lia|exact Hs].
Qed.
Theorem cuts n l : forall st, t_reached P C T bd n l st ->
  (forall j x c p, nth_error (t_places st) j = Some x -> managed x = Some (c, p) -> began P C T bd n l j c p) /\
  (forall i, In i (t_bad st) -> blamed n l (At i)) /\
  (forall j c p, nth_error (t_places st) j = Some (Unwinding c p) -> blamed n l p) /\
  (forall f p, In f (t_done st) -> f_cut f = Some p ->
     exists c, f_action f = ACall c /\ began P C T bd n l (f_thread f) c p /\ blamed n l p).
Proof.
  induction l as [|ev l IH] using rev_ind; intros st Hr.
  - destruct Hr as [_ [= <-]]. cbn [t_start t_places t_bad t_done].
    assert (forall j x, nth_error (repeat Outside n) j = Some x -> x = Outside) as Ho by (intros j x H; apply nth_error_In, repeat_spec in H; exact H).
    split; [|split; [intros i []|split; [|intros f p []]]].
    + intros j x c p H. apply Ho in H as ->. discriminate.
    + intros j c p H. now apply Ho in H.
  - apply t_reached_snoc in Hr as (st0 & Hr & Hm & E). destruct (IH st0 Hr) as (H1 & H2 & H3 & H4). clear IH.
    pose proof (t_reached_inv P HP C T bd n l st0 Hr) as Hi.
    assert (forall i, In i (t_bad st0) -> blamed n (l ++ [ev]) (At i)) as H2' by (intros i Hin; now apply blamed_more, H2).
    assert (forall f p, In f (t_done st0) -> f_cut f = Some p ->
      exists c, f_action f = ACall c /\ began P C T bd n (l ++ [ev]) (f_thread f) c p /\ blamed n (l ++ [ev]) p) as H4'.
    { intros f p Hin Hc. destruct (H4 f p Hin Hc) as (c & A & B & D). exists c. split; [exact A|]. split; [now apply began_more|now apply blamed_more]. }
    destruct ev as [j x|j]; cbn [t_step] in E.
    + rewrite (proj1 Hm) in E. pose proof (begin_result _ _ _ _ E) as B. destruct x as [c|t v].
      * destruct B as (y & Cy & Ep & Ed & Eb & Es & Hu). rewrite Ep, Ed, Eb. split; [|split; [exact H2'|split; [|exact H4']]].
        -- intros i z c' p Hz Mz. apply put_cases in Hz as [[-> ->]|[_ Hz]]; [|now apply began_more, (H1 i z)].
           cbn [begin] in E. destruct (asks C (c_api c) (t_store st0) (c_env c)) as [[p' f]|] eqn:Ea.
           ++ assert (exists r, st = move j (Between c p' 0 r) st0) as [r ->].
              { destruct (let* m := rust_manager (t_heap st0) p' in f m); inversion E; eauto. }
              destruct (asks_object C bd _ _ _ _ _ _ Ea) as (v & _ & Eo & Epp & _).
              assert (y = Between c p' 0 r) as ->.
              { pose proof (put_same j y _ _ (proj1 Hm)) as S1. rewrite <- Ep in S1. cbn [move t_places] in S1.
                rewrite (put_same j _ _ _ (proj1 Hm)) in S1. congruence. }
              injection Mz as <- <-. exists l, [], st0, v. split; [reflexivity|]. split; [exact (proj2 Hr)|]. split; [exact Eo|congruence].
           ++ injection E as <-. assert (y = Plain c (t_store st0)) as ->.
              { pose proof (put_same j y _ _ (proj1 Hm)) as S1. rewrite <- Ep in S1. cbn [move t_places] in S1.
                rewrite (put_same j _ _ _ (proj1 Hm)) in S1. congruence. }
              discriminate.
        -- intros i c' p Hz. apply put_cases in Hz as [[_ Hz]|[_ Hz]]; [now destruct (Hu c' p)|]. now apply blamed_more, (H3 i c').
      * destruct B as (Ep & Eb & Ed). rewrite Ep, Ed, Eb. split; [|split; [exact H2'|split]].
        -- intros i z c' p Hz Mz. now apply began_more, (H1 i z).
        -- intros i c' p Hz. now apply blamed_more, (H3 i c').
        -- intros f p Hin. apply in_app_iff in Hin as [Hin|[<-|[]]]; [now apply H4'|discriminate].
    + destruct (nth_error (t_places st0) j) as [x|] eqn:Ex.
      2:{ injection E as <-. split; [|split; [exact H2'|split; [|exact H4']]].
          - intros i z c' p Hz Mz. now apply began_more, (H1 i z).
          - intros i c' p Hz. now apply blamed_more, (H3 i c'). }
      assert (forall y, t_places st = put j y (t_places st0) -> (forall c p, managed y = Some (c, p) -> managed x = Some (c, p)) ->
        forall i z c p, nth_error (t_places st) i = Some z -> managed z = Some (c, p) -> began P C T bd n (l ++ [Go j]) i c p) as K1.
      { intros y Ep My i z c p Hz Mz. rewrite Ep in Hz. apply put_cases in Hz as [[-> ->]|[_ Hz]].
        - apply began_more, (H1 j x); auto.
        - now apply began_more, (H1 i z). }
      assert (forall y, t_places st = put j y (t_places st0) -> (forall c p, y = Unwinding c p -> blamed n (l ++ [Go j]) p) ->
        forall i c p, nth_error (t_places st) i = Some (Unwinding c p) -> blamed n (l ++ [Go j]) p) as K3.
      { intros y Ep Hy i c p Hz. rewrite Ep in Hz. apply put_cases in Hz as [[_ Hz]|[_ Hz]]; [now apply (Hy c)|]. now apply blamed_more, (H3 i c). }
      assert (forall c cut r, finish T j c cut r st0 = Ok st ->
        (forall p, cut = Some p -> began P C T bd n (l ++ [Go j]) j c p /\ blamed n (l ++ [Go j]) p) ->
        (forall i z c p, nth_error (t_places st) i = Some z -> managed z = Some (c, p) -> began P C T bd n (l ++ [Go j]) i c p) /\
        (forall i, In i (t_bad st) -> blamed n (l ++ [Go j]) (At i)) /\
        (forall i c p, nth_error (t_places st) i = Some (Unwinding c p) -> blamed n (l ++ [Go j]) p) /\
        (forall f p, In f (t_done st) -> f_cut f = Some p ->
           exists c, f_action f = ACall c /\ began P C T bd n (l ++ [Go j]) (f_thread f) c p /\ blamed n (l ++ [Go j]) p)) as Kf.
      { intros c cut r Ef Hcut. apply finish_result in Ef as (Ep & Ed & Eb & _). split; [|split; [|split]].
        - apply (K1 Outside Ep). discriminate.
        - rewrite Eb. exact H2'.
        - apply (K3 Outside Ep). discriminate.
        - intros f p Hin Hc. rewrite Ed in Hin. apply in_app_iff in Hin as [Hin|[<-|[]]]; [now apply H4'|].
          cbn [f_action f_thread f_cut] in *. exists c. split; [reflexivity|]. now apply Hcut. }
      destruct x as [|c s0|c p q [r|m k]|c p q m k|c p]; cbn [go] in E.
      * injection E as <-. split; [|split; [exact H2'|split; [|exact H4']]].
        -- intros i z c' p Hz Mz. now apply began_more, (H1 i z).
        -- intros i c' p Hz. now apply blamed_more, (H3 i c').
      * apply (Kf c None _ E). discriminate.
      * destruct (alive _ _); [|discriminate]. apply (Kf c None _ E). discriminate.
      * destruct (negb _); [discriminate|]. destruct (locked _ _).
        { injection E as <-. split; [|split; [exact H2'|split; [|exact H4']]].
          - intros i z c' p' Hz Mz. now apply began_more, (H1 i z).
          - intros i c' p' Hz. now apply blamed_more, (H3 i c'). }
        destruct (poisoned (t_bad st0) p) eqn:Epo; injection E as <-.
        -- split; [apply (K1 (Unwinding c p) eq_refl); auto|]. split; [exact H2'|]. split; [|exact H4'].
           apply (K3 (Unwinding c p) eq_refl). intros c' p' [= <- <-]. destruct p as [| |i]; try discriminate.
           now apply H2', poisoned_in.
        -- split; [apply (K1 (Locked c p q m k) eq_refl); auto|]. split; [exact H2'|]. split; [|exact H4'].
           apply (K3 (Locked c p q m k) eq_refl). discriminate.
      * destruct (negb _); [discriminate|]. destruct (receive (c_src c) q m) as [b|] eqn:Er; injection E as <-.
        -- split; [apply (K1 (Between c p (q + m) (k b)) eq_refl); auto|]. split; [exact H2'|]. split; [|exact H4'].
           apply (K3 (Between c p (q + m) (k b)) eq_refl). discriminate.
        -- assert (blamed n (l ++ [Go j]) p) as Hb.
           { exists j, c. split; [apply began_more, (H1 j _ c p Ex); reflexivity|].
             exact (ongoing_fails _ _ _ _ _ _ _ (ti_places _ _ _ _ _ Hi j _ Ex) Er). }
           split; [apply (K1 (Unwinding c p) eq_refl); auto|]. split; [|split; [|exact H4']].
           ++ cbn [move poisoning unlocking t_bad]. intros i Hin. apply poison_in in Hin as [Hin| ->]; [now apply H2'|exact Hb].
           ++ apply (K3 (Unwinding c p) eq_refl). intros c' p' [= <- <-]. exact Hb.
      * apply (Kf c (Some p) _ E). intros p' [= <-]. split; [apply began_more, (H1 j _ c p Ex); reflexivity|].
        apply blamed_more, (H3 j c p Ex).
Qed.
Theorem cut_blamed n l st f p : t_reached P C T bd n l st -> In f (t_done st) -> f_cut f = Some p ->
  exists c j c', f_action f = ACall c /\ began P C T bd n l (f_thread f) c p /\ began P C T bd n l j c' p /\ fails bd c'.
Proof.
  intros Hr Hin Hc. destruct (cuts n l st Hr) as (_ & _ & _ & H). destruct (H f p Hin Hc) as (c & A & B & (j & c' & D & F)).
  exists c, j, c'. auto.
Qed.
Theorem not_cut n l st : t_reached P C T bd n l st -> (forall j c p, began P C T bd n l j c p -> ~ fails bd c) ->
  forall f, In f (t_done st) -> f_cut f = None.
Proof.
  intros Hr Hw f Hin. destruct (f_cut f) as [p|] eqn:E; [exfalso|reflexivity].
  destruct (cut_blamed n l st f p Hr Hin E) as (c & j & c' & _ & _ & B & F). now apply (Hw j c' p B).
Qed.

(** ** One call at a time *)
Lemma put_put {A} i (x y : A) l : put i x (put i y l) = put i x l.
Proof. revert i. induction l as [|z l IH]; intros [|i]; cbn [put]; try reflexivity. now rewrite IH. Qed.
Lemma t_run_more i m st : t_run P C T bd (repeat (Go i) (S m)) st =
  let* st := t_step P C T bd (Go i) st in t_run P C T bd (repeat (Go i) m) st.
Proof. reflexivity. Qed.
Lemma finish_seen i c cut r st : rmap seen (finish T i c cut r st) =
  (let* '(y, h) := handle T (env_panic (c_env c)) r (t_heap st) in
   let '(_, s) := response y (c_out c) (c_err c) (t_store st) in Ok (s, h, t_bad st)).
Proof.
  unfold finish. destruct (handle T (env_panic (c_env c)) r (t_heap st)) as [[y h']| | |]; cbn [bind rmap]; try reflexivity.
  destruct (response y (c_out c) (c_err c) (t_store st)). reflexivity.
Qed.
Lemma step_at i y x st : nth_error (t_places st) i = Some y -> t_step P C T bd (Go i) (move i x st) = go P C T bd i x (move i x st).
Proof. intros Ey. cbn [t_step]. change (t_places (move i x st)) with (put i x (t_places st)). now rewrite (put_same i x y _ Ey). Qed.
Lemma run_last i st : t_run P C T bd (repeat (Go i) 1) st = t_step P C T bd (Go i) st.
Proof. rewrite t_run_more. destruct (t_step P C T bd (Go i) st); reflexivity. Qed.
Lemma alone_run i y c p k : forall st q, nth_error (t_places st) i = Some y -> t_held st = [] ->
  (exists a, k = Ret a) \/ (exists a, p = At a) -> alive (t_heap st) p = true ->
  exists m, rmap seen (t_run P C T bd (repeat (Go i) m) (move i (Between c p q k) st)) =
    match attempt k (c_src c) q (poisoned (t_bad st) p) with
    | Some r => rmap seen (finish T i c None (give r (t_heap st)) st)
    | None => rmap seen (finish T i c (Some p) Panic (poisoning p st))
    end.
Proof.
  induction k as [a|n k IH]; intros st q Ey Eh Hk Ha.
  - exists 1%nat. rewrite run_last, (step_at i y _ _ Ey). unfold go. change (t_heap (move i (Between c p q (Ret a)) st)) with (t_heap st).
    rewrite Ha. cbn [attempt]. rewrite !finish_seen. reflexivity.
  - destruct Hk as [[a Hk]|[a ->]]; [discriminate|]. cbn [attempt].
    assert (t_step P C T bd (Go i) (move i (Between c (At a) q (Draw n k)) st) =
      if poisoned (t_bad st) (At a) then Ok (move i (Unwinding c (At a)) st) else Ok (move i (Locked c (At a) q n k) (locking (At a) st))) as E1.
    { rewrite (step_at i y _ _ Ey). unfold go. change (t_heap (move i (Between c (At a) q (Draw n k)) st)) with (t_heap st). rewrite Ha. cbn [negb].
      change (t_held (move i (Between c (At a) q (Draw n k)) st)) with (t_held st). rewrite Eh.
      change (locked [] (At a)) with false. cbv iota.
      change (t_bad (move i (Between c (At a) q (Draw n k)) st)) with (t_bad st).
      destruct (poisoned (t_bad st) (At a)); unfold move, locking; cbn [t_store t_heap t_bad t_held t_places t_done]; now rewrite put_put. }
    destruct (poisoned (t_bad st) (At a)) eqn:Ep.
    + exists 2%nat. rewrite t_run_more, E1. cbn [bind]. rewrite run_last, (step_at i y _ _ Ey). unfold go. rewrite !finish_seen.
      cbn [move poisoning t_heap t_store t_bad]. unfold poison. rewrite Ep. reflexivity.
    + set (st1 := move i (Locked c (At a) q n k) (locking (At a) st)) in *.
      assert (t_step P C T bd (Go i) st1 = match receive (c_src c) q n with
        | Some b => Ok (move i (Between c (At a) (q + n) (k b)) st)
        | None => Ok (move i (Unwinding c (At a)) (poisoning (At a) st)) end) as E2.
      { unfold st1. rewrite (step_at i y _ (locking (At a) st) Ey). fold st1. unfold go. change (t_heap st1) with (t_heap st). rewrite Ha. cbn [negb].
        unfold st1, move, poisoning, unlocking, locking. cbn [t_store t_heap t_bad t_held t_places t_done lock_of app filter existsb].
        rewrite Eh, N.eqb_refl. cbn [negb orb filter]. destruct (receive (c_src c) q n); now rewrite put_put. }
      destruct (receive (c_src c) q n) as [b|] eqn:Er.
      * destruct (IH b st (q + n)%nat Ey Eh ltac:(right; eauto) Ha) as [m Em]. rewrite Ep in Em. exists (S (S m)).
        rewrite t_run_more, E1. cbn [bind]. rewrite t_run_more, E2. exact Em.
      * exists 3%nat. rewrite t_run_more, E1. cbn [bind]. rewrite t_run_more, E2. cbn [bind].
        rewrite run_last, (step_at i y _ (poisoning (At a) st) Ey). unfold go. rewrite !finish_seen. reflexivity.
Qed.
Theorem one_by_one i x st : nth_error (t_places st) i = Some Outside -> t_held st = [] ->
  exists m, rmap seen (t_run P C T bd (Begin i x :: repeat (Go i) m) st) = f_step P C T bd (step_of x) (seen st).
Proof.
  intros Eo Eh. destruct x as [c|t v].
  - cbn [t_run t_step step_of seen f_step]. rewrite Eo. cbn [begin]. unfold f_entry, f_body.
    destruct (asks C (c_api c) (t_store st) (c_env c)) as [[p f]|] eqn:Ea.
    + unfold with_source. destruct (rust_manager (t_heap st) p) as [M|e| |] eqn:Em; cbn [bind fst snd].
      * assert (alive (t_heap st) p = true /\ exists a, p = At a) as [Ha Hp].
        { revert Em. unfold rust_manager. destruct p as [| |a]; cbn [is_null read alive]; try discriminate.
          destruct (get a (live (t_heap st))) as [[]|]; try discriminate. eauto. }
        destruct (f M) as [op|e| |]; cbn [lift fst snd].
        -- destruct (alone_run i Outside c p (op_proc P op) st 0 Eo Eh (or_intror Hp) Ha) as [m Em']. exists m. cbn [bind]. rewrite Em'.
           destruct (attempt _ _ _ _) as [r|]; cbn [fst snd]; rewrite finish_seen; cbn [give bind].
           ++ destruct (handle T _ (give r (t_heap st)) (t_heap st)) as [[y h']| | |]; cbn [bind]; try reflexivity. destruct (response y _ _ _); reflexivity.
           ++ cbn [poisoning t_heap t_store t_bad]. destruct (handle _ _ _ _) as [[y h']| | |]; cbn [bind]; try reflexivity.
              destruct (response y _ _ _); reflexivity.
        -- destruct (alone_run i Outside c p (Ret (Err e)) st 0 Eo Eh ltac:(left; eauto) Ha) as [m Em']. exists m. cbn [bind]. rewrite Em'.
           cbn [attempt]. rewrite finish_seen. destruct (handle _ _ _ _) as [[y h']| | |]; cbn [bind]; try reflexivity. destruct (response y _ _ _); reflexivity.
        -- destruct (alone_run i Outside c p (Ret Panic) st 0 Eo Eh ltac:(left; eauto) Ha) as [m Em']. exists m. cbn [bind]. rewrite Em'.
           cbn [attempt]. rewrite finish_seen. destruct (handle _ _ _ _) as [[y h']| | |]; cbn [bind]; try reflexivity. destruct (response y _ _ _); reflexivity.
        -- exists 0%nat. reflexivity.
      * exfalso. revert Em. unfold rust_manager. destruct (is_null p); [discriminate|]. destruct (read _ _) as [[]|]; discriminate.
      * assert (p = Null) as ->.
        { revert Em. unfold rust_manager. destruct p; [reflexivity|discriminate|]. cbn [is_null]. destruct (read _ _) as [[]|]; discriminate. }
        cbn [lift]. destruct (alone_run i Outside c Null (Ret Panic) st 0 Eo Eh ltac:(left; eauto) eq_refl) as [m Em']. exists m. cbn [bind]. rewrite Em'.
        cbn [attempt]. rewrite finish_seen. destruct (handle _ _ _ _) as [[y h']| | |]; cbn [bind]; try reflexivity. destruct (response y _ _ _); reflexivity.
      * exists 0%nat. reflexivity.
    + exists 1%nat. change (let* st0 := Ok (move i (Plain c (t_store st)) st) in t_run P C T bd (repeat (Go i) 1) st0)
        with (t_run P C T bd (repeat (Go i) 1) (move i (Plain c (t_store st)) st)).
      rewrite run_last, (step_at i Outside _ _ Eo). unfold go. rewrite finish_seen. cbn [move t_heap t_store t_bad].
      destruct (handle _ _ _ _) as [[y h']| | |]; cbn [bind]; try reflexivity. destruct (response y _ _ _); reflexivity.
  - exists 0%nat. cbn [t_run repeat t_step step_of f_step seen]. rewrite Eo. cbn [begin].
    destruct (delete t v (t_store st) (t_heap st)) as [[s h]| | |]; reflexivity.
Qed.
Theorem quiet_free n l st : t_reached P C T bd n l st -> quiet st -> t_held st = [].
Proof.
  intros Hr Hq. destruct (t_held st) as [|i h] eqn:E; [reflexivity|exfalso].
  destruct (lo_thread _ _ (ti_locks _ _ _ _ _ (t_reached_inv P HP C T bd n l st Hr)) i) as (j & c & q & m & k & Ej); [rewrite E; now left|].
  now apply Hq in Ej.
Qed.
Theorem alone n l st i x : t_reached P C T bd n l st -> quiet st -> (i < n)%nat ->
  exists m, rmap seen (t_run P C T bd (Begin i x :: repeat (Go i) m) st) = f_step P C T bd (step_of x) (seen st).
Proof.
  intros Hr Hq Hi. apply one_by_one; [|exact (quiet_free n l st Hr Hq)].
  destruct (nth_error (t_places st) i) as [y|] eqn:E; [now rewrite (Hq i y E)|].
  apply nth_error_None in E. destruct (all_begun n l st Hr) as [Hl _]. lia.
Qed.
End P.

(** ** Checking the contract on an example *)
Section Check.
Variable P : prims.
Variable C : data_config.
Variable T : texts.
Variable bd : build.
Definition weqb (a b : ty * var) : bool := (if ty_eq_dec (fst a) (fst b) then true else false) && (snd a =? snd b).
Definition clashb (x y : action) : bool :=
  existsb (fun w => existsb (weqb w) (writes y ++ uses y)) (writes x) || existsb (fun w => existsb (weqb w) (writes y)) (uses x).
Definition is_nil {A} (l : list A) : bool := match l with [] => true | _ => false end.
Definition mayb (ev : event) (st : tstate) : bool :=
  match ev with
  | Begin i x =>
    match nth_error (t_places st) i with Some Outside => true | _ => false end &&
    match x with
    | ACall c => true
    | ADelete TString v => negb (is_nil (refs (t_heap st) TString (t_store st TString v)))
    | ADelete TNetworks v => is_nil (refs (t_heap st) TNetworks (t_store st TNetworks v))
    | ADelete _ _ => true
    end &&
    forallb (fun y => match call_at y with Some c => negb (clashb x (ACall c)) | None => true end) (t_places st)
  | Go _ => true
  end.
Definition careb (ev : event) (st : tstate) : bool :=
  match ev with
  | Begin _ (ACall c) => is_nil (refs (t_heap st) (c_ty c) (t_store st (c_ty c) (c_out c))) && is_nil (refs (t_heap st) TError (t_store st TError (c_err c)))
  | _ => true
  end.
Fixpoint alongb (ok : event -> tstate -> bool) (l : list event) (st : tstate) : bool :=
  match l with
  | [] => true
  | ev :: l => ok ev st && match t_step P C T bd ev st with Ok st' => alongb ok l st' | _ => true end
  end.
Definition args_ok (ev : event) : Prop := match ev with Begin _ (ACall c) => env_ok (c_env c) /\ api_ok (c_api c) | _ => True end.
Lemma weqb_eq a b : a = b -> weqb a b = true.
Proof. intros ->. unfold weqb. destruct (ty_eq_dec _ _); [|congruence]. now rewrite N.eqb_refl. Qed.
Lemma clash_b x y : clash x y -> clashb x y = true.
Proof.
  intros [w [[A B]|[A B]]]; unfold clashb; apply orb_true_iff; [left|right]; apply existsb_exists; exists w; (split; [exact A|]);
    apply existsb_exists; exists w; (split; [|now apply weqb_eq]); [apply in_app_iff; exact B|exact B].
Qed.
Lemma is_nil_eq {A} (l : list A) : is_nil l = true -> l = [].
Proof. now destruct l. Qed.
Lemma mayb_ok ev st : args_ok ev -> mayb ev st = true -> may ev st.
Proof.
  destruct ev as [i x|i]; [|exact (fun _ _ => I)]. cbn [args_ok mayb may]. intros Ha H.
  apply andb_true_iff in H as [H H3]. apply andb_true_iff in H as [H1 H2]. split; [|split].
  - destruct (nth_error (t_places st) i) as [[]|]; (reflexivity || discriminate).
  - destruct x as [c|[] v]; try exact I; try exact Ha.
    + intros E. now rewrite E in H2.
    + now apply is_nil_eq.
  - intros j c (y & Ey & Cy) Hc. rewrite forallb_forall in H3. specialize (H3 y (nth_error_In _ _ Ey)). rewrite Cy in H3.
    rewrite (clash_b _ _ Hc) in H3. discriminate.
Qed.
Lemma careb_ok ev st : args_ok ev -> careb ev st = true -> with_care ev st.
Proof.
  destruct ev as [i [c|t v]|i]; try exact (fun _ _ => I). cbn [careb with_care]. intros _ H. apply andb_true_iff in H as [A B].
  split; now apply is_nil_eq.
Qed.
Lemma alongb_ok (ok : event -> tstate -> Prop) b : (forall ev st, args_ok ev -> b ev st = true -> ok ev st) ->
  forall l, Forall args_ok l -> forall st, alongb b l st = true -> t_along P C T bd ok l st.
Proof.
  intros Hb. induction 1 as [|ev l Ha _ IH]; intros st; cbn [alongb t_along]; [exact (fun _ => I)|].
  intros H. apply andb_true_iff in H as [A B]. split; [now apply Hb|]. intros st' E. rewrite E in B. now apply IH.
Qed.
End Check.
