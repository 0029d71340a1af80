(** Theorems about C programs with threads and raw arguments. *)
From Coq Require Import Strings.String.
From Verif Require Import Base Str Prims Bip39 Dict KeyPath Errors FMap Crypt Data XPrv Keys Mnemonic
  Keychain Manager Features ManagerSpec Display Conc ConcSpec Ffi FfiSpec FfiCallSpec Raw RawSpec RawFacts RawCheck Failing FailingSpec.
From Verif Require Import FMapFacts ManagerFacts MnemonicFacts LifeFacts FfiFacts FfiTheorems FailingFacts.
From Verif Require Import Threads ThreadsSpec ThreadsFacts ThreadsTheorems RawThreads RawThreadsSpec RawThreadsFacts.
Open Scope list_scope.
Local Strategy 1000 [XPrv.derive XPrv.derive_loop XPrv.derive_step XPrv.xprv_from_data].

Lemma given_cases h c t (a : raw_api t) : (exists a', given a h c = Ok a') \/ given a h c = Undef.
Proof.
  assert (forall v, (exists x, reference (E := Empty_set) v = Ok x) \/ reference (E := Empty_set) v = Undef) as Hr.
  { intros [x|]; [left; now exists x|now right]. }
  assert (forall n, (exists x, raw_language (E := Empty_set) n = Ok x) \/ raw_language (E := Empty_set) n = Undef) as Hg.
  { intros n. unfold raw_language. destruct n as [|p]; [cbn; eauto|]. do 3 (destruct p as [p|p|]; [| |cbn; eauto]); cbn; eauto. }
  assert (forall n, (exists x, raw_bool (E := Empty_set) n = Ok x) \/ raw_bool (E := Empty_set) n = Undef) as Hb.
  { intros n. destruct n as [|[p|p|]]; cbn; eauto. }
  assert (forall p n, (exists x, slice (E := Empty_set) h c p n = Ok x) \/ slice (E := Empty_set) h c p n = Undef) as Hs.
  { intros p n. destruct (slice_spec h c (E := Empty_set) p n) as [(b & _ & E)|[_ E]]; eauto. }
  assert (forall p, (exists x, c_string (E := Empty_set) h c p = Ok x) \/ c_string (E := Empty_set) h c p = Undef) as Ht.
  { intros p. destruct (string_spec h c (E := Empty_set) p) as [(b & _ & E)|[_ E]]; eauto. }
  assert (forall A B (m : res Empty_set A) (f : A -> res Empty_set B), ((exists x, m = Ok x) \/ m = Undef) ->
    (forall x, (exists y, f x = Ok y) \/ f x = Undef) -> (exists y, bind m f = Ok y) \/ bind m f = Undef) as Hbind.
  { intros A B m f [[x ->]| ->] Hf; cbn [bind]; auto. }
  destruct a; cbn [given]; repeat (apply Hbind; [auto|intros ?]); eauto.
Qed.

Section P.
Variable P : prims.
Hypothesis HP : prims_ok P.
Variable C : data_config.
Variable T : texts.
Variable bd : build.

Theorem r_threads n l st : r_reached P C T bd n l st ->
  exists l', decoded P C T bd n l l' /\ t_reached P C T bd n l' (r_state st) /\
    (r_along P C T bd raw_with_care l (r_start n) -> t_along P C T bd with_care l' (t_start n)).
Proof. intros [Ha E]. destruct (r_run_ok P HP C T bd n l Ha) as [_ H]. now destruct (H st E). Qed.
Theorem r_reached_inv n l st : r_reached P C T bd n l st -> rinv P C T bd st.
Proof. intros [Ha E]. destruct (r_run_ok P HP C T bd n l Ha) as [_ H]. now destruct (H st E). Qed.
Theorem decoded_one n l l1 l2 : decoded P C T bd n l l1 -> decoded P C T bd n l l2 -> l1 = l2.
Proof.
  intros H. revert l2. induction H as [|l l' st i rc c H IH E Hs|l l' i t v H IH|l l' i k b H IH|l l' i k H IH|l l' i H IH]; intros l2 H2;
    inversion H2 as [E0|m m' st1 i1 rc1 c1 H1 E1 S1 E0|m m' i1 t1 v1 H1 E0|m m' i1 k1 b1 H1 E0|m m' i1 k1 H1 E0|m m' i1 H1 E0];
    try reflexivity; try (now destruct (app_cons_not_nil _ _ _ E0)); try (symmetry in E0; now destruct (app_cons_not_nil _ _ _ E0));
    destruct (app_inj_tail _ _ _ _ E0) as [El Ex]; try discriminate Ex; subst m; specialize (IH _ H1); try exact IH; try subst m'.
  - injection Ex as -> ->. assert (st1 = st) as -> by congruence. f_equal. f_equal. f_equal. f_equal.
    destruct Hs as (a & o & e & Hl & Eo & Ee & ->). destruct S1 as (a' & o' & e' & Hl' & Eo' & Ee' & ->).
    apply leads_given in Hl, Hl'. congruence.
  - now injection Ex as -> -> ->.
  - now injection Ex as ->.
Qed.
Theorem r_safe n l : r_along P C T bd raw_may l (r_start n) ->
  r_run P C T bd l (r_start n) <> Undef /\
  forall st, r_run P C T bd l (r_start n) = Ok st ->
    let s := t_store (r_state st) in let h := t_heap (r_state st) in
    reached P C T bd (s, h) /\
    (r_along P C T bd raw_with_care l (r_start n) ->
       (forall i, get i (live h) <> None -> exists t v, In i (refs h t (s t v))) /\
       ((forall t v, refs h t (s t v) = []) -> live h = [])).
Proof.
  intros Ha. destruct (r_run_ok P HP C T bd n l Ha) as [Hu H]. split; [exact Hu|]. intros st E. cbv zeta.
  destruct (H st E) as (_ & l' & _ & Hr & Hc). split; [now apply (t_program P HP) with n l'|]. intros Hw.
  destruct Hr as [Hm Er]. destruct (t_safe P HP C T bd n l' Hm) as [_ Hs]. apply (Hs _ Er), Hc, Hw.
Qed.
Theorem r_stable n l st : r_reached P C T bd n l st ->
  (forall j c, running (r_state st) j c -> exists rc, nth_error (r_calls st) j = Some (Some rc) /\
     stands_for (t_heap (r_state st)) (r_own st) rc c) /\
  (quiet (r_state st) -> in_use st = []).
Proof.
  intros Hr. pose proof (r_reached_inv n l st Hr) as Hi. split.
  - intros j c (x & Ex & Cx). destruct (ri_places _ _ _ _ _ Hi j x Ex) as [rc Erc]; [intros ->; discriminate|].
    exists rc. split; [exact Erc|]. destruct (ri_calls _ _ _ _ _ Hi j rc Erc) as (x' & c' & Ex' & Cx' & Hs). congruence.
  - intros Hq. unfold in_use. rewrite flat_map_concat_map. apply (proj2 (concat_nil_Forall _)), Forall_forall. intros y Hy.
    apply in_map_iff in Hy as ([rc|] & <- & Hy); [|reflexivity]. apply In_nth_error in Hy as [j Hj].
    destruct (ri_calls _ _ _ _ _ Hi j rc Hj) as (x & c & Ex & Cx & _). rewrite (Hq j x Ex) in Cx. discriminate.
Qed.

(** ** What the contract is for *)
Theorem r_undefined n l st i : r_reached P C T bd n l st -> nth_error (t_places (r_state st)) i = Some Outside ->
  (forall rc, r_step P C T bd (RBegin i (RACall rc)) st = Undef <->
     r_out rc = None \/ r_err rc = None \/ forall a, ~ leads (t_heap (r_state st)) (r_own st) (r_api rc) a) /\
  (forall k b, r_step P C T bd (RBegin i (RAWrite k b)) st = Undef <-> exists off, In (ROwn k off) (in_use st)) /\
  (forall k, r_step P C T bd (RBegin i (RARelease k)) st = Undef <-> exists off, In (ROwn k off) (in_use st)) /\
  (forall t v st' j rc k off, may (Begin i (ADelete t v)) (r_state st) ->
     r_step P C T bd (RBegin i (RADelete t (Some v))) st = Ok st' ->
     nth_error (r_calls st) j = Some (Some rc) -> In (RLib k off) (pointers (r_api rc)) ->
     In k (refs (t_heap (r_state st)) t (t_store (r_state st) t v)) -> r_step P C T bd (RGo j) st' = Undef).
Proof.
  intros Hr Eo. pose proof (r_reached_inv n l st Hr) as Hi. pose proof (ri_tinv _ _ _ _ _ Hi) as Ht.
  assert (forall k, own_used st k = true <-> exists off, In (ROwn k off) (in_use st)) as Hown.
  { intros k. split; [apply own_used_in|]. intros [off H]. apply existsb_exists. exists (ROwn k off). split; [exact H|apply N.eqb_refl]. }
  cbn [r_step]. rewrite (proj2 (is_outside_true _ _) Eo). cbn [negb]. split; [|split; [|split]].
  - intros rc. destruct (r_out rc) as [out|]; [|split; [auto|reflexivity]]. destruct (r_err rc) as [err|]; [|split; [auto|reflexivity]].
    cbn [reference bind]. destruct (given_cases (t_heap (r_state st)) (r_own st) _ (r_api rc)) as [[a Ea]|Ea]; rewrite Ea; cbn [bind].
    + split.
      * intros E. exfalso. revert E. cbn [t_step]. rewrite Eo. cbn [begin c_ty c_api c_env].
        destruct (asks C a (t_store (r_state st)) (r_env rc)) as [[p f]|] eqn:Ek; [|cbn [bind]; discriminate].
        destruct (ongoing_begins P HP C T bd _ _ {| c_api := a; c_out := out; c_err := err; c_env := r_env rc; c_src := r_src rc |} p f
          (ti_reached _ _ _ _ _ Ht) Ek) as [Hu _].
        destruct (let* m := rust_manager (t_heap (r_state st)) p in f m); cbn [bind]; try discriminate. now destruct Hu.
      * intros [[=]|[[=]|H]]. exfalso. apply (H a). now apply given_leads.
    + split; [|reflexivity]. intros _. right. right. intros a Hl. apply leads_given in Hl. congruence.
  - intros k b. rewrite <- Hown. destruct (own_used st k); split; (reflexivity || discriminate).
  - intros k. rewrite <- Hown. destruct (own_used st k); split; (reflexivity || discriminate).
  - intros t v st' j rc k off Hm E Ej Hp Hk. cbn [reference bind t_step] in E. rewrite Eo in E. cbn [begin] in E.
    destruct (delete_step P bd t v (t_store (r_state st)) (t_heap (r_state st))) as (s1 & h1 & E1 & _ & W & _).
    + exact (reached_inv P HP C T bd _ (ti_reached _ _ _ _ _ Ht)).
    + intros ->. exact (proj1 (proj2 Hm)).
    + intros ->. exact (proj1 (proj2 Hm)).
    + rewrite E1 in E. cbn [bind] in E. injection E as <-. cbn [r_step r_calls r_state record t_heap r_own]. rewrite Ej.
      destruct (forallb _ _) eqn:Ef; [|reflexivity]. exfalso. rewrite forallb_forall in Ef. specialize (Ef _ Hp).
      cbn [there memory] in Ef. destruct W as (_ & W & _). rewrite (W k Hk) in Ef. discriminate.
Qed.

(** ** Ends *)
Lemma r_gos js : forall st, rinv P C T bd st ->
  (t_run P C T bd (List.map Go js) (r_state st) = Panic /\ r_run P C T bd (List.map RGo js) st = Panic) \/
  exists st', r_run P C T bd (List.map RGo js) st = Ok st' /\ t_run P C T bd (List.map Go js) (r_state st) = Ok (r_state st').
Proof.
  induction js as [|j js IH]; intros st Hi; cbn [List.map r_run t_run]; [right; eauto|].
  destruct (r_step_ok P HP C T bd (RGo j) st Hi I) as ([e|] & He & Hs); cbn [as_event] in He; [|contradiction]. subst e.
  destruct Hs as (_ & _ & [[E E']|(st' & E & E' & Hi')]); rewrite E, E'; cbn [bind]; [auto|]. now apply IH.
Qed.
Theorem r_complete n l st : r_reached P C T bd n l st ->
  exists l', Forall (fun ev => exists i, ev = RGo i) l' /\
    (r_run P C T bd (l ++ l') (r_start n) = Panic \/ exists st', r_reached P C T bd n (l ++ l') st' /\ quiet (r_state st')).
Proof.
  intros Hr. pose proof (r_reached_inv n l st Hr) as Hi. destruct (r_threads n l st Hr) as (l1 & _ & Ht & _).
  destruct (complete P HP C T bd n l1 (r_state st) Ht) as (l2 & Hg & Hl2).
  assert (exists js, l2 = List.map Go js) as [js ->].
  { clear Hl2. induction Hg as [|ev l2 [i ->] _ [js ->]]; [now exists []|now exists (i :: js)]. }
  exists (List.map RGo js). split; [apply Forall_forall; intros ev H; apply in_map_iff in H as (i & <- & _); eauto|].
  destruct Hr as [Ha E]. destruct Ht as [Hm Et]. rewrite r_run_app, E. cbn [bind].
  destruct (r_gos js st Hi) as [[_ E']|(st' & E' & Et')]; [now left|right].
  exists st'. split.
  - split.
    + apply r_along_app. split; [exact Ha|]. intros st1 _. clear. revert st1. induction js as [|j js IH]; intros st1; [exact I|].
      split; [exact I|]. intros st2 _. apply IH.
    + now rewrite r_run_app, E.
  - destruct Hl2 as [Hp|(st2 & [_ E2] & Hq)].
    + rewrite t_run_app, Et in Hp. cbn [bind] in Hp. congruence.
    + rewrite t_run_app, Et in E2. cbn [bind] in E2. assert (st2 = r_state st') as <- by congruence. exact Hq.
Qed.
End P.

(** ** Checking the contract on an example *)
Section Check.
Variable P : prims.
Variable C : data_config.
Variable T : texts.
Variable bd : build.
Definition raw_mayb (ev : raw_event) (st : rstate) : bool :=
  let t := r_state st in
  match ev with
  | RBegin i (RACall rc) =>
    match r_out rc, r_err rc, given (r_api rc) (t_heap t) (r_own st) with
    | Some out, Some err, Ok a => mayb (Begin i (ACall {| c_api := a; c_out := out; c_err := err; c_env := r_env rc; c_src := r_src rc |})) t
    | _, _, _ => false
    end
  | RBegin i (RADelete ty (Some v)) =>
    mayb (Begin i (ADelete ty v)) t &&
    forallb (fun p => match p with RLib k _ => negb (existsb (N.eqb k) (refs (t_heap t) ty (t_store t ty v))) | _ => true end) (in_use st)
  | RBegin _ (RADelete _ None) => false
  | RBegin _ (RAWrite k _) => negb (own_used st k)
  | RBegin _ (RARelease k) => negb (own_used st k)
  | RGo _ => true
  end.
Definition raw_careb (ev : raw_event) (st : rstate) : bool :=
  let t := r_state st in
  match ev with
  | RBegin _ (RACall rc) =>
    match r_out rc, r_err rc with
    | Some out, Some err => is_nil (refs (t_heap t) (r_ty rc) (t_store t (r_ty rc) out)) && is_nil (refs (t_heap t) TError (t_store t TError err))
    | _, _ => true
    end
  | _ => true
  end.
Fixpoint r_alongb (ok : raw_event -> rstate -> bool) (l : list raw_event) (st : rstate) : bool :=
  match l with
  | [] => true
  | ev :: l => ok ev st && match r_step P C T bd ev st with Ok st' => r_alongb ok l st' | _ => true end
  end.
Definition raw_event_ok (ev : raw_event) : Prop :=
  match ev with RBegin _ (RACall rc) => env_ok (r_env rc) /\ raw_api_ok (r_api rc) | _ => True end.
Lemma raw_mayb_ok ev st : raw_event_ok ev -> raw_mayb ev st = true -> raw_may ev st.
Proof.
  destruct ev as [i [rc|t [v|]|k b|k]|i]; cbn [raw_event_ok raw_mayb raw_may]; intros Ha H; try exact I; try discriminate.
  - destruct (r_out rc) as [out|] eqn:Eo; [|discriminate]. destruct (r_err rc) as [err|] eqn:Ee; [|discriminate].
    destruct (given _ _ _) as [a| | |] eqn:Eg; try discriminate. apply given_leads in Eg. eexists. split.
    + exists a, out, err. split; [exact Eg|]. split; [exact Eo|]. split; [exact Ee|reflexivity].
    + apply mayb_ok; [|exact H]. cbn [args_ok c_env c_api]. split; [apply Ha|]. apply (leads_api_ok _ _ _ _ _ Eg), Ha.
  - apply andb_true_iff in H as [A B]. exists v. split; [reflexivity|]. split; [now apply mayb_ok|].
    intros k off Hp Hk. rewrite forallb_forall in B. specialize (B _ Hp). cbn in B. apply negb_true_iff in B.
    enough (existsb (N.eqb k) (refs (t_heap (r_state st)) t (t_store (r_state st) t v)) = true) by congruence.
    apply existsb_exists. exists k. split; [exact Hk|apply N.eqb_refl].
  - intros off Hp. apply negb_true_iff in H. enough (own_used st k = true) by congruence.
    apply existsb_exists. exists (ROwn k off). split; [exact Hp|apply N.eqb_refl].
  - intros off Hp. apply negb_true_iff in H. enough (own_used st k = true) by congruence.
    apply existsb_exists. exists (ROwn k off). split; [exact Hp|apply N.eqb_refl].
Qed.
Lemma raw_careb_ok ev st : raw_event_ok ev -> raw_careb ev st = true -> raw_with_care ev st.
Proof.
  destruct ev as [i [rc|t v|k b|k]|i]; try exact (fun _ _ => I). cbn [raw_careb raw_with_care]. intros _ H out err Eo Ee.
  rewrite Eo, Ee in H. apply andb_true_iff in H as [A B]. split; now apply is_nil_eq.
Qed.
Lemma r_alongb_ok (ok : raw_event -> rstate -> Prop) b : (forall ev st, raw_event_ok ev -> b ev st = true -> ok ev st) ->
  forall l, Forall raw_event_ok l -> forall st, r_alongb b l st = true -> r_along P C T bd ok l st.
Proof.
  intros Hb. induction 1 as [|ev l Ha _ IH]; intros st; cbn [r_alongb r_along]; [exact (fun _ => I)|].
  intros H. apply andb_true_iff in H as [A B]. split; [now apply Hb|]. intros st' E. rewrite E in B. now apply IH.
Qed.
End Check.
