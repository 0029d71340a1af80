(** Proofs about C programs with threads and raw arguments. *)
From Coq Require Import Strings.String.
From Verif Require Import Base Str Prims Bip39 Dict KeyPath Errors FMap Crypt Data XPrv Keys Mnemonic
  Keychain Manager Features ManagerSpec Display Conc ConcSpec Ffi FfiSpec FfiCallSpec Raw RawSpec RawFacts Failing FailingSpec.
From Verif Require Import FMapFacts ManagerFacts MnemonicFacts LifeFacts FfiFacts FfiTheorems FailingFacts.
From Verif Require Import Threads ThreadsSpec ThreadsFacts ThreadsTheorems RawThreads RawThreadsSpec.
Open Scope list_scope.
Local Strategy 1000 [XPrv.derive XPrv.derive_loop XPrv.derive_step XPrv.xprv_from_data].

(** ** Arguments *)
Lemma raw_language_ok {E} l : raw_language (E := E) (c_language_code l) = Ok l.
Proof. now destruct l. Qed.
Lemma raw_language_inv {E} n l : raw_language (E := E) n = Ok l -> n = c_language_code l.
Proof.
  unfold raw_language. destruct n as [|p]; [intros [= <-]; reflexivity|].
  do 3 (destruct p as [p|p|]; try discriminate; try (intros [= <-]; reflexivity)).
Qed.
Lemma raw_bool_ok {E} (f : bool) : raw_bool (E := E) (if f then 1 else 0) = Ok f.
Proof. now destruct f. Qed.
Lemma raw_bool_inv {E} n f : raw_bool (E := E) n = Ok f -> n = if f then 1 else 0.
Proof. destruct n as [|[p|p|]]; cbn; try discriminate; now intros [= <-]. Qed.
Lemma slice_inv {E} h c p len b : slice (E := E) h c p len = Ok b -> readable h c p len b.
Proof. intros H. destruct (slice_spec h c (E := E) p len) as [(b' & Hb & E')|[_ E']]; congruence. Qed.
Lemma string_inv {E} h c p b : c_string (E := E) h c p = Ok b -> terminated h c p b.
Proof. intros H. destruct (string_spec h c (E := E) p) as [(b' & Hb & E')|[_ E']]; congruence. Qed.
Lemma reference_inv {E} v x : reference (E := E) v = Ok x -> v = Some x.
Proof. destruct v; cbn; congruence. Qed.
Lemma leads_given h c t (a : raw_api t) a' : leads h c a a' -> given a h c = Ok a'.
Proof.
  destruct 1; cbn [given reference bind]; rewrite ?raw_language_ok, ?raw_bool_ok; cbn [bind];
    repeat match goal with
    | H : readable _ _ _ _ _ |- _ => apply (slice_ok (E := Empty_set)) in H
    | H : terminated _ _ _ _ |- _ => apply (string_ok (E := Empty_set)) in H
    end;
    repeat match goal with
    | H : slice _ _ _ _ = Ok _ |- _ => rewrite H; clear H; cbn [bind]
    | H : c_string _ _ _ = Ok _ |- _ => rewrite H; clear H; cbn [bind]
    end; reflexivity.
Qed.
Lemma given_leads h c t (a : raw_api t) a' : given a h c = Ok a' -> leads h c a a'.
Proof.
  destruct a; cbn [given]; intros H;
    repeat match type of H with
    | bind ?m _ = Ok _ => let E := fresh "E" in destruct m eqn:E; cbn [bind] in H; try discriminate
    end; injection H as <-;
    repeat match goal with
    | E : reference _ = Ok _ |- _ => apply reference_inv in E; subst
    | E : raw_language _ = Ok _ |- _ => apply raw_language_inv in E; subst
    | E : raw_bool _ = Ok _ |- _ => apply raw_bool_inv in E; subst
    | E : slice _ _ _ _ = Ok _ |- _ => apply slice_inv in E
    | E : c_string _ _ _ = Ok _ |- _ => apply string_inv in E
    end; constructor; assumption.
Qed.
Lemma slice_memory {E} h c h' c' p len : memory h' c' p = memory h c p -> slice (E := E) h' c' p len = slice h c p len.
Proof. intros H. unfold slice. now rewrite H. Qed.
Lemma string_memory {E} h c h' c' p : memory h' c' p = memory h c p -> c_string (E := E) h' c' p = c_string h c p.
Proof. intros H. unfold c_string. now rewrite H. Qed.
Lemma given_memory h c h' c' t (a : raw_api t) : (forall p, In p (pointers a) -> memory h' c' p = memory h c p) ->
  given a h' c' = given a h c.
Proof.
  destruct a; cbn [pointers given]; intros H; try reflexivity;
    repeat match goal with
    | |- context[slice h' c' ?p ?n] => rewrite (slice_memory h c h' c' p n) by (apply H; cbn; auto)
    | |- context[c_string h' c' ?p] => rewrite (string_memory h c h' c' p) by (apply H; cbn; auto)
    end; reflexivity.
Qed.
Lemma slice_there {E} h c p len b : slice (E := E) h c p len = Ok b -> there h c p = true.
Proof. destruct p; cbn [slice there]; try discriminate; try reflexivity; destruct (memory _ _ _); (reflexivity || discriminate). Qed.
Lemma string_there {E} h c p b : c_string (E := E) h c p = Ok b -> there h c p = true.
Proof. unfold c_string, there. destruct p, (memory _ _ _); try discriminate; reflexivity. Qed.
Lemma given_there h c t (a : raw_api t) a' : given a h c = Ok a' -> forallb (there h c) (pointers a) = true.
Proof.
  destruct a; cbn [given pointers]; intros H; try reflexivity;
    repeat match type of H with
    | bind ?m _ = Ok _ => let E := fresh "E" in destruct m eqn:E; cbn [bind] in H; try discriminate
    end; cbn [forallb];
    repeat match goal with
    | E : slice _ _ _ _ = Ok _ |- _ => apply slice_there in E; rewrite E
    | E : c_string _ _ _ = Ok _ |- _ => apply string_there in E; rewrite E
    end; reflexivity.
Qed.
(** Memory that is there stays the same. *)
Lemma there_same h c h' c' p : there h c p = true ->
  (forall i off b, p = RLib i off -> get i (live h) = Some b -> get i (live h') = Some b) ->
  (forall i off, p = ROwn i off -> get i c' = get i c) -> memory h' c' p = memory h c p.
Proof.
  destruct p as [| |i off|i off]; cbn [there memory]; intros Ht Hl Ho; try reflexivity.
  - destruct (get i (live h)) as [b|] eqn:Eg; [|discriminate]. now rewrite (Hl i off b eq_refl Eg).
  - now rewrite (Ho i off eq_refl).
Qed.
Lemma given_same h c h' c' t (a : raw_api t) a' : given a h c = Ok a' ->
  (forall i off b, In (RLib i off) (pointers a) -> get i (live h) = Some b -> get i (live h') = Some b) ->
  (forall i off, In (ROwn i off) (pointers a) -> get i c' = get i c) -> given a h' c' = Ok a'.
Proof.
  intros E Hl Ho. rewrite <- E. apply given_memory. intros p Hp.
  pose proof (given_there _ _ _ _ _ E) as Ht. rewrite forallb_forall in Ht.
  apply there_same; [now apply Ht| |].
  - intros i off b ->. now apply Hl with off.
  - intros i off ->. now apply Ho with off.
Qed.
Lemma stands_same h c h' c' rc k : stands_for h c rc k ->
  (forall i off b, In (RLib i off) (pointers (r_api rc)) -> get i (live h) = Some b -> get i (live h') = Some b) ->
  (forall i off, In (ROwn i off) (pointers (r_api rc)) -> get i c' = get i c) -> stands_for h' c' rc k.
Proof.
  intros (a & out & err & Hl & H) A B. exists a, out, err. split; [|exact H].
  apply given_leads. apply given_same with h c; auto. now apply leads_given.
Qed.

(** ** Memory *)
Lemma get_filter_other {A} i k (m : fmap A) : i <> k -> get i (filter (fun x => negb (fst x =? k)) m) = get i m.
Proof.
  intros Hne. induction m as [|[j x] m IH]; cbn [filter get fst]; [reflexivity|].
  destruct (N.eqb_spec j k) as [->|Hj]; cbn [negb get].
  - rewrite IH. now destruct (N.eqb_spec i k).
  - now rewrite IH.
Qed.

Section P.
Variable P : prims.
Hypothesis HP : prims_ok P.
Variable C : data_config.
Variable T : texts.
Variable bd : build.

(** The end of a call releases nothing. *)
Definition keeps (h h' : heap) : Prop := forall i b, get i (live h) = Some b -> get i (live h') = Some b.
Lemma finish_keeps st i c cut r x st' : tinv P C T bd st -> nth_error (t_places st) i = Some x -> call_at x = Some c ->
  ((cut = None /\ forall g, agrees (c_src c) g -> r = body P C bd (c_api c) (t_store st) (with_rng (c_env c) g) (t_heap st)) \/
   (exists p, cut = Some p /\ r = Panic)) ->
  finish T i c cut r st = Ok st' -> keeps (t_heap st) (t_heap st').
Proof.
  intros Hi Ex Cx Hr Ef. destruct (ti_calls _ _ _ _ _ Hi i c) as [He Ha]; [exists x; auto|].
  assert (exists t (a : api t) e b s' , api_ok a /\ env_ok e /\
    entry P C T bd a (c_out c) (c_err c) e (t_store st) (t_heap st) = Ok (b, s', t_heap st')) as (t & a & e & b & s' & Ha' & He' & E).
  { revert Ef. unfold finish. destruct Hr as [[-> Hr]|(p & -> & ->)].
    - exists (c_ty c), (c_api c), (with_rng (c_env c) (bytes_of (c_src c))). rewrite (Hr _ (bytes_agree _)) in Ef. unfold entry.
      cbn [with_rng env_panic]. revert Ef. destruct (handle T _ _ (t_heap st)) as [[y h']| | |]; cbn [bind]; try discriminate.
      destruct (response y (c_out c) (c_err c) (t_store st)) as [b s']. intros [= <-]. exists b, s'. auto.
    - exists TPath, (KeypathFromString [xff]), (c_env c). unfold entry.
      change (body P C bd (KeypathFromString [xff]) (t_store st) (c_env c) (t_heap st)) with (@Panic kc_error (KeyPath * heap)).
      revert Ef. cbn [handle]. destruct (error_panic (env_panic (c_env c)) (t_heap st)) as [[y h']| | |]; cbn [bind response]; try discriminate.
      intros [= <-]. eexists _, _. split; [exact I|]. split; [exact He|]. reflexivity. }
  intros k bl Hg.
  destruct (call_keeps P HP C T bd t a (c_out c) (c_err c) e (t_store st) (t_heap st) b s' (t_heap st') (ti_reached _ _ _ _ _ Hi) Ha' He' E) as [A _].
  now apply A.
Qed.
Lemma go_keeps st i x st' : tinv P C T bd st -> nth_error (t_places st) i = Some x -> go P C T bd i x st = Ok st' ->
  keeps (t_heap st) (t_heap st').
Proof.
  intros Hi Ex. pose proof (reached_inv P HP C T bd _ (ti_reached _ _ _ _ _ Hi)) as Hinv.
  pose proof (ti_places _ _ _ _ _ Hi i x Ex) as Hx.
  destruct x as [|c s0|c p q [r|n k]|c p q n k|c p]; cbn [go place_ok] in *.
  - intros [= <-] k b. auto.
  - apply finish_keeps with (Plain c s0); [exact Hi|exact Ex|reflexivity|]. left. split; [reflexivity|].
    intros g _. destruct Hx as [A B]. now apply plain_body.
  - destruct (alive _ _); [|discriminate].
    apply finish_keeps with (Between c p q (Ret r)); [exact Hi|exact Ex|reflexivity|]. left. split; [reflexivity|].
    intros g Hg. now apply (ongoing_result P C bd) with p q.
  - destruct (negb _); [discriminate|]. destruct (locked _ _); [intros [= <-] m b; auto|].
    destruct (poisoned _ _); intros [= <-] m b; auto.
  - destruct (negb _); [discriminate|]. destruct (receive _ _ _); intros [= <-] m b0; auto.
  - apply finish_keeps with (Unwinding c p); [exact Hi|exact Ex|reflexivity|]. right. eauto.
Qed.
Lemma begin_heap i x st st' : tinv P C T bd st -> may (Begin i x) st -> begin P C i x st = Ok st' ->
  forall k b, get k (live (t_heap st)) = Some b ->
    match x with ACall _ => True | ADelete t v => ~ In k (refs (t_heap st) t (t_store st t v)) end ->
    get k (live (t_heap st')) = Some b.
Proof.
  intros Hi (_ & Hp & _) E k b Hg Hk. destruct x as [c|t v]; cbn [begin] in E.
  - destruct (asks C (c_api c) (t_store st) (c_env c)) as [[p f]|]; [|injection E as <-; exact Hg].
    destruct (let* m := rust_manager (t_heap st) p in f m); inversion E; subst; exact Hg.
  - destruct (delete_step P bd t v (t_store st) (t_heap st)) as (s1 & h1 & E1 & _ & (_ & _ & W) & _).
    + exact (reached_inv P HP C T bd _ (ti_reached _ _ _ _ _ Hi)).
    + intros ->. exact Hp.
    + intros ->. exact Hp.
    + rewrite E1 in E. cbn [bind] in E. injection E as <-. cbn [record t_heap]. now rewrite W.
Qed.

(** ** States *)
Record rinv (st : rstate) : Prop := {
  ri_tinv : tinv P C T bd (r_state st);
  ri_length : List.length (r_calls st) = List.length (t_places (r_state st));
  ri_calls : forall j rc, nth_error (r_calls st) j = Some (Some rc) -> exists x c,
    nth_error (t_places (r_state st)) j = Some x /\ call_at x = Some c /\ stands_for (t_heap (r_state st)) (r_own st) rc c;
  ri_places : forall j x, nth_error (t_places (r_state st)) j = Some x -> x <> Outside -> exists rc, nth_error (r_calls st) j = Some (Some rc) }.

Lemma in_use_in st j rc p : nth_error (r_calls st) j = Some (Some rc) -> In p (pointers (r_api rc)) -> In p (in_use st).
Proof. intros E Hp. apply in_flat_map. exists (Some rc). split; [now apply nth_error_In in E|exact Hp]. Qed.
Lemma own_used_in st k : own_used st k = true -> exists off, In (ROwn k off) (in_use st).
Proof.
  intros H. apply existsb_exists in H as (p & Hp & E). destruct p as [| |i off|i off]; try discriminate.
  apply N.eqb_eq in E as ->. eauto.
Qed.
Lemma call_at_outside x : call_at x = None <-> x = Outside.
Proof. destruct x; cbn; split; (reflexivity || discriminate). Qed.
Lemma is_outside_true st i : is_outside st i = true <-> nth_error (t_places st) i = Some Outside.
Proof. unfold is_outside. destruct (nth_error (t_places st) i) as [[]|]; split; (reflexivity || discriminate). Qed.

(** What a permitted event does. *)
Lemma t_step_inv ev st st' : tinv P C T bd st -> may ev st -> t_step P C T bd ev st = Ok st' -> tinv P C T bd st'.
Proof.
  intros Hi Hm E. destruct (t_step_ok P HP C T bd ev st Hi Hm) as [E'|(st1 & E1 & H1 & _)]; [congruence|].
  assert (st1 = st') as -> by congruence. exact H1.
Qed.
Definition as_event (ev : raw_event) (st : rstate) (o : option event) : Prop :=
  match ev, o with
  | RBegin i (RACall rc), Some ev => exists c, stands_for (t_heap (r_state st)) (r_own st) rc c /\ ev = Begin i (ACall c)
  | RBegin i (RADelete t v), Some ev => exists v', v = Some v' /\ ev = Begin i (ADelete t v')
  | RBegin _ (RAWrite _ _), None => True
  | RBegin _ (RARelease _), None => True
  | RGo i, Some ev => ev = Go i
  | _, _ => False
  end.
Lemma r_step_ok ev st : rinv st -> raw_may ev st ->
  exists o, as_event ev st o /\
  match o with
  | Some e => may e (r_state st) /\ (raw_with_care ev st -> with_care e (r_state st)) /\
      ((t_step P C T bd e (r_state st) = Panic /\ r_step P C T bd ev st = Panic) \/
       exists st', r_step P C T bd ev st = Ok st' /\ t_step P C T bd e (r_state st) = Ok (r_state st') /\ rinv st')
  | None => exists st', r_step P C T bd ev st = Ok st' /\ r_state st' = r_state st /\ rinv st'
  end.
Proof.
  intros Hi Hm. destruct ev as [i x|i].
  - destruct x as [rc|t v|k b|k]; cbn [raw_may] in Hm.
    + destruct Hm as (c & Hs & Hc). exists (Some (Begin i (ACall c))). split; [exists c; auto|]. split; [exact Hc|].
      pose proof Hs as (a & out & err & Hl & Eo & Ee & Ec). split.
      { cbn [raw_with_care with_care]. intros H. rewrite Ec. cbn [c_ty c_out c_err]. now apply H. }
      assert (r_step P C T bd (RBegin i (RACall rc)) st =
        let* t := t_step P C T bd (Begin i (ACall c)) (r_state st) in
        Ok {| r_state := t; r_own := r_own st; r_calls := put i (Some rc) (r_calls st) |}) as ->.
      { cbn [r_step]. rewrite (proj2 (is_outside_true _ _) (proj1 Hc)). cbn [negb]. rewrite Eo, Ee. cbn [reference bind].
        rewrite (leads_given _ _ _ _ _ Hl). cbn [bind]. rewrite <- Ec. reflexivity. }
      destruct (t_step_ok P HP C T bd _ _ (ri_tinv _ Hi) Hc) as [E|(t' & E & Ht & _)]; [left; rewrite E; auto|right].
      rewrite E. cbn [bind]. eexists. split; [reflexivity|]. split; [reflexivity|].
      assert (begin P C i (ACall c) (r_state st) = Ok t') as Eb by (rewrite <- E; cbn [t_step]; now rewrite (proj1 Hc)).
      destruct (begin_result P C i (ACall c) _ _ Eb) as (y & Cy & Ep & _).
      pose proof (begin_heap i (ACall c) _ _ (ri_tinv _ Hi) Hc Eb) as Hk.
      assert (forall rc' c', stands_for (t_heap (r_state st)) (r_own st) rc' c' -> stands_for (t_heap t') (r_own st) rc' c') as Hst.
      { intros rc' c' H. apply stands_same with (t_heap (r_state st)) (r_own st); auto. }
      split; cbn [r_state r_own r_calls].
      * exact Ht.
      * rewrite Ep, !put_length. exact (ri_length _ Hi).
      * intros j rc' Ej. rewrite Ep. apply put_cases in Ej as [[-> [= ->]]|[Hne Ej]].
        -- exists y, c. split; [apply put_same with Outside; exact (proj1 Hc)|]. auto.
        -- destruct (ri_calls _ Hi j rc' Ej) as (x & c' & A & B & D). exists x, c'. rewrite put_other by exact Hne. auto.
      * intros j x Ej Hx. rewrite Ep in Ej. apply put_cases in Ej as [[-> ->]|[Hne Ej]].
        -- destruct (nth_error (r_calls st) i) as [z|] eqn:Ez; [exists rc; now apply put_same with z|].
           apply nth_error_None in Ez. rewrite (ri_length _ Hi) in Ez. apply nth_error_None in Ez. destruct Hc as [Hc _]. congruence.
        -- destruct (ri_places _ Hi j x Ej Hx) as [rc' E']. exists rc'. now rewrite put_other.
    + destruct Hm as (v' & -> & Hc & Hu). exists (Some (Begin i (ADelete t v'))). split; [exists v'; auto|]. split; [exact Hc|].
      split; [exact (fun _ => I)|].
      assert (r_step P C T bd (RBegin i (RADelete t (Some v'))) st =
        let* t := t_step P C T bd (Begin i (ADelete t v')) (r_state st) in
        Ok {| r_state := t; r_own := r_own st; r_calls := r_calls st |}) as ->.
      { cbn [r_step]. rewrite (proj2 (is_outside_true _ _) (proj1 Hc)). reflexivity. }
      destruct (t_step_ok P HP C T bd _ _ (ri_tinv _ Hi) Hc) as [E|(t' & E & Ht & _)]; [left; rewrite E; auto|right].
      rewrite E. cbn [bind]. eexists. split; [reflexivity|]. split; [reflexivity|].
      assert (begin P C i (ADelete t v') (r_state st) = Ok t') as Eb by (rewrite <- E; cbn [t_step]; now rewrite (proj1 Hc)).
      destruct (begin_result P C i (ADelete t v') _ _ Eb) as (Ep & _).
      pose proof (begin_heap i (ADelete t v') _ _ (ri_tinv _ Hi) Hc Eb) as Hk. cbv beta iota in Hk.
      split; cbn [r_state r_own r_calls].
      * exact Ht.
      * rewrite Ep. exact (ri_length _ Hi).
      * intros j rc' Ej. rewrite Ep. destruct (ri_calls _ Hi j rc' Ej) as (x & c' & A & B & D). exists x, c'. split; [exact A|]. split; [exact B|].
        apply stands_same with (t_heap (r_state st)) (r_own st); auto.
        intros k off b Hp Hg. apply Hk; [exact Hg|]. apply Hu with off. now apply in_use_in with j rc'.
      * intros j x Ej Hx. rewrite Ep in Ej. now apply (ri_places _ Hi j x).
    + exists None. split; [exact I|]. assert (own_used st k = false) as Eu.
      { destruct (own_used st k) eqn:E; [|reflexivity]. apply own_used_in in E as [off E]. now apply Hm in E. }
      cbn [r_step]. rewrite Eu. destruct (is_outside (r_state st) i); cbn [negb]; eexists; (split; [reflexivity|]); (split; [reflexivity|]); [|exact Hi].
      split; cbn [r_state r_own r_calls]; try apply Hi. intros j rc Ej.
      destruct (ri_calls _ Hi j rc Ej) as (x & c' & A & B & D). exists x, c'. split; [exact A|]. split; [exact B|].
      apply stands_same with (t_heap (r_state st)) (r_own st); auto. intros m off Hp.
      assert (m <> k) as Hne by (intros ->; apply (Hm off); now apply in_use_in with j rc).
      cbn [get]. destruct (N.eqb_spec m k); [contradiction|]. now apply get_filter_other.
    + exists None. split; [exact I|]. assert (own_used st k = false) as Eu.
      { destruct (own_used st k) eqn:E; [|reflexivity]. apply own_used_in in E as [off E]. now apply Hm in E. }
      cbn [r_step]. rewrite Eu. destruct (is_outside (r_state st) i); cbn [negb]; eexists; (split; [reflexivity|]); (split; [reflexivity|]); [|exact Hi].
      split; cbn [r_state r_own r_calls]; try apply Hi. intros j rc Ej.
      destruct (ri_calls _ Hi j rc Ej) as (x & c' & A & B & D). exists x, c'. split; [exact A|]. split; [exact B|].
      apply stands_same with (t_heap (r_state st)) (r_own st); auto. intros m off Hp.
      assert (m <> k) as Hne by (intros ->; apply (Hm off); now apply in_use_in with j rc).
      now apply get_filter_other.
  - exists (Some (Go i)). split; [reflexivity|]. split; [exact I|]. split; [exact (fun _ => I)|].
    cbn [r_step]. destruct (nth_error (r_calls st) i) as [[rc|]|] eqn:Ei.
    + destruct (ri_calls _ Hi i rc Ei) as (x & c & Ex & Cx & Hs).
      assert (forallb (there (t_heap (r_state st)) (r_own st)) (pointers (r_api rc)) = true) as ->.
      { destruct Hs as (a & out & err & Hl & _). now apply given_there with a, leads_given. }
      destruct (t_step_ok P HP C T bd (Go i) _ (ri_tinv _ Hi) I) as [E|(t' & E & Ht & _)]; [left; rewrite E; auto|right].
      rewrite E. cbn [bind]. eexists. split; [reflexivity|]. split; [reflexivity|].
      cbn [t_step] in E. rewrite Ex in E. pose proof (go_keeps _ _ _ _ (ri_tinv _ Hi) Ex E) as Hk.
      assert (forall rc' c', stands_for (t_heap (r_state st)) (r_own st) rc' c' -> stands_for (t_heap t') (r_own st) rc' c') as Hst.
      { intros rc' c' H. apply stands_same with (t_heap (r_state st)) (r_own st); auto. }
      destruct (go_result P C T bd i x _ _ c Ex Cx E) as [(cut & Ep & _)|[(y & Cy & Ep & _)| ->]].
      * assert (is_outside t' i = true) as -> by (apply is_outside_true; rewrite Ep; now apply put_same with x).
        split; cbn [r_state r_own r_calls].
        -- exact Ht.
        -- rewrite Ep, !put_length. exact (ri_length _ Hi).
        -- intros j rc' Ej. rewrite Ep. apply put_cases in Ej as [[_ [=]]|[Hne Ej]].
           destruct (ri_calls _ Hi j rc' Ej) as (z & c' & A & B & D). exists z, c'. rewrite put_other by exact Hne. auto.
        -- intros j z Ej Hz. rewrite Ep in Ej. apply put_cases in Ej as [[-> ->]|[Hne Ej]]; [congruence|].
           destruct (ri_places _ Hi j z Ej Hz) as [rc' E']. exists rc'. now rewrite put_other.
      * assert (is_outside t' i = false) as ->.
        { destruct (is_outside t' i) eqn:Eo; [|reflexivity]. apply is_outside_true in Eo. rewrite Ep, (put_same i y x _ Ex) in Eo.
          injection Eo as ->. discriminate. }
        split; cbn [r_state r_own r_calls].
        -- exact Ht.
        -- rewrite Ep, put_length. exact (ri_length _ Hi).
        -- intros j rc' Ej. rewrite Ep. destruct (ri_calls _ Hi j rc' Ej) as (z & c' & A & B & D).
           destruct (Nat.eq_dec j i) as [->|Hne].
           ++ exists y, c. rewrite (put_same i y x _ Ex). split; [reflexivity|]. split; [exact Cy|]. apply Hst. congruence.
           ++ exists z, c'. rewrite put_other by exact Hne. auto.
        -- intros j z Ej Hz. rewrite Ep in Ej. apply put_cases in Ej as [[-> ->]|[Hne Ej]]; [eauto|]. now apply (ri_places _ Hi j z).
      * assert (is_outside (r_state st) i = false) as ->.
        { destruct (is_outside (r_state st) i) eqn:Eo; [|reflexivity]. apply is_outside_true in Eo. rewrite Ex in Eo. injection Eo as ->. discriminate. }
        destruct st; exact Hi.
    + right. exists st. split; [reflexivity|]. split; [|exact Hi]. cbn [t_step].
      destruct (nth_error (t_places (r_state st)) i) as [x|] eqn:Ex; [|reflexivity].
      assert (x = Outside) as ->; [|reflexivity]. destruct (call_at x) as [c|] eqn:Cx; [|now apply call_at_outside].
      exfalso. destruct (ri_places _ Hi i x Ex) as [rc E]; [intros ->; discriminate|]. congruence.
    + right. exists st. split; [reflexivity|]. split; [|exact Hi]. cbn [t_step].
      apply nth_error_None in Ei. rewrite (ri_length _ Hi) in Ei. apply nth_error_None in Ei. now rewrite Ei.
Qed.

(** ** Executions *)
Lemma r_start_inv n : rinv (r_start n).
Proof.
  split; cbn [r_start r_state r_own r_calls].
  - apply t_start_inv.
  - cbn [t_start t_places]. now rewrite !repeat_length.
  - intros j rc E. apply nth_error_In, repeat_spec in E. discriminate.
  - intros j x E Hx. apply nth_error_In, repeat_spec in E. contradiction.
Qed.
Lemma r_run_app l l' st : r_run P C T bd (l ++ l') st = let* st := r_run P C T bd l st in r_run P C T bd l' st.
Proof.
  revert st. induction l as [|ev l IH]; intros st; cbn [r_run app]; [reflexivity|].
  destruct (r_step P C T bd ev st); cbn [bind]; auto.
Qed.
Lemma r_along_app ok l l' st : r_along P C T bd ok (l ++ l') st <->
  r_along P C T bd ok l st /\ forall st', r_run P C T bd l st = Ok st' -> r_along P C T bd ok l' st'.
Proof.
  revert st. induction l as [|ev l IH]; intros st; cbn [r_run r_along app].
  - split; [intros H; split; [exact I|]; now intros st' [= <-]|]. intros [_ H]. now apply H.
  - split.
    + intros [A B]. split; [split; [exact A|]; intros st' E; now apply IH, B|].
      intros st' E. destruct (r_step P C T bd ev st) as [st1| | |] eqn:E1; try discriminate. cbn [bind] in E.
      now apply (proj1 (IH st1) (B st1 eq_refl)).
    + intros [[A B] D]. split; [exact A|]. intros st' E. apply IH. split; [now apply B|]. intros st2 E2. apply D.
      rewrite E. exact E2.
Qed.
Lemma t_reached_more n l st ev st' : t_reached P C T bd n l st -> may ev st -> t_step P C T bd ev st = Ok st' ->
  t_reached P C T bd n (l ++ [ev]) st'.
Proof.
  intros [A E] Hm Es. split.
  - apply t_along_app. split; [exact A|]. intros st1 E1. assert (st1 = st) as -> by congruence. split; [exact Hm|]. intros; exact I.
  - rewrite t_run_app, E. cbn [bind t_run]. now rewrite Es.
Qed.
Theorem r_run_ok n l : r_along P C T bd raw_may l (r_start n) ->
  r_run P C T bd l (r_start n) <> Undef /\
  forall st, r_run P C T bd l (r_start n) = Ok st -> rinv st /\
    exists l', decoded P C T bd n l l' /\ t_reached P C T bd n l' (r_state st) /\
      (r_along P C T bd raw_with_care l (r_start n) -> t_along P C T bd with_care l' (t_start n)).
Proof.
  induction l as [|ev l IH] using rev_ind; intros Ha.
  - split; [discriminate|]. intros st [= <-]. split; [apply r_start_inv|]. exists []. split; [constructor|].
    split; [split; [exact I|reflexivity]|]. exact (fun _ => I).
  - apply r_along_app in Ha as [Ha Hev]. destruct (IH Ha) as [Hu H]. clear IH. rewrite r_run_app.
    destruct (r_run P C T bd l (r_start n)) as [st0|[]| |] eqn:E0; try contradiction; cbn [bind r_run]; [|split; discriminate].
    destruct (H st0 eq_refl) as (Hi & l' & Hd & Hr & Hc). clear H. destruct (Hev st0 eq_refl) as [Hm _].
    assert (r_along P C T bd raw_with_care (l ++ [ev]) (r_start n) ->
      r_along P C T bd raw_with_care l (r_start n) /\ raw_with_care ev st0) as Hcare.
    { intros Hw. apply r_along_app in Hw as [Hw He]. split; [exact Hw|]. now destruct (He st0 E0). }
    destruct (r_step_ok ev st0 Hi Hm) as ([e|] & He & Hs).
    + destruct Hs as (Hmay & Hwc & [[_ Es]|(st' & Es & Et & Hi')]); rewrite Es; cbn [bind]; [split; discriminate|].
      split; [discriminate|]. intros st [= <-]. split; [exact Hi'|]. exists (l' ++ [e]). split; [|split].
      * destruct ev as [i [rc|t v|k b|k]|i]; cbn [as_event] in He; try contradiction.
        -- destruct He as (c & Hst & ->). now apply dc_call with st0.
        -- destruct He as (v' & -> & ->). now apply dc_delete.
        -- subst e. now apply dc_go.
      * now apply t_reached_more with (r_state st0).
      * intros Hw. apply Hcare in Hw as [Hw He']. apply t_along_app. split; [now apply Hc|].
        intros st1 E1. assert (st1 = r_state st0) as -> by (destruct Hr as [_ Hr]; congruence).
        split; [now apply Hwc|]. intros; exact I.
    + destruct Hs as (st' & Es & Et & Hi'). rewrite Es. cbn [bind]. split; [discriminate|]. intros st [= <-]. split; [exact Hi'|].
      exists l'. split; [|split].
      * destruct ev as [i [rc|t v|k b|k]|i]; cbn [as_event] in He; try contradiction; [now apply dc_write|now apply dc_release].
      * now rewrite Et.
      * intros Hw. apply Hc. now apply Hcare.
Qed.
End P.
