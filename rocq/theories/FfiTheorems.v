(** Proofs of the properties of the C bindings. *)
From Coq Require Import Strings.String.
From Verif Require Import Base Str Prims Bip39 Dict KeyPath Errors FMap Crypt Data XPrv XPrvSpec Keys Mnemonic
  Keychain Manager Features ManagerSpec Display Ffi FfiSpec.
From Verif Require Import FMapFacts KeyPathFacts XPrvFacts KeysFacts ManagerFacts LifeFacts StoryFacts TextFacts FfiFacts.
Open Scope list_scope.
Local Strategy 1000 [XPrv.derive XPrv.derive_loop XPrv.derive_step XPrv.xprv_from_data].

(** ** C49 *)
Theorem codes_classes :
  (forall e e', error_code (error_type e) = error_code (error_type e') <-> same_class e e') /\
  (forall e, error_code (error_type e) <> -1)%Z /\
  (forall t, error_code t = -1 <-> t = EPanic)%Z /\
  (forall t t', error_code t = error_code t' -> t = t').
Proof.
  split; [|split; [|split]].
  - intros e e'. split; [destruct e, e'; cbn; intros H; try discriminate; constructor|]. now destruct 1.
  - now destruct e.
  - intros t. split; [destruct t; cbn; congruence|now intros ->].
  - intros [] []; cbn; congruence.
Qed.

(** ** C53 *)
Theorem languages_agree :
  (forall c, exists l, language_rust c = Some l /\ language_c (E := Empty_set) l = Ok c) /\
  (forall l, exists c, language_c (E := Empty_set) l = Ok c /\ language_rust c = Some l) /\
  (forall c c', language_rust c = language_rust c' -> c = c').
Proof.
  split; [|split].
  - intros []; (eexists; split; reflexivity).
  - intros []; (eexists; split; reflexivity).
  - intros [] []; cbn; congruence.
Qed.

Section F.
Variable P : prims.
Hypothesis HP : prims_ok P.
Variable C : data_config.
Variable T : texts.
Variable bd : build.

(** ** C50 *)
Lemma text_alloc b h p h' : alloc (BText b) h = (p, h') -> points_to_text h' p b.
Proof.
  unfold alloc. cbn [layout_of bytes_layout l_size].
  destruct (N.eqb_spec (N.of_nat (List.length b) + 1) 0); [lia|]. intros [= <- <-].
  exists (next h). split; [reflexivity|]. cbn [live get]. now rewrite N.eqb_refl.
Qed.
Lemma error_made (f : str) ety h :
  let r := (let* '(p, h) := to_cstr f h in Ok ({| e_type := ety; e_message := p |}, h)) : res Empty_set (ErrorPtr * heap) in
  (In x00 (utf8 f) /\ r = Panic) \/
  (~ In x00 (utf8 f) /\ exists p h', r = Ok (p, h') /\ e_type p = ety /\ points_to_text h' (e_message p) (utf8 f)).
Proof.
  intros r. subst r. unfold to_cstr. destruct (has_nul (utf8 f)) eqn:En.
  - left. split; [|reflexivity]. unfold has_nul in En. apply existsb_exists in En as (c & Hc & E1).
    apply Byte.byte_dec_bl in E1. now subst c.
  - right. apply has_nul_spec in En. split; [exact En|]. destruct (alloc (BText (utf8 f)) h) as [p h'] eqn:E. cbn [bind].
    eexists _, h'. split; [reflexivity|]. split; [reflexivity|]. now apply text_alloc in E.
Qed.

Lemma entry_exact t (a : api t) out err e s h :
  match body P C bd a s e h with
  | Ok (x, h') => entry P C T bd a out err e s h = Ok (true, upd s t out x, h')
  | Err ke =>
      (In x00 (utf8 (show T ke)) /\ entry P C T bd a out err e s h = Panic) \/
      (~ In x00 (utf8 (show T ke)) /\ exists p h', entry P C T bd a out err e s h = Ok (false, upd s TError err p, h') /\
         e_type p = error_type ke /\ points_to_text h' (e_message p) (utf8 (show T ke)))
  | Panic =>
      (In x00 (utf8 (env_panic e)) /\ entry P C T bd a out err e s h = Panic) \/
      (~ In x00 (utf8 (env_panic e)) /\ exists p h', entry P C T bd a out err e s h = Ok (false, upd s TError err p, h') /\
         e_type p = EPanic /\ points_to_text h' (e_message p) (utf8 (env_panic e)))
  | Undef => entry P C T bd a out err e s h = Undef
  end.
Proof.
  unfold entry. destruct (body P C bd a s e h) as [[x h']|ke| |]; cbn [handle].
  - reflexivity.
  - unfold error_new. destruct (error_made (show T ke) (error_type ke) h) as [[H1 H2]|(H1 & p & h' & H2 & H3)]; cbv zeta in H2.
    + left. split; [exact H1|]. now rewrite H2.
    + right. split; [exact H1|]. exists p, h'. split; [|exact H3]. now rewrite H2.
  - unfold error_panic. destruct (error_made (env_panic e) EPanic h) as [[H1 H2]|(H1 & p & h' & H2 & H3)]; cbv zeta in H2.
    + left. split; [exact H1|]. now rewrite H2.
    + right. split; [exact H1|]. exists p, h'. split; [|exact H3]. now rewrite H2.
  - reflexivity.
Qed.

Theorem one_output t (a : api t) out err e s h b s' h' :
  entry P C T bd a out err e s h = Ok (b, s', h') ->
  (b = true /\ exists x, body P C bd a s e h = Ok (x, h') /\ assigned s t out x s') \/
  (b = false /\ exists p, assigned s TError err p s' /\
     ((exists ke, body P C bd a s e h = Err ke /\ e_type p = error_type ke /\
         points_to_text h' (e_message p) (utf8 (show T ke))) \/
      (body P C bd a s e h = Panic /\ e_type p = EPanic /\
         points_to_text h' (e_message p) (utf8 (env_panic e))))).
Proof.
  intros E. pose proof (entry_exact t a out err e s h) as H.
  destruct (body P C bd a s e h) as [[x h1]|ke| |].
  - rewrite H in E. injection E as <- <- <-. left. split; [reflexivity|]. exists x. split; [reflexivity|apply upd_assigned].
  - destruct H as [[_ H]|(_ & p & h1 & H & Ht & Hp)]; [congruence|]. rewrite H in E. injection E as <- <- <-.
    right. split; [reflexivity|]. exists p. split; [apply upd_assigned|]. left. exists ke. auto.
  - destruct H as [[_ H]|(_ & p & h1 & H & Ht & Hp)]; [congruence|]. rewrite H in E. injection E as <- <- <-.
    right. split; [reflexivity|]. exists p. split; [apply upd_assigned|]. right. auto.
  - congruence.
Qed.

Theorem panic_code t (a : api t) out err e s h b s' h' :
  entry P C T bd a out err e s h = Ok (b, s', h') -> b = false ->
  (error_code (e_type (s' TError err)) = (-1)%Z <-> body P C bd a s e h = Panic).
Proof.
  intros E ->. apply one_output in E as [[E _]|(_ & p & [Hp _] & [(ke & Hb & Ht & _)|(Hb & Ht & _)])]; [discriminate|..].
  - rewrite Hp, Ht, Hb. split; [|discriminate]. intros H. now destruct ke.
  - rewrite Hp, Ht, Hb. split; reflexivity.
Qed.

(** ** C51 *)
Theorem reached_inv st : reached P C T bd st -> inv P bd st.
Proof.
  intros (l & Hl & E). destruct (run_ok P HP C T bd l start (start_inv P bd) Hl) as [E'|(st' & E' & Hi & _)].
  - congruence.
  - assert (st' = st) as -> by congruence. exact Hi.
Qed.

Theorem program_safe l : along P C T bd permitted l start ->
  run P C T bd l start <> Undef /\
  forall st, run P C T bd l start = Ok st ->
    exclusive st /\ forall t v, val_ok (snd st) t (fst st t v).
Proof.
  intros Hl. destruct (run_ok P HP C T bd l start (start_inv P bd) Hl) as [E|(st' & E & [Hh Hv He] & _)]; rewrite E.
  - split; [discriminate|discriminate].
  - split; [discriminate|]. intros st [= <-]. auto.
Qed.

Theorem no_leak l st : along P C T bd permitted l start -> along P C T bd careful l start ->
  run P C T bd l start = Ok st ->
  (forall i, get i (live (snd st)) <> None -> exists t v, In i (refs (snd st) t (fst st t v))) /\
  ((forall t v, refs (snd st) t (fst st t v) = []) -> live (snd st) = []).
Proof.
  intros Hl Hc E. destruct (run_ok P HP C T bd l start (start_inv P bd) Hl) as [E'|(st' & E' & _ & Hh)]; [congruence|].
  assert (st' = st) as -> by congruence. specialize (Hh Hc start_held). split; [exact Hh|].
  intros H0. destruct (live (snd st)) as [|[i b] m] eqn:El; [reflexivity|exfalso].
  destruct (Hh i) as (t & v & Hin); [rewrite El; cbn [get]; rewrite N.eqb_refl; discriminate|].
  rewrite H0 in Hin. destruct Hin.
Qed.

Theorem delete_exact t v s h : reached P C T bd (s, h) ->
  (t = TString -> refs h t (s t v) <> []) -> (t = TNetworks -> refs h t (s t v) = []) ->
  exists s' h', delete t v s h = Ok (s', h') /\
    (forall i, get i (live h') = if in_dec N.eq_dec i (refs h t (s t v)) then None else get i (live h)) /\
    (forall i, In i (refs h t (s t v)) -> get i (live h) <> None) /\
    refs h' t (s' t v) = [] /\ (t <> TString -> pointer (s' t v) = Null) /\
    forall t' v', (t', v') <> (t, v) -> s' t' v' = s t' v' /\ refs h' t' (s' t' v') = refs h t' (s t' v').
Proof.
  intros Hr Hs Hn. apply reached_inv in Hr.
  destruct (delete_step P bd t v s h Hr Hs Hn) as (s' & h' & E & _ & (_ & W2 & W3) & Hr0 & Hp & Ho & _).
  exists s', h'. split; [exact E|]. split; [|split; [|split; [exact Hr0|split; [exact Hp|]]]].
  - intros i. destruct (in_dec N.eq_dec i (refs h t (s t v))); auto.
  - intros i Hi. destruct Hr as [_ Hv _]. apply (refs_live h t (s t v)); [apply Hv|exact Hi].
  - intros t' v' Hne. destruct (Ho t' v' Hne) as [E1 E2]. rewrite E1. auto.
Qed.

Theorem call_keeps t (a : api t) out err e s h b s' h' : reached P C T bd (s, h) -> api_ok a -> env_ok e ->
  entry P C T bd a out err e s h = Ok (b, s', h') ->
  (forall i bl, get i (live h) = Some bl -> get i (live h') = Some bl) /\
  (forall i, get i (live h') <> None -> get i (live h) = None ->
     In i (if b then refs h' t (s' t out) else refs h' TError (s' TError err))).
Proof.
  intros Hr Ha He E. apply reached_inv in Hr. pose proof (entry_cases P HP C T bd t a out err e s h Hr Ha He) as H.
  destruct Hr as [Hh _ _]. cbn [fst snd] in Hh.
  assert (forall t (x : val t) h1, fresh_val P bd h h1 t x ->
    (forall i bl, get i (live h) = Some bl -> get i (live h1) = Some bl) /\
    (forall i, get i (live h1) <> None -> get i (live h) = None -> In i (refs h1 t x))) as Hf.
  { intros t0 x h1 (F1 & F2 & F3 & F4 & F5 & F6). destruct F1 as [Fa Fb]. split.
    - intros i bl Hg. rewrite Fb; [exact Hg|]. now apply Hh in Hg.
    - intros i Hg Hno. apply F6; [|exact Hg]. destruct (N.lt_ge_cases i (next h)) as [Hi|Hi]; [|exact Hi].
      rewrite Fb in Hg by exact Hi. congruence. }
  destruct (body P C bd a s e h) as [[x h1]|ke| |].
  - destruct H as [H F]. rewrite H in E. injection E as <- <- <-. rewrite upd_same. now apply Hf.
  - destruct H as [[_ H]|(_ & p & h1 & H & _ & _ & F)]; [congruence|]. rewrite H in E. injection E as <- <- <-.
    rewrite upd_same. now apply (Hf TError).
  - destruct H as [[_ H]|(_ & p & h1 & H & _ & _ & F)]; [congruence|]. rewrite H in E. injection E as <- <- <-.
    rewrite upd_same. now apply (Hf TError).
  - destruct H.
Qed.

Lemma free_null t (x : val t) h : t <> TString -> pointer x = Null -> free t x h = Ok (x, h).
Proof.
  destruct t; cbn [pointer free val]; intros H E; try congruence; try reflexivity;
    unfold manager_free, keychain_free, data_free, networks_free, backup_free, info_free, error_free;
    rewrite E; reflexivity.
Qed.
Lemma free_nulls t (x x' : val t) h h' : free t x h = Ok (x', h') -> pointer x' = Null.
Proof.
  assert (forall p p' (h h' : heap), char_free (E := Empty_set) p h = Ok (p', h') -> p' = Null) as Hc.
  { intros p p' h0 h1 E. unfold char_free in E. destruct (read h0 p) as [[]|]; try discriminate.
    destruct (dealloc _ _ _); try discriminate. now injection E. }
  destruct t; cbn [free pointer val] in *; try reflexivity.
  - unfold manager_free. destruct x as [| |i]; cbn [is_null]; [now intros [= <- _]|discriminate|].
    destruct (read h (At i)) as [[]|]; try discriminate. destruct (dealloc _ _ _); try discriminate. now intros [= <- _].
  - unfold keychain_free. destruct x as [| |i]; cbn [is_null]; [now intros [= <- _]|discriminate|].
    destruct (read h (At i)) as [[]|]; try discriminate. destruct (dealloc _ _ _); try discriminate. now intros [= <- _].
  - unfold data_free. destruct (is_null (d_ptr x)) eqn:En; [intros [= <- _]; now destruct (d_ptr x)|].
    destruct (dealloc _ _ _); try discriminate. now intros [= <- _].
  - apply Hc.
  - unfold networks_free. destruct (is_null (n_ptr x)) eqn:En; [intros [= <- _]; now destruct (n_ptr x)|].
    destruct (dealloc _ _ _); try discriminate. now intros [= <- _].
  - unfold backup_free. destruct (is_null (k_ptr x)) eqn:En; [intros [= <- _]; now destruct (k_ptr x)|].
    destruct (k_count x =? 0); [now intros [= <- _]|]. destruct (read h (k_ptr x)) as [[]|]; try discriminate.
    destruct (_ =? _); [|discriminate]. destruct (elems_free _ _) as [h1| | |]; try discriminate. cbn [bind].
    destruct (dealloc _ _ _); try discriminate. now intros [= <- _].
  - unfold info_free. destruct (is_null (i_mnemonic x)) eqn:En; [intros [= <- _]; now destruct (i_mnemonic x)|].
    destruct (char_free (i_mnemonic x) h) as [[p h1]| | |] eqn:E; try discriminate. apply Hc in E. subst p. now intros [= <- _].
  - unfold error_free. destruct (is_null (e_message x)) eqn:En; [intros [= <- _]; now destruct (e_message x)|].
    destruct (char_free (e_message x) h) as [[p h1]| | |] eqn:E; try discriminate. apply Hc in E. subst p. now intros [= <- _].
Qed.

Theorem delete_twice t v s h s' h' : t <> TString -> delete t v s h = Ok (s', h') ->
  exists s'', delete t v s' h' = Ok (s'', h') /\ forall t' v', s'' t' v' = s' t' v'.
Proof.
  intros Hne E. unfold delete in E. destruct (free t (s t v) h) as [[x h1]| | |] eqn:Ef; try discriminate.
  cbn [bind] in E. injection E as Es Eh. apply free_nulls in Ef.
  assert (s' = upd s t v x) as -> by (rewrite <- Es; destruct t; congruence). clear Es. subst h1.
  unfold delete. rewrite upd_same. rewrite free_null by assumption. cbn [bind]. eexists. split; [reflexivity|].
  intros t' v'. destruct t; try congruence;
    (match goal with |- upd _ ?t0 _ _ _ _ = _ =>
       destruct (var_dec (t', v') (t0, v)) as [E0|E0]; [injection E0 as -> ->; now rewrite !upd_same|now rewrite upd_other by assumption] end).
Qed.

Theorem string_null v (s : store) h : s TString v = Null -> delete TString v s h = Undef.
Proof. unfold delete. intros H. cbn [free]. rewrite H. reflexivity. Qed.

Theorem string_twice v s h s' h' : delete TString v s h = Ok (s', h') -> delete TString v s' h' = Undef.
Proof.
  unfold delete. cbn [free]. unfold char_free. destruct (s TString v) as [| |i] eqn:Es; cbn [read]; try discriminate.
  destruct (get i (live h)) as [b|] eqn:E; [|discriminate]. destruct b; try discriminate.
  unfold dealloc. destruct (_ =? 0) eqn:Ez; cbn [bind].
  - unfold bytes_layout in Ez. cbn [l_size] in Ez. apply N.eqb_eq in Ez. lia.
  - cbn [read]. rewrite E. destruct (layout_eqb _ _); [|discriminate]. cbn [bind]. intros [= <- <-].
    rewrite Es. cbn [read live]. rewrite get_del, N.eqb_refl. reflexivity.
Qed.

Theorem deleted_use t (a : api t) ot ov out err e s h :
  object a = Some (ot, ov) -> pointer (s ot ov) = Null -> ~ In x00 (utf8 (env_panic e)) ->
  exists s' h' p, entry P C T bd a out err e s h = Ok (false, s', h') /\ assigned s TError err p s' /\
    e_type p = EPanic /\ points_to_text h' (e_message p) (utf8 (env_panic e)) /\
    forall i, i <> next h -> get i (live h') = get i (live h).
Proof.
  intros Ho Hp Hn.
  assert (body P C bd a s e h = Panic) as Hb.
  { destruct a; cbn [object] in Ho; try discriminate; injection Ho as <- <-; cbn [pointer] in Hp; cbn [body];
      unfold rust_manager, rust_keychain; rewrite Hp; reflexivity. }
  unfold entry. rewrite Hb. cbn [handle]. unfold error_panic, to_cstr.
  assert (has_nul (utf8 (env_panic e)) = false) as -> by (now apply has_nul_spec).
  cbn [bind]. destruct (alloc (BText (utf8 (env_panic e))) h) as [p h'] eqn:Ea. cbn [bind response].
  eexists _, _, _. split; [reflexivity|]. split; [apply upd_assigned|]. cbn [e_type e_message].
  split; [reflexivity|]. split; [now apply text_alloc in Ea|].
  intros i Hi. unfold alloc in Ea. destruct (_ =? 0); injection Ea as _ <-; [reflexivity|].
  cbn [live get]. now destruct (N.eqb_spec i (next h)).
Qed.

(** ** C52 *)
Theorem networks_layout ns h x h' : networks_ptr ns h = (x, h') ->
  (ns <> [] -> networks_free (E := Empty_set) x h' = Undef) /\
  (ns = [] -> h' = h /\ exists x', networks_free (E := Empty_set) x h' = Ok (x', h') /\ n_ptr x' = Null).
Proof.
  unfold networks_ptr. destruct (alloc (BNets ns) h) as [p h1] eqn:Ea. intros [= <- <-].
  unfold alloc in Ea. cbn [layout_of nets_layout l_size] in Ea. split.
  - intros Hns. assert (0 < N.of_nat (List.length ns)) as Hl by (destruct ns; [congruence|cbn; lia]).
    destruct (N.eqb_spec (4 * N.of_nat (List.length ns)) 0); [lia|]. injection Ea as <- <-.
    unfold networks_free. cbn [n_ptr n_count is_null]. unfold dealloc. cbn [l_size].
    destruct (N.eqb_spec (16 * N.of_nat (List.length ns)) 0); [lia|]. cbn [read live get]. rewrite N.eqb_refl.
    cbn [layout_of]. unfold layout_eqb, nets_layout. cbn [l_size l_align].
    destruct (N.eqb_spec (16 * N.of_nat (List.length ns)) (4 * N.of_nat (List.length ns))); [lia|]. reflexivity.
  - intros ->. cbn in Ea. injection Ea as <- <-. split; [reflexivity|]. eexists. split; reflexivity.
Qed.

Theorem networks_deleted k out err e s h s' h' kc :
  entry P C T bd (KeychainNetworks k) out err e s h = Ok (true, s', h') -> env_ok e ->
  rust_keychain (E := kc_error) h (s TKeychain k) = Ok kc ->
  (kc <> [] -> delete TNetworks out s' h' = Undef) /\
  (kc = [] -> h' = h /\ exists s'', delete TNetworks out s' h' = Ok (s'', h) /\ n_ptr (s'' TNetworks out) = Null).
Proof.
  intros E [Ho _] Hk. apply one_output in E as [[_ (x & Hb & [Hx _])]|[E _]]; [|discriminate].
  cbn [body] in Hb. rewrite Hk in Hb. cbn [bind] in Hb. injection Hb as Hb.
  pose proof (networks_layout (networks (env_o1 e) kc) h x h' Hb) as [H1 H2].
  unfold delete. rewrite Hx. cbn [free].
  assert (kc = [] <-> networks (env_o1 e) kc = []) as Heq.
  { unfold networks. pose proof (Ho _ kc) as Hp. split.
    - intros ->. apply Permutation.Permutation_sym, Permutation.Permutation_nil in Hp. now rewrite Hp.
    - intros H. apply map_eq_nil in H. rewrite H in Hp. now apply Permutation.Permutation_nil in Hp. }
  split.
  - intros Hne. rewrite H1 by tauto. reflexivity.
  - intros E. destruct H2 as (-> & x' & E2 & Hn); [tauto|]. split; [reflexivity|]. rewrite E2. cbn [bind].
    eexists. split; [reflexivity|]. now rewrite upd_same.
Qed.

(** ** C54 *)
Theorem escapes t (a : api t) out err e s h : reached P C T bd (s, h) -> api_ok a -> env_ok e ->
  (entry P C T bd a out err e s h = Panic <->
     (exists ke, body P C bd a s e h = Err ke /\ In x00 (utf8 (show T ke))) \/
     (body P C bd a s e h = Panic /\ In x00 (utf8 (env_panic e)))) /\
  entry P C T bd a out err e s h <> Undef.
Proof.
  intros Hr Ha He. apply reached_inv in Hr. pose proof (body_good P HP C bd t a s e h Hr Ha He) as Hg.
  pose proof (entry_exact t a out err e s h) as H.
  destruct (body P C bd a s e h) as [[x h1]|ke| |].
  - rewrite H. split; [|discriminate]. split; [discriminate|]. intros [(ke & E & _)|[E _]]; discriminate.
  - destruct H as [[Hi H]|(Hi & p & h1 & H & _)]; rewrite H; (split; [|discriminate]); split; intros E; try discriminate.
    + left. eauto.
    + reflexivity.
    + destruct E as [(ke' & [= <-] & E)|[E _]]; [contradiction|discriminate].
  - destruct H as [[Hi H]|(Hi & p & h1 & H & _)]; rewrite H; (split; [|discriminate]); split; intros E; try discriminate.
    + right. auto.
    + reflexivity.
    + destruct E as [(ke' & E & _)|[_ E]]; [discriminate|contradiction].
  - destruct Hg.
Qed.

Theorem text_clean t (a : api t) e s h ke : texts_ok T -> reached P C T bd (s, h) -> api_ok a -> env_ok e -> c_strings a ->
  body P C bd a s e h = Err ke -> In x00 (utf8 (show T ke)) -> nul_phrase P C a \/ nul_variant ke.
Proof.
  intros HT Hr Ha He Hc Hb Hin. apply reached_inv in Hr. pose proof (body_good P HP C bd t a s e h Hr Ha He) as Hg.
  rewrite Hb in Hg. cbn [good] in Hg. destruct (Hg Hc) as [Hcl|Hn]; [|now left].
  destruct ke as [| | |? ?|?|?|?|?|d|? ?|?|?]; try (exfalso; refine (proj2 (show_nn T HT _) (conj Hcl _) Hin); cbn; tauto).
  destruct d as [|v].
  - exfalso. refine (proj2 (show_nn T HT _) (conj Hcl _) Hin). cbn; tauto.
  - right. cbn [nul_variant]. cbn [show show_data] in Hin. rewrite !BaseFacts.utf8_app in Hin. rewrite !in_app_iff in Hin.
    destruct Hin as [Hin|[Hin|[Hin|[Hin|Hin]]]]; [exfalso|exfalso|exact Hin|exfalso|exfalso].
    + revert Hin. apply nn_ascii. reflexivity.
    + revert Hin. apply nn_ascii. reflexivity.
    + revert Hin. apply nn_ascii. reflexivity.
    + now apply HT in Hin.
Qed.

Theorem variant_escapes v : In x00 (utf8 v) -> In x00 (utf8 (show T (DataError (DUnknownVariant v)))).
Proof.
  intros H. cbn [show show_data]. rewrite !BaseFacts.utf8_app, !in_app_iff. auto.
Qed.
Theorem escapes_exactly t (a : api t) out err e s h :
  texts_ok T -> reached P C T bd (s, h) -> api_ok a -> env_ok e -> c_strings a ->
  no_nul (utf8 (env_panic e)) -> ~ nul_phrase P C a ->
  (entry P C T bd a out err e s h = Panic <->
   exists v, body P C bd a s e h = Err (DataError (DUnknownVariant v)) /\ In x00 (utf8 v)).
Proof.
  intros HT R Ha He Hc Hp Hn. destruct (escapes t a out err e s h R Ha He) as [X _]. rewrite X. split.
  - intros [(ke & E & H)|[_ H]]; [|now destruct (Hp H)].
    destruct (text_clean t a e s h ke HT R Ha He Hc E H) as [Hx|Hx]; [now destruct (Hn Hx)|].
    destruct ke as [| | |? ?|?|?|?|?|d|? ?|?|?]; try easy. destruct d; try easy. eauto.
  - intros (v & E & H). left. eexists. split; [exact E|]. now apply variant_escapes.
Qed.
End F.
