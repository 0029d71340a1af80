From Verif Require Import Base BaseFacts Str Prims Bip39 Dict KeyPath Errors FMap FMapFacts Crypt CryptSpec CryptFacts
  Data DataSpec Keys Mnemonic Keychain Manager ManagerSpec ManagerFacts WalletFacts Custom CustomSpec.
Local Strategy 1000 [XPrv.derive XPrv.derive_loop XPrv.derive_step XPrv.xprv_from_data].

(** ** Calls in turn *)
Lemma each_calls {E X I A B} (q : I -> question) (look : list event -> I -> res X A) (g : A -> I -> B)
  (err : I -> X -> E) (f : I -> calling E B) :
  (forall h i, look h i <> Undef) ->
  (forall h i, f i h = (match look h i with Ok a => Ok (g a i) | Err x => Err (err i x) | Panic => Panic | Undef => Undef end,
                        h ++ [Asked (q i)])) ->
  forall l h,
  (exists r h', in_turn q (fun h i a => look h i = Ok a) h l r h' /\
     each f l h = (Ok (map (fun x => g (fst x) (snd x)) (combine r l)), h')) \/
  (exists pre i post r h', l = pre ++ i :: post /\ in_turn q (fun h i a => look h i = Ok a) h pre r h' /\
     ((look h' i = Panic /\ each f l h = (Panic, h' ++ [Asked (q i)])) \/
      (exists x, look h' i = Err x /\ each f l h = (Err (err i x), h' ++ [Asked (q i)])))).
Proof.
  intros Hu Hf. induction l as [|i l IH]; intros h.
  - left. exists [], h. split; [constructor|reflexivity].
  - cbn [each]. destruct (look h i) as [a|x| |] eqn:Ei.
    + destruct (IH (h ++ [Asked (q i)])) as [(r & h' & Hr & E')|(pre & j & post & r & h' & -> & Hr & Hj)].
      * left. exists (a :: r), h'. split; [econstructor; eassumption|]. unfold chain. rewrite Hf, Ei, E'. reflexivity.
      * right. exists (i :: pre), j, post, (a :: r), h'. split; [reflexivity|].
        split; [econstructor; eassumption|].
        destruct Hj as [(Hj & E')|(x & Hj & E')]; [left|right; exists x]; (split; [exact Hj|]); unfold chain; now rewrite Hf, Ei, E'.
    + right. exists [], i, l, [], h. split; [reflexivity|]. split; [constructor|]. right. exists x. split; [exact Ei|]. unfold chain. now rewrite Hf, Ei.
    + right. exists [], i, l, [], h. split; [reflexivity|]. split; [constructor|]. left. split; [exact Ei|]. unfold chain. now rewrite Hf, Ei.
    + now destruct (Hu h i).
Qed.

Lemma in_turn_length {I A} (q : I -> question) (says : list event -> I -> A -> Prop) h l r h' :
  in_turn q says h l r h' -> length r = length l /\ h' = h ++ map Asked (map q l).
Proof.
  induction 1 as [|h i a l r h' Ha H [IHl IHh]]; [now rewrite app_nil_r|].
  cbn [length map]. rewrite IHl. split; [reflexivity|]. rewrite IHh, <- app_assoc. reflexivity.
Qed.

Lemma map_pair_combine {A B} (r : list A) (l : list B) :
  map (fun x => (fst x, snd x)) (combine r l) = combine r l.
Proof. rewrite <- (map_id (combine r l)) at 2. apply map_ext. now intros []. Qed.

Lemma map_fst_combine {A B} (r : list A) : forall (l : list B), length r = length l ->
  map (fun x => fst x) (combine r l) = r.
Proof. induction r as [|a r IH]; intros [|b l] E; try discriminate; [reflexivity|]. cbn. f_equal. apply IH. now injection E. Qed.

(** ** Maps filled with pairs *)
Lemma filled_of_list {A} (l : list (N * A)) : filled l (of_list l).
Proof.
  split; [apply of_list_wf|]. intros n a. induction l as [|[n' a'] l IH] using rev_ind.
  - split; [discriminate|]. intros (pre & post & E & _). now destruct pre.
  - rewrite of_list_snoc, get_ins by apply of_list_wf. destruct (N.eqb_spec n n') as [<-|Hn].
    + split.
      * intros E. injection E as ->. exists l, []. split; [reflexivity|]. intros x [].
      * intros (pre & post & E & H). destruct post as [|y post] using rev_ind.
        -- apply app_inj_tail in E as [_ E]. congruence.
        -- clear IHpost. rewrite app_comm_cons, app_assoc in E. apply app_inj_tail in E as [_ <-].
           exfalso. apply (H (n, a')); [apply in_or_app; right; now left|reflexivity].
    + rewrite IH. split.
      * intros (pre & post & -> & H). exists pre, (post ++ [(n', a')]). split; [now rewrite <- app_assoc|].
        intros x Hx. apply in_app_or in Hx as [Hx|[<-|[]]]; [now apply H|]. cbn. congruence.
      * intros (pre & post & E & H). destruct post as [|y post] using rev_ind.
        -- apply app_inj_tail in E as [_ E]. congruence.
        -- clear IHpost. rewrite app_comm_cons, app_assoc in E. apply app_inj_tail in E as [-> <-].
           exists pre, post. split; [reflexivity|]. intros x Hx. apply H, in_or_app. now left.
Qed.

Lemma filled_unique {A} (l : list (N * A)) m m' : filled l m -> filled l m' -> m = m'.
Proof.
  intros [Hw H] [Hw' H']. apply map_ext_get; [exact Hw|exact Hw'|]. intros n.
  destruct (get n m) as [a|] eqn:E.
  - symmetry. apply H', H, E.
  - destruct (get n m') as [a|] eqn:E'; [|reflexivity]. apply H', H in E'. congruence.
Qed.

(** ** Making a manager *)
Section Facts.
Variable W : world.
Hypothesis HW : world_ok W.

Lemma sizes_calls {E} fs : forall h lo hi,
  (exists ss h', in_turn AskSize (says_size W) h fs ss h' /\
     c_sizes (E := E) W fs lo hi h
     = (Ok (fold_left (fun a s => N.max a (ss_min s)) ss lo, fold_left (fun a s => N.min a (ss_max s)) ss hi), h')) \/
  (exists pre f post ss h', fs = pre ++ f :: post /\ in_turn AskSize (says_size W) h pre ss h' /\
     W h' (AskSize f) = Panic /\ c_sizes (E := E) W fs lo hi h = (Panic, h' ++ [Asked (AskSize f)])).
Proof.
  induction fs as [|f fs IH]; intros h lo hi.
  - left. exists [], h. split; [constructor|reflexivity].
  - cbn [c_sizes]. unfold chain, call_size. destruct (W h (AskSize f)) as [s|x| |] eqn:Ef; cbn [map_err].
    + destruct (IH (h ++ [Asked (AskSize f)]) (N.max lo (ss_min s)) (N.min hi (ss_max s)))
        as [(ss & h' & H & E')|(pre & g & post & ss & h' & -> & H & Hg & E')].
      * left. exists (s :: ss), h'. split; [econstructor; eassumption|exact E'].
      * right. exists (f :: pre), g, post, (s :: ss), h'. split; [reflexivity|].
        split; [econstructor; eassumption|]. split; [exact Hg|exact E'].
    + destruct x.
    + right. exists [], f, fs, [], h. split; [reflexivity|]. split; [constructor|]. auto.
    + now destruct (ok_defined W HW h (AskSize f)).
Qed.

Lemma fold_max ss : forall lo, let r := fold_left (fun a s => N.max a (ss_min s)) ss lo in
  lo <= r /\ (forall s, In s ss -> ss_min s <= r) /\ (r = lo \/ exists s, In s ss /\ ss_min s = r).
Proof.
  induction ss as [|s ss IH]; intros lo; cbn [fold_left].
  - cbv zeta. split; [lia|]. split; [intros s []|]. now left.
  - specialize (IH (N.max lo (ss_min s))). cbv zeta in *. destruct IH as (H1 & H2 & H3).
    split; [lia|]. split.
    + intros t [<-|Ht]; [lia|]. now apply H2.
    + destruct H3 as [->|(t & Ht & E)]; [|right; exists t; split; [now right|exact E]].
      destruct (N.max_spec lo (ss_min s)) as [[Hl ->]|[Hl ->]]; [|now left].
      right. exists s. split; [now left|reflexivity].
Qed.

Lemma fold_min ss : forall hi, let r := fold_left (fun a s => N.min a (ss_max s)) ss hi in
  r <= hi /\ (forall s, In s ss -> r <= ss_max s) /\ (r = hi \/ exists s, In s ss /\ ss_max s = r).
Proof.
  induction ss as [|s ss IH]; intros hi; cbn [fold_left].
  - cbv zeta. split; [lia|]. split; [intros s []|]. now left.
  - specialize (IH (N.min hi (ss_max s))). cbv zeta in *. destruct IH as (H1 & H2 & H3).
    split; [lia|]. split.
    + intros t [<-|Ht]; [lia|]. now apply H2.
    + destruct H3 as [->|(t & Ht & E)]; [|right; exists t; split; [now right|exact E]].
      destruct (N.min_spec hi (ss_max s)) as [[Hl ->]|[Hl ->]]; [now left|].
      right. exists s. split; [now left|reflexivity].
Qed.

Lemma sizes_usize h fs ss h' : in_turn AskSize (says_size W) h fs ss h' ->
  forall s, In s ss -> is_usize (ss_min s) /\ is_usize (ss_max s).
Proof.
  induction 1 as [|h f a l r h' Ha H IH]; intros s Hs; [destruct Hs|].
  destruct Hs as [<-|Hs]; [|now apply IH]. eapply (ok_size W HW), Ha.
Qed.

Lemma folds_bounds ss : (forall s, In s ss -> is_usize (ss_min s) /\ is_usize (ss_max s)) ->
  bounds ss (fold_left (fun a s => N.max a (ss_min s)) ss 0) (fold_left (fun a s => N.min a (ss_max s)) ss usize_max).
Proof.
  intros Hss. destruct (fold_max ss 0) as (_ & H1 & H2). destruct (fold_min ss usize_max) as (_ & H3 & H4).
  cbv zeta in *. split; [intros s Hs; split; [now apply H1|now apply H3]|]. split.
  - destruct H2 as [E|H2]; [|now right]. destruct ss as [|s ss]; [left; auto|]. right. exists s. split; [now left|].
    specialize (H1 s (or_introl eq_refl)). lia.
  - destruct H4 as [E|H4]; [|now right]. destruct ss as [|s ss]; [left; auto|]. right. exists s. split; [now left|].
    specialize (H3 s (or_introl eq_refl)). destruct (Hss s (or_introl eq_refl)) as [_ Hm]. unfold is_usize in Hm. lia.
Qed.

Lemma network_look {E} f h : call_network (E := E) W f h
  = (match W h (AskNetwork f) with Ok a => Ok a | Err x => Err (no_fault x) | Panic => Panic | Undef => Undef end,
     h ++ [Asked (AskNetwork f)]).
Proof. reflexivity. Qed.

Lemma networks_calls {E} fs h :
  (exists ns h', in_turn AskNetwork (says_network W) h fs ns h' /\
     each (E := E) (fun f => do! n := call_network W f in pure (Ok (n, f))) fs h = (Ok (combine ns fs), h')) \/
  (exists pre f post ns h', fs = pre ++ f :: post /\ in_turn AskNetwork (says_network W) h pre ns h' /\
     W h' (AskNetwork f) = Panic /\
     each (E := E) (fun f => do! n := call_network W f in pure (Ok (n, f))) fs h = (Panic, h' ++ [Asked (AskNetwork f)])).
Proof.
  destruct (each_calls (E := E) AskNetwork (fun h f => W h (AskNetwork f)) (fun n f => (n, f)) (fun _ x => no_fault x)
      (fun f => do! n := call_network W f in pure (Ok (n, f)))
      (fun h f => ok_defined W HW h (AskNetwork f))) with (l := fs) (h := h)
    as [(ns & h' & H & E')|(pre & f & post & ns & h' & -> & H & [(Hf & E')|(x & _)])].
  - intros h0 f. unfold chain, call_network. now destruct (W h0 (AskNetwork f)).
  - left. exists ns, h'. split; [exact H|]. rewrite map_pair_combine in E'. exact E'.
  - right. exists pre, f, post, ns, h'. auto.
  - destruct x.
Qed.

Lemma key_networks_calls ks h :
  (exists ns h', in_turn AskKeyNetwork (says_key_network W) h ks ns h' /\
     c_keychain_new W ks h = (Ok (of_list (combine ns ks)), h')) \/
  (exists pre k post ns h', ks = pre ++ k :: post /\ in_turn AskKeyNetwork (says_key_network W) h pre ns h' /\
     W h' (AskKeyNetwork k) = Panic /\ c_keychain_new W ks h = (Panic, h' ++ [Asked (AskKeyNetwork k)])).
Proof.
  unfold c_keychain_new.
  destruct (each_calls (E := kc_error) AskKeyNetwork (fun h k => W h (AskKeyNetwork k)) (fun n k => (n, k)) (fun _ x => no_fault x)
      (fun k => do! n := call_key_network W k in pure (Ok (n, k)))
      (fun h k => ok_defined W HW h (AskKeyNetwork k))) with (l := ks) (h := h)
    as [(ns & h' & H & E')|(pre & k & post & ns & h' & -> & H & [(Hf & E')|(x & _)])].
  - intros h0 k. unfold chain, call_key_network. now destruct (W h0 (AskKeyNetwork k)).
  - left. exists ns, h'. split; [exact H|]. rewrite map_pair_combine in E'. unfold chain at 1. rewrite E'. reflexivity.
  - right. exists pre, k, post, ns, h'. do 3 (split; [assumption || reflexivity|]). unfold chain at 1. rewrite E'. reflexivity.
  - destruct x.
Qed.

Theorem builds fs h : built W h fs (fst (c_with_factories W fs h)) (snd (c_with_factories W fs h)).
Proof.
  remember (c_with_factories W fs h) as out eqn:E. unfold c_with_factories, c_calculate_seed_size in E.
  destruct (sizes_calls (E := kc_error) fs h 0 usize_max) as [(ss & h1 & Hss & E1)|(pre & f & post & ss & h1 & Efs & Hss & Hf & E1)].
  - pose proof (folds_bounds ss (sizes_usize _ _ _ _ Hss)) as Hb.
    set (lo := fold_left _ ss 0) in *. set (hi := fold_left _ ss usize_max) in *.
    unfold chain at 1 2 in E. rewrite E1 in E. cbn [pure] in E.
    destruct (N.eqb_spec lo 0) as [Hz|Hz]; [subst out; eapply built_no_size; eauto|].
    destruct (N.leb_spec hi lo) as [Hl|Hl]; [subst out; eapply built_no_size; eauto|].
    assert (0 < lo < hi) as Hlo by lia.
    destruct (networks_calls (E := kc_error) fs h1) as [(ns & h2 & Hns & E2)|(pre & f & post & ns & h2 & Efs & Hns & Hf & E2)];
      unfold chain at 1 in E; rewrite E2 in E; cbn [pure] in E; subst out; cbn [fst snd].
    + eapply built_ok; eauto. apply filled_of_list.
    + eapply built_network_panic; eauto.
  - unfold chain at 1 2 in E. rewrite E1 in E. subst out. cbn [fst snd]. eapply built_size_panic; eauto.
Qed.

(** ** Creating a wallet *)
Lemma data_calls seed f h :
  c_data_of W seed f h =
  match W h (AskData f seed) with
  | Ok d => match W (h ++ [Asked (AskData f seed)]) (AskNetwork f) with
            | Ok n => (Ok (n, d), h ++ [Asked (AskData f seed); Asked (AskNetwork f)])
            | Err x => (Err (no_fault x), h ++ [Asked (AskData f seed); Asked (AskNetwork f)])
            | Panic => (Panic, h ++ [Asked (AskData f seed); Asked (AskNetwork f)])
            | Undef => (Undef, h ++ [Asked (AskData f seed); Asked (AskNetwork f)])
            end
  | Err e => match W (h ++ [Asked (AskData f seed)]) (AskNetwork f) with
            | Ok n => (Err (KeyError n e), h ++ [Asked (AskData f seed); Asked (AskNetwork f)])
            | Err x => (Err (no_fault x), h ++ [Asked (AskData f seed); Asked (AskNetwork f)])
            | Panic => (Panic, h ++ [Asked (AskData f seed); Asked (AskNetwork f)])
            | Undef => (Undef, h ++ [Asked (AskData f seed); Asked (AskNetwork f)])
            end
  | Panic => (Panic, h ++ [Asked (AskData f seed)])
  | Undef => (Undef, h ++ [Asked (AskData f seed)])
  end.
Proof.
  unfold c_data_of, on_err, chain, call, call_network. cbn [fault value].
  destruct (W h (AskData f seed)) as [d|e| |]; try reflexivity.
  - destruct (W (h ++ [Asked (AskData f seed)]) (AskNetwork f)) as [n|[]| |]; cbn [map_err pure];
      rewrite <- app_assoc; reflexivity.
  - destruct (W (h ++ [Asked (AskData f seed)]) (AskNetwork f)) as [n|[]| |]; cbn [map_err pure];
      rewrite <- app_assoc; reflexivity.
Qed.

Lemma collects seed fs : forall h,
  collected W seed h fs (fst (each (c_data_of W seed) fs h)) (snd (each (c_data_of W seed) fs h)).
Proof.
  induction fs as [|f fs IH]; intros h; [apply coll_all; constructor|].
  remember (each (c_data_of W seed) (f :: fs) h) as out eqn:E. cbn [each] in E.
  unfold chain at 1 in E. rewrite data_calls in E. destruct (W h (AskData f seed)) as [d|e| |] eqn:Ed.
  - destruct (W (h ++ [Asked (AskData f seed)]) (AskNetwork f)) as [n|x| |] eqn:En.
    + specialize (IH (h ++ [Asked (AskData f seed); Asked (AskNetwork f)])). unfold chain at 1 in E.
      destruct (each (c_data_of W seed) fs _) as [r hr]; cbn [fst snd] in IH.
      inversion IH as [ds h' H E1 E2|pre g post ds h' Efs H Hg E1 E2|pre g post ds h' e n' Efs H Hg Hn E1 E2|pre g post ds h' Efs H Hg Hn E1 E2];
        subst r hr; subst out; cbn [pure fst snd].
      * apply coll_all. econstructor; eassumption.
      * eapply (coll_panic W seed h (f :: fs) (f :: pre)); [rewrite Efs; reflexivity|econstructor; eassumption|exact Hg].
      * eapply (coll_error W seed h (f :: fs) (f :: pre)); [rewrite Efs; reflexivity|econstructor; eassumption|exact Hg|exact Hn].
      * eapply (coll_network_panic W seed h (f :: fs) (f :: pre)); [rewrite Efs; reflexivity|econstructor; eassumption|exact Hg|exact Hn].
    + destruct x.
    + subst out. cbn [fst snd]. eapply (coll_network_panic W seed h (f :: fs) []); [reflexivity|constructor|congruence|exact En].
    + now destruct (ok_defined W HW (h ++ [Asked (AskData f seed)]) (AskNetwork f)).
  - destruct (W (h ++ [Asked (AskData f seed)]) (AskNetwork f)) as [n|x| |] eqn:En.
    + subst out. cbn [fst snd]. eapply (coll_error W seed h (f :: fs) []); [reflexivity|constructor|exact Ed|exact En].
    + destruct x.
    + subst out. cbn [fst snd]. eapply (coll_network_panic W seed h (f :: fs) []); [reflexivity|constructor|congruence|exact En].
    + now destruct (ok_defined W HW (h ++ [Asked (AskData f seed)]) (AskNetwork f)).
  - subst out. cbn [fst snd]. eapply (coll_panic W seed h (f :: fs) []); [reflexivity|constructor|exact Ed].
  - now destruct (ok_defined W HW h (AskData f seed)).
Qed.

(** ** Wallets *)
Section WithPrims.
Variable P : prims.
Hypothesis HP : prims_ok P.
Variable C : data_config.

Lemma c_seed_cases m seed mn lang :
  (exists s, c_seed_from_data P m seed mn lang = Ok s /\ c_secret P m seed mn lang s) \/
  (exists e, c_seed_from_data P m seed mn lang = Err e /\ (forall s, ~ c_secret P m seed mn lang s) /\
     forall fm, m_seed_size fm = cm_seed_size m -> seed_from_data P fm seed mn lang = Err e).
Proof.
  unfold c_seed_from_data, c_secret.
  destruct (seed_from_data_total P {| m_factories := []; m_seed_size := cm_seed_size m |} seed mn lang) as [(s & E)|(e & E & H)].
  - left. exists s. split; [exact E|]. now apply secret_iff.
  - right. exists e. split; [exact E|]. split; [exact H|]. intros fm Hf. rewrite <- E. unfold seed_from_data. cbn [m_seed_size]. now rewrite Hf.
Qed.

Lemma c_secret_unique m seed mn lang s s' :
  c_secret P m seed mn lang s -> c_secret P m seed mn lang s' -> s = s'.
Proof. unfold c_secret. intros H H'. apply secret_iff in H, H'. congruence. Qed.

Definition creates o1 o2 m seed pw mn lang r h :=
  let out := c_new_keychain_data W P o1 o2 m seed pw mn lang r h in
  ((forall s, ~ c_secret P m seed mn lang s) ->
     exists e, out = (Err e, h) /\
       forall fm o1' o2', m_seed_size fm = cm_seed_size m ->
         new_keychain_data P o1' o2' fm seed pw mn lang r = Err e) /\
  (forall s, c_secret P m seed mn lang s ->
     exists fs got h', Permutation fs (map snd (cm_factories m)) /\ collected W s h fs got h' /\
       match got with
       | Ok ds => exists data rest keys, out = (Ok (data, rest), h' ++ [Drawn 32; Drawn 12]) /\
           filled ds keys /\
           stored P pw {| w_seed := seed; w_mnemonic := mn; w_dictionary := lang; w_keys := keys |} data /\
           (forall i, rest i = r (44 + i)%nat)
       | Err e => out = (Err e, h')
       | Panic => out = (Panic, h')
       | Undef => False
       end).

Theorem creates_all o1 o2 m seed pw mn lang r h : order_ok o1 -> order_ok o2 ->
  creates o1 o2 m seed pw mn lang r h.
Proof.
  intros Ho1 Ho2. unfold creates. cbv zeta.
  remember (c_new_keychain_data W P o1 o2 m seed pw mn lang r h) as out eqn:Eo.
  unfold c_new_keychain_data in Eo. unfold chain at 1 in Eo.
  destruct (c_seed_cases m seed mn lang) as [(s & E & Hs)|(e & E & Hn & He)]; rewrite E in Eo; cbn [pure] in Eo.
  - split; [intros H; now destruct (H s)|]. intros s' Hs'. rewrite (c_secret_unique _ _ _ _ _ _ Hs' Hs). clear s' Hs'.
    set (fs := map snd (o1 _ (cm_factories m))) in Eo.
    pose proof (collects s fs h) as Hc. destruct (each (c_data_of W s) fs h) as [got h'] eqn:Eg. cbn [fst snd] in Hc.
    exists fs, got, h'. split; [apply Permutation_map, Ho1|]. split; [exact Hc|].
    unfold chain in Eo. rewrite Eg in Eo. destruct got as [ds|e| |].
    + unfold drawing in Eo. set (w := {| w_keys := of_list ds |}) in Eo.
      exists (fst (seal P o2 w pw r)), (snd (seal P o2 w pw r)), (of_list ds).
      split; [now rewrite <- surjective_pairing|]. split; [apply filled_of_list|].
      split; [apply (seal_stored P HP), Ho2|apply (seal_rest P HP)].
    + exact Eo.
    + exact Eo.
    + inversion Hc.
  - split; [|intros s Hs; now destruct (Hn s)]. intros _. exists e. split; [exact Eo|].
    intros fm o1' o2' Hf. unfold new_keychain_data. rewrite (He fm Hf). reflexivity.
Qed.

Lemma registers m entries : registered m entries
  (filter_map (fun '(network, key) =>
      option_map (fun factory => (network, factory, key)) (get network (cm_factories m))) entries).
Proof.
  induction entries as [|[n d] l IH]; cbn [filter_map]; [constructor|].
  destruct (get n (cm_factories m)) as [f|] eqn:E; cbn [option_map]; now constructor.
Qed.

Definition opens o m data pw h :=
  let out := c_keychain_from_data W P C o m data pw h in
  match keychain_data_from_bytes P C data pw with
  | Ok w => exists entries items, Permutation entries (w_keys w) /\ registered m entries items /\
              opened W h items (fst out) (snd out)
  | Err e => out = (Err e, h)
  | Panic | Undef => False
  end.

Theorem opens_all o m data pw h : order_ok o -> opens o m data pw h.
Proof.
  intros Ho. unfold opens. cbv zeta.
  destruct (keychain_data_from_bytes P C data pw) as [w|e| |] eqn:E.
  2:{ unfold c_keychain_from_data, chain. rewrite E. reflexivity. }
  2,3: destruct (decode_cases P HP C data pw) as [(w & E' & _)|[(_ & E')|[(_ & _ & E')|(d & s & n & e & _ & _ & _ & E')]]]; congruence.
  exists (o _ (w_keys w)), (filter_map (fun '(network, key) =>
      option_map (fun factory => (network, factory, key)) (get network (cm_factories m))) (o _ (w_keys w))).
  split; [apply Ho|]. split; [apply registers|].
  remember (c_keychain_from_data W P C o m data pw h) as out eqn:Eo.
  unfold c_keychain_from_data in Eo. unfold chain at 1 in Eo. rewrite E in Eo. cbn [pure] in Eo.
  set (items := filter_map _ _) in *.
  destruct (each_calls (E := kc_error) ask_item (fun h i => W h (AskKey (snd (fst i)) (snd i))) (fun k _ => k)
      (fun i e => KeyError (fst (fst i)) e)
      (fun '(network, factory, key) => on_err (call W (AskKey factory key)) (fun e => pure (Err (KeyError network e))))
      (fun h i => ok_defined W HW h (AskKey (snd (fst i)) (snd i)))) with (l := items) (h := h)
    as [(ks & h1 & Hk & E1)|(pre & [[n f] d] & post & ks & h1 & Ei & Hk & [(Hf & E1)|(x & Hf & E1)])].
  - intros h0 [[n f] d]. unfold on_err, call, ask_item. cbn [fst snd]. now destruct (W h0 (AskKey f d)).
  - unfold chain in Eo. rewrite E1 in Eo.
    rewrite map_fst_combine in Eo by (apply (in_turn_length _ _ _ _ _ _ Hk)).
    destruct (key_networks_calls ks h1) as [(ns & h2 & Hn & E2)|(pre & k & post & ns & h2 & Ek & Hn & Hp & E2)];
      rewrite E2 in Eo; subst out; cbn [fst snd].
    + eapply open_ok; eauto. apply filled_of_list.
    + eapply open_network_panic; eauto.
  - unfold chain in Eo. rewrite E1 in Eo. subst out. cbn [fst snd]. eapply open_panic; eauto.
  - unfold chain in Eo. rewrite E1 in Eo. subst out. cbn [fst snd]. eapply open_error; eauto.
Qed.

Definition adds o m data pw n r h :=
  let out := c_add_network W P C o m data pw n r h in
  match get n (cm_factories m), keychain_data_from_bytes P C data pw with
  | None, _ => out = (Err (NetworkIsNotSupported n), h)
  | Some f, Ok w =>
    match get n (w_keys w) with
    | Some _ => out = (Err (KeyAlreadyExist n), h)
    | None =>
      ((forall s, ~ c_secret P m (w_seed w) (w_mnemonic w) (w_dictionary w) s) -> exists e, out = (Err e, h)) /\
      (forall s, c_secret P m (w_seed w) (w_mnemonic w) (w_dictionary w) s ->
        match W h (AskData f s) with
        | Ok d => exists data' rest w', out = (Ok (data', rest), h ++ [Asked (AskData f s); Drawn 32; Drawn 12]) /\
            extended w n d w' /\ stored P pw w' data' /\ (forall i, rest i = r (44 + i)%nat)
        | Err e => out = (Err (KeyError n e), h ++ [Asked (AskData f s)])
        | Panic => out = (Panic, h ++ [Asked (AskData f s)])
        | Undef => False
        end)
    end
  | Some f, Err e => out = (Err e, h)
  | Some f, _ => False
  end.

Theorem adds_all o m data pw n r h : order_ok o -> adds o m data pw n r h.
Proof.
  intros Ho. unfold adds. cbv zeta.
  remember (c_add_network W P C o m data pw n r h) as out eqn:Eo. unfold c_add_network in Eo.
  destruct (get n (cm_factories m)) as [f|]; cbn [ok_or] in Eo; [|exact Eo].
  unfold chain at 1 in Eo. cbn [pure] in Eo.
  destruct (keychain_data_from_bytes P C data pw) as [w|e| |] eqn:E.
  2: exact Eo.
  2,3: destruct (decode_cases P HP C data pw) as [(w & E' & _)|[(_ & E')|[(_ & _ & E')|(d & s & n' & e & _ & _ & _ & E')]]]; congruence.
  unfold chain at 1 in Eo. cbn [pure] in Eo.
  pose proof (decode_ok P HP C _ _ _ E) as Hw.
  destruct (get n (w_keys w)) as [d|] eqn:En; [exact Eo|].
  destruct (c_seed_cases m (w_seed w) (w_mnemonic w) (w_dictionary w)) as [(s & Es & Hs)|(e & Es & Hn & _)];
    unfold chain at 1 in Eo; rewrite Es in Eo; cbn [pure] in Eo.
  - split; [intros H; now destruct (H s)|]. intros s' Hs'. rewrite (c_secret_unique _ _ _ _ _ _ Hs' Hs). clear s' Hs'.
    unfold chain, on_err, call in Eo. pose proof (ok_defined W HW h (AskData f s)) as Hu.
    destruct (W h (AskData f s)) as [d|e| |]; try exact Eo; [|now destruct Hu].
    unfold drawing in Eo. rewrite <- app_assoc in Eo. cbn [app] in Eo.
    set (w' := {| w_keys := ins n d (w_keys w) |}) in Eo.
    exists (fst (seal P o w' pw r)), (snd (seal P o w' pw r)), w'.
    split; [now rewrite <- surjective_pairing|]. split; [|split; [apply (seal_stored P HP), Ho|apply (seal_rest P HP)]].
    assert (wf_map (w_keys w)) as Hk by apply Hw.
    repeat split; [apply ins_wf; exact Hk|]. intros k. apply get_ins. exact Hk.
  - split; [|intros s Hs; now destruct (Hn s)]. intros _. exists e. exact Eo.
Qed.
End WithPrims.

(** ** What is asked, and whose panic it is *)
Lemma given_history s h fs ds h' : given W s h fs ds h' ->
  h' = h ++ map Asked (flat_map (fun f => [AskData f s; AskNetwork f]) fs).
Proof.
  induction 1 as [|h f d n fs ds h' _ _ _ IH]; [now rewrite app_nil_r|].
  rewrite IH, <- app_assoc. reflexivity.
Qed.

Lemma asked_app (h : list event) qs q : (h ++ map Asked qs) ++ [Asked q] = h ++ map Asked (qs ++ [q]).
Proof. now rewrite map_app, <- app_assoc. Qed.

Lemma asked_more (h : list event) qs qs' : (h ++ map Asked qs) ++ map Asked qs' = h ++ map Asked (qs ++ qs').
Proof. now rewrite map_app, <- app_assoc. Qed.

Lemma asked_app2 (h : list event) qs q q' :
  (h ++ map Asked qs) ++ [Asked q; Asked q'] = h ++ map Asked ((qs ++ [q]) ++ [q']).
Proof. now rewrite !map_app, <- !app_assoc. Qed.

Lemma asks_plain {E A} Q h qs (r : res E A) : Forall Q qs -> asks_only Q h (r, h ++ map Asked qs).
Proof. intros H. exists qs. split; [exact H|]. now left. Qed.

Lemma asks_nothing {E A} Q h (r : res E A) : asks_only Q h (r, h).
Proof. exists []. split; [constructor|]. left. cbn. now rewrite app_nil_r. Qed.

Lemma asks_drawn {E A} Q h qs (a : A) : Forall Q qs ->
  asks_only (E := E) Q h (Ok a, (h ++ map Asked qs) ++ [Drawn 32; Drawn 12]).
Proof. intros H. exists qs. split; [exact H|]. right. split; [now exists a|]. now rewrite <- app_assoc. Qed.

Lemma Forall_map_in {A B} (Q : B -> Prop) (f : A -> B) l : (forall a, In a l -> Q (f a)) -> Forall Q (map f l).
Proof. intros H. apply Forall_map, Forall_forall. exact H. Qed.

Lemma build_asks fs h :
  asks_only (fun q => exists f, In f fs /\ (q = AskSize f \/ q = AskNetwork f)) h (c_with_factories W fs h) /\
  panics_with W h (c_with_factories W fs h).
Proof.
  pose proof (builds fs h) as H. destruct (c_with_factories W fs h) as [r h']; cbn [fst snd] in H.
  inversion H as [ss h1 ns h2 lo hi m H1 _ _ H2 _ _ E1 E2|ss h1 lo hi H1 _ _ E1 E2|pre f post ss h1 Efs H1 Hf E1 E2
    |ss h1 lo hi pre f post ns h2 H1 _ _ Efs H2 Hf E1 E2]; subst r h'; clear H.
  - apply in_turn_length in H1 as [_ ->]. apply in_turn_length in H2 as [_ ->].
    rewrite asked_more. split; [|now intros].
    apply asks_plain, Forall_app. split; apply Forall_map_in; eauto.
  - apply in_turn_length in H1 as [_ ->]. split; [|now intros].
    apply asks_plain, Forall_map_in; eauto.
  - apply in_turn_length in H1 as [_ ->]. rewrite asked_app. split.
    + apply asks_plain, Forall_app. split.
      * apply Forall_map_in. intros g Hg. exists g. split; [rewrite Efs; apply in_or_app; now left|now left].
      * constructor; [|constructor]. exists f. split; [rewrite Efs; apply in_elt|now left].
    + intros _. cbn [snd]. eauto.
  - apply in_turn_length in H1 as [_ ->]. apply in_turn_length in H2 as [_ ->].
    rewrite asked_more in *. rewrite asked_app. split.
    + apply asks_plain, Forall_app. split; [apply Forall_app; split|].
      * apply Forall_map_in. eauto.
      * apply Forall_map_in. intros g Hg. exists g. split; [rewrite Efs; apply in_or_app; now left|now right].
      * constructor; [|constructor]. exists f. split; [rewrite Efs; apply in_elt|now right].
    + intros _. cbn [snd]. eauto.
Qed.

Section WithPrims2.
Variable P : prims.
Hypothesis HP : prims_ok P.
Variable C : data_config.

Lemma Forall_flat s (Q : question -> Prop) fs :
  (forall f, In f fs -> Q (AskData f s) /\ Q (AskNetwork f)) ->
  Forall Q (flat_map (fun f => [AskData f s; AskNetwork f]) fs).
Proof.
  intros H. apply Forall_forall. intros q Hq. apply in_flat_map in Hq as (f & Hf & [<-|[<-|[]]]); now apply H.
Qed.

Definition for_new m seed mn lang (q : question) : Prop :=
  exists f s, In f (map snd (cm_factories m)) /\ c_secret P m seed mn lang s /\ (q = AskData f s \/ q = AskNetwork f).

Lemma create_asks o1 o2 m seed pw mn lang r h : order_ok o1 -> order_ok o2 ->
  asks_only (for_new m seed mn lang) h (c_new_keychain_data W P o1 o2 m seed pw mn lang r h) /\
  panics_with W h (c_new_keychain_data W P o1 o2 m seed pw mn lang r h).
Proof.
  intros Ho1 Ho2. pose proof (creates_all P HP o1 o2 m seed pw mn lang r h Ho1 Ho2) as H.
  unfold creates in H. cbv zeta in H. destruct H as [Hno Hyes].
  destruct (c_seed_cases P m seed mn lang) as [(s & _ & Hs)|(e & _ & Hn & _)].
  - destruct (Hyes s Hs) as (fs & got & h' & Hp & Hc & Hout). clear Hno Hyes.
    assert (forall f, In f fs -> for_new m seed mn lang (AskData f s) /\ for_new m seed mn lang (AskNetwork f)) as HQ.
    { intros f Hf. apply (Permutation_in _ Hp) in Hf. split; exists f, s; auto. }
    inversion Hc as [ds h1 H1 E1 E2|pre f post ds h1 Efs H1 Hf E1 E2|pre f post ds h1 e n Efs H1 Hf _ E1 E2
      |pre f post ds h1 Efs H1 _ Hf E1 E2]; subst got h'; clear Hc; apply given_history in H1; subst h1.
    + destruct Hout as (data & rest & keys & -> & _). split; [|now intros].
      apply asks_drawn, Forall_flat, HQ.
    + rewrite Hout, asked_app. split.
      * apply asks_plain, Forall_app. split; [apply Forall_flat; intros g Hg; apply HQ; rewrite Efs; apply in_or_app; now left|].
        constructor; [apply HQ; rewrite Efs; apply in_elt|constructor].
      * intros _. cbn [snd]. eauto.
    + rewrite Hout, asked_app2. split; [|now intros].
      apply asks_plain, Forall_app. split; [apply Forall_app; split|].
      * apply Forall_flat; intros g Hg; apply HQ; rewrite Efs; apply in_or_app; now left.
      * constructor; [apply HQ; rewrite Efs; apply in_elt|constructor].
      * constructor; [apply HQ; rewrite Efs; apply in_elt|constructor].
    + rewrite Hout, asked_app2. split.
      * apply asks_plain, Forall_app. split; [apply Forall_app; split|].
        -- apply Forall_flat; intros g Hg; apply HQ; rewrite Efs; apply in_or_app; now left.
        -- constructor; [apply HQ; rewrite Efs; apply in_elt|constructor].
        -- constructor; [apply HQ; rewrite Efs; apply in_elt|constructor].
      * intros _. cbn [snd]. rewrite asked_app in Hf. eauto.
  - destruct (Hno Hn) as (e' & -> & _). split; [apply asks_nothing|now intros].
Qed.

Definition for_open m data pw (q : question) : Prop :=
  (exists w n f d, keychain_data_from_bytes P C data pw = Ok w /\ get n (cm_factories m) = Some f /\
     get n (w_keys w) = Some d /\ q = AskKey f d) \/
  exists k, q = AskKeyNetwork k.

Lemma registered_in m entries items n f d : registered m entries items -> In (n, f, d) items ->
  In (n, d) entries /\ get n (cm_factories m) = Some f.
Proof.
  induction 1 as [|n' d' f' l r Hf _ IH|n' d' l r Hf _ IH]; intros Hi; [destruct Hi| |].
  - destruct Hi as [E|Hi]; [injection E as -> -> ->; split; [now left|exact Hf]|].
    destruct (IH Hi) as [H1 H2]. split; [now right|exact H2].
  - destruct (IH Hi) as [H1 H2]. split; [now right|exact H2].
Qed.

Lemma open_asks o m data pw h : order_ok o ->
  asks_only (for_open m data pw) h (c_keychain_from_data W P C o m data pw h) /\
  panics_with W h (c_keychain_from_data W P C o m data pw h).
Proof.
  intros Ho. pose proof (opens_all P HP C o m data pw h Ho) as H. unfold opens in H. cbv zeta in H.
  destruct (keychain_data_from_bytes P C data pw) as [w|e| |] eqn:E; try contradiction.
  2:{ rewrite H. split; [apply asks_nothing|now intros]. }
  destruct H as (entries & items & Hp & Hr & H).
  assert (forall i, In i items -> for_open m data pw (ask_item i)) as HQ.
  { intros [[n f] d] Hi. apply (registered_in _ _ _ _ _ _ Hr) in Hi as [Hi Hf].
    left. exists w, n, f, d. split; [exact E|]. split; [exact Hf|]. split; [|reflexivity].
    apply In_get; [apply (decode_ok P HP C _ _ _ E)|]. eapply Permutation_in; eassumption. }
  assert (forall k, for_open m data pw (AskKeyNetwork k)) as HK by (intros k; right; eauto).
  destruct (c_keychain_from_data W P C o m data pw h) as [r h']; cbn [fst snd] in H.
  inversion H as [ks h1 ns h2 kc H1 H2 _ E1 E2|pre n f d post ks h1 e Ei H1 Hf E1 E2|pre n f d post ks h1 Ei H1 Hf E1 E2
    |ks h1 pre k post ns h2 H1 Ek H2 Hf E1 E2]; subst r h'; clear H; apply in_turn_length in H1 as [_ ->].
  - apply in_turn_length in H2 as [_ ->]. rewrite asked_more. split; [|now intros].
    apply asks_plain, Forall_app. split; apply Forall_map_in; auto.
  - rewrite asked_app. split; [|now intros]. apply asks_plain, Forall_app. split.
    + apply Forall_map_in. intros i Hi. apply HQ. rewrite Ei. apply in_or_app. now left.
    + constructor; [|constructor]. apply (HQ (n, f, d)). rewrite Ei. apply in_elt.
  - rewrite asked_app. split.
    + apply asks_plain, Forall_app. split.
      * apply Forall_map_in. intros i Hi. apply HQ. rewrite Ei. apply in_or_app. now left.
      * constructor; [|constructor]. apply (HQ (n, f, d)). rewrite Ei. apply in_elt.
    + intros _. cbn [snd]. eauto.
  - apply in_turn_length in H2 as [_ ->]. rewrite asked_more in *. rewrite asked_app. split.
    + apply asks_plain, Forall_app. split; [apply Forall_app; split; apply Forall_map_in; auto|].
      constructor; [apply HK|constructor].
    + intros _. cbn [snd]. eauto.
Qed.

Definition for_add m data pw n (q : question) : Prop :=
  exists w f s, keychain_data_from_bytes P C data pw = Ok w /\ get n (w_keys w) = None /\
    get n (cm_factories m) = Some f /\
    c_secret P m (w_seed w) (w_mnemonic w) (w_dictionary w) s /\ q = AskData f s.

Lemma add_asks o m data pw n r h : order_ok o ->
  asks_only (for_add m data pw n) h (c_add_network W P C o m data pw n r h) /\
  panics_with W h (c_add_network W P C o m data pw n r h).
Proof.
  intros Ho. pose proof (adds_all P HP C o m data pw n r h Ho) as H. unfold adds in H. cbv zeta in H.
  destruct (get n (cm_factories m)) as [f|] eqn:Ef; [|rewrite H; split; [apply asks_nothing|now intros]].
  destruct (keychain_data_from_bytes P C data pw) as [w|e| |] eqn:E; try contradiction;
    [|rewrite H; split; [apply asks_nothing|now intros]].
  destruct (get n (w_keys w)) as [d|] eqn:En; [rewrite H; split; [apply asks_nothing|now intros]|].
  destruct H as [Hno Hyes].
  destruct (c_seed_cases P m (w_seed w) (w_mnemonic w) (w_dictionary w)) as [(s & _ & Hs)|(e & _ & Hn & _)].
  2:{ destruct (Hno Hn) as (e' & ->). split; [apply asks_nothing|now intros]. }
  specialize (Hyes s Hs). assert (Forall (for_add m data pw n) [AskData f s]) as HQ.
  { constructor; [|constructor]. exists w, f, s. auto. }
  destruct (W h (AskData f s)) as [d|e| |] eqn:Ea; try contradiction.
  - destruct Hyes as (data' & rest & w' & -> & _). split; [|now intros].
    change (h ++ [Asked (AskData f s); Drawn 32; Drawn 12]) with (h ++ map Asked [AskData f s] ++ [Drawn 32; Drawn 12]).
    rewrite app_assoc. now apply asks_drawn.
  - rewrite Hyes. split; [|now intros]. now apply (asks_plain _ h [AskData f s]).
  - rewrite Hyes. split; [now apply (asks_plain _ h [AskData f s])|].
    intros _. exists [], (AskData f s). split; [reflexivity|]. cbn [map]. now rewrite app_nil_r.
Qed.

(** ** Encryption with a caller's source *)
Lemma encrypts d pw h :
  match W h (AskFill 32) with
  | Ok salt =>
    match W (h ++ [Asked (AskFill 32)]) (AskFill 12) with
    | Ok nonce => exists out, c_encrypt W P d pw h = (Ok out, h ++ [Asked (AskFill 32); Asked (AskFill 12)]) /\
        is_sealed P pw salt nonce d out /\ (d <> [] -> decrypt P out pw = Ok d)
    | _ => c_encrypt W P d pw h = (Panic, h ++ [Asked (AskFill 32); Asked (AskFill 12)])
    end
  | _ => c_encrypt W P d pw h = (Panic, h ++ [Asked (AskFill 32)])
  end.
Proof.
  unfold c_encrypt, chain, call_fill. change SALT_SIZE with 32%nat. change NONCE_SIZE with 12%nat.
  pose proof (ok_fill W HW h 32) as Hs. pose proof (ok_defined W HW h (AskFill 32)) as Hu.
  destruct (W h (AskFill 32)) as [salt|x| |]; [|destruct x|reflexivity|now destruct Hu].
  cbn [map_err]. pose proof (ok_fill W HW (h ++ [Asked (AskFill 32)]) 12) as Hn.
  pose proof (ok_defined W HW (h ++ [Asked (AskFill 32)]) (AskFill 12)) as Hu'.
  destruct (W (h ++ [Asked (AskFill 32)]) (AskFill 12)) as [nonce|x| |]; [|destruct x|now rewrite <- app_assoc|now destruct Hu'].
  cbn [map_err]. destruct (aead_encrypt P (crypt_key P pw salt) nonce d) as [ct tag] eqn:Ea.
  exists (salt ++ nonce ++ tag ++ ct). split; [cbn [pure]; now rewrite <- app_assoc|].
  assert (is_sealed P pw salt nonce d (salt ++ nonce ++ tag ++ ct)) as H.
  { apply (sealed_iff P HP). cbv zeta. unfold aead_encrypt, crypt_key in Ea. injection Ea as <- <-. reflexivity. }
  split; [exact H|]. intros Hd. apply (decrypt_exact P HP). split; [exact Hd|].
  exists salt, nonce. auto.
Qed.
End WithPrims2.
End Facts.

(** ** Objects that are functions *)
Lemma each_mapM {E A A' B B'} (R : A -> A' -> Prop) (S : B -> B' -> Prop) (f : A -> calling E B) (g : A' -> res E B') :
  (forall a a' h, R a a' -> same_result S (fst (f a h)) (g a')) ->
  forall l l', Forall2 R l l' -> forall h, same_result (Forall2 S) (fst (each f l h)) (mapM g l').
Proof.
  intros Hf. induction 1 as [|a a' l l' Ha _ IH]; intros h; cbn [each mapM]; [constructor|].
  specialize (Hf a a' h Ha). unfold chain at 1. destruct (f a h) as [b h1]; cbn [fst] in Hf.
  destruct b as [b|e| |], (g a') as [b'|e'| |]; cbn [same_result bind fst] in *; try contradiction; auto.
  specialize (IH h1). unfold chain. destruct (each f l h1) as [r h2]; cbn [fst] in IH.
  destruct r as [r|e| |], (mapM g l') as [r'|e'| |]; cbn [same_result bind fst pure] in *; try contradiction; auto.
Qed.

Definition pairs_as {A B} (R : A -> B -> Prop) (x : N * A) (y : N * B) : Prop := fst x = fst y /\ R (snd x) (snd y).

Lemma same_ins {A B} (R : A -> B -> Prop) n a b m m' :
  R a b -> same_map R m m' -> same_map R (ins n a m) (ins n b m').
Proof.
  intros Hab. induction 1 as [|[k x] [k' y] m m' [Hk Hxy] H IH]; cbn [ins fst snd] in *.
  - constructor; [|constructor]. now split.
  - subst k'. destruct (n <? k); [constructor; [now split|]; constructor; [now split|exact H]|].
    destruct (n =? k); constructor; try exact H; try exact IH; now split.
Qed.

Lemma same_of_list {A B} (R : A -> B -> Prop) l l' : Forall2 (pairs_as R) l l' -> same_map R (of_list l) (of_list l').
Proof.
  unfold of_list. assert (same_map R (@nil (N * A)) (@nil (N * B))) as H0 by constructor. revert H0.
  generalize (@nil (N * A)) (@nil (N * B)). intros m m' H0 H. revert m m' H0.
  induction H as [|[k x] [k' y] l l' [Hk Hxy] H IH]; intros m m' H0; [exact H0|]. cbn [fold_left fst snd] in *. subst k'.
  apply IH. now apply same_ins.
Qed.

Lemma same_get {A B} (R : A -> B -> Prop) m m' n : same_map R m m' ->
  match get n m, get n m' with Some a, Some b => R a b | None, None => True | _, _ => False end.
Proof.
  induction 1 as [|[k x] [k' y] m m' [Hk Hxy] H IH]; cbn [get fst snd] in *; [exact I|].
  subst k'. now destruct (n =? k).
Qed.

(** An order for the elements of another list of the same length. *)
Definition pick {A} (l : list A) (i : nat) : list A := match nth_error l i with Some a => [a] | None => [] end.

Lemma pick_all {A} (l : list A) : flat_map (pick l) (seq 0 (length l)) = l.
Proof.
  induction l as [|a l IH]; [reflexivity|]. cbn [length seq flat_map]. rewrite <- seq_shift.
  rewrite flat_map_concat_map, map_map. cbn [app].
  change (fun i => pick (a :: l) (S i)) with (pick l). rewrite <- flat_map_concat_map. cbn. now rewrite IH.
Qed.

Lemma pick_same {A B} (R : A -> B -> Prop) l l' idx : Forall2 R l l' -> Forall2 R (flat_map (pick l) idx) (flat_map (pick l') idx).
Proof.
  intros H. induction idx as [|i idx IH]; [constructor|]. cbn [flat_map]. apply Forall2_app; [|exact IH].
  clear IH. unfold pick. revert i. induction H as [|a b l l' Hab H IH]; intros [|i]; cbn [nth_error]; try constructor; auto.
Qed.

Lemma permuted {A} (l l2 : list A) : Permutation l2 l ->
  exists idx, Permutation idx (seq 0 (length l)) /\ l2 = flat_map (pick l) idx.
Proof.
  intros Hp. destruct l as [|d l]; [exists []; apply Permutation_sym, Permutation_nil in Hp as ->; now split|].
  set (l0 := d :: l) in *.
  assert (l0 = map (fun i => nth i l0 d) (seq 0 (length l0))) as El.
  { clearbody l0. clear. induction l0 as [|a l0 IH]; [reflexivity|]. cbn [length seq map]. f_equal.
    rewrite <- seq_shift, map_map. exact IH. }
  rewrite El in Hp. apply Permutation_map_inv in Hp as (idx & E & Hi). exists idx.
  split; [now apply Permutation_sym|]. rewrite E, flat_map_concat_map.
  assert (forall i, In i idx -> (i < length l0)%nat) as Hb.
  { intros i Hin. apply (Permutation_in _ (Permutation_sym Hi)), in_seq in Hin. lia. }
  clear E Hi El. induction idx as [|i idx IH]; [reflexivity|]. cbn [map concat]. rewrite <- IH by (intros j Hj; apply Hb; now right).
  unfold pick. rewrite (nth_error_nth' l0 d) by (apply Hb; now left). reflexivity.
Qed.

Lemma Forall2_len {A B} (R : A -> B -> Prop) l l' : Forall2 R l l' -> length l = length l'.
Proof. induction 1; cbn; congruence. Qed.

Definition order_by (n : nat) (idx : list nat) : order := fun A l =>
  if Nat.eqb (length l) n then flat_map (pick l) idx else l.

Lemma order_by_ok n idx : Permutation idx (seq 0 n) -> order_ok (order_by n idx).
Proof.
  intros Hp A l. unfold order_by. destruct (Nat.eqb_spec (length l) n) as [<-|]; [|reflexivity].
  rewrite <- (pick_all l) at 2. apply Permutation_flat_map. exact Hp.
Qed.

Lemma order_across {A B : Set} (R : A -> B -> Prop) (l : list A) (l' : list B) (o : order) :
  order_ok o -> Forall2 R l l' -> exists o', order_ok o' /\ Forall2 R (o A l) (o' B l').
Proof.
  intros Ho H. destruct (permuted l (o A l) (Ho A l)) as (idx & Hp & E).
  exists (order_by (length l) idx). split; [now apply order_by_ok|].
  rewrite E. unfold order_by. rewrite <- (Forall2_len _ _ _ H), Nat.eqb_refl. now apply pick_same.
Qed.

Section Plays.
Variable W : world.

Lemma plays_sizes {E} fs Fs : Forall2 (plays W) fs Fs -> forall h lo hi,
  fst (c_sizes (E := E) W fs lo hi h) = Ok (fold_left
      (fun '(min, max) f => (N.max min (ss_min (f_seed_size f)), N.min max (ss_max (f_seed_size f)))) Fs (lo, hi)).
Proof.
  induction 1 as [|f F fs Fs Hf _ IH]; intros h lo hi; [reflexivity|].
  cbn [c_sizes fold_left]. unfold chain, call_size. destruct (Hf h) as (-> & _). cbn [map_err]. apply IH.
Qed.

Lemma plays_networks {E} fs Fs : Forall2 (plays W) fs Fs -> forall h,
  exists l h', each (E := E) (fun f => do! n := call_network W f in pure (Ok (n, f))) fs h = (Ok l, h') /\
    Forall2 (pairs_as (plays W)) l (map (fun f => (f_network f, f)) Fs).
Proof.
  induction 1 as [|f F fs Fs Hf _ IH]; intros h; [exists [], h; split; [reflexivity|constructor]|].
  cbn [each map]. destruct (IH (h ++ [Asked (AskNetwork f)])) as (l & h' & E' & Hl).
  exists ((f_network F, f) :: l), h'. split.
  - unfold chain at 1 2. unfold call_network at 1. destruct (Hf h) as (_ & -> & _). cbn [map_err pure].
    unfold chain at 1. rewrite E'. reflexivity.
  - constructor; [split; [reflexivity|exact Hf]|exact Hl].
Qed.

Lemma plays_key_networks ks Ks : Forall2 (plays_key W) ks Ks -> forall h,
  exists kc h', c_keychain_new W ks h = (Ok kc, h') /\ same_map (plays_key W) kc (keychain_new Ks).
Proof.
  intros H h. unfold c_keychain_new, keychain_new.
  assert (exists l h', each (E := kc_error) (fun k => do! n := call_key_network W k in pure (Ok (n, k))) ks h = (Ok l, h') /\
    Forall2 (pairs_as (plays_key W)) l (map (fun k => (key_network k, k)) Ks)) as (l & h' & E & Hl).
  { revert h. induction H as [|k K ks Ks Hk _ IH]; intros h; [exists [], h; split; [reflexivity|constructor]|].
    cbn [each map]. destruct (IH (h ++ [Asked (AskKeyNetwork k)])) as (l & h' & E' & Hl).
    exists ((key_network K, k) :: l), h'. split.
    - unfold chain at 1 2. unfold call_key_network at 1. destruct (Hk h) as (-> & _). cbn [map_err pure].
      unfold chain at 1. rewrite E'. reflexivity.
    - constructor; [split; [reflexivity|exact Hk]|exact Hl]. }
  exists (of_list l), h'. unfold chain at 1. rewrite E. split; [reflexivity|]. now apply same_of_list.
Qed.

Theorem plays_build fs Fs h : Forall2 (plays W) fs Fs ->
  same_result (plays_manager W) (fst (c_with_factories W fs h)) (with_factories Fs).
Proof.
  intros H. remember (c_with_factories W fs h) as out eqn:Eo.
  unfold c_with_factories, c_calculate_seed_size in Eo. unfold with_factories, calculate_seed_size.
  pose proof (plays_sizes (E := kc_error) fs Fs H h 0 usize_max) as Es.
  unfold chain at 1 2 in Eo. destruct (c_sizes W fs 0 usize_max h) as [b h1]; cbn [fst] in Es. subst b.
  destruct (fold_left _ Fs (0, usize_max)) as [min max]. cbn [pure] in Eo.
  destruct (min =? 0); [subst out; reflexivity|]. destruct (max <=? min); [subst out; reflexivity|].
  cbn [bind]. destruct (plays_networks (E := kc_error) fs Fs H h1) as (l & h2 & E & Hl).
  unfold chain at 1 in Eo. rewrite E in Eo. subst out. cbn [pure fst same_result].
  split; [reflexivity|]. now apply same_of_list.
Qed.

Section WithPrims.
Variable P : prims.
Variable C : data_config.

Lemma plays_seed m m' seed mn lang : plays_manager W m m' ->
  c_seed_from_data P m seed mn lang = seed_from_data P m' seed mn lang.
Proof. intros [E _]. unfold c_seed_from_data, seed_from_data. cbn [m_seed_size]. now rewrite E. Qed.

Lemma plays_data s f F h : plays W f F -> same_result eq (fst (c_data_of W s f h)) (data_of s F).
Proof.
  intros Hf. rewrite data_calls. unfold data_of, rmap.
  destruct (Hf h) as (_ & _ & -> & _). destruct (Hf (h ++ [Asked (AskData f s)])) as (_ & -> & _).
  destruct (key_data_from_seed F s); cbn; auto.
Qed.

Lemma Forall2_eq {A} (l l' : list A) : Forall2 eq l l' -> l = l'.
Proof. induction 1; congruence. Qed.

Theorem plays_create m m' o1 : plays_manager W m m' -> order_ok o1 ->
  exists o1', order_ok o1' /\ forall o2 seed pw mn lang r h,
    fst (c_new_keychain_data W P o1 o2 m seed pw mn lang r h) = new_keychain_data P o1' o2 m' seed pw mn lang r.
Proof.
  intros Hm Ho. destruct Hm as [Hsz Hmap].
  destruct (order_across (pairs_as (plays W)) (cm_factories m) (m_factories m') o1 Ho Hmap) as (o1' & Ho' & H).
  exists o1'. split; [exact Ho'|]. intros o2 seed pw mn lang r h.
  remember (c_new_keychain_data W P o1 o2 m seed pw mn lang r h) as out eqn:Eo.
  unfold c_new_keychain_data in Eo. unfold new_keychain_data. unfold chain at 1 in Eo.
  rewrite (plays_seed m m' seed mn lang (conj Hsz Hmap)) in Eo. cbn [pure] in Eo.
  destruct (seed_from_data P m' seed mn lang) as [s|e| |]; try (subst out; reflexivity). cbn [bind].
  assert (Forall2 (plays W) (map snd (o1 _ (cm_factories m))) (map snd (o1' _ (m_factories m')))) as Hs.
  { clear -H. induction H as [|x y l l' [_ Hxy] _ IH]; cbn; constructor; auto. }
  pose proof (each_mapM (plays W) eq (c_data_of W s) (data_of s) (fun f F h => plays_data s f F h) _ _ Hs h) as He.
  unfold chain at 1 in Eo. destruct (each (c_data_of W s) _ h) as [ds h1]; cbn [fst] in He.
  destruct ds as [ds|e| |], (mapM (data_of s) _) as [ds'|e'| |]; cbn [same_result bind] in *; try contradiction; subst out; try reflexivity.
  - apply Forall2_eq in He as ->. reflexivity.
  - now rewrite He.
Qed.

Lemma plays_known m m' entries : same_map (plays W) (cm_factories m) (m_factories m') ->
  Forall2 (fun (x : N * nat * bytes) (y : N * KeyFactory * bytes) =>
      fst (fst x) = fst (fst y) /\ plays W (snd (fst x)) (snd (fst y)) /\ snd x = snd y)
    (filter_map (fun '(network, key) =>
      option_map (fun factory => (network, factory, key)) (get network (cm_factories m))) entries)
    (filter_map (fun '(network, key) =>
      option_map (fun factory => (network, factory, key)) (get network (m_factories m'))) entries).
Proof.
  intros Hm. induction entries as [|[n d] l IH]; cbn [filter_map]; [constructor|].
  pose proof (same_get _ _ _ n Hm) as Hg.
  destruct (get n (cm_factories m)) as [f|], (get n (m_factories m')) as [F|]; cbn [option_map] in *; try contradiction; auto.
Qed.

Theorem plays_open m m' o data pw h : plays_manager W m m' ->
  same_result (same_map (plays_key W)) (fst (c_keychain_from_data W P C o m data pw h)) (keychain_from_data P C o m' data pw).
Proof.
  intros [Hsz Hm]. remember (c_keychain_from_data W P C o m data pw h) as out eqn:Eo.
  unfold c_keychain_from_data in Eo. unfold keychain_from_data. unfold chain at 1 in Eo. cbn [pure] in Eo.
  destruct (keychain_data_from_bytes P C data pw) as [w|e| |]; try (subst out; reflexivity). cbn [bind].
  pose proof (plays_known m m' (o _ (w_keys w)) Hm) as Hk.
  assert (forall a a' h0, (fun (x : N * nat * bytes) (y : N * KeyFactory * bytes) =>
      fst (fst x) = fst (fst y) /\ plays W (snd (fst x)) (snd (fst y)) /\ snd x = snd y) a a' ->
    same_result (plays_key W)
      (fst ((fun '(network, factory, key) => on_err (call W (AskKey factory key)) (fun e => pure (Err (KeyError network e)))) a h0))
      ((fun '(network, factory, key) => map_err (KeyError network) (key_from_data factory key)) a')) as Hstep.
  { intros [[n f] d] [[n' F] d'] h0 (En & Hf & Ed). cbn [fst snd] in *. subst n' d'.
    destruct (Hf h0) as (_ & _ & _ & Hd). specialize (Hd d). unfold on_err, call.
    destruct (key_from_data F d) as [K|e| |].
    - destruct Hd as (k & -> & Hk'). exact Hk'.
    - rewrite Hd. reflexivity.
    - rewrite Hd. exact I.
    - rewrite Hd. exact I. }
  pose proof (each_mapM _ (plays_key W) _ _ Hstep _ _ Hk h) as He. unfold chain in Eo.
  destruct (each _ _ h) as [ks h1]; cbn [fst] in He.
  destruct ks as [ks|e| |], (mapM _ _) as [Ks|e'| |]; cbn [same_result bind] in *; try contradiction; subst out; cbn [fst same_result]; auto.
  destruct (plays_key_networks ks Ks He h1) as (kc & h2 & E & Hkc). rewrite E. exact Hkc.
Qed.

Theorem plays_add m m' o data pw n r h : plays_manager W m m' ->
  fst (c_add_network W P C o m data pw n r h) = add_network P C o m' data pw n r.
Proof.
  intros Hm. remember (c_add_network W P C o m data pw n r h) as out eqn:Eo.
  unfold c_add_network in Eo. unfold add_network. pose proof (same_get _ _ _ n (proj2 Hm)) as Hg.
  destruct (get n (cm_factories m)) as [f|], (get n (m_factories m')) as [F|]; cbn [ok_or] in *; try contradiction;
    [|subst out; reflexivity].
  unfold chain at 1 in Eo. cbn [pure] in Eo. cbn [bind].
  destruct (keychain_data_from_bytes P C data pw) as [w|e| |]; try (subst out; reflexivity).
  unfold chain at 1 in Eo. cbn [pure] in Eo. cbn [bind].
  destruct (get n (w_keys w)); [subst out; reflexivity|].
  unfold chain at 1 in Eo. rewrite (plays_seed _ _ _ _ _ Hm) in Eo. cbn [pure] in Eo.
  destruct (seed_from_data P m' (w_seed w) (w_mnemonic w) (w_dictionary w)) as [s|e| |]; try (subst out; reflexivity).
  cbn [bind]. unfold chain, on_err, call in Eo. destruct (Hg h) as (_ & _ & Hd & _). rewrite Hd in Eo.
  destruct (key_data_from_seed F s); subst out; reflexivity.
Qed.
End WithPrims.

Theorem plays_keychain kc kc' n h : same_map (plays_key W) kc kc' ->
  (forall path, fst (c_kc_pub_key W kc n path h) = kc_pub_key kc' n path) /\
  (forall data path, fst (c_kc_sign W kc n data path h) = kc_sign kc' n data path) /\
  (forall data sig path, fst (c_kc_verify W kc n data sig path h) = kc_verify kc' n data sig path).
Proof.
  intros H. pose proof (same_get _ _ _ n H) as Hg.
  unfold c_kc_pub_key, c_kc_sign, c_kc_verify, c_pk, kc_pub_key, kc_sign, kc_verify, pk.
  destruct (get n kc) as [k|], (get n kc') as [K|]; cbn [ok_or] in *; try contradiction; [|now repeat split].
  destruct (Hg h) as (_ & Hp & Hs & Hv).
  unfold chain, on_err, call. cbn [pure bind]. repeat split; intros.
  - rewrite Hp. now destruct (pub_key K path).
  - rewrite Hs. now destruct (sign K data path).
  - rewrite Hv. now destruct (verify K data sig path).
Qed.
End Plays.

(** A world of functions: the factory [f] is the record [Fs f] and its key
    made of [d] is named [(f, d)]. *)
Definition function_world (Fs : nat -> KeyFactory) : world := fun _ q =>
  match q return res (fault q) (value q) with
  | AskSize f => Ok (f_seed_size (Fs f))
  | AskNetwork f => Ok (f_network (Fs f))
  | AskKey f d => rmap (fun _ => (f, d)) (key_from_data (Fs f) d)
  | AskData f s => key_data_from_seed (Fs f) s
  | AskKeyNetwork (f, d) => match key_from_data (Fs f) d with Ok K => Ok (key_network K) | _ => Panic end
  | AskPub (f, d) path => match key_from_data (Fs f) d with Ok K => pub_key K path | _ => Panic end
  | AskSign (f, d) data path => match key_from_data (Fs f) d with Ok K => sign K data path | _ => Panic end
  | AskVerify (f, d) data sig path => match key_from_data (Fs f) d with Ok K => verify K data sig path | _ => Panic end
  | AskFill len => Ok (repeat x00 len)
  end.

Lemma function_world_plays Fs f : plays (function_world Fs) f (Fs f).
Proof.
  intros h. cbn. repeat split; auto. intros d. destruct (key_from_data (Fs f) d) as [K| | |] eqn:E; cbn; auto.
  exists (f, d). split; [reflexivity|]. intros h'. cbn. rewrite E. now repeat split.
Qed.

Theorem plays_exist Fs : exists W, Forall2 (plays W) (seq 0 (length Fs)) Fs.
Proof.
  destruct Fs as [|F Fs0]; [exists (fun _ _ => Panic); constructor|]. set (Fs := F :: Fs0).
  exists (function_world (fun i => nth i Fs F)).
  assert (forall pre l, Fs = pre ++ l -> Forall2 (plays (function_world (fun i => nth i Fs F))) (seq (length pre) (length l)) l) as H;
    [|exact (H [] Fs eq_refl)].
  clearbody Fs. intros pre l. revert pre. induction l as [|G l IH]; intros pre E; [constructor|].
  cbn [length seq]. constructor.
  - pose proof (function_world_plays (fun i => nth i Fs F) (length pre)) as Hp. cbv beta in Hp.
    replace (nth (length pre) Fs F) with G in Hp by (rewrite E; now rewrite nth_middle). exact Hp.
  - specialize (IH (pre ++ [G])). rewrite app_length, Nat.add_1_r in IH. apply IH. now rewrite <- app_assoc.
Qed.

(** ** Using a keychain *)
Theorem keychain_asks W kc n h :
  match get n kc with
  | None =>
    (forall path, c_kc_pub_key W kc n path h = (Err (KeyDoesNotExist n), h)) /\
    (forall data path, c_kc_sign W kc n data path h = (Err (KeyDoesNotExist n), h)) /\
    (forall data sig path, c_kc_verify W kc n data sig path h = (Err (KeyDoesNotExist n), h))
  | Some k =>
    (forall path, c_kc_pub_key W kc n path h
       = (map_err (KeyError n) (W h (AskPub k path)), h ++ [Asked (AskPub k path)])) /\
    (forall data path, c_kc_sign W kc n data path h
       = (map_err (KeyError n) (W h (AskSign k data path)), h ++ [Asked (AskSign k data path)])) /\
    (forall data sig path, c_kc_verify W kc n data sig path h
       = (map_err (KeyError n) (W h (AskVerify k data sig path)), h ++ [Asked (AskVerify k data sig path)]))
  end.
Proof.
  unfold c_kc_pub_key, c_kc_sign, c_kc_verify, c_pk. destruct (get n kc) as [k|]; cbn [ok_or]; [|now repeat split].
  unfold chain, on_err, call. cbn [pure]. repeat split; intros.
  - now destruct (W h (AskPub k path)).
  - now destruct (W h (AskSign k data path)).
  - now destruct (W h (AskVerify k data sig path)).
Qed.

Theorem generates W t h : world_ok W ->
  match W h (AskFill (to_key_size t / 8)) with
  | Ok bs => c_generate W t h = (Ok {| e_type := t; e_bytes := bs |}, h ++ [Asked (AskFill (to_key_size t / 8))]) /\
      length bs = (to_key_size t / 8)%nat
  | _ => c_generate W t h = (Panic, h ++ [Asked (AskFill (to_key_size t / 8))])
  end.
Proof.
  intros HW. unfold c_generate, chain, call_fill. pose proof (ok_fill W HW h (to_key_size t / 8)) as Hl.
  pose proof (ok_defined W HW h (AskFill (to_key_size t / 8))) as Hu.
  destruct (W h (AskFill (to_key_size t / 8))) as [bs|x| |]; [|destruct x|reflexivity|now destruct Hu].
  split; [reflexivity|]. now apply Hl.
Qed.

Theorem creation_forms W P o1 o2 m pw r :
  (forall seed, c_keychain_data_from_seed W P o1 o2 m seed pw r
     = c_new_keychain_data W P o1 o2 m (Some seed) pw None None r) /\
  (forall mn lang, c_keychain_data_from_mnemonic W P o1 o2 m mn pw lang r
     = c_new_keychain_data W P o1 o2 m None pw (Some mn) (Some (or_english lang)) r).
Proof. split; [reflexivity|]. now intros mn [l|]. Qed.
