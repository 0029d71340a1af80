(** What C programs observe of wallets. *)
From Coq Require Import Strings.String.
From Verif Require Import Base BaseFacts Str StrFacts Prims Bip39 Bip39Spec Dict DictFacts
  KeyPath KeyPathSpec Errors FMap FMapFacts Crypt CryptSpec CryptFacts Data DataSpec DataFacts XPrv XPrvSpec XPrvFacts Keys
  KeysSpec KeysFacts Mnemonic MnemonicFacts Keychain Manager Features ManagerSpec ManagerFacts WalletFacts HistorySpec
  HistoryFacts LifeFacts StoryFacts SignFacts SeedFacts InteropSpec InteropFacts Display TextFacts Ffi FfiSpec FfiFacts
  FeatureFacts FfiTheorems DictSpec DictWords FfiCallSpec FfiCallFacts FfiWalletSpec.
Open Scope list_scope.
Local Strategy 1000 [XPrv.derive XPrv.derive_loop XPrv.derive_step XPrv.xprv_from_data derive_along].

Section S.
Variable P : prims.
Hypothesis HP : prims_ok P.
Variable C : data_config.
Variable T : texts.

(** ** Calls *)
Lemma success_inv {bd} t (a : api t) out err e s h s' h' : reached P C T bd (s, h) -> api_ok a -> env_ok e ->
  entry P C T bd a out err e s h = Ok (true, s', h') ->
  exists c, rust_call P C bd a s h e = Ok c /\ holds h' t (s' t out) c.
Proof.
  intros Hr Ha He E. pose proof (body_stores P C bd t a s e h) as Hs.
  pose proof (reached_inv P HP C T bd _ Hr) as Hi.
  pose proof (entry_cases P HP C T bd t a out err e s h Hi Ha He) as Hx.
  destruct (rust_call P C bd a s h e) as [c|ke| |]; cbn [stores] in Hs.
  - destruct Hs as (x & h1 & Eb & Hh). rewrite Eb in Hx. destruct Hx as [Hx _]. rewrite E in Hx.
    injection Hx as -> ->. exists c. split; [reflexivity|]. now destruct (upd_assigned s t out x) as [-> _].
  - rewrite Hs in Hx. destruct Hx as [[_ Hx]|(_ & p & h1 & Hx & _)]; congruence.
  - rewrite Hs in Hx. destruct Hx as [[_ Hx]|(_ & p & h1 & Hx & _)]; congruence.
  - rewrite Hs in Hx. contradiction.
Qed.

Lemma holds_data_unique h x b b' : holds h TData x b -> holds h TData x b' -> b = b'.
Proof.
  cbn [holds]. unfold holds_data. intros [_ H] [_ H']. destruct (d_ptr x) as [| |i]; [contradiction|congruence|congruence].
Qed.

Lemma data_returned {bd} (a : api TData) b : returned P C T bd a b ->
  exists s h e, reached P C T bd (s, h) /\ env_ok e /\ rust_call P C bd a s h e = Ok b.
Proof.
  intros (s & h & e & out & err & s' & h' & Hr & Ha & He & E & Hh).
  destruct (success_inv _ a out err e s h s' h' Hr Ha He E) as (c & Ec & Hc).
  assert (c = b) as -> by exact (holds_data_unique h' _ _ _ Hc Hh). exists s, h, e. auto.
Qed.

Lemma keychain_returned {bd} (a : api TKeychain) kc : returned P C T bd a kc ->
  exists s h e, reached P C T bd (s, h) /\ env_ok e /\ rust_call P C bd a s h e = Ok kc.
Proof.
  intros (s & h & e & out & err & s' & h' & Hr & Ha & He & E & Hh).
  destruct (success_inv _ a out err e s h s' h' Hr Ha He E) as (c & Ec & (i & Ei & Hi)).
  destruct Hh as (j & Ej & Hj). assert (c = kc) as -> by congruence. exists s, h, e. auto.
Qed.

Lemma manager_held {bd} s h v m : reached P C T bd (s, h) -> holds h TManager (s TManager v) m ->
  with_networks P (built_network_all (b_features bd)) = Ok m.
Proof.
  intros Hr (i & _ & Hi). apply (reached_inv P HP) in Hr. destruct (inv_heap P bd _ Hr i _ Hi) as [_ [_ H]].
  now rewrite built_new_chosen in H.
Qed.

Lemma with_manager_ok {bd A} s h v (k : manager -> res kc_error A) x : reached P C T bd (s, h) ->
  with_manager s h v k = Ok x ->
  exists m, holds h TManager (s TManager v) m /\
    with_networks P (built_network_all (b_features bd)) = Ok m /\ k m = Ok x.
Proof.
  intros Hr. unfold with_manager. destruct (s TManager v) as [| |i] eqn:Ev; [discriminate..|].
  destruct (get i (live h)) as [b|] eqn:Eg; [|discriminate]. destruct b; try discriminate. intros E.
  assert (holds h TManager (s TManager v) m) as Hm by (exists i; auto).
  exists m. rewrite <- Ev. split; [exact Hm|]. split; [now apply (manager_held s h v)|exact E].
Qed.
Lemma with_manager_held {A} s h v m (k : manager -> res kc_error A) : holds h TManager (s TManager v) m ->
  with_manager s h v k = k m.
Proof. intros (i & E & Hi). unfold with_manager. now rewrite E, Hi. Qed.
Lemma with_keychain_held {A} s h v kc (k : Keychain -> res kc_error A) : holds h TKeychain (s TKeychain v) kc ->
  with_keychain s h v k = k kc.
Proof. intros (i & E & Hi). unfold with_keychain. now rewrite E, Hi. Qed.
Lemma with_text_ok {A} b t (k : str -> res kc_error A) : of_utf8 b = Some t -> with_text b k = k t.
Proof. intros E. unfold with_text. now rewrite E. Qed.

Lemma gives_ok {bd} t (a : api t) c s h e : reached P C T bd (s, h) -> api_ok a -> env_ok e ->
  rust_call P C bd a s h e = Ok c -> gives P C T bd (s, h) e a c.
Proof. intros Hr Ha He E out err. now apply (proj1 (call_result P C T bd HP t a out err e s h Hr Ha He)). Qed.
Lemma refuses_err {bd} t (a : api t) ke s h e : texts_ok T -> reached P C T bd (s, h) -> api_ok a -> env_ok e ->
  rust_call P C bd a s h e = Err ke -> clean ke -> ~ nul_variant ke -> refuses P C T bd (s, h) e a (class_number ke).
Proof.
  intros HT Hr Ha He E Hc Hn out err.
  destruct (proj1 (proj2 (call_result P C T bd HP t a out err e s h Hr Ha He)) ke E) as (p & s' & h' & H1 & H2 & H3 & _).
  { now apply show_nn. }
  exists p, s', h'. auto.
Qed.

(** ** The invariant *)
Definition origin_fields (o : origin) (w : wallet) : Prop :=
  match o with
  | FromPhrase t l => w_seed w = None /\ w_mnemonic w = Some t /\ w_dictionary w = Some l /\
      exists ws, phrase_of ws t /\ Forall (fun x => In x (to_dict l)) ws
  | FromSeed s => w_seed w = Some s /\ w_mnemonic w = None /\ w_dictionary w = None
  end.
Definition good (b : bytes) (pw : str) (o : origin) (ns : list N) : Prop :=
  exists w, stored P pw w b /\ wallet_ok w /\ has_secret P (origin_seed P o) w /\ from_secret P (origin_seed P o) w /\
    List.length (origin_seed P o) = 64%nat /\ (forall n, get n (w_keys w) <> None <-> offers ns n) /\ origin_fields o w.

Lemma same_offers ns ns' : (forall n, In n ns <-> In n ns') -> forall n, offers ns n <-> offers ns' n.
Proof. intros H n. unfold offers. now rewrite H. Qed.

Lemma keys_offered ns m s keys : with_networks P ns = Ok m -> keys_from m s keys ->
  forall n, get n keys <> None <-> offers ns n.
Proof.
  intros E Hk n. split; [|now apply (keys_from_builtin P ns m s keys None None None E Hk)].
  intros Hn. destruct Hk as [_ Hk]. specialize (Hk n). destruct (get n (m_factories m)) as [f|] eqn:Ef; [|contradiction].
  apply (builtin_get P ns m n f E) in Ef as [Hin Hf]. apply (offers_builtin P). eauto.
Qed.

Lemma good_phrase ns o1 o2 m t lang pw r x : with_networks P ns = Ok m -> order_ok o1 -> order_ok o2 ->
  keychain_data_from_mnemonic P o1 o2 m t pw lang r = Ok x -> good (fst x) pw (FromPhrase t (or_english lang)) ns.
Proof.
  intros Em Ho1 Ho2 E. pose proof (builtin_manager_ok P ns m Em) as Hm.
  destruct (phrase_created_inv P HP o1 o2 m t lang pw r x Ho1 Ho2 Hm E) as (s & keys & Hp & Hk & Hw & Hs).
  assert (s = bip39_seed P t) as -> by (destruct Hp as (ws & _ & _ & _ & _ & ->); reflexivity).
  exists (phrase_wallet t (or_english lang) keys). split; [exact Hs|]. split; [exact Hw|].
  split; [apply phrase_has_secret|]. split; [now apply (keys_from_builtin P ns m _ keys None (Some t) _ Em)|].
  split; [apply (pbkdf2_len P HP)|]. split; [now apply (keys_offered ns m (bip39_seed P t))|].
  destruct Hp as (ws & Hp & Hd & _). cbn. eauto 10.
Qed.
Lemma good_seed ns o1 o2 m s pw r x : with_networks P ns = Ok m -> order_ok o1 -> order_ok o2 ->
  keychain_data_from_seed P o1 o2 m s pw r = Ok x -> good (fst x) pw (FromSeed s) ns.
Proof.
  intros Em Ho1 Ho2 E. pose proof (builtin_manager_ok P ns m Em) as Hm.
  destruct (seed_created_inv P HP o1 o2 m s pw r x Ho1 Ho2 Hm E) as (keys & Hl & Hk & Hw & Hs).
  exists (seed_wallet s keys). split; [exact Hs|]. split; [exact Hw|].
  split; [apply seed_has_secret|]. split; [now apply (keys_from_builtin P ns m _ keys (Some s) None _ Em)|].
  split; [exact Hl|]. split; [now apply (keys_offered ns m s)|]. cbn. auto.
Qed.
Lemma good_change b pw o ns new r x : good b pw o ns -> change_password P b pw new r = Ok x -> good (fst x) new o ns.
Proof.
  intros (w & Hs & H) E. destruct (change_stored P HP b pw new w r Hs) as (b' & r' & E' & Hs').
  assert (x = (b', r')) as -> by congruence. exists w. auto.
Qed.
Lemma good_add b pw o ns ns' m ord n r x : good b pw o ns -> with_networks P ns' = Ok m -> order_ok ord ->
  add_network P C ord m b pw n r = Ok x -> good (fst x) pw o (n :: ns).
Proof.
  intros (w & Hs & Hw & Hsec & Hfs & Hl & Hns & Hof) Em Ho E. pose proof (builtin_manager_ok P ns' m Em) as Hm.
  destruct (add_inv P HP C ord m b pw n r x Ho Hm E) as (f & w0 & s & d & w' & Hf & Hr & Hn & Hws & Hd & Hx & Hw' & Hs' & _).
  rewrite (stored_read P HP C pw _ _ Hw Hs) in Hr. injection Hr as <-.
  destruct Hx as (X1 & X2 & X3 & _ & X4). apply (builtin_get P ns' m n f Em) in Hf as [_ Hf]. apply Hsec in Hws as ->.
  exists w'. split; [exact Hs'|]. split; [exact Hw'|]. split; [now apply (has_secret_same P _ w)|]. split; [|split; [exact Hl|split]].
  - intros k v Hv. rewrite X4 in Hv. destruct (N.eqb_spec k n) as [->|]; [|now apply Hfs]. injection Hv as <-. eauto.
  - intros k. rewrite X4. destruct (N.eqb_spec k n) as [->|Hkn].
    + split; [intros _|discriminate]. apply (offers_builtin P). split; [now left|eauto].
    + rewrite Hns. unfold offers. cbn [In]. intuition congruence.
  - destruct o; cbn [origin_fields] in *; now rewrite X1, X2, X3.
Qed.

Lemma c_built bd n : In n (built_network_all (b_features bd)) <-> In n (c_networks bd).
Proof.
  unfold built_network_all, c_networks. destruct bd as [pr [[|] [|] [|]]]; cbn [b_features with_bitcoin with_ethereum with_cardano app In];
    change BITCOIN with (2 ^ 31); change ETHEREUM with (2 ^ 31 + 60); change CARDANO with (2 ^ 31 + 1815); tauto.
Qed.
Lemma good_c bd b pw o : good b pw o (built_network_all (b_features bd)) -> good b pw o (c_networks bd).
Proof.
  intros (w & H1 & H2 & H3 & H4 & H5 & H6 & H7). exists w. repeat (split; [assumption|]). split; [|exact H7].
  intros n. rewrite H6. apply same_offers, c_built.
Qed.
Lemma c_three bd n : In n (c_networks bd) -> In n [2 ^ 31; 2 ^ 31 + 60; 2 ^ 31 + 1815].
Proof.
  unfold c_networks. rewrite !in_app_iff. destruct bd as [pr [[|] [|] [|]]]; cbn [b_features with_bitcoin with_ethereum with_cardano In]; tauto.
Qed.
Lemma c_offers_both bd ns n : c_offers bd ns n <-> offers ns n /\ offers (built_network_all (b_features bd)) n.
Proof.
  unfold c_offers, offers. rewrite c_built. pose proof (c_three bd n). tauto.
Qed.
Lemma the_same c l : same_language c l -> the_language c = l.
Proof. now destruct 1. Qed.

Lemma rmap_fst {E A B} (r : res E (A * B)) a : rmap fst r = Ok a -> exists x, r = Ok x /\ a = fst x.
Proof. destruct r as [x| | |]; [|discriminate..]. intros [= <-]. eauto. Qed.

Theorem wallet_good b pw o ns : c_wallet P C T b pw o ns -> good b pw o ns.
Proof.
  induction 1 as [bd m t lang pw b t' l pw' Ht Hl Hpw Hret|bd m s pw b pw' Hpw Hret|bd m b pw o ns old new new' b' _ IH Ho Hn Hret
    |bd m b pw o ns pwb n b' _ IH Hpw Hret|ns o1 o2 m t lang pw r x Em Ho1 Ho2 E|ns o1 o2 m s pw r x Em Ho1 Ho2 E
    |b pw o ns new r x _ IH E|b pw o ns ns' m ord n r x _ IH Em Ho E].
  - apply data_returned in Hret as (s & h & e & Hr & [He1 He2] & E). cbn [rust_call] in E.
    apply (with_manager_ok (bd := bd)) in E as (M & _ & EM & E); [|exact Hr].
    rewrite (with_text_ok t t'), (with_text_ok pw pw') in E by assumption. apply rmap_fst in E as (x & E & ->).
    apply good_c. rewrite (the_same _ _ Hl) in E. exact (good_phrase _ _ _ M t' (Some l) pw' _ x EM He1 He2 E).
  - apply data_returned in Hret as (s0 & h & e & Hr & [He1 He2] & E). cbn [rust_call] in E.
    apply (with_manager_ok (bd := bd)) in E as (M & _ & EM & E); [|exact Hr].
    rewrite (with_text_ok pw pw') in E by assumption. apply rmap_fst in E as (x & E & ->).
    apply good_c. exact (good_seed _ _ _ M s pw' _ x EM He1 He2 E).
  - apply data_returned in Hret as (s0 & h & e & Hr & He & E). cbn [rust_call] in E.
    apply (with_manager_ok (bd := bd)) in E as (M & _ & EM & E); [|exact Hr].
    rewrite (with_text_ok old pw), (with_text_ok new new') in E by assumption. apply rmap_fst in E as (x & E & ->).
    exact (good_change b pw o ns new' _ x IH E).
  - apply data_returned in Hret as (s0 & h & e & Hr & [He _] & E). cbn [rust_call] in E.
    apply (with_manager_ok (bd := bd)) in E as (M & _ & EM & E); [|exact Hr].
    rewrite (with_text_ok pwb pw) in E by assumption. apply rmap_fst in E as (x & E & ->).
    exact (good_add b pw o ns _ M _ n _ x IH EM He E).
  - exact (good_phrase ns o1 o2 m t lang pw r x Em Ho1 Ho2 E).
  - exact (good_seed ns o1 o2 m s pw r x Em Ho1 Ho2 E).
  - exact (good_change b pw o ns new r x IH E).
  - exact (good_add b pw o ns ns' m ord n r x IH Em Ho E).
Qed.

Section B.
Variable bd : build.

(** ** Opening *)
Lemma good_interop b pw o ns : good b pw o ns -> interoperable P C (origin_seed P o) ns b pw.
Proof.
  intros (w & Hs & Hw & Hsec & Hfs & Hl & Hns & _).
  apply (interop_effects P HP C (origin_seed P o) ns (pw, w) pw w [] pw w b); auto; [|constructor].
  intros n. apply Hns.
Qed.

Lemma good_opens b pw o ns ns' m ord : good b pw o ns -> with_networks P ns' = Ok m -> order_ok ord ->
  (offers ns (2 ^ 31 + 60) -> offers ns' (2 ^ 31 + 60) ->
     exists y, derives P (bip32_master P (origin_seed P o)) [2 ^ 31 + 44; 2 ^ 31 + 60] y) ->
  exists kc, keychain_from_data P C ord m b pw = Ok kc.
Proof.
  intros (w & Hs & Hw & Hsec & Hfs & Hl & Hns & _) Em Ho Heth. pose proof (builtin_manager_ok P ns' m Em) as Hm.
  destruct (opening_stored P HP C ord m b pw w Ho Hm Hw Hs) as [Hop _].
  assert (exists kc, opens_to m w kc) as [kc Hkc]; [|exists kc; now apply Hop].
  apply opens_exist; [exact Hm|exact Hw|]. intros n f d Hd Hf.
  destruct (Hfs n d Hd) as (f' & Hf' & Ed). pose proof (proj1 (builtin_get P ns' m n f Em) Hf) as [Hin Hf2].
  assert (f' = f) as -> by (apply builtin_spec in Hf', Hf2; congruence).
  destruct Hf2 as [[-> ->]|[[-> ->]|[-> ->]]].
  - destruct (ada_seed_data P HP _ Hl) as (k & _ & Hx & _ & HK). assert (d = k ++ skipn 32 (origin_seed P o)) as -> by congruence. exact HK.
  - destruct (bip32_key_data P HP _ _ (2 ^ 31 + 60) Hl (or_intror (conj eq_refl eq_refl)) d Ed) as [-> Hwf].
    destruct Heth as (y & Hy); [apply Hns; congruence|split; [exact Hin|right; now left]|].
    exists (eth_key P y). now apply (eth_loads P HP).
  - destruct (bip32_key_data P HP _ _ (2 ^ 31) Hl (or_introl (conj eq_refl eq_refl)) d Ed) as [-> Hwf].
    exists (btc_key P (bip32_master P (origin_seed P o))). now apply (btc_loads P HP).
Qed.

Theorem open_works b pw pwb o ns m M s h e : c_wallet P C T b pw o ns -> of_utf8 pwb = Some pw ->
  reached P C T bd (s, h) -> env_ok e -> holds h TManager (s TManager m) M ->
  (c_offers bd ns (2 ^ 31 + 60) ->
     exists y, derives P (bip32_master P (origin_seed P o)) [2 ^ 31 + 44; 2 ^ 31 + 60] y) ->
  exists kc, gives P C T bd (s, h) e (KeychainFromData m b pwb) kc.
Proof.
  intros Hc Hpw Hr He Hm Hy. apply wallet_good in Hc.
  destruct (good_opens b pw o ns _ M (env_o1 e) Hc (manager_held s h m M Hr Hm) (proj1 He)) as [kc E].
  { intros H1 H2. apply Hy, c_offers_both. auto. }
  exists kc. apply gives_ok; [exact Hr|exact I|exact He|].
  cbn [rust_call]. rewrite (with_manager_held s h m M), (with_text_ok pwb pw) by assumption. exact E.
Qed.

(** ** Using *)
Lemma good_opened b pw o ns ns' m ord kc : good b pw o ns -> with_networks P ns' = Ok m -> order_ok ord ->
  keychain_from_data P C ord m b pw = Ok kc ->
  wf_map kc /\ standard_answers P (origin_seed P o) kc /\
  (forall n, get n kc <> None <-> offers ns n /\ offers ns' n) /\
  forall n K, get n kc = Some K -> exists f d, builtin_factory P n f /\ key_from_data f d = Ok K.
Proof.
  intros Hg Em Ho E. pose proof (good_interop b pw o ns Hg ns' ord m Em Ho) as [H _]. destruct (H kc E) as (Hst & H1 & H2).
  destruct Hg as (w & Hs & Hw & Hsec & Hfs & Hl & Hns & _). pose proof (builtin_manager_ok P ns' m Em) as Hm.
  destruct (opening_stored P HP C ord m b pw w Ho Hm Hw Hs) as [Hop _]. apply Hop in E as [Hwf E].
  split; [exact Hwf|]. split; [exact Hst|].
  assert (forall n K, get n kc = Some K -> offers ns n /\
            exists f d, get n (m_factories m) = Some f /\ key_from_data f d = Ok K) as Hk.
  { intros n K HK. specialize (E n). pose proof (Hns n) as Hn. destruct (get n (w_keys w)) as [d|]; [|congruence].
    destruct (get n (m_factories m)) as [f|]; [|congruence]. destruct E as (K' & EK & EK'). split; [apply Hn; discriminate|].
    exists f, d. split; [reflexivity|congruence]. }
  split.
  - intros n. unfold has_network in H1, H2. specialize (H1 n). specialize (H2 n). pose proof (Hk n) as Hn.
    destruct (get n kc) as [K|]; split.
    + intros _. destruct (Hn K eq_refl) as [Ho1 _]. auto.
    + discriminate.
    + congruence.
    + intros [Ha Hb]. specialize (H1 Ha Hb). discriminate.
  - intros n K HK. destruct (Hk n K HK) as (_ & f & d & Hf & Hd). apply (builtin_get P ns' m n f Em) in Hf as [_ Hf]. eauto.
Qed.

Lemma loaded_rejects n f d K p e : builtin_factory P n f -> key_from_data f d = Ok K -> rejects n p e ->
  forall data sig, pub_key K p = Err (InvalidKeyPath e) /\ sign K data p = Err (InvalidKeyPath e) /\
    (List.length sig = 64%nat -> verify K data sig p = Err (InvalidKeyPath e)).
Proof.
  intros Hf Hd Hr data sig. destruct Hf as [[-> ->]|[[-> ->]|[-> ->]]].
  - cbn [ada_factory key_from_data] in Hd. unfold rmap in Hd. destruct (ada_from_data P d) as [x| | |]; try discriminate.
    cbn [bind] in Hd. assert (K = ada_key P x) as -> by congruence.
    apply (proj2 (ada_obeys P x p) e Hr data sig).
  - destruct (secp_loaded_obeys P K (2 ^ 31 + 60)) with (k := p) as [_ H].
    { right. split; [reflexivity|]. eauto. }
    destruct (H e Hr data sig) as (H1 & H2 & H3). auto.
  - destruct (secp_loaded_obeys P K (2 ^ 31)) with (k := p) as [_ H].
    { left. split; [reflexivity|]. eauto. }
    destruct (H e Hr data sig) as (H1 & H2 & H3). auto.
Qed.

Lemma rejects_clean n p e : rejects n p e -> clean_kp e.
Proof.
  intros (pre & r & post & E & _). assert (In (r, e) (rules n p)) as H by (rewrite E; apply in_or_app; right; now left).
  unfold rules in H. apply in_app_or in H as [H|H].
  - destruct (n =? 2 ^ 31); [destruct H|]. destruct H as [[= _ <-]|[]]. exact I.
  - destruct H as [[= _ <-]|[[= _ <-]|[[= _ <-]|[[= _ <-]|[]]]]]; exact I.
Qed.

Lemma offers_u32 ns n : offers ns n -> is_u32 n.
Proof. intros [_ [<-|[<-|[<-|[]]]]]; unfold is_u32; discriminate || reflexivity. Qed.
Lemma c_offers_u32 ns n : c_offers bd ns n -> is_u32 n.
Proof. rewrite c_offers_both. intros [H _]. now apply (offers_u32 ns). Qed.
Lemma wf_u32_path p : kp_wf p -> u32_path p.
Proof.
  unfold kp_wf, path_values, u32_path. intros H. inversion H as [|? ? H1 Ha]; subst. inversion Ha as [|? ? H2 Hb]; subst.
  inversion Hb as [|? ? H3 Hc]; subst. inversion Hc as [|? ? H4 Hd]; subst. inversion Hd; subst. auto.
Qed.

Theorem used b pw pwb o ns m kc : texts_ok T -> c_wallet P C T b pw o ns -> of_utf8 pwb = Some pw ->
  returned P C T bd (KeychainFromData m b pwb) kc ->
  forall s h e k, reached P C T bd (s, h) -> env_ok e -> holds h TKeychain (s TKeychain k) kc ->
  c_standard P C T bd (origin_seed P o) ns k (s, h) e.
Proof.
  intros HT Hc Hpw Hret s h e k Hr He Hk. apply wallet_good in Hc.
  apply keychain_returned in Hret as (s0 & h0 & e0 & Hr0 & He0 & E). cbn [rust_call] in E.
  apply (with_manager_ok (bd := bd)) in E as (M & _ & EM & E); [|exact Hr0]. rewrite (with_text_ok pwb pw) in E by assumption.
  destruct (good_opened b pw o ns _ M _ kc Hc EM (proj1 He0) E) as (Hwf & Hst & Hn & HK).
  assert (forall n, get n kc <> None <-> c_offers bd ns n) as Hn' by (intros n; now rewrite Hn, c_offers_both).
  clear Hn. split; [|split; [|split]].
  - exists (networks (env_o1 e) kc). split; [|split].
    + apply gives_ok; [exact Hr|exact I|exact He|]. cbn [rust_call]. now rewrite (with_keychain_held s h k kc).
    + unfold networks. apply (Permutation_NoDup (l := keys_of kc)); [|now apply wf_NoDup].
      apply Permutation_map, Permutation_sym. apply He.
    + intros n. rewrite <- Hn'. unfold networks. split.
      * intros Hin. apply in_map_iff in Hin as ([n' K] & <- & Hin). apply (Permutation_in _ (proj1 He _ kc)) in Hin.
        apply In_get in Hin; [|exact Hwf]. cbn [fst]. congruence.
      * intros Hg. destruct (get n kc) as [K|] eqn:EK; [|contradiction]. apply In_get in EK; [|exact Hwf].
        apply in_map_iff. exists (n, K). split; [reflexivity|].
        apply (Permutation_in _ (Permutation_sym (proj1 He _ kc))). exact EK.
  - intros n p Ho Hp Hok. pose proof (c_offers_u32 ns n Ho) as Hu. pose proof (wf_u32_path p Hp) as Hup.
    apply Hn' in Ho. assert (has_network kc n = true) as Hh by (unfold has_network; destruct (get n kc); [reflexivity|contradiction]).
    destruct (Hst n p Hh Hp Hok) as [H1 H2].
    split; [intros Hnn z Hz; destruct (H1 Hnn z Hz) as (A1 & A2 & A3)|intros Hnn y Hy; destruct (H2 Hnn y Hy) as (A1 & A2 & A3)];
      (split; [|split; intros]); (apply gives_ok; [exact Hr|split; assumption|exact He|]; cbn [rust_call];
      rewrite (with_keychain_held s h k kc) by exact Hk; auto).
  - intros n p msg sig Ho Hp Hok. pose proof (c_offers_u32 ns n Ho) as Hu. pose proof (wf_u32_path p Hp) as Hup.
    apply Hn' in Ho. destruct (get n kc) as [K|] eqn:EK; [|contradiction]. destruct (HK n K EK) as (f & d & Hf & Hd).
    destruct (path_decided n p) as [H|[ke Hke]]; [contradiction|].
    destruct (loaded_rejects n f d K p ke Hf Hd Hke msg sig) as (A1 & A2 & A3). pose proof (rejects_clean n p ke Hke) as Hcl.
    split; [|split; [|intros Hlen; specialize (A3 Hlen)]];
      (apply (refuses_err _ _ (KeyError n (InvalidKeyPath ke))); [exact HT|exact Hr|split; assumption|exact He| |exact Hcl|intros []];
      cbn [rust_call]; rewrite (with_keychain_held s h k kc) by exact Hk; unfold kc_pub_key, kc_sign, kc_verify, pk;
      rewrite EK; cbn [ok_or bind]; rewrite ?A1, ?A2, ?A3; reflexivity).
  - intros n p msg sig Hu Ho Hp. pose proof (wf_u32_path p Hp) as Hup.
    destruct (get n kc) as [K|] eqn:EK; [destruct Ho; apply Hn'; congruence|].
    split; [|split];
      (apply (refuses_err _ _ (KeyDoesNotExist n)); [exact HT|exact Hr|split; assumption|exact He| |exact I|intros []];
      cbn [rust_call]; rewrite (with_keychain_held s h k kc) by exact Hk; unfold kc_pub_key, kc_sign, kc_verify, pk;
      rewrite EK; reflexivity).
Qed.

(** ** Reading the secrets *)
Lemma word_no_nul l w : In w (to_dict l) -> ~ In 0 w.
Proof.
  intros Hw H0. pose proof (proj1 (words l) w 0 Hw H0) as H. unfold in_script, latin in H. destruct l; lia.
Qed.
Lemma phrase_no_nul ws l t : phrase_of ws t -> Forall (fun x => In x (to_dict l)) ws -> ~ In 0 t.
Proof.
  intros (Hne & _ & ->) Hd Hin. rewrite Forall_forall in Hd. apply in_app_or in Hin as [Hin|Hin].
  - apply in_concat in Hin as (x & Hx & H0). apply in_map_iff in Hx as (w & <- & Hw).
    apply in_app_or in H0 as [H0|[H0|[]]]; [|discriminate].
    apply (word_no_nul l w); [|exact H0]. apply Hd. rewrite (app_removelast_last [] Hne). apply in_or_app. now left.
  - apply (word_no_nul l (last ws [])); [|exact Hin]. apply Hd. rewrite (app_removelast_last [] Hne) at 2.
    apply in_or_app. right. now left.
Qed.

Theorem retrieving b pw pwb o ns m M s h e : texts_ok T -> c_wallet P C T b pw o ns -> of_utf8 pwb = Some pw ->
  reached P C T bd (s, h) -> env_ok e -> holds h TManager (s TManager m) M ->
  match o with
  | FromPhrase t l => gives P C T bd (s, h) e (RetrieveMnemonic m b pwb) (t, l)
  | FromSeed _ => refuses P C T bd (s, h) e (RetrieveMnemonic m b pwb) 2
  end.
Proof.
  intros HT Hc Hpw Hr He Hm. apply wallet_good in Hc as (w & Hs & Hw & _ & _ & _ & _ & Hof).
  pose proof (stored_read P HP C pw _ _ Hw Hs) as Hd. destruct (backup P C sorted_order b pw w sorted_order_ok Hd) as (B1 & B2 & _).
  destruct o as [t l|sd]; cbn [origin_fields] in Hof.
  - destruct Hof as (_ & E1 & E2 & ws & Hp & Hall). apply gives_ok; [exact Hr|exact I|exact He|].
    cbn [rust_call]. rewrite (with_manager_held s h m M), (with_text_ok pwb pw) by assumption. rewrite (B1 t l E1 E2). cbn [bind fst].
    unfold as_text. destruct (in_dec _ _ _) as [Hin|_]; [|reflexivity]. destruct Hw as (_ & _ & Hv). rewrite E1 in Hv.
    apply utf8_nul in Hin; [|exact Hv]. now apply (phrase_no_nul ws l t) in Hin.
  - destruct Hof as (_ & E1 & _). apply (refuses_err _ _ SeedIsNotSaved); [exact HT|exact Hr|exact I|exact He| |exact I|intros []].
    cbn [rust_call]. rewrite (with_manager_held s h m M), (with_text_ok pwb pw) by assumption. now rewrite B2 by auto.
Qed.

Lemma standard_key_unique s n d d' : standard_key P s n d -> standard_key P s n d' -> d = d'.
Proof.
  intros [[Hn ->]|(Hn & k & Hk & ->)] [[Hn' ->]|(Hn' & k' & Hk' & ->)]; [reflexivity| | |].
  - destruct Hn as [-> | ->]; discriminate.
  - rewrite Hn in Hn'. destruct Hn'; discriminate.
  - now rewrite (clamped_unique _ _ _ Hk Hk').
Qed.
Lemma from_secret_standard s w n d : List.length s = 64%nat -> from_secret P s w -> get n (w_keys w) = Some d -> standard_key P s n d.
Proof.
  intros Hl Hf Hg. destruct (Hf n d Hg) as (f & [[-> ->]|[[-> ->]|[-> ->]]] & Hd).
  - destruct (ada_seed_data P HP s Hl) as (k & Hk & Hd' & _). right. split; [reflexivity|]. exists k. split; [exact Hk|congruence].
  - destruct (bip32_key_data P HP s _ (2 ^ 31 + 60) Hl (or_intror (conj eq_refl eq_refl)) d Hd) as [-> _]. left. auto.
  - destruct (bip32_key_data P HP s _ (2 ^ 31) Hl (or_introl (conj eq_refl eq_refl)) d Hd) as [-> _]. left. auto.
Qed.

Theorem exporting b pw pwb o ns m M s h e : c_wallet P C T b pw o ns -> of_utf8 pwb = Some pw ->
  reached P C T bd (s, h) -> env_ok e -> holds h TManager (s TManager m) M ->
  exists l, gives P C T bd (s, h) e (GetKeysData m b pwb) l /\ NoDup (List.map fst l) /\
    forall n d, In (n, d) l <-> offers ns n /\ standard_key P (origin_seed P o) n d.
Proof.
  intros Hc Hpw Hr He Hm. apply wallet_good in Hc as (w & Hs & Hw & _ & Hfs & Hl & Hns & _).
  pose proof (stored_read P HP C pw _ _ Hw Hs) as Hd.
  destruct (backup P C (env_o1 e) b pw w (proj1 He) Hd) as (_ & _ & l & El & Hperm).
  exists l. split; [|split].
  - apply gives_ok; [exact Hr|exact I|exact He|]. cbn [rust_call].
    now rewrite (with_manager_held s h m M), (with_text_ok pwb pw) by assumption.
  - apply (Permutation_NoDup (l := keys_of (w_keys w))); [|apply wf_NoDup, Hw]. apply Permutation_map, Permutation_sym, Hperm.
  - intros n d. assert (In (n, d) l <-> get n (w_keys w) = Some d) as ->.
    { rewrite <- In_get by apply Hw. split; apply Permutation_in; [exact Hperm|apply Permutation_sym, Hperm]. }
    rewrite <- Hns. split.
    + intros Hg. split; [congruence|]. now apply (from_secret_standard _ w).
    + intros [Hg Hst]. destruct (get n (w_keys w)) as [d'|] eqn:Ed; [|contradiction]. f_equal.
      apply (standard_key_unique (origin_seed P o) n); [now apply (from_secret_standard _ w)|exact Hst].
Qed.

(** ** Changing *)
Lemma gives_returned t (a : api t) c s h e : reached P C T bd (s, h) -> api_ok a -> env_ok e ->
  gives P C T bd (s, h) e a c -> returned P C T bd a c.
Proof.
  intros Hr Ha He H. destruct (H 0 0) as (x & s' & h' & E & [Hx _] & Hh). subst x.
  exists s, h, e, 0, 0, s', h'. auto.
Qed.

Theorem changing b pw pwb o ns m M new new' s h e : c_wallet P C T b pw o ns -> of_utf8 pwb = Some pw ->
  of_utf8 new = Some new' ->
  reached P C T bd (s, h) -> env_ok e -> holds h TManager (s TManager m) M ->
  exists b', gives P C T bd (s, h) e (ChangePassword m b pwb new) b' /\ c_wallet P C T b' new' o ns.
Proof.
  intros Hc Hpw Hn Hr He Hm. pose proof Hc as Hc0. apply wallet_good in Hc0 as (w & Hs & _).
  destruct (change_stored P HP b pw new' w (env_rng e) Hs) as (b' & r' & E & _).
  assert (gives P C T bd (s, h) e (ChangePassword m b pwb new) b') as Hg.
  { apply gives_ok; [exact Hr|exact I|exact He|]. cbn [rust_call].
    rewrite (with_manager_held s h m M), (with_text_ok pwb pw), (with_text_ok new new') by assumption. now rewrite E. }
  exists b'. split; [exact Hg|]. apply (cw_change P C T bd m b pw o ns pwb new new' b' Hc Hpw Hn).
  now apply (gives_returned _ _ _ s h e).
Qed.

Lemma c_size m : with_networks P (built_network_all (b_features bd)) = Ok m -> m_seed_size m / 32 * 3 = N.of_nat (c_words bd).
Proof.
  intros E. destruct (builtin_size P _ m E) as (t & -> & Ht & Hi). unfold c_words, built_network_all in *.
  destruct bd as [pr [[|] [|] [|]]]; cbn [b_features with_bitcoin with_ethereum with_cardano orb app] in *;
    change BITCOIN with (2 ^ 31) in *; change ETHEREUM with (2 ^ 31 + 60) in *; change CARDANO with (2 ^ 31 + 1815) in *;
    try (assert (t = Type12Words) as -> by (apply Hi; cbn [In]; auto); reflexivity);
    (destruct Ht as [->| ->]; [reflexivity|]; exfalso; destruct (proj1 Hi eq_refl) as [H|H]; cbn [In] in H; intuition discriminate).
Qed.
Lemma c_words_cases : c_words bd = 12%nat \/ c_words bd = 9%nat.
Proof. unfold c_words. destruct (_ || _); auto. Qed.
Lemma c_factory m n f : with_networks P (built_network_all (b_features bd)) = Ok m ->
  (get_key_factory m n = Some f <-> In n (c_networks bd) /\ builtin_factory P n f).
Proof.
  intros E. unfold get_key_factory. rewrite (builtin_get P _ m n f E), c_built. reflexivity.
Qed.
Lemma c_builtin n : In n (c_networks bd) -> exists f, builtin_factory P n f.
Proof.
  intros H. apply c_three in H as [<-|[<-|[<-|[]]]]; eexists; [right; right|right; left|left]; split; reflexivity.
Qed.

Theorem extending b pw pwb o ns m M n s h e : texts_ok T -> c_wallet P C T b pw o ns -> of_utf8 pwb = Some pw ->
  is_u32 n -> reached P C T bd (s, h) -> env_ok e -> holds h TManager (s TManager m) M ->
  (~ In n (c_networks bd) -> refuses P C T bd (s, h) e (AddNetwork m b pwb n) 8) /\
  (In n (c_networks bd) -> In n ns -> refuses P C T bd (s, h) e (AddNetwork m b pwb n) 7) /\
  (In n (c_networks bd) -> ~ In n ns ->
     (~ extensible bd o -> refuses P C T bd (s, h) e (AddNetwork m b pwb n) 11) /\
     (extensible bd o ->
        (usable_for P [n] (origin_seed P o) ->
           exists b', gives P C T bd (s, h) e (AddNetwork m b pwb n) b' /\ c_wallet P C T b' pw o (n :: ns)) /\
        (~ usable_for P [n] (origin_seed P o) ->
           refuses P C T bd (s, h) e (AddNetwork m b pwb n) 9))).
Proof.
  intros HT Hc Hpw Hu Hr He Hm. pose proof Hc as Hc0. apply wallet_good in Hc0 as (w & Hs & Hw & Hsec & Hfs & Hl & Hns & Hof).
  pose proof (manager_held s h m M Hr Hm) as EM. pose proof (builtin_manager_ok P _ M EM) as HM.
  pose proof (stored_read P HP C pw _ _ Hw Hs) as Hd. pose proof (c_size M EM) as Hsz.
  assert (forall (r : res kc_error (bytes * rng)), add_network P C (env_o1 e) M b pw n (env_rng e) = r ->
    rust_call P C bd (AddNetwork m b pwb n) s h e = rmap fst r) as Hcall.
  { intros r <-. cbn [rust_call]. now rewrite (with_manager_held s h m M), (with_text_ok pwb pw) by assumption. }
  assert (forall ke, add_network P C (env_o1 e) M b pw n (env_rng e) = Err ke -> clean ke -> ~ nul_variant ke ->
    refuses P C T bd (s, h) e (AddNetwork m b pwb n) (class_number ke)) as Href.
  { intros ke E. apply refuses_err; [exact HT|exact Hr|exact Hu|exact He|]. now rewrite (Hcall _ E). }
  destruct (add_cascade P HP C (env_o1 e) M b pw n (env_rng e) (proj1 He) HM) as [A1 A2].
  split; [|split].
  - intros Hn. apply (Href (NetworkIsNotSupported n)); [|exact I|intros []]. apply A1.
    destruct (get_key_factory M n) as [f|] eqn:Ef; [|reflexivity]. apply (c_factory M n f EM) in Ef. tauto.
  - intros Hn Ho. destruct (c_builtin n Hn) as (f & Hf). pose proof (proj2 (c_factory M n f EM) (conj Hn Hf)) as Hgf.
    destruct (A2 f Hgf) as [_ A3]. destruct (A3 w Hd) as [A4 _]. apply (Href (KeyAlreadyExist n)); [|exact I|intros []].
    apply A4. apply Hns. split; [exact Ho|now apply (c_three bd)].
  - intros Hn Hno. destruct (c_builtin n Hn) as (f & Hf). pose proof (proj2 (c_factory M n f EM) (conj Hn Hf)) as Hgf.
    destruct (A2 f Hgf) as [_ A3]. destruct (A3 w Hd) as [_ A4].
    assert (get n (w_keys w) = None) as Hnone.
    { destruct (get n (w_keys w)) eqn:E; [|reflexivity]. destruct Hno. apply (proj1 (Hns n)). congruence. }
    destruct (A4 Hnone) as (_ & A5 & _ & A6). clear A1 A2 A3 A4. split.
    + destruct o as [t l|sd]; cbn [extensible]; [|tauto]. intros Hne. destruct Hof as (E0 & E1 & E2 & Hall).
      destruct (seed_from_mnemonic P t [] (m_seed_size M) l) as [sd|me| |] eqn:Es.
      * apply seed_phrase_iff in Es as (ws & Hp & _ & _ & Hlen & _). rewrite Hsz in Hlen. destruct Hne. exists ws. split; [exact Hp|]. lia.
      * apply (Href (MnemonicError me)); [now apply (A5 t l)| |intros []].
        destruct (seed_from_phrase_with P [] l (m_seed_size M) t) as (ws & Hp & HH).
        destruct HH as [(pre & x & post & -> & _ & Hx & Ex)|(_ & HH)].
        -- destruct Hall as (ws0 & Hp0 & Hall). rewrite (phrase_words _ _ t Hp0 Hp) in Hall. rewrite Forall_forall in Hall.
           destruct Hx. apply Hall, in_or_app. right. now left.
        -- cbv zeta in HH. destruct HH as [[_ Ex]|(_ & [[_ Ex]|[[_ Ex]|[_ Ex]]])]; rewrite Ex in Es; congruence || (injection Es as <-; exact I).
      * pose proof (seed_from_phrase_total P l (m_seed_size M) t) as HH. rewrite Es in HH. contradiction.
      * pose proof (seed_from_phrase_total P l (m_seed_size M) t) as HH. rewrite Es in HH. contradiction.
    + intros Hext. assert (wallet_secret P M w (origin_seed P o)) as Hws.
      { unfold wallet_secret, secret. destruct o as [t l|sd]; cbn [origin_fields origin_seed extensible] in *.
        - destruct Hof as (-> & -> & -> & ws & Hp & Hall). destruct Hext as (ws' & Hp' & Hlen).
          rewrite (phrase_words _ _ t Hp' Hp) in Hlen. exists t, l. repeat (split; [reflexivity|]). exists ws.
          split; [exact Hp|]. split; [exact Hall|]. rewrite Hlen. split; [|split; [now rewrite Hsz|reflexivity]]. destruct c_words_cases as [->| ->]; cbv; tauto.
        - destruct Hof as (-> & _). auto. }
      destruct (builtin_data P HP n f (origin_seed P o) Hf Hl) as [D1 D2].
      destruct (A6 _ Hws) as [A7 A8]. split.
      * intros Hus. destruct (D1 Hus) as [d Hd'].
        destruct (A7 d Hd') as (b' & r' & w' & E & _).
        assert (gives P C T bd (s, h) e (AddNetwork m b pwb n) b') as Hg.
        { apply gives_ok; [exact Hr|exact Hu|exact He|]. now rewrite (Hcall _ E). }
        exists b'. split; [exact Hg|]. apply (cw_add P C T bd m b pw o ns pwb n b' Hc Hpw).
        now apply (gives_returned _ _ _ s h e).
      * intros Hnf.
        specialize (D2 Hnf). rewrite D2 in A8. specialize (A8 ltac:(discriminate)). cbn [fails_as] in A8.
        apply (Href _ A8); [exact I|intros []].
Qed.

(** ** Making *)
Lemma in_join (c : N) x ws : In x ws -> In c x -> In c (join [separator] ws).
Proof.
  induction ws as [|w ws IH]; [intros []|]. intros Hx Hc. destruct ws as [|v ws].
  - destruct Hx as [->|[]]. exact Hc.
  - rewrite join_cons, !in_app_iff. destruct Hx as [->|Hx]; [now left|]. right. right. now apply IH.
Qed.
Theorem generating lang l m M s h e : same_language lang l ->
  reached P C T bd (s, h) -> env_ok e -> holds h TManager (s TManager m) M ->
  exists t, gives P C T bd (s, h) e (GenerateMnemonic m lang) t /\ accepted bd l t.
Proof.
  intros Hl Hr He Hm. pose proof (manager_held s h m M Hr Hm) as EM. pose proof (c_size M EM) as Hsz.
  destruct (generated P HP _ M (Some l) (env_rng e) EM) as (ms & ws & t & sd & _ & Hw & Hp & Hlen & Eg & _).
  assert (Forall (fun x => In x (to_dict l)) ws) as Hall.
  { clear -Hw. induction Hw as [|i w ms ws H _ IH]; constructor; [|exact IH]. now apply nth_error_In in H. }
  exists t. split.
  - apply gives_ok; [exact Hr|exact I|exact He|]. cbn [rust_call]. rewrite (with_manager_held s h m M) by assumption.
    rewrite (the_same _ _ Hl), Eg. cbn [bind fst]. unfold as_text. destruct (in_dec _ _ _) as [Hin|_]; [|reflexivity].
    apply utf8_nul in Hin; [|now apply (known_valid l ws)]. now apply (phrase_no_nul ws l t) in Hin.
  - exists ws. split; [exact Hp|]. split; [|exact Hall]. rewrite Hsz in Hlen. lia.
Qed.

Lemma c_usable sd : usable_for P (c_networks bd) sd -> usable_for P (built_network_all (b_features bd)) sd.
Proof. unfold usable_for. now rewrite !c_built. Qed.
Lemma c_usable' sd : usable_for P (built_network_all (b_features bd)) sd -> usable_for P (c_networks bd) sd.
Proof. unfold usable_for. now rewrite !c_built. Qed.

Theorem making_phrase lang l tb t pwb pw m M s h e : texts_ok T -> same_language lang l -> no_nul tb -> of_utf8 tb = Some t ->
  of_utf8 pwb = Some pw -> reached P C T bd (s, h) -> env_ok e -> holds h TManager (s TManager m) M ->
  (accepted bd l t -> usable_for P (c_networks bd) (bip39_seed P t) ->
     exists b, gives P C T bd (s, h) e (KeychainDataFromMnemonic m tb pwb lang) b /\
       c_wallet P C T b pw (FromPhrase t l) (c_networks bd)) /\
  (accepted bd l t -> ~ usable_for P (c_networks bd) (bip39_seed P t) ->
     refuses P C T bd (s, h) e (KeychainDataFromMnemonic m tb pwb lang) 9) /\
  (~ accepted bd l t -> refuses P C T bd (s, h) e (KeychainDataFromMnemonic m tb pwb lang) 11).
Proof.
  intros HT Hl Hnn Ht Hpw Hr He Hm. pose proof (manager_held s h m M Hr Hm) as EM. pose proof (c_size M EM) as Hsz.
  pose proof (builtin_manager_ok P _ M EM) as HM.
  assert (forall r, keychain_data_from_mnemonic P (env_o1 e) (env_o2 e) M t pw (Some l) (env_rng e) = r ->
    rust_call P C bd (KeychainDataFromMnemonic m tb pwb lang) s h e = rmap fst r) as Hcall.
  { intros r <-. cbn [rust_call].
    now rewrite (with_manager_held s h m M), (with_text_ok tb t), (with_text_ok pwb pw), (the_same _ _ Hl) by assumption. }
  assert (forall ke, keychain_data_from_mnemonic P (env_o1 e) (env_o2 e) M t pw (Some l) (env_rng e) = Err ke ->
    clean ke -> ~ nul_variant ke ->
    refuses P C T bd (s, h) e (KeychainDataFromMnemonic m tb pwb lang) (class_number ke)) as Href.
  { intros ke E. apply refuses_err; [exact HT|exact Hr|exact I|exact He|]. now rewrite (Hcall _ E). }
  assert (accepted bd l t -> phrase_seed P l (m_seed_size M) t (bip39_seed P t)) as Hacc.
  { intros (ws & Hp & Hlen & Hall). exists ws. rewrite Hlen, Hsz. split; [exact Hp|]. split; [exact Hall|]. split; [|split; reflexivity].
    destruct c_words_cases as [->| ->]; cbv; tauto. }
  assert (List.length (bip39_seed P t) = 64%nat) as Hlen by apply (pbkdf2_len P HP).
  pose proof (builtin_keys P HP _ M (bip39_seed P t) EM Hlen) as Hkeys. destruct He as [He1 He2]. pose proof (conj He1 He2 : env_ok e) as He.
  split; [|split].
  - intros Ha Hu. destruct (proj1 Hkeys (c_usable _ Hu)) as [keys Hk].
    destruct (phrase_created P HP _ _ M t (Some l) pw (env_rng e) _ keys He1 He2 HM (Hacc Ha) Hk) as (b & r' & E & _).
    assert (gives P C T bd (s, h) e (KeychainDataFromMnemonic m tb pwb lang) b) as Hg.
    { apply gives_ok; [exact Hr|exact I|exact He|]. now rewrite (Hcall _ E). }
    exists b. split; [exact Hg|]. apply (cw_phrase P C T bd m tb lang pwb b t l pw Ht Hl Hpw).
    now apply (gives_returned _ _ _ s h e).
  - intros Ha Hu. destruct (phrase_create_fails P _ _ M t (Some l) pw (env_rng e) _ He1 He2 HM (Hacc Ha)) as (n & f & Hf & Hfl).
    { intros keys Hk. apply Hu. apply c_usable'. exact (proj2 Hkeys (ex_intro _ keys Hk)). }
    apply (c_factory M n f EM) in Hf as [_ Hf]. destruct (builtin_data P HP n f _ Hf Hlen) as [D1 D2].
    rewrite D2 in Hfl; [exact (Href _ Hfl I (fun x => x))|]. intros Hu'. destruct (D1 Hu') as [d Hd]. rewrite Hd in Hfl. contradiction.
  - intros Hna. destruct (seed_from_phrase_with P [] l (m_seed_size M) t) as (ws & Hp & HH).
    assert (forall me, seed_from_mnemonic P t [] (m_seed_size M) l = Err me -> clean_mnemonic me ->
      refuses P C T bd (s, h) e (KeychainDataFromMnemonic m tb pwb lang) 11) as Hm11.
    { intros me Em Hcl. apply (Href (MnemonicError me)); [|exact Hcl|intros []].
      exact (phrase_refused P (env_o1 e) (env_o2 e) M t (Some l) pw (env_rng e) me Em). }
    destruct HH as [(pre & x & post & Ews & _ & Hx & Ex)|(Hall & HH)].
    + apply (Hm11 _ Ex). cbn [clean_mnemonic]. apply (nn_flat x t); [|exact (of_utf8_nn tb t Hnn Ht)].
      intros c Hcx. rewrite (phrase_join ws t Hp). apply (in_join c x ws); [|exact Hcx]. rewrite Ews. apply in_or_app. right. now left.
    + cbv zeta in HH. destruct HH as [[_ Ex]|(_ & [[_ Ex]|[[_ Ex]|[Hn _]]])]; try (exact (Hm11 _ Ex I)).
      destruct Hna. exists ws. split; [exact Hp|]. split; [|exact Hall]. rewrite Hsz in Hn. lia.
Qed.

Theorem making_seed sd pwb pw m M s h e : texts_ok T -> of_utf8 pwb = Some pw ->
  reached P C T bd (s, h) -> env_ok e -> holds h TManager (s TManager m) M ->
  (List.length sd = 64%nat -> usable_for P (c_networks bd) sd ->
     exists b, gives P C T bd (s, h) e (KeychainDataFromSeed m sd pwb) b /\ c_wallet P C T b pw (FromSeed sd) (c_networks bd)) /\
  (List.length sd = 64%nat -> ~ usable_for P (c_networks bd) sd -> refuses P C T bd (s, h) e (KeychainDataFromSeed m sd pwb) 9) /\
  (List.length sd <> 64%nat -> refuses P C T bd (s, h) e (KeychainDataFromSeed m sd pwb) 5).
Proof.
  intros HT Hpw Hr He Hm. pose proof (manager_held s h m M Hr Hm) as EM. pose proof (builtin_manager_ok P _ M EM) as HM.
  assert (forall r, keychain_data_from_seed P (env_o1 e) (env_o2 e) M sd pw (env_rng e) = r ->
    rust_call P C bd (KeychainDataFromSeed m sd pwb) s h e = rmap fst r) as Hcall.
  { intros r <-. cbn [rust_call]. now rewrite (with_manager_held s h m M), (with_text_ok pwb pw) by assumption. }
  assert (forall ke, keychain_data_from_seed P (env_o1 e) (env_o2 e) M sd pw (env_rng e) = Err ke ->
    clean ke -> ~ nul_variant ke ->
    refuses P C T bd (s, h) e (KeychainDataFromSeed m sd pwb) (class_number ke)) as Href.
  { intros ke E. apply refuses_err; [exact HT|exact Hr|exact I|exact He|]. now rewrite (Hcall _ E). }
  destruct He as [He1 He2]. pose proof (conj He1 He2 : env_ok e) as He. split; [|split].
  - intros Hlen Hu. destruct (proj1 (builtin_keys P HP _ M sd EM Hlen) (c_usable _ Hu)) as [keys Hk].
    destruct (created_opens P HP C _ _ M sd pw (env_rng e) He1 He2 HM Hlen) as [H _].
    destruct (H keys Hk) as (b & r' & E & _).
    assert (gives P C T bd (s, h) e (KeychainDataFromSeed m sd pwb) b) as Hg.
    { apply gives_ok; [exact Hr|exact I|exact He|]. now rewrite (Hcall _ E). }
    exists b. split; [exact Hg|]. apply (cw_seed P C T bd m sd pwb b pw Hpw). now apply (gives_returned _ _ _ s h e).
  - intros Hlen Hu. destruct (created_opens P HP C _ _ M sd pw (env_rng e) He1 He2 HM Hlen) as [_ H].
    destruct H as (n & f & Hf & Hfl).
    { intros keys Hk. apply Hu. apply c_usable'. exact (proj2 (builtin_keys P HP _ M sd EM Hlen) (ex_intro _ keys Hk)). }
    apply (c_factory M n f EM) in Hf as [_ Hf]. destruct (builtin_data P HP n f _ Hf Hlen) as [D1 D2].
    rewrite D2 in Hfl; [exact (Href _ Hfl I (fun x => x))|]. intros Hu'. destruct (D1 Hu') as [d Hd]. rewrite Hd in Hfl. contradiction.
  - intros Hlen. apply (Href (KInvalidSeedSize (N.of_nat (List.length sd)))); [|exact I|intros []].
    exact (seed_wrong_size P _ _ M sd pw (env_rng e) Hlen).
Qed.

(** ** Going on *)
Lemma run_snoc l x st : run P C T bd (l ++ [x]) st = let* st' := run P C T bd l st in run_step P C T bd x st'.
Proof.
  revert st. induction l as [|y l IH]; intros st; cbn [app run bind].
  - now destruct (run_step P C T bd x st).
  - destruct (run_step P C T bd y st) as [st'| | |]; cbn [bind]; [apply IH|reflexivity..].
Qed.
Lemma along_snoc ok l x st : along P C T bd ok l st -> (forall st', run P C T bd l st = Ok st' -> ok x st') ->
  along P C T bd ok (l ++ [x]) st.
Proof.
  revert st. induction l as [|y l IH]; intros st Hl Hx; cbn [app along] in *.
  - split; [now apply Hx|auto].
  - destruct Hl as [Hy Hl]. split; [exact Hy|]. intros st' E. apply IH; [now apply Hl|]. intros st'' E'. apply Hx. cbn [run]. now rewrite E.
Qed.
Theorem going_on t (a : api t) out err e s h ok s' h' : reached P C T bd (s, h) -> api_ok a -> env_ok e ->
  entry P C T bd a out err e s h = Ok (ok, s', h') -> reached P C T bd (s', h').
Proof.
  intros (l & Hl & E) Ha He Ec. exists (l ++ [(e, Call a out err)]). split.
  - apply along_snoc; [exact Hl|]. intros st' _. split; [exact He|exact Ha].
  - rewrite run_snoc, E. cbn [bind run_step snd fst]. now rewrite Ec.
Qed.

Lemma c_manager : c_networks bd <> [] -> exists M, built_new P (b_features bd) = Ok M.
Proof.
  intros Hne. rewrite built_new_chosen.
  destruct (builtin_summary P (built_network_all (b_features bd))) as (_ & H1 & H2 & _).
  pose proof (c_built bd) as Hcb. rewrite (Hcb (2 ^ 31)), (Hcb (2 ^ 31 + 60)) in H1, H2. rewrite (Hcb (2 ^ 31 + 1815)) in H2.
  destruct (in_dec N.eq_dec (2 ^ 31) (c_networks bd)) as [Hb|Hb]; [destruct H1 as (M & HM & _); [auto|eauto]|].
  destruct (in_dec N.eq_dec (2 ^ 31 + 60) (c_networks bd)) as [Hc|Hc]; [destruct H1 as (M & HM & _); [auto|eauto]|].
  destruct H2 as (M & HM & _); [exact Hb|exact Hc| |eauto].
  destruct (c_networks bd) as [|n l] eqn:En; [contradiction|].
  assert (In n (c_networks bd)) as Hn by (rewrite En; now left).
  apply c_three in Hn as [<-|[<-|[<-|[]]]]; [destruct Hb|destruct Hc|]; now left.
Qed.
Theorem making_manager s h e : texts_ok T -> reached P C T bd (s, h) -> env_ok e ->
  (c_networks bd <> [] -> exists M, gives P C T bd (s, h) e ManagerNew M) /\
  (c_networks bd = [] -> refuses P C T bd (s, h) e ManagerNew 3).
Proof.
  intros HT Hr He. destruct (builtin_summary P (built_network_all (b_features bd))) as (_ & _ & _ & H3 & _).
  pose proof (c_built bd) as Hcb. rewrite (Hcb (2 ^ 31)), (Hcb (2 ^ 31 + 60)), (Hcb (2 ^ 31 + 1815)) in H3.
  assert (rust_call P C bd ManagerNew s h e = with_networks P (built_network_all (b_features bd))) as E by apply built_new_chosen.
  split.
  - intros Hne. destruct (c_manager Hne) as [M EM].
    exists M. apply gives_ok; [exact Hr|exact I|exact He|]. exact EM.
  - intros En. rewrite En in H3. apply (refuses_err _ _ (CantCalculateSeedSize 0 usize_max)); [exact HT|exact Hr|exact I|exact He| |exact I|intros []].
    rewrite E. apply H3; intros [].
Qed.
Theorem starting : reached P C T bd start.
Proof. exists []. split; [exact I|reflexivity]. Qed.

(** ** Data that the password does not open *)
Theorem not_opened t (a : api t) m M b pwb pw s h e : texts_ok T -> reads_data bd m b pwb t a -> of_utf8 pwb = Some pw ->
  reached P C T bd (s, h) -> env_ok e -> holds h TManager (s TManager m) M ->
  ((List.length b <= 60)%nat -> refuses P C T bd (s, h) e a 1) /\
  ((60 < List.length b)%nat ->
     (forall salt nonce d, List.length salt = 32%nat -> List.length nonce = 12%nat -> ~ is_sealed P pw salt nonce d b) ->
     refuses P C T bd (s, h) e a 0).
Proof.
  intros HT Ha Hpw Hr He Hm. destruct (decrypt_exact P HP b pw) as (Dok & Dshort & _ & Dp & Du).
  assert (forall de, decrypt P b pw = Err de -> refuses P C T bd (s, h) e a (class_number (kc_of_decrypt de))) as H.
  { intros de E. assert (keychain_data_from_bytes P C b pw = Err (kc_of_decrypt de)) as Eb.
    { unfold keychain_data_from_bytes. now rewrite E. }
    apply refuses_err; [exact HT|exact Hr| |exact He| |destruct de; exact I|destruct de; intros []].
    - destruct Ha as [| | | |n Hn]; try exact I. cbn [api_ok]. apply (c_offers_u32 [n]). split; [now left|exact Hn].
    - destruct Ha as [| | |new new' Hnew|n Hn]; cbn [rust_call];
        rewrite (with_manager_held s h m M), (with_text_ok pwb pw) by assumption.
      + unfold keychain_from_data. now rewrite Eb.
      + unfold retrieve_mnemonic. now rewrite Eb.
      + unfold get_keys_data. now rewrite Eb.
      + rewrite (with_text_ok new new') by assumption. unfold change_password. now rewrite E.
      + destruct (c_builtin n Hn) as (f & Hf).
        pose proof (proj2 (c_factory M n f (manager_held s h m M Hr Hm)) (conj Hn Hf)) as Hg. unfold get_key_factory in Hg.
        unfold add_network. rewrite Hg. cbn [ok_or bind]. now rewrite Eb. }
  split.
  - intros Hl. apply Dshort in Hl. exact (H _ Hl).
  - intros Hl Hs. destruct (decrypt P b pw) as [d|[|]| |] eqn:E; [| |exact (H _ eq_refl)|contradiction..].
    + destruct (proj1 (Dok d) eq_refl) as (_ & salt & nonce & H1 & H2 & H3). now apply (Hs salt nonce d) in H3.
    + apply proj1 in Dshort. specialize (Dshort eq_refl). lia.
Qed.

(** ** All at once *)
Theorem session lang l tb t pwb pw e vm vk err : texts_ok T -> same_language lang l -> no_nul tb -> of_utf8 tb = Some t ->
  of_utf8 pwb = Some pw -> env_ok e -> c_networks bd <> [] -> accepted bd l t -> usable_for P (c_networks bd) (bip39_seed P t) ->
  (In (2 ^ 31 + 60) (c_networks bd) -> exists y, derives P (bip32_master P (bip39_seed P t)) [2 ^ 31 + 44; 2 ^ 31 + 60] y) ->
  exists b M kc s1 h1 s2 h2,
    entry P C T bd ManagerNew vm err e (fst start) (snd start) = Ok (true, s1, h1) /\
    c_wallet P C T b pw (FromPhrase t l) (c_networks bd) /\
    returned P C T bd (KeychainDataFromMnemonic vm tb pwb lang) b /\
    entry P C T bd (KeychainFromData vm b pwb) vk err e s1 h1 = Ok (true, s2, h2) /\
    reached P C T bd (s2, h2) /\ holds h2 TManager (s2 TManager vm) M /\
    returned P C T bd (KeychainFromData vm b pwb) kc /\ holds h2 TKeychain (s2 TKeychain vk) kc.
Proof.
  intros HT Hl Hnn Ht Hpw He Hne Ha Hu Hy. pose proof starting as R0. destruct start as [s0 h0]. cbn [fst snd].
  destruct (proj1 (making_manager s0 h0 e HT R0 He) Hne) as (M & Hm).
  destruct (Hm vm err) as (x1 & s1 & h1 & E1 & [<- _] & H1). cbn [fst snd] in E1.
  pose proof (going_on _ ManagerNew vm err e s0 h0 true s1 h1 R0 I He E1) as R1.
  destruct (making_phrase lang l tb t pwb pw vm M s1 h1 e HT Hl Hnn Ht Hpw R1 He H1) as [Hb _].
  destruct (Hb Ha Hu) as (b & Hg & Hw). clear Hb.
  destruct (open_works b pw pwb _ (c_networks bd) vm M s1 h1 e Hw Hpw R1 He H1 (fun H => Hy (proj2 H))) as (kc & Hk).
  pose proof (gives_returned _ (KeychainFromData vm b pwb) kc s1 h1 e R1 I He Hk) as Hret.
  pose proof (gives_returned _ (KeychainDataFromMnemonic vm tb pwb lang) b s1 h1 e R1 I He Hg) as Hgb.
  destruct (Hk vk err) as (x2 & s2 & h2 & E2 & [<- K2] & H2). cbn [fst snd] in E2, K2.
  pose proof (going_on _ (KeychainFromData vm b pwb) vk err e s1 h1 true s2 h2 R1 I He E2) as R2.
  exists b, M, kc, s1, h1, s2, h2. repeat (split; [assumption|]). split; [|split; [exact Hret|exact H2]].
  rewrite K2 by discriminate. destruct H1 as (i & Ei & Hi). exists i. split; [exact Ei|].
  exact (proj1 (call_keeps P HP C T bd _ (KeychainFromData vm b pwb) vk err e s1 h1 true s2 h2 R1 I He E2) i _ Hi).
Qed.
End B.
End S.
