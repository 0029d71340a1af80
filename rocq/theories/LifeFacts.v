From Coq Require Import Strings.String.
From Verif Require Import Base BaseFacts Str StrFacts Prims Bip39 Bip39Spec Dict
  KeyPath Errors FMap FMapFacts Crypt CryptSpec CryptFacts Data DataSpec DataFacts XPrv XPrvSpec XPrvFacts Keys
  KeysSpec KeysFacts Mnemonic MnemonicFacts Keychain Manager ManagerSpec ManagerFacts WalletFacts HistorySpec
  HistoryFacts Toy.
Open Scope list_scope.
Local Strategy 1000 [XPrv.derive XPrv.derive_loop XPrv.derive_step XPrv.xprv_from_data].

(** ** Keychains *)
Lemma get_answers kc n K : get n kc = Some K -> answers_as kc n K.
Proof.
  intros E. unfold answers_as, has_network, kc_pub_key, kc_sign, kc_verify, pk. rewrite E. cbn [ok_or bind]. auto.
Qed.
Lemma get_lacks kc n : get n kc = None -> lacks kc n.
Proof.
  intros E. unfold lacks, has_network, kc_pub_key, kc_sign, kc_verify, pk. rewrite E. cbn [ok_or bind]. auto.
Qed.
Lemma has_get kc n : has_network kc n = true <-> exists K, get n kc = Some K.
Proof.
  unfold has_network. destruct (get n kc) as [K|]; split; try discriminate; eauto.
  intros [K H]. discriminate.
Qed.

Lemma keychain_snoc keys K n :
  get n (keychain_new (keys ++ [K])) = if n =? key_network K then Some K else get n (keychain_new keys).
Proof.
  unfold keychain_new. rewrite map_app. cbn [List.map]. rewrite of_list_snoc.
  apply get_ins, of_list_wf.
Qed.

Lemma keychain_get keys n :
  (forall K pre post, keys = pre ++ K :: post -> key_network K = n ->
     (forall K', In K' post -> key_network K' <> n) -> get n (keychain_new keys) = Some K) /\
  ((forall K, In K keys -> key_network K <> n) -> get n (keychain_new keys) = None).
Proof.
  split.
  - intros K pre post -> Hn Hpost. induction post as [|K' post IH] using rev_ind.
    + rewrite keychain_snoc, Hn, N.eqb_refl. reflexivity.
    + rewrite app_comm_cons, app_assoc, keychain_snoc.
      destruct (N.eqb_spec n (key_network K')) as [E|_].
      * exfalso. apply (Hpost K'); [|now symmetry]. apply in_or_app. right. now left.
      * apply IH. intros x Hx. apply Hpost, in_or_app. now left.
  - intros H. induction keys as [|K' keys IH] using rev_ind; [reflexivity|].
    rewrite keychain_snoc. destruct (N.eqb_spec n (key_network K')) as [E|_].
    + exfalso. apply (H K'); [|now symmetry]. apply in_or_app. right. now left.
    + apply IH. intros x Hx. apply H, in_or_app. now left.
Qed.

Theorem dispatch keys n :
  (forall K pre post, keys = pre ++ K :: post -> key_network K = n ->
     (forall K', In K' post -> key_network K' <> n) -> answers_as (keychain_new keys) n K) /\
  ((forall K, In K keys -> key_network K <> n) -> lacks (keychain_new keys) n).
Proof.
  destruct (keychain_get keys n) as [H1 H2]. split.
  - intros K pre post E Hn Hp. eapply get_answers, H1; eassumption.
  - intros H. apply get_lacks, H2, H.
Qed.

Lemma last_or_none keys n :
  (exists K pre post, keys = pre ++ K :: post /\ key_network K = n /\
     forall K', In K' post -> key_network K' <> n) \/
  (forall K, In K keys -> key_network K <> n).
Proof.
  induction keys as [|K keys IH]; [right; intros K []|].
  destruct IH as [(K' & pre & post & -> & Hn & Hp)|Hno].
  - left. exists K', (K :: pre), post. auto.
  - destruct (N.eq_dec (key_network K) n) as [Hn|Hn].
    + left. exists K, [], keys. auto.
    + right. intros K' [<-|H]; auto.
Qed.

Theorem network_list keys o : order_ok o ->
  NoDup (networks o (keychain_new keys)) /\
  forall n, In n (networks o (keychain_new keys)) <-> exists K, In K keys /\ key_network K = n.
Proof.
  intros Ho. pose proof (of_list_wf (List.map (fun key => (key_network key, key)) keys)) as Hwf.
  fold (keychain_new keys) in Hwf.
  assert (Permutation (networks o (keychain_new keys)) (keys_of (keychain_new keys))) as Hp
    by apply Permutation_map, Ho.
  split; [eapply Permutation_NoDup; [apply Permutation_sym, Hp|now apply wf_NoDup]|].
  intros n. assert (In n (keys_of (keychain_new keys)) <-> get n (keychain_new keys) <> None) as Hg.
  { rewrite get_none. destruct (in_dec N.eq_dec n (keys_of (keychain_new keys))); tauto. }
  split.
  - intros H. apply (Permutation_in _ Hp), Hg in H.
    destruct (last_or_none keys n) as [(K & pre & post & -> & Hn & _)|Hno].
    + exists K. split; [apply in_or_app; right; now left|exact Hn].
    + now apply (keychain_get keys n) in Hno.
  - intros (K & Hin & Hn). apply (Permutation_in _ (Permutation_sym Hp)), Hg.
    destruct (last_or_none keys n) as [(K' & pre & post & E & Hn' & Hp')|Hno].
    + apply (keychain_get keys n) in E; auto. congruence.
    + now apply Hno in Hin.
Qed.

(** ** Existence of keys and keychains *)
Lemma keys_exist m s : manager_ok m ->
  (forall n f, get n (m_factories m) = Some f -> exists d, key_data_from_seed f s = Ok d) ->
  exists keys, keys_from m s keys.
Proof.
  intros Hm H. destruct (keys_cases _ sorted_order_ok m Hm s) as [(keys & _ & _ & _ & Hk)|(n & f & Hf & _ & Hfl)]; [eauto|].
  apply H in Hf as [d Hd]. specialize (Hfl unit (fun _ => Ok tt)). rewrite Hd in Hfl. destruct Hfl.
Qed.

Lemma opens_exist m w : manager_ok m -> wallet_ok w ->
  (forall n f d, get n (w_keys w) = Some d -> get n (m_factories m) = Some f -> exists K, key_from_data f d = Ok K) ->
  exists kc, opens_to m w kc.
Proof.
  intros Hm [Hw _] H. destruct (open_cases _ sorted_order_ok m Hm w Hw) as [(l & kc & _ & _ & Hk)|(n & f & d & Hd & Hf & _ & Hfl)]; [eauto|].
  apply (H n f d Hd) in Hf as [K HK]. specialize (Hfl unit (fun _ => Ok tt)). rewrite HK in Hfl. destruct Hfl.
Qed.

Section L.
Variable P : prims.
Hypothesis HP : prims_ok P.
Variable C : data_config.

Lemma secp_seed s : List.length s = 64%nat ->
  (usable_seed P s /\ exists x, xprv_from_seed P s = Ok x /\ xprv_wf x /\
     key_data_from_seed (btc_factory P) s = Ok (xprv_layout P x) /\
     key_data_from_seed (eth_factory P) s = Ok (xprv_layout P x)) \/
  (~ usable_seed P s /\
     key_data_from_seed (btc_factory P) s = Err (key_of_secp SInvalidSecretKey) /\
     key_data_from_seed (eth_factory P) s = Err (key_of_secp SInvalidSecretKey)).
Proof.
  intros Hl. assert (seed_from_slice s = Ok s) as Es
    by (unfold seed_from_slice; rewrite Hl; reflexivity).
  unfold usable_seed. change (blit "Bitcoin seed") with HMAC_KEY.
  cbn [btc_factory eth_factory key_data_from_seed]. unfold with_seed. rewrite Es. cbn [map_err bind].
  unfold secp_data_from_seed.
  destruct (from_seed_cases P HP s) as [(Hu & x & E & _ & _ & _ & _ & _ & Hwf)|(Hu & E)]; rewrite E; cbn [map_err bind].
  - left. split; [exact Hu|]. exists x. rewrite (serialize_layout P x). auto.
  - right. auto.
Qed.

Lemma builtin_spec n f : builtin P n = Some f <-> builtin_factory P n f.
Proof.
  unfold builtin, builtin_factory. change CARDANO with (2 ^ 31 + 1815). change ETHEREUM with (2 ^ 31 + 60).
  change BITCOIN with (2 ^ 31).
  destruct (N.eqb_spec n (2 ^ 31 + 1815)) as [->|H1].
  { split; [intros E; injection E as <-; auto|]. intros [[_ ->]|[[E _]|[E _]]]; [reflexivity|discriminate..]. }
  destruct (N.eqb_spec n (2 ^ 31 + 60)) as [->|H2].
  { split; [intros E; injection E as <-; auto|]. intros [[E _]|[[_ ->]|[E _]]]; [discriminate|reflexivity|discriminate]. }
  destruct (N.eqb_spec n (2 ^ 31)) as [->|H3].
  { split; [intros E; injection E as <-; auto|]. intros [[E _]|[[E _]|[_ ->]]]; [discriminate..|reflexivity]. }
  split; [discriminate|]. intros [[E _]|[[E _]|[E _]]]; contradiction.
Qed.

Lemma builtin_get ns m n f : with_networks P ns = Ok m ->
  (get n (m_factories m) = Some f <-> In n ns /\ builtin_factory P n f).
Proof.
  intros E. destruct (builtin_managers P ns) as [H _]. destruct (H m E) as [_ Hf].
  rewrite <- builtin_spec. apply Hf.
Qed.

Lemma builtin_manager_ok ns m : with_networks P ns = Ok m -> manager_ok m.
Proof. intros E. destruct (builtin_managers P ns) as [H _]. now apply (H m E). Qed.

Lemma builtin_keys ns m s : with_networks P ns = Ok m -> List.length s = 64%nat ->
  (usable_for P ns s <-> exists keys, keys_from m s keys).
Proof.
  intros E Hl. split.
  - intros Hu. apply keys_exist; [now apply (builtin_manager_ok ns)|]. intros n f Hf.
    apply (builtin_get ns m n f E) in Hf as [Hin [[-> ->]|[[-> ->]|[-> ->]]]].
    + destruct (ada_seed_data P HP s Hl) as (h & _ & Hd & _). eauto.
    + destruct (secp_seed s Hl) as [(_ & x & _ & _ & _ & Hd)|(Hn & _)]; [eauto|].
      now destruct Hn; apply Hu; right.
    + destruct (secp_seed s Hl) as [(_ & x & _ & _ & Hd & _)|(Hn & _)]; [eauto|].
      now destruct Hn; apply Hu; left.
  - intros (keys & _ & Hk) [Hin|Hin].
    + specialize (Hk (2 ^ 31)). rewrite (proj2 (builtin_get ns m (2 ^ 31) (btc_factory P) E)) in Hk
        by (split; [exact Hin|unfold builtin_factory; auto]).
      destruct Hk as (d & Hd & _). destruct (secp_seed s Hl) as [(Hu & _)|(_ & Hx & _)]; [exact Hu|congruence].
    + specialize (Hk (2 ^ 31 + 60)). rewrite (proj2 (builtin_get ns m (2 ^ 31 + 60) (eth_factory P) E)) in Hk
        by (split; [exact Hin|unfold builtin_factory; auto]).
      destruct Hk as (d & Hd & _). destruct (secp_seed s Hl) as [(Hu & _)|(_ & _ & Hx)]; [exact Hu|congruence].
Qed.

Lemma manager_new_networks : manager_new P = with_networks P [2 ^ 31 + 1815; 2 ^ 31 + 60; 2 ^ 31].
Proof. reflexivity. Qed.

Theorem builtin_summary ns :
  (forall m, with_networks P ns = Ok m -> manager_ok m /\
     (forall n f, get_key_factory m n = Some f <-> In n ns /\ builtin_factory P n f) /\
     (forall n, m_has_network m n = true <-> In n ns /\ exists f, builtin_factory P n f)) /\
  (In (2 ^ 31) ns \/ In (2 ^ 31 + 60) ns ->
     exists m, with_networks P ns = Ok m /\ m_seed_size m = 128) /\
  (~ In (2 ^ 31) ns -> ~ In (2 ^ 31 + 60) ns -> In (2 ^ 31 + 1815) ns ->
     exists m, with_networks P ns = Ok m /\ m_seed_size m = 96) /\
  (~ In (2 ^ 31) ns -> ~ In (2 ^ 31 + 60) ns -> ~ In (2 ^ 31 + 1815) ns ->
     with_networks P ns = Err (CantCalculateSeedSize 0 usize_max)) /\
  manager_new P = with_networks P [2 ^ 31 + 1815; 2 ^ 31 + 60; 2 ^ 31].
Proof.
  destruct (builtin_managers P ns) as (_ & H1 & H2 & H3). split.
  - intros m E. split; [now apply (builtin_manager_ok ns)|]. split; [intros n f; now apply builtin_get|].
    intros n. unfold m_has_network, mem. destruct (get n (m_factories m)) as [f|] eqn:Ef.
    + split; [|reflexivity]. intros _. apply (builtin_get ns m n f E) in Ef as [Hin Hb]. eauto.
    + split; [discriminate|]. intros (Hin & f & Hb).
      assert (get n (m_factories m) = Some f) by now apply (builtin_get ns m n f E). congruence.
  - repeat (split; [assumption|]). exact manager_new_networks.
Qed.

(** ** Panics of the built-in factories *)
Lemma map_err_calm {E F A} (g : E -> F) (r : res E A) :
  r <> Panic /\ r <> Undef -> map_err g r <> Panic /\ map_err g r <> Undef.
Proof. destruct r; cbn [map_err]; intros [H1 H2]; split; congruence. Qed.
Lemma bind_calm {E A B} (r : res E A) (k : A -> res E B) :
  r <> Panic /\ r <> Undef -> (forall a, r = Ok a -> k a <> Panic /\ k a <> Undef) ->
  bind r k <> Panic /\ bind r k <> Undef.
Proof. destruct r; cbn [bind]; intros [H1 H2] H; try (split; congruence). now apply H. Qed.

Lemma builtin_seed_calm n f s : builtin_factory P n f ->
  key_data_from_seed f s <> Panic /\ key_data_from_seed f s <> Undef.
Proof.
  assert (map_err (fun e => InvalidMnemonic (mnemonic_of_bip39 e)) (seed_from_slice s) <> Panic /\
          map_err (fun e => InvalidMnemonic (mnemonic_of_bip39 e)) (seed_from_slice s) <> Undef) as Hs.
  { apply map_err_calm. unfold seed_from_slice. destruct (Nat.eqb _ _); split; discriminate. }
  assert (forall x, secp_data_from_seed P x <> Panic /\ secp_data_from_seed P x <> Undef) as Hx.
  { intros x. apply bind_calm; [apply map_err_calm|intros; split; discriminate].
    destruct (from_seed_cases P HP x) as [(_ & y & E & _)|(_ & E)]; rewrite E; split; discriminate. }
  intros [[_ ->]|[[_ ->]|[_ ->]]]; cbn [ada_factory eth_factory btc_factory key_data_from_seed];
    unfold with_seed; apply bind_calm; auto.
  intros x _. unfold ada_data_from_seed, from_bytes_verified. cbv zeta.
  destruct (negb _); [split; discriminate|]. destruct (negb _); split; discriminate.
Qed.

Lemma builtin_load_calm n f d : builtin_factory P n f ->
  key_from_data f d <> Undef /\
  (key_from_data f d = Panic <-> n = 2 ^ 31 + 1815 /\ (96 < List.length d)%nat).
Proof.
  assert (xprv_from_data P d <> Panic /\ xprv_from_data P d <> Undef) as Hx by now apply from_data_total.
  assert (forall r n', n' <> 2 ^ 31 + 1815 -> (r : res key_error Key) <> Panic /\ r <> Undef ->
    r <> Undef /\ (r = Panic <-> n' = 2 ^ 31 + 1815 /\ (96 < List.length d)%nat)) as Hr by tauto.
  intros [[-> ->]|[[-> ->]|[-> ->]]].
  - destruct (ada_load_cases P d) as (H1 & H2 & H3).
    destruct (Nat.lt_total (List.length d) 96) as [Hl|[Hl|Hl]].
    + rewrite (H1 Hl). split; [discriminate|]. split; [discriminate|lia].
    + destruct (H2 Hl) as (Ha & Hb & Hc).
      destruct (N.eq_dec (b2n (nth 31 d x00) / 32) 2) as [E|E].
      * destruct (N.eq_dec (b2n (nth 0 d x00) mod 8) 0) as [E'|E'].
        -- rewrite Hc by assumption. split; [discriminate|]. split; [discriminate|lia].
        -- rewrite Hb by assumption. split; [discriminate|]. split; [discriminate|lia].
      * rewrite Ha by assumption. split; [discriminate|]. split; [discriminate|lia].
    + rewrite (H3 Hl). split; [discriminate|]. tauto.
  - apply Hr; [discriminate|]. cbn [eth_factory key_from_data]. unfold rmap. apply bind_calm; [|intros; split; discriminate].
    unfold eth_from_data. apply map_err_calm, bind_calm; [exact Hx|]. intros x _.
    apply bind_calm; [apply (derive_total P HP); discriminate|]. intros y _. apply (derive_total P HP). discriminate.
  - apply Hr; [discriminate|]. cbn [btc_factory key_from_data]. unfold rmap. apply bind_calm; [|intros; split; discriminate].
    unfold btc_from_data. now apply map_err_calm.
Qed.

(** ** C37: generated phrases *)
Lemma builtin_size ns m : with_networks P ns = Ok m ->
  exists t, m_seed_size m = N.of_nat (to_key_size t) /\
   (t = Type9Words \/ t = Type12Words) /\
   (t = Type12Words <-> In (2 ^ 31) ns \/ In (2 ^ 31 + 60) ns).
Proof.
  intros E. destruct (builtin_managers P ns) as (_ & H1 & H2 & H3).
  change BITCOIN with (2 ^ 31) in *. change ETHEREUM with (2 ^ 31 + 60) in *. change CARDANO with (2 ^ 31 + 1815) in *.
  destruct (in_dec N.eq_dec (2 ^ 31) ns) as [Hb|Hb].
  { destruct H1 as (m' & E' & Hs); [now left|]. exists Type12Words. split; [assert (m = m') as -> by congruence; rewrite Hs; reflexivity|]. split; [now right|]. tauto. }
  destruct (in_dec N.eq_dec (2 ^ 31 + 60) ns) as [He|He].
  { destruct H1 as (m' & E' & Hs); [now right|]. exists Type12Words. split; [assert (m = m') as -> by congruence; rewrite Hs; reflexivity|]. split; [now right|]. tauto. }
  destruct (in_dec N.eq_dec (2 ^ 31 + 1815) ns) as [Ha|Ha].
  { destruct (H2 Hb He Ha) as (m' & E' & Hs). exists Type9Words. split; [assert (m = m') as -> by congruence; rewrite Hs; reflexivity|]. split; [now left|].
    split; [discriminate|tauto]. }
  rewrite (H3 Hb He Ha) in E. discriminate.
Qed.

Lemma phrase_created o1 o2 m t lang pw r s keys : order_ok o1 -> order_ok o2 -> manager_ok m ->
  phrase_seed P (or_english lang) (m_seed_size m) t s -> keys_from m s keys ->
  exists data r', keychain_data_from_mnemonic P o1 o2 m t pw lang r = Ok (data, r') /\
    stored P pw (phrase_wallet t (or_english lang) keys) data /\
    wallet_ok (phrase_wallet t (or_english lang) keys) /\
    forall i, r' i = r (44 + i)%nat.
Proof.
  intros Ho1 Ho2 Hm Hp Hk. unfold keychain_data_from_mnemonic. change language_default with English. fold (or_english lang).
  assert (secret P m None (Some t) (Some (or_english lang)) s) as Hs by (do 2 eexists; eauto).
  rewrite (create_ok P o1 o2 Ho1 m Hm _ _ _ s keys pw r Hs Hk).
  pose proof (seal_stored P HP o2 (phrase_wallet t (or_english lang) keys) pw r Ho2) as H1.
  pose proof (seal_rest P HP o2 (phrase_wallet t (or_english lang) keys) pw r) as H2.
  change (new_wallet None (Some t) (Some (or_english lang)) keys) with (phrase_wallet t (or_english lang) keys).
  destruct (seal P o2 (phrase_wallet t (or_english lang) keys) pw r) as [data r'] eqn:Es. cbn [fst snd] in *.
  exists data, r'. split; [reflexivity|]. split; [exact H1|]. split; [|exact H2].
  apply (new_wallet_ok P m Hm None (Some t) (Some (or_english lang)) s keys); auto. congruence.
Qed.

Lemma seed_created o1 o2 m s pw r keys : order_ok o1 -> order_ok o2 -> manager_ok m ->
  List.length s = 64%nat -> keys_from m s keys ->
  exists data r', keychain_data_from_seed P o1 o2 m s pw r = Ok (data, r') /\
    stored P pw (seed_wallet s keys) data /\ wallet_ok (seed_wallet s keys) /\
    forall i, r' i = r (44 + i)%nat.
Proof.
  intros Ho1 Ho2 Hm Hl Hk. unfold keychain_data_from_seed.
  assert (secret P m (Some s) None None s) as Hs by (split; auto).
  rewrite (create_ok P o1 o2 Ho1 m Hm _ _ _ s keys pw r Hs Hk).
  pose proof (seal_stored P HP o2 (seed_wallet s keys) pw r Ho2) as H1.
  pose proof (seal_rest P HP o2 (seed_wallet s keys) pw r) as H2.
  change (new_wallet (Some s) None None keys) with (seed_wallet s keys).
  destruct (seal P o2 (seed_wallet s keys) pw r) as [data r'] eqn:Es. cbn [fst snd] in *.
  exists data, r'. split; [reflexivity|]. split; [exact H1|]. split; [|exact H2].
  apply (new_wallet_ok P m Hm (Some s) None None s keys); auto.
Qed.

Lemma fails_ok {A B} n (r : res key_error A) (r' : res kc_error B) x : fails_as n r r' -> r' <> Ok x.
Proof. unfold fails_as. destruct r; intros H; [destruct H|congruence..]. Qed.

Lemma seed_create_fails o1 o2 m s pw r : order_ok o1 -> order_ok o2 -> manager_ok m ->
  List.length s = 64%nat -> (forall keys, ~ keys_from m s keys) ->
  exists n f, get_key_factory m n = Some f /\
    fails_as n (key_data_from_seed f s) (keychain_data_from_seed P o1 o2 m s pw r).
Proof.
  intros Ho1 Ho2 Hm Hl Hno.
  assert (secret P m (Some s) None None s) as Hs by (split; auto).
  destruct (create_cases P o1 o2 Ho1 m Hm (Some s) None None pw r) as [(s' & keys & Hs' & Hk & _)|[(e & Hn & _)|(s' & n & f & Hs' & Hf & _ & H)]].
  - assert (s' = s) as -> by (eapply secret_unique; eassumption). now apply Hno in Hk.
  - now apply Hn in Hs.
  - assert (s' = s) as -> by (eapply secret_unique; eassumption). exists n, f. auto.
Qed.

Lemma seed_wrong_size o1 o2 m s pw r : List.length s <> 64%nat ->
  keychain_data_from_seed P o1 o2 m s pw r = Err (KInvalidSeedSize (N.of_nat (List.length s))).
Proof.
  intros Hl. unfold keychain_data_from_seed, new_keychain_data, seed_from_data.
  change SEED_SIZE with 64%nat. apply Nat.eqb_neq in Hl. now rewrite Hl.
Qed.

Lemma phrase_create_fails o1 o2 m t lang pw r s : order_ok o1 -> order_ok o2 -> manager_ok m ->
  phrase_seed P (or_english lang) (m_seed_size m) t s -> (forall keys, ~ keys_from m s keys) ->
  exists n f, get_key_factory m n = Some f /\
    fails_as n (key_data_from_seed f s) (keychain_data_from_mnemonic P o1 o2 m t pw lang r).
Proof.
  intros Ho1 Ho2 Hm Hp Hno. unfold keychain_data_from_mnemonic. change language_default with English. fold (or_english lang).
  assert (secret P m None (Some t) (Some (or_english lang)) s) as Hs by (do 2 eexists; eauto).
  destruct (create_cases P o1 o2 Ho1 m Hm None (Some t) (Some (or_english lang)) pw r) as [(s' & keys & Hs' & Hk & _)|[(e & Hn & _)|(s' & n & f & Hs' & Hf & _ & H)]].
  - assert (s' = s) as -> by (eapply secret_unique; eassumption). now apply Hno in Hk.
  - now apply Hn in Hs.
  - assert (s' = s) as -> by (eapply secret_unique; eassumption). exists n, f. auto.
Qed.

Lemma phrase_refused o1 o2 m t lang pw r e :
  seed_from_mnemonic P t [] (m_seed_size m) (or_english lang) = Err e ->
  keychain_data_from_mnemonic P o1 o2 m t pw lang r = Err (MnemonicError e).
Proof.
  intros E. unfold keychain_data_from_mnemonic. change language_default with English. fold (or_english lang).
  unfold new_keychain_data, seed_from_data. cbn [ok_or bind]. now rewrite E.
Qed.

Theorem generated ns m lang r : with_networks P ns = Ok m ->
  let k := N.to_nat (m_seed_size m / 8) in
  let ent := List.map r (seq 0 k) in
  exists ms ws t s,
    sentence_of ent (sha256 P ent) ms /\
    Forall2 (fun i w => nth_error (to_dict (or_english lang)) (N.to_nat i) = Some w) ms ws /\
    phrase_of ws t /\ N.of_nat (List.length ws) = m_seed_size m / 32 * 3 /\
    generate_mnemonic P m lang r = Ok (t, fun i => r (k + i)%nat) /\
    phrase_seed P (or_english lang) (m_seed_size m) t s /\
    forall o1 o2 pw r', order_ok o1 -> order_ok o2 ->
      (usable_for P ns s -> exists data r'' keys, keys_from m s keys /\
         keychain_data_from_mnemonic P o1 o2 m t pw lang r' = Ok (data, r'') /\
         stored P pw (phrase_wallet t (or_english lang) keys) data) /\
      (~ usable_for P ns s -> exists n,
         (n = 2 ^ 31 \/ n = 2 ^ 31 + 60) /\
         keychain_data_from_mnemonic P o1 o2 m t pw lang r' = Err (KeyError n (key_of_secp SInvalidSecretKey))).
Proof.
  intros E k ent. destruct (builtin_size ns m E) as (t & Hsz & _).
  pose proof (generate_phrase P HP t (or_english lang) r) as H. cbv zeta in H.
  assert (k = (to_key_size t / 8)%nat) as Hk by (subst k; rewrite Hsz; destruct t; reflexivity).
  rewrite <- Hk in H. fold ent in H. rewrite <- Hsz in H.
  destruct H as (ms & ws & s & H1 & H2 & H3 & H4 & H5 & H6 & H7).
  exists ms, ws, s, (pbkdf2 P (utf8 s) (blit "mnemonic") 2048 64).
  split; [exact H1|]. split; [exact H2|]. split; [exact H3|]. split; [exact H4|]. split.
  { unfold generate_mnemonic. change language_default with English. rewrite H5. cbn [bind map_err]. fold (or_english lang). rewrite H6. reflexivity. }
  split; [exact H7|]. intros o1 o2 pw r' Ho1 Ho2. pose proof (builtin_manager_ok ns m E) as Hm.
  set (sd := pbkdf2 P (utf8 s) (blit "mnemonic") 2048 64) in *.
  assert (List.length sd = 64%nat) as Hl by (apply (pbkdf2_len P HP)). split.
  - intros Hu. apply (builtin_keys ns m sd E Hl) in Hu as [keys Hkeys].
    destruct (phrase_created o1 o2 m s lang pw r' sd keys Ho1 Ho2 Hm H7 Hkeys) as (data & r'' & Ec & Hs & _).
    exists data, r'', keys. auto.
  - intros Hu. destruct (phrase_create_fails o1 o2 m s lang pw r' sd Ho1 Ho2 Hm H7) as (n & f & Hf & Hfl).
    { intros keys Hkeys. apply Hu, (builtin_keys ns m sd E Hl). eauto. }
    unfold get_key_factory in Hf.
    apply (builtin_get ns m n f E) in Hf as [Hin [[-> ->]|[[-> ->]|[-> ->]]]].
    + destruct (ada_seed_data P HP sd Hl) as (h & _ & Hd & _). rewrite Hd in Hfl. destruct Hfl.
    + exists (2 ^ 31 + 60). split; [now right|].
      destruct (secp_seed sd Hl) as [(_ & x & _ & _ & _ & Hd)|(_ & _ & Hd)]; rewrite Hd in Hfl; [destruct Hfl|exact Hfl].
    + exists (2 ^ 31). split; [now left|].
      destruct (secp_seed sd Hl) as [(_ & x & _ & _ & Hd & _)|(_ & Hd & _)]; rewrite Hd in Hfl; [destruct Hfl|exact Hfl].
Qed.
End L.

Lemma checksum_case : exists (P : prims) s ms a b seed,
  prims_ok P /\ mnemonics_from_string (to_dict English) s = Ok ms /\
  entropy_from_mnemonics P ms = Err (InvalidChecksum a b) /\
  seed_from_mnemonic P s [] 128 English = Ok seed.
Proof.
  destruct (wrong_checksum_accepted Toy.toy Toy.toy_ok English Type12Words) as (s & ms & H1 & (a & b & H2) & seed & H3).
  exists Toy.toy, s, ms, a, b, seed. split; [exact Toy.toy_ok|]. auto.
Qed.
