(** Wallets made from a phrase or a seed answer as the standards say. *)
From Coq Require Import Strings.String.
From Verif Require Import Base BaseFacts Str StrFacts Prims Bip39 Bip39Spec Dict
  KeyPath KeyPathSpec Errors FMap FMapFacts Crypt CryptSpec CryptFacts Data DataSpec DataFacts XPrv XPrvSpec XPrvFacts Keys
  KeysSpec KeysFacts Mnemonic MnemonicFacts Keychain Manager ManagerSpec ManagerFacts WalletFacts HistorySpec
  HistoryFacts LifeFacts StoryFacts SignFacts SeedFacts InteropSpec.
Open Scope list_scope.
Local Strategy 1000 [XPrv.derive XPrv.derive_loop XPrv.derive_step XPrv.xprv_from_data derive_along].

Lemma clamped_unique h a b : clamped h a -> clamped h b -> a = b.
Proof.
  intros (La & Ea & A0 & A31) (Lb & Eb & B0 & B31). apply (nth_ext a b x00 x00); [congruence|].
  intros i _. destruct (Nat.eq_dec i 0) as [->|H0].
  { apply b2n_inj. congruence. }
  destruct (Nat.eq_dec i 31) as [->|H31].
  { apply b2n_inj. congruence. }
  rewrite Ea, Eb; auto.
Qed.

Section S.
Variable P : prims.
Hypothesis HP : prims_ok P.
Variable C : data_config.

(** All keys of the wallet are those the built-in factories make from [s]. *)
Definition from_secret (s : bytes) (w : wallet) : Prop :=
  forall n d, get n (w_keys w) = Some d -> exists f, builtin_factory P n f /\ key_data_from_seed f s = Ok d.

(** The wallet's secret gives [s] and nothing else. *)
Definition has_secret (s : bytes) (w : wallet) : Prop := forall m s', wallet_secret P m w s' -> s' = s.

Lemma from_secret_effect s a p b : effect P a p b -> builtin_op P p ->
  has_secret s (snd a) -> from_secret s (snd a) -> from_secret s (snd b).
Proof.
  intros H Hb Hs Hf. destruct H as [| |pw m n f s' d w w' Hg Hk Hsec Hd (S & M & D & W & G)| | | | | |]; cbn [snd] in *; auto.
  intros k v Hv. rewrite G in Hv. destruct (N.eqb_spec k n) as [->|]; [|now apply Hf].
  injection Hv as <-. destruct Hb as [ns E]. apply (builtin_get P ns m n f E) in Hg as [_ Hg].
  apply Hs in Hsec as ->. eauto.
Qed.

Lemma has_secret_same s w w' : w_seed w' = w_seed w -> w_mnemonic w' = w_mnemonic w ->
  w_dictionary w' = w_dictionary w -> has_secret s w -> has_secret s w'.
Proof. intros H1 H2 H3 H m s' Hs. apply (H m). unfold wallet_secret in *. now rewrite H1, H2, H3 in Hs. Qed.

Lemma from_secret_effects s a l b : effects P a l b -> Forall (builtin_op P) l ->
  has_secret s (snd a) -> from_secret s (snd a) -> from_secret s (snd b).
Proof.
  induction 1 as [a|a p b l c He _ IH]; intros Hl Hs Hf; [exact Hf|].
  apply Forall_cons_iff in Hl as [Hp Hl]. pose proof (effect_secret P a p b He) as (E1 & E2 & E3 & _).
  apply IH; [exact Hl|now apply (has_secret_same s (snd a))|]. now apply (from_secret_effect s a p).
Qed.

Lemma bip32_key_data s f n : List.length s = 64%nat ->
  (f = btc_factory P /\ n = 2 ^ 31) \/ (f = eth_factory P /\ n = 2 ^ 31 + 60) ->
  forall d, key_data_from_seed f s = Ok d ->
  d = xprv_layout P (bip32_master P s) /\ xprv_wf (bip32_master P s).
Proof.
  intros Hl Hf d Hd. pose proof (secp_seed_data P HP s Hl) as [H1 H2].
  assert (usable_seed P s \/ ~ usable_seed P s) as [Hu|Hu].
  { unfold usable_seed. lia. }
  - pose proof (H1 Hu) as [E1 E2]. fold (bip32_master P s) in E1, E2.
    split; [destruct Hf as [[-> _]|[-> _]]; congruence|].
    destruct (secp_seed P HP s Hl) as [(_ & x & _ & Hwf & Hx & _)|(Hn & _)].
    + split; [exact Hu|]. split; [|split; [reflexivity|apply N.le_0_l]].
      cbn [bip32_master x_chaincode]. rewrite skipn_length, (hmac_sha512_len P HP). reflexivity.
    + contradiction.
  - apply H2 in Hu as [E1 E2]. destruct Hf as [[-> _]|[-> _]]; congruence.
Qed.

Lemma standard_from_keys s m w kc : List.length s = 64%nat -> from_secret s w -> manager_ok m ->
  (forall n f, get n (m_factories m) = Some f -> builtin_factory P n f) ->
  opens_to m w kc -> standard_answers P s kc.
Proof.
  intros Hl Hfs Hm Hb [_ Hkc] n k Hn Hk Hok. specialize (Hkc n). unfold has_network in Hn.
  destruct (get n kc) as [K|] eqn:EK; [|discriminate].
  destruct (get n (w_keys w)) as [d|] eqn:Ed; [|discriminate].
  destruct (get n (m_factories m)) as [f|] eqn:Ef; [|discriminate].
  destruct Hkc as (K' & EK' & E). assert (K' = K) as -> by congruence. clear E.
  apply Hb in Ef. destruct (Hfs n d Ed) as (f' & Hf' & Ed').
  assert (f' = f) as ->.
  { apply builtin_spec in Ef, Hf'. congruence. }
  split.
  - intros Hnn z Hz.
    assert ((f = btc_factory P /\ n = 2 ^ 31) \/ (f = eth_factory P /\ n = 2 ^ 31 + 60)) as Hff.
    { destruct Ef as [[-> _]|[[-> ->]|[-> ->]]]; auto. destruct Hnn; discriminate. }
    destruct (bip32_key_data s f n Hl Hff d Ed') as [-> Hwf].
    destruct (secp_bip32 P f n HP Hff _ z k [] Hk Hok Hwf Hz) as (K1 & EK1 & Hp & _).
    destruct (sign_exact P f n HP Hff _ z k Hk Hok Hwf Hz) as (K2 & EK2 & Hs).
    assert (K1 = K) as -> by congruence. assert (K2 = K) as -> by congruence.
    unfold answers_secp, kc_pub_key, kc_sign, kc_verify, pk. rewrite EK. cbn [ok_or bind].
    split; [now rewrite Hp|]. split.
    + intros msg r sg v E Hv. destruct (Hs msg) as (_ & H & _). destruct (H r sg v E) as [H1 _]. now rewrite H1.
    + intros msg r sg Hr Hsg. destruct (Hs msg) as (_ & _ & _ & H).
      assert (secp_n < 2 ^ 256) as Hlt by reflexivity.
      rewrite H by lia. rewrite !N.mod_small by assumption. reflexivity.
  - intros -> h Hh. destruct Ef as [[_ ->]|[[E _]|[E _]]]; [|discriminate E..].
    destruct (ada_seed_data P HP s Hl) as (h' & Hh' & Hd & Hlen & _).
    assert (h' = h) as -> by (eapply clamped_unique; eassumption).
    assert (d = h ++ skipn 32 s) as -> by congruence.
    set (x := h ++ skipn 32 s) in *.
    assert (from_bytes_verified x = Ok x) as Ev.
    { cbn [ada_factory key_from_data] in EK'. unfold ada_from_data in EK'. rewrite Hlen in EK'.
      change (Nat.ltb 96 XPRV_SIZE) with false in EK'. change (Nat.eqb 96 XPRV_SIZE) with true in EK'. cbn [negb] in EK'.
      revert EK'. unfold from_bytes_verified.
      destruct (negb _); [discriminate|]. destruct (negb _); [discriminate|]. reflexivity. }
    unfold answers_ed, kc_pub_key, kc_sign, kc_verify, pk. rewrite EK. cbn [ok_or bind].
    split; [|split].
    + destruct (ada_transparent P x k [] (repeat x00 64) Hok Hlen (repeat_length _ _)) as (H & _).
      rewrite EK', Ev in H. cbn [bind rmap] in H. now rewrite H.
    + intros msg. destruct (ada_transparent P x k msg (repeat x00 64) Hok Hlen (repeat_length _ _)) as (_ & H & _).
      rewrite EK', Ev in H. cbn [bind rmap] in H. now rewrite H.
    + intros msg sig Hsig. destruct (ada_transparent P x k msg sig Hok Hlen Hsig) as (_ & _ & H).
      rewrite EK', Ev in H. cbn [bind rmap] in H. now rewrite H.
Qed.

Lemma offers_builtin ns n : offers ns n <-> In n ns /\ exists f, builtin_factory P n f.
Proof.
  unfold offers, builtin_factory. split; intros [H1 H2]; (split; [exact H1|]).
  - destruct H2 as [<-|[<-|[<-|[]]]]; eexists; [right; right|right; left|left]; split; reflexivity.
  - destruct H2 as (f & [[-> _]|[[-> _]|[-> _]]]); cbn; auto.
Qed.

Lemma eth_loads x y : xprv_wf x -> derives P x [2 ^ 31 + 44; 2 ^ 31 + 60] y ->
  key_from_data (eth_factory P) (xprv_layout P x) = Ok (eth_key P y).
Proof.
  intros Hwf Hy.
  assert (xprv_from_data P (xprv_layout P x) = Ok x) as Ex by (now apply (from_data_exact P HP)).
  assert (Forall is_u32 [2 ^ 31 + 44; 2 ^ 31 + 60]) as Hu by (repeat (constructor; [vm_compute; discriminate|]); constructor).
  apply (derive_along_defined P HP _ _ _ Hu) in Hy.
  rewrite derive_along_cons in Hy.
  cbn [eth_factory key_from_data]. unfold eth_from_data. rewrite Ex. cbn [bind].
  change BIP44_PURPOSE with (2 ^ 31 + 44). change ETH_COIN_TYPE with (2 ^ 31 + 60).
  destruct (derive P x (2 ^ 31 + 44)) as [z| | |]; try discriminate. cbn [bind] in *.
  rewrite derive_along_cons in Hy.
  destruct (derive P z (2 ^ 31 + 60)) as [z'| | |]; try discriminate. cbn [bind] in *.
  change (derive_along P z' []) with (@Ok secp_error _ z') in Hy. now injection Hy as ->.
Qed.

Lemma btc_loads x : xprv_wf x -> key_from_data (btc_factory P) (xprv_layout P x) = Ok (btc_key P x).
Proof.
  intros Hwf. assert (xprv_from_data P (xprv_layout P x) = Ok x) as Ex by (now apply (from_data_exact P HP)).
  cbn [btc_factory key_from_data]. unfold btc_from_data. now rewrite Ex.
Qed.

(** The general statement: any wallet whose keys come from [s]. *)
Theorem interop_effects s ns a pw w l pw' w' data :
  List.length s = 64%nat -> has_secret s w -> from_secret s w -> wallet_ok w' ->
  (forall n, offers ns n -> get n (w_keys w) <> None) ->
  a = (pw, w) -> effects P a l (pw', w') -> Forall (builtin_op P) l ->
  stored P pw' w' data -> interoperable P C s ns data pw'.
Proof.
  intros Hl Hsec Hfs Hw Hns -> He Hb Hst ns' o m Em Ho.
  assert (from_secret s w') as Hfs' by now apply (from_secret_effects s _ _ _ He).
  apply effects_secret in He as (_ & _ & _ & Hkeep). cbn [snd] in Hkeep.
  pose proof (builtin_manager_ok P ns' m Em) as Hm.
  destruct (opening_stored P HP C o m data pw' w' Ho Hm Hw Hst) as [Hop _].
  assert (forall n f, get n (m_factories m) = Some f -> builtin_factory P n f) as Hbf.
  { intros n f Hf. now apply (builtin_get P ns' m n f Em) in Hf as [_ Hf]. }
  split.
  - intros kc E. apply Hop in E. split; [now apply (standard_from_keys s m w')|].
    destruct E as [_ E]. unfold has_network. split.
    + intros n Hn Hn'. specialize (E n). apply Hns in Hn. destruct (get n (w_keys w)) as [d|] eqn:Ed; [|contradiction].
      apply Hkeep in Ed. rewrite Ed in E. apply offers_builtin in Hn' as [Hin (f & Hf)].
      assert (get n (m_factories m) = Some f) as Ef by (now apply (builtin_get P ns' m n f Em)).
      rewrite Ef in E. destruct E as (K & _ & ->). reflexivity.
    + intros n Hn. specialize (E n). destruct (get n kc) as [K|]; [|discriminate].
      destruct (get n (w_keys w')); [|discriminate]. destruct (get n (m_factories m)) as [f|] eqn:Ef; [|discriminate].
      apply (builtin_get P ns' m n f Em) in Ef as [Hin Hf]. apply offers_builtin. eauto.
  - intros Heth. assert (exists kc, opens_to m w' kc) as [kc Hkc]; [|exists kc; now apply Hop].
    apply opens_exist; [exact Hm|exact Hw|]. intros n f d Hd Hf.
    destruct (Hfs' n d Hd) as (f' & Hf' & Ed). pose proof (proj1 (builtin_get P ns' m n f Em) Hf) as [Hin Hf2].
    assert (f' = f) as -> by (apply builtin_spec in Hf', Hf2; congruence).
    destruct Hf2 as [[-> ->]|[[-> ->]|[-> ->]]].
    + destruct (ada_seed_data P HP s Hl) as (h & _ & Hx & _ & HK). assert (d = h ++ skipn 32 s) as -> by congruence. exact HK.
    + destruct (bip32_key_data s _ (2 ^ 31 + 60) Hl (or_intror (conj eq_refl eq_refl)) d Ed) as [-> Hwf].
      destruct (Heth Hin) as (y & Hy). exists (eth_key P y). now apply eth_loads.
    + destruct (bip32_key_data s _ (2 ^ 31) Hl (or_introl (conj eq_refl eq_refl)) d Ed) as [-> Hwf].
      exists (btc_key P (bip32_master P s)). now apply btc_loads.
Qed.

Lemma keys_from_builtin ns m s keys seed mn lang : with_networks P ns = Ok m -> keys_from m s keys ->
  from_secret s {| w_seed := seed; w_mnemonic := mn; w_dictionary := lang; w_keys := keys |} /\
  forall n, offers ns n -> get n keys <> None.
Proof.
  intros E [_ Hk]. split.
  - intros n d Hd. cbn [w_keys] in Hd. specialize (Hk n). destruct (get n (m_factories m)) as [f|] eqn:Ef; [|congruence].
    destruct Hk as (d' & Hd' & Eg). apply (builtin_get P ns m n f E) in Ef as [_ Ef]. exists f. split; [exact Ef|congruence].
  - intros n Hn. apply offers_builtin in Hn as [Hin (f & Hf)]. specialize (Hk n).
    assert (get n (m_factories m) = Some f) as Ef by (now apply (builtin_get P ns m n f E)).
    rewrite Ef in Hk. destruct Hk as (d & _ & ->). discriminate.
Qed.

Lemma final_effects a l b : effects P a l b -> follows (fst a) l -> fst b = final_password (fst a) l.
Proof.
  induction 1 as [a|a p b l c He _ IH]; intros Hf; [reflexivity|].
  destruct He; cbn [fst follows] in *; unfold final_password in *; cbn [fold_left]; try (now apply IH);
    destruct Hf as [? Hf]; subst; try contradiction; now apply IH.
Qed.

Lemma phrase_has_secret t l keys : has_secret (bip39_seed P t) (phrase_wallet t l keys).
Proof.
  intros m s' (t' & l' & Et & _ & ws & _ & _ & _ & _ & ->). injection Et as <-. reflexivity.
Qed.
Lemma seed_has_secret s keys : has_secret s (seed_wallet s keys).
Proof. intros m s' [-> _]. reflexivity. Qed.

Theorem interop_phrase ns o1 o2 m t lang pw r x l : with_networks P ns = Ok m ->
  order_ok o1 -> order_ok o2 ->
  keychain_data_from_mnemonic P o1 o2 m t pw lang r = Ok x ->
  Forall (fun x : order * op => order_ok (fst x) /\ op_ok (snd x) /\ builtin_op P (snd x)) l ->
  follows pw (List.map snd l) ->
  interoperable P C (bip39_seed P t) ns (fst (perform_all P C l x)) (final_password pw (List.map snd l)).
Proof.
  intros Em Ho1 Ho2 Ex Hl Hf. pose proof (builtin_manager_ok P ns m Em) as Hm.
  destruct (phrase_created_inv P HP o1 o2 m t lang pw r x Ho1 Ho2 Hm Ex) as (s & keys & Hp & Hk & Hw & Hs).
  assert (s = bip39_seed P t) as -> by (destruct Hp as (ws & _ & _ & _ & _ & ->); reflexivity).
  destruct (keys_from_builtin ns m _ keys None (Some t) (Some (or_english lang)) Em Hk) as [Hfs Hns].
  destruct (history_right P HP C l x pw _ (Forall_impl _ (fun x H => conj (proj1 H) (proj1 (proj2 H))) Hl) Hw Hs Hf)
    as (pw' & w' & He & Hw' & Hs' & _).
  pose proof (final_effects _ _ _ He Hf) as Hpw. cbn [fst] in Hpw. rewrite <- Hpw. eapply (interop_effects _ ns (pw, phrase_wallet t (or_english lang) keys) pw); try eassumption.
  - apply (pbkdf2_len P HP).
  - apply phrase_has_secret.
  - reflexivity.
  - apply Forall_map. eapply Forall_impl; [|exact Hl]. cbv beta. tauto.
Qed.

Theorem interop_seed ns o1 o2 m s pw r x l : with_networks P ns = Ok m ->
  order_ok o1 -> order_ok o2 ->
  keychain_data_from_seed P o1 o2 m s pw r = Ok x ->
  Forall (fun x : order * op => order_ok (fst x) /\ op_ok (snd x) /\ builtin_op P (snd x)) l ->
  follows pw (List.map snd l) ->
  interoperable P C s ns (fst (perform_all P C l x)) (final_password pw (List.map snd l)).
Proof.
  intros Em Ho1 Ho2 Ex Hl Hf. pose proof (builtin_manager_ok P ns m Em) as Hm.
  destruct (seed_created_inv P HP o1 o2 m s pw r x Ho1 Ho2 Hm Ex) as (keys & Hlen & Hk & Hw & Hs).
  destruct (keys_from_builtin ns m _ keys (Some s) None None Em Hk) as [Hfs Hns].
  destruct (history_right P HP C l x pw _ (Forall_impl _ (fun x H => conj (proj1 H) (proj1 (proj2 H))) Hl) Hw Hs Hf)
    as (pw' & w' & He & Hw' & Hs' & _).
  pose proof (final_effects _ _ _ He Hf) as Hpw. cbn [fst] in Hpw. rewrite <- Hpw. eapply (interop_effects _ ns (pw, seed_wallet s keys) pw); try eassumption.
  - apply seed_has_secret.
  - reflexivity.
  - apply Forall_map. eapply Forall_impl; [|exact Hl]. cbv beta. tauto.
Qed.

(** Wrong passwords in the history, told apart by the authentication. *)
Theorem interop_wrong ns o1 o2 m t lang pw r x l pws : with_networks P ns = Ok m ->
  order_ok o1 -> order_ok o2 ->
  keychain_data_from_mnemonic P o1 o2 m t pw lang r = Ok x ->
  Forall (fun x : order * op => order_ok (fst x) /\ op_ok (snd x) /\ builtin_op P (snd x) /\
            incl (op_passwords (snd x)) pws) l ->
  In pw pws -> told_apart P C pws l x ->
  exists pw', In pw' pws /\
    (forall x', In x' pws -> x' <> pw' ->
       keychain_data_from_bytes P C (fst (perform_all P C l x)) x' = Err WrongPassword) /\
    interoperable P C (bip39_seed P t) ns (fst (perform_all P C l x)) pw'.
Proof.
  intros Em Ho1 Ho2 Ex Hl Hi Ht. pose proof (builtin_manager_ok P ns m Em) as Hm.
  destruct (phrase_created_inv P HP o1 o2 m t lang pw r x Ho1 Ho2 Hm Ex) as (s & keys & Hp & Hk & Hw & Hs).
  assert (s = bip39_seed P t) as -> by (destruct Hp as (ws & _ & _ & _ & _ & ->); reflexivity).
  destruct (keys_from_builtin ns m _ keys None (Some t) (Some (or_english lang)) Em Hk) as [Hfs Hns].
  assert (Forall (fun x : order * op => order_ok (fst x) /\ op_ok (snd x) /\ incl (op_passwords (snd x)) pws) l) as Hl1.
  { eapply Forall_impl; [|exact Hl]. cbv beta. tauto. }
  destruct (history P HP C l x pw _ pws Hl1 Hw Hs Hi Ht) as (pw' & w' & He & Hw' & Hi' & Hs' & _ & Hwr).
  exists pw'. split; [exact Hi'|]. split; [exact Hwr|].
  eapply (interop_effects _ ns (pw, phrase_wallet t (or_english lang) keys) pw); try eassumption.
  - apply (pbkdf2_len P HP).
  - apply phrase_has_secret.
  - reflexivity.
  - apply Forall_map. eapply Forall_impl; [|exact Hl]. cbv beta. tauto.
Qed.
End S.
