From Coq Require Import Strings.String.
From Verif Require Import Base BaseFacts Str StrFacts Prims Bip39 Bip39Spec Dict
  KeyPath Errors FMap FMapFacts Crypt CryptSpec CryptFacts Data DataSpec DataFacts XPrv XPrvSpec XPrvFacts Keys
  KeysSpec KeysFacts Mnemonic MnemonicFacts Keychain Manager ManagerSpec ManagerFacts WalletFacts HistorySpec
  HistoryFacts LifeFacts.
Open Scope list_scope.
Local Strategy 1000 [XPrv.derive XPrv.derive_loop XPrv.derive_step XPrv.xprv_from_data].

Section S.
Variable P : prims.
Hypothesis HP : prims_ok P.
Variable C : data_config.

(** ** C39 *)
Lemma holds_iff m w s kc : keys_from m s (w_keys w) ->
  (opens_to m w kc <-> holds_keys_of m s kc).
Proof.
  intros Hk. assert (w = new_wallet (w_seed w) (w_mnemonic w) (w_dictionary w) (w_keys w)) as Ew by now destruct w.
  rewrite Ew. rewrite (opens_new m _ _ _ s _ kc Hk). unfold holds_keys_of, get_key_factory.
  split; (intros [Hwf H]; split; [exact Hwf|]; intros n; specialize (H n); destruct (get n (m_factories m)) as [f|]).
  - destruct H as (d & K & H1 & H2 & H3). exists d, K. repeat (split; [assumption|]). now apply get_answers.
  - now apply get_lacks.
  - destruct H as (d & K & H1 & H2 & H3 & _). exists d, K. auto.
  - destruct H as [H _]. unfold has_network in H. destruct (get n kc); [discriminate|reflexivity].
Qed.

Theorem created_opens o1 o2 m s pw r : order_ok o1 -> order_ok o2 -> manager_ok m ->
  List.length s = 64%nat ->
  (forall keys, keys_from m s keys -> exists data r',
     keychain_data_from_seed P o1 o2 m s pw r = Ok (data, r') /\
     (forall i, r' i = r (44 + i)%nat) /\ stored P pw (seed_wallet s keys) data /\
     forall o kc, order_ok o ->
       (keychain_from_data P C o m data pw = Ok kc <-> holds_keys_of m s kc)) /\
  ((forall keys, ~ keys_from m s keys) -> exists n f, get_key_factory m n = Some f /\
     fails_as n (key_data_from_seed f s) (keychain_data_from_seed P o1 o2 m s pw r)).
Proof.
  intros Ho1 Ho2 Hm Hl. split.
  - intros keys Hk. destruct (seed_created P HP o1 o2 m s pw r keys Ho1 Ho2 Hm Hl Hk) as (data & r' & E & Hs & Hw & Hr).
    exists data, r'. split; [exact E|]. split; [exact Hr|]. split; [exact Hs|]. intros o kc Ho.
    destruct (opening_stored P HP C o m data pw _ Ho Hm Hw Hs) as [H _]. rewrite H.
    apply holds_iff. exact Hk.
  - intros Hno. now apply seed_create_fails.
Qed.

Theorem builtin_created ns o1 o2 o m s pw r : order_ok o1 -> order_ok o2 -> order_ok o ->
  with_networks P ns = Ok m -> List.length s = 64%nat -> usable_for P ns s ->
  (In (2 ^ 31 + 60) ns -> forall x, xprv_from_seed P s = Ok x ->
     exists y, derive_along P x [2 ^ 31 + 44; 2 ^ 31 + 60] = Ok y) ->
  exists data r' kc, keychain_data_from_seed P o1 o2 m s pw r = Ok (data, r') /\
    keychain_from_data P C o m data pw = Ok kc /\ holds_keys_of m s kc /\
    forall n, has_network kc n = true <-> In n ns /\ exists f, builtin_factory P n f.
Proof.
  intros Ho1 Ho2 Ho E Hl Hu He. pose proof (builtin_manager_ok P ns m E) as Hm.
  apply (builtin_keys P HP ns m s E Hl) in Hu as Hk. destruct Hk as [keys Hk].
  destruct (seed_created P HP o1 o2 m s pw r keys Ho1 Ho2 Hm Hl Hk) as (data & r' & Ec & Hs & Hw & _).
  destruct (opens_exist m (seed_wallet s keys) Hm Hw) as [kc Hkc].
  { intros n f d Hd Hf. destruct Hk as [_ Hk]. specialize (Hk n). rewrite Hf in Hk. destruct Hk as (d' & Hd' & Eg).
    cbn [seed_wallet w_keys] in Hd. assert (d' = d) as -> by congruence.
    apply (builtin_get P ns m n f E) in Hf as [Hin [[-> ->]|[[-> ->]|[-> ->]]]].
    - destruct (ada_seed_data P HP s Hl) as (h & _ & Hx & _ & HK). assert (d = h ++ skipn 32 s) as -> by congruence. exact HK.
    - destruct (secp_seed P HP s Hl) as [(_ & x & Ex & Hwf & _ & Hx)|(_ & _ & Hx)]; [|congruence].
      assert (d = xprv_layout P x) as -> by congruence.
      assert (xprv_from_data P (xprv_layout P x) = Ok x) as Ed by (now apply (from_data_exact P HP)).
      destruct (He Hin x Ex) as (y & Hy). exists (eth_key P y).
      cbn [eth_factory key_from_data]. unfold eth_from_data. rewrite Ed. cbn [bind].
      cbn [derive_along] in Hy. change BIP44_PURPOSE with (2 ^ 31 + 44). change ETH_COIN_TYPE with (2 ^ 31 + 60).
      destruct (derive P x (2 ^ 31 + 44)) as [z| | |]; try discriminate. cbn [bind] in *.
      destruct (derive P z (2 ^ 31 + 60)) as [z'| | |]; try discriminate. cbn [bind] in *.
      now injection Hy as ->.
    - destruct (secp_seed P HP s Hl) as [(_ & x & Ex & Hwf & Hx & _)|(_ & Hx & _)]; [|congruence].
      assert (d = xprv_layout P x) as -> by congruence.
      assert (xprv_from_data P (xprv_layout P x) = Ok x) as Ed by (now apply (from_data_exact P HP)).
      exists (btc_key P x). cbn [btc_factory key_from_data]. unfold btc_from_data. now rewrite Ed. }
  exists data, r', kc. split; [exact Ec|].
  destruct (opening_stored P HP C o m data pw _ Ho Hm Hw Hs) as [H _].
  split; [now apply H|]. assert (holds_keys_of m s kc) as Hh by (apply (holds_iff m (seed_wallet s keys)); assumption).
  split; [exact Hh|]. intros n. destruct Hh as [_ Hh]. specialize (Hh n). unfold get_key_factory in Hh.
  destruct (get n (m_factories m)) as [f|] eqn:Ef.
  - destruct Hh as (d & K & _ & _ & _ & Ha & _). split; [|intros _; exact Ha]. intros _.
    apply (builtin_get P ns m n f E) in Ef as [Hin Hb]. eauto.
  - destruct Hh as [Ha _]. split; [congruence|]. intros (Hin & f & Hb).
    assert (get n (m_factories m) = Some f) by (now apply (builtin_get P ns m n f E)). congruence.
Qed.

(** ** C40 *)
Lemma open_same_keys o m data data' pw pw' w w' : keychain_data_from_bytes P C data pw = Ok w ->
  keychain_data_from_bytes P C data' pw' = Ok w' -> w_keys w = w_keys w' ->
  keychain_from_data P C o m data pw = keychain_from_data P C o m data' pw'.
Proof. intros E E' Hk. unfold keychain_from_data. rewrite E, E'. cbn [bind]. now rewrite Hk. Qed.

Theorem phrase_and_seed o1 o2 o1' o2' m t lang s pw pw' r r' :
  order_ok o1 -> order_ok o2 -> order_ok o1' -> order_ok o2' -> manager_ok m ->
  phrase_seed P (or_english lang) (m_seed_size m) t s ->
  (forall keys, keys_from m s keys -> exists data r1 data' r1',
     keychain_data_from_mnemonic P o1 o2 m t pw lang r = Ok (data, r1) /\
     stored P pw (phrase_wallet t (or_english lang) keys) data /\
     keychain_data_from_seed P o1' o2' m s pw' r' = Ok (data', r1') /\
     stored P pw' (seed_wallet s keys) data' /\
     forall o m', keychain_from_data P C o m' data pw = keychain_from_data P C o m' data' pw') /\
  ((forall keys, ~ keys_from m s keys) ->
     (exists n f, get_key_factory m n = Some f /\
       fails_as n (key_data_from_seed f s) (keychain_data_from_mnemonic P o1 o2 m t pw lang r)) /\
     (exists n f, get_key_factory m n = Some f /\
       fails_as n (key_data_from_seed f s) (keychain_data_from_seed P o1' o2' m s pw' r'))).
Proof.
  intros Ho1 Ho2 Ho1' Ho2' Hm Hp. assert (List.length s = 64%nat) as Hl.
  { destruct Hp as (ws & _ & _ & _ & _ & ->). apply (pbkdf2_len P HP). }
  split.
  - intros keys Hk. destruct (phrase_created P HP o1 o2 m t lang pw r s keys Ho1 Ho2 Hm Hp Hk) as (data & r1 & E & Hs & Hw & _).
    destruct (seed_created P HP o1' o2' m s pw' r' keys Ho1' Ho2' Hm Hl Hk) as (data' & r1' & E' & Hs' & Hw' & _).
    exists data, r1, data', r1'. repeat (split; [assumption|]). intros o m'.
    eapply open_same_keys; [apply (stored_read P HP C); [exact Hw|exact Hs]|apply (stored_read P HP C); [exact Hw'|exact Hs']|reflexivity].
  - intros Hno. split; [now apply phrase_create_fails|now apply seed_create_fails].
Qed.

(** ** C43 *)
Lemma add_all_ok m pw sd : manager_ok m -> forall l s w,
  Forall (fun x : order * N => order_ok (fst x)) l -> NoDup (List.map snd l) ->
  wallet_ok w -> stored P pw w (fst s) -> wallet_secret P m w sd ->
  (forall n, In n (List.map snd l) -> get n (w_keys w) = None /\
     exists f d, get n (m_factories m) = Some f /\ key_data_from_seed f sd = Ok d) ->
  exists s' w', add_all P C m l pw s = Ok s' /\ stored P pw w' (fst s') /\ wallet_ok w' /\
    w_seed w' = w_seed w /\ w_mnemonic w' = w_mnemonic w /\ w_dictionary w' = w_dictionary w /\
    (forall n, In n (List.map snd l) -> exists f d, get n (m_factories m) = Some f /\
       key_data_from_seed f sd = Ok d /\ get n (w_keys w') = Some d) /\
    (forall n, ~ In n (List.map snd l) -> get n (w_keys w') = get n (w_keys w)).
Proof.
  intros Hm. induction l as [|[o n] l IH]; intros s w Ho Hnd Hw Hs Hsec Hl; cbn [List.map snd add_all] in *.
  - exists s, w. repeat (split; [first [assumption|reflexivity]|]). split; [intros n []|reflexivity].
  - apply Forall_cons_iff in Ho as [Ho Hos]. cbn [fst] in Ho. apply NoDup_cons_iff in Hnd as [Hn Hnd].
    destruct (Hl n (or_introl eq_refl)) as (Hnone & f & d & Hf & Hd).
    pose proof (stored_read P HP C pw w (fst s) Hw Hs) as E.
    destruct (add_decoded P HP C o Ho m Hm (fst s) pw n (snd s) f w Hf E) as [_ Hadd].
    destruct (Hadd Hnone) as [_ Hadd']. destruct (Hadd' sd Hsec) as [Hok _].
    destruct (Hok d Hd) as (data' & r' & w1 & Ea & Hx & Hw1 & Hs1 & _). rewrite Ea. cbn [bind].
    destruct Hx as (X1 & X2 & X3 & X4 & X5).
    destruct (IH (data', r') w1) as (s' & w' & E' & Hs' & Hw' & Y1 & Y2 & Y3 & Y4 & Y5); auto.
    { unfold wallet_secret in *. now rewrite X1, X2, X3. }
    { intros k Hk. destruct (Hl k (or_intror Hk)) as (Hk1 & Hk2). split; [|exact Hk2].
      rewrite X5. destruct (N.eqb_spec k n) as [->|]; [contradiction|exact Hk1]. }
    exists s', w'. split; [exact E'|]. split; [exact Hs'|]. split; [exact Hw'|].
    rewrite Y1, Y2, Y3. repeat (split; [assumption|]). split.
    + intros k [<-|Hk]; [|now apply Y4]. exists f, d. rewrite (Y5 n Hn), X5, N.eqb_refl. auto.
    + intros k Hk. rewrite Y5 by (intros H; apply Hk; now right). rewrite X5.
      destruct (N.eqb_spec k n) as [->|]; [destruct Hk; now left|reflexivity].
Qed.

Lemma add_all_inv m pw sd : manager_ok m -> forall l s w s',
  Forall (fun x : order * N => order_ok (fst x)) l ->
  wallet_ok w -> stored P pw w (fst s) -> wallet_secret P m w sd ->
  add_all P C m l pw s = Ok s' ->
  NoDup (List.map snd l) /\
  forall n, In n (List.map snd l) -> get n (w_keys w) = None /\
     exists f d, get n (m_factories m) = Some f /\ key_data_from_seed f sd = Ok d.
Proof.
  intros Hm. induction l as [|[o n] l IH]; intros s w s' Ho Hw Hs Hsec H; cbn [List.map snd add_all] in *.
  - split; [constructor|]. intros n [].
  - apply Forall_cons_iff in Ho as [Ho Hos]. cbn [fst] in Ho.
    destruct (add_network P C o m (fst s) pw n (snd s)) as [s1| | |] eqn:Ea; try discriminate. cbn [bind] in H.
    destruct (get n (m_factories m)) as [f|] eqn:Hf; [|rewrite (add_unsupported P C o m _ pw n _ Hf) in Ea; discriminate].
    pose proof (stored_read P HP C pw w (fst s) Hw Hs) as E.
    destruct (add_decoded P HP C o Ho m Hm (fst s) pw n (snd s) f w Hf E) as [Hpres Hadd].
    destruct (get n (w_keys w)) as [v|] eqn:Hnone; [rewrite Hpres in Ea by discriminate; discriminate|].
    destruct (Hadd eq_refl) as [_ Hadd']. destruct (Hadd' sd Hsec) as [Hok Hfail].
    destruct (key_data_from_seed f sd) as [d| | |] eqn:Hd.
    2-4: specialize (Hfail ltac:(discriminate)); cbn [fails_as] in Hfail; congruence.
    destruct (Hok d eq_refl) as (data' & r' & w1 & Ea' & Hx & Hw1 & Hs1 & _).
    assert (s1 = (data', r')) as -> by congruence. destruct Hx as (X1 & X2 & X3 & X4 & X5).
    destruct (IH (data', r') w1 s') as [Hnd Hin]; auto.
    { unfold wallet_secret in *. now rewrite X1, X2, X3. }
    split.
    + constructor; [|exact Hnd]. intros Hk. apply Hin in Hk as [Hk _]. rewrite X5, N.eqb_refl in Hk. discriminate.
    + intros k [<-|Hk]; [eauto|]. destruct (Hin k Hk) as [Hk1 Hk2]. split; [|exact Hk2].
      rewrite X5 in Hk1. destruct (k =? n); [discriminate|exact Hk1].
Qed.

(** The wallet a manager creates from its stored secret. *)
Lemma later_equals_start ma mb mall (o1 o2 : order) l seed mn lang sd pw r :
  manager_ok ma -> manager_ok mb -> manager_ok mall -> order_ok o1 -> order_ok o2 ->
  Forall (fun x : order * N => order_ok (fst x)) l -> NoDup (List.map snd l) ->
  (forall n, get_key_factory mall n = match get_key_factory ma n with
                                      | Some f => Some f
                                      | None => get_key_factory mb n
                                      end) ->
  (forall n, In n (List.map snd l) <-> get_key_factory ma n = None /\ get_key_factory mb n <> None) ->
  (seed <> None -> mn = None) ->
  secret P ma seed mn lang sd -> secret P mb seed mn lang sd ->
  (forall keys, keys_from mall sd keys -> exists s1 s2,
     new_keychain_data P o1 o2 ma seed pw mn lang r = Ok s1 /\
     add_all P C mb l pw s1 = Ok s2 /\
     stored P pw (new_wallet seed mn lang keys) (fst s2)) /\
  (forall s1 s2, new_keychain_data P o1 o2 ma seed pw mn lang r = Ok s1 ->
     add_all P C mb l pw s1 = Ok s2 -> exists keys, keys_from mall sd keys).
Proof.
  intros Hma Hmb Hmall Ho1 Ho2 Hos Hnd Hall Hl Hmn Hsa Hsb. unfold get_key_factory in *. split.
  - intros keys Hk.
    destruct (keys_exist ma sd Hma) as [ka Hka].
    { intros n f Hf. destruct Hk as [_ Hk]. specialize (Hk n). rewrite Hall, Hf in Hk. destruct Hk as (d & Hd & _). eauto. }
    pose proof (create_ok P o1 o2 Ho1 ma Hma seed mn lang sd ka pw r Hsa Hka) as E1.
    set (w := new_wallet seed mn lang ka) in *.
    assert (wallet_ok w) as Hw by (apply (new_wallet_ok P ma Hma seed mn lang sd ka); assumption).
    destruct (add_all_ok mb pw sd Hmb l (seal P o2 w pw r) w Hos Hnd Hw (seal_stored P HP o2 w pw r Ho2) Hsb)
      as (s2 & w2 & E2 & Hs2 & Hw2 & Y1 & Y2 & Y3 & Y4 & Y5).
    { intros n Hn. apply Hl in Hn as [Hna Hnb]. destruct Hka as [_ Hka]. pose proof (Hka n) as Hka'.
      rewrite Hna in Hka'. split; [exact Hka'|]. destruct Hk as [_ Hk]. specialize (Hk n). rewrite Hall, Hna in Hk.
      destruct (get n (m_factories mb)) as [f|]; [|congruence]. destruct Hk as (d & Hd & _). eauto. }
    eexists _, s2. split; [exact E1|]. split; [exact E2|].
    assert (w2 = new_wallet seed mn lang keys) as <-; [|exact Hs2].
    destruct w2 as [x1 x2 x3 k2]. cbn [w_seed w_mnemonic w_dictionary w_keys w new_wallet] in *. subst x1 x2 x3.
    unfold new_wallet. f_equal. destruct Hw2 as [Hwf2 _]. destruct Hk as [Hwf Hk].
    apply map_ext_get; [exact Hwf2|exact Hwf|]. intros n. specialize (Hk n). rewrite Hall in Hk.
    destruct (in_dec N.eq_dec n (List.map snd l)) as [Hin|Hin].
    + destruct (Y4 n Hin) as (f & d & Hf & Hd & Eg). cbn [w_keys] in Eg. rewrite Eg.
      apply Hl in Hin as [Hna _]. rewrite Hna, Hf in Hk. destruct Hk as (d' & Hd' & ->). congruence.
    + specialize (Y5 n Hin). cbn [w_keys] in Y5. rewrite Y5. destruct Hka as [_ Hka]. specialize (Hka n).
      destruct (get n (m_factories ma)) as [f|] eqn:Ea.
      * destruct Hka as (d & Hd & ->). destruct Hk as (d' & Hd' & ->). congruence.
      * destruct (get n (m_factories mb)) as [f|] eqn:Eb.
        -- exfalso. apply Hin, Hl. split; [exact Ea|congruence].
        -- congruence.
  - intros s1 s2 E1 E2. apply (create_inv P o1 o2 Ho1 ma Hma) in E1 as (sd' & ka & Hsd' & Hka & ->).
    assert (sd' = sd) as -> by (eapply secret_unique; eassumption).
    set (w := new_wallet seed mn lang ka) in *.
    assert (wallet_ok w) as Hw by (apply (new_wallet_ok P ma Hma seed mn lang sd ka); assumption).
    destruct (add_all_inv mb pw sd Hmb l (seal P o2 w pw r) w s2 Hos Hw (seal_stored P HP o2 w pw r Ho2) Hsb E2) as [_ Hin].
    apply keys_exist; [exact Hmall|]. intros n f Hf. rewrite Hall in Hf.
    destruct (get n (m_factories ma)) as [g|] eqn:Ea.
    + destruct Hka as [_ Hka]. specialize (Hka n). rewrite Ea in Hka. destruct Hka as (d & Hd & _).
      assert (g = f) as -> by congruence. eauto.
    + assert (In n (List.map snd l)) as Hnl by (apply Hl; split; [exact Ea|congruence]).
      apply Hin in Hnl as (_ & g & d & Hg & Hd). assert (g = f) as -> by congruence. eauto.
Qed.

(** ** C44: histories given the right passwords *)
Lemma follow_effect o p pw w s l : order_ok o -> op_ok p -> wallet_ok w ->
  stored P pw w (fst s) -> follows pw (p :: l) ->
  exists pw' w', effect P (pw, w) p (pw', w') /\ wallet_ok w' /\
    stored P pw' w' (fst (perform P C o p s)) /\ follows pw' l.
Proof.
  intros Ho Hp Hw Hs Hf.
  destruct p as [old new|m pwa n|m pwa]; cbn [follows] in Hf.
  - destruct Hf as [-> Hf]. exists new, w. split; [constructor|]. split; [exact Hw|]. split; [|exact Hf].
    destruct (change_stored P HP (fst s) pw new w (snd s) Hs) as (data' & r' & E & Hs').
    cbn [perform]. rewrite E. exact Hs'.
  - destruct Hf as [-> Hf].
    destruct (perform_effect P HP C o (Add m pw n) s pw w [pw] Ho Hp Hw Hs) as (pw' & w' & He & Hw' & Hi & Hs').
    { now left. } { intros x Hx. exact Hx. }
    { intros a b d d' [<-|[]] [<-|[]] _ _. reflexivity. }
    destruct Hi as [<-|[]]. exists pw, w'. auto.
  - exists pw, w. split; [constructor|]. auto.
Qed.

Theorem history_right (l : list (order * op)) : forall s pw w,
  Forall (fun x : order * op => order_ok (fst x) /\ op_ok (snd x)) l ->
  wallet_ok w -> stored P pw w (fst s) -> follows pw (List.map snd l) ->
  exists pw' w', effects P (pw, w) (List.map snd l) (pw', w') /\ wallet_ok w' /\
    stored P pw' w' (fst (perform_all P C l s)) /\
    keychain_data_from_bytes P C (fst (perform_all P C l s)) pw' = Ok w'.
Proof.
  induction l as [|[o p] l IH]; intros s pw w Hl Hw Hs Hf.
  - exists pw, w. split; [constructor|]. split; [exact Hw|]. split; [exact Hs|]. now apply stored_read.
  - apply Forall_cons_iff in Hl as [(Ho & Hp) Hl]. cbn [fst snd List.map] in *.
    destruct (follow_effect o p pw w s _ Ho Hp Hw Hs Hf) as (pw1 & w1 & He & Hw1 & Hs1 & Hf1).
    destruct (IH _ pw1 w1 Hl Hw1 Hs1 Hf1) as (pw2 & w2 & He2 & H2).
    exists pw2, w2. split; [econstructor; eassumption|exact H2].
Qed.

(** ** C42 *)
Theorem add_cascade o m data pw n r : order_ok o -> manager_ok m ->
  (get_key_factory m n = None ->
     add_network P C o m data pw n r = Err (NetworkIsNotSupported n)) /\
  (forall f, get_key_factory m n = Some f ->
    (forall e, keychain_data_from_bytes P C data pw = Err e ->
       add_network P C o m data pw n r = Err e) /\
    (forall w, keychain_data_from_bytes P C data pw = Ok w ->
      (get n (w_keys w) <> None ->
         add_network P C o m data pw n r = Err (KeyAlreadyExist n)) /\
      (get n (w_keys w) = None ->
        (w_seed w = None -> w_mnemonic w = None \/ w_dictionary w = None ->
           add_network P C o m data pw n r = Err SeedIsNotSaved) /\
        (forall t l e, w_seed w = None -> w_mnemonic w = Some t -> w_dictionary w = Some l ->
           seed_from_mnemonic P t [] (m_seed_size m) l = Err e ->
           add_network P C o m data pw n r = Err (MnemonicError e)) /\
        (forall s, w_seed w = Some s -> List.length s <> 64%nat ->
           add_network P C o m data pw n r = Err (KInvalidSeedSize (N.of_nat (List.length s)))) /\
        (forall s, wallet_secret P m w s ->
          (forall d, key_data_from_seed f s = Ok d -> exists data' r' w',
             add_network P C o m data pw n r = Ok (data', r') /\
             extended w n d w' /\ wallet_ok w' /\ stored P pw w' data' /\
             (forall i, r' i = r (44 + i)%nat)) /\
          ((forall d, key_data_from_seed f s <> Ok d) ->
             fails_as n (key_data_from_seed f s) (add_network P C o m data pw n r)))))).
Proof.
  intros Ho Hm. unfold get_key_factory. split; [apply add_unsupported|]. intros f Hf. split.
  - intros e. now apply add_undecodable with (f := f).
  - intros w E. destruct (add_decoded P HP C o Ho m Hm data pw n r f w Hf E) as [H1 H2].
    split; [exact H1|]. intros Hn. destruct (H2 Hn) as [H3 H4]. split; [|split; [|split; [|exact H4]]].
    + intros Hs Hmn. apply H3. unfold seed_from_data. rewrite Hs.
      destruct (w_mnemonic w); [|reflexivity]. destruct (w_dictionary w); [|reflexivity].
      destruct Hmn; discriminate.
    + intros t l e Hs Hmn Hl He. apply H3. unfold seed_from_data. rewrite Hs, Hmn, Hl. cbn [ok_or bind]. now rewrite He.
    + intros s Hs Hl. apply H3. unfold seed_from_data. rewrite Hs. change SEED_SIZE with 64%nat.
      apply Nat.eqb_neq in Hl. now rewrite Hl.
Qed.

(** The cases of [add_cascade] are all there are. *)
Lemma secret_decided m w :
  (exists s, wallet_secret P m w s) \/
  (w_seed w = None /\ (w_mnemonic w = None \/ w_dictionary w = None)) \/
  (exists t l e, w_seed w = None /\ w_mnemonic w = Some t /\ w_dictionary w = Some l /\
     seed_from_mnemonic P t [] (m_seed_size m) l = Err e) \/
  (exists s, w_seed w = Some s /\ List.length s <> 64%nat).
Proof.
  unfold wallet_secret, secret. destruct (w_seed w) as [s|].
  - destruct (Nat.eq_dec (List.length s) 64) as [Hl|Hl].
    + left. exists s. auto.
    + right. right. right. exists s. auto.
  - destruct (w_mnemonic w) as [t|]; [|right; left; auto].
    destruct (w_dictionary w) as [l|]; [|right; left; auto].
    destruct (seed_from_mnemonic P t [] (m_seed_size m) l) as [s|e| |] eqn:E.
    + left. exists s, t, l. repeat (split; [reflexivity|]). now apply seed_phrase_iff.
    + right. right. left. exists t, l, e. auto.
    + pose proof (seed_from_phrase_total P l (m_seed_size m) t) as H. rewrite E in H. contradiction.
    + pose proof (seed_from_phrase_total P l (m_seed_size m) t) as H. rewrite E in H. contradiction.
Qed.

Lemma add_inv o m data pw n r x : order_ok o -> manager_ok m ->
  add_network P C o m data pw n r = Ok x ->
  exists f w s d w', get_key_factory m n = Some f /\ keychain_data_from_bytes P C data pw = Ok w /\
    get n (w_keys w) = None /\ wallet_secret P m w s /\ key_data_from_seed f s = Ok d /\
    extended w n d w' /\ wallet_ok w' /\ stored P pw w' (fst x) /\ (forall i, snd x i = r (44 + i)%nat).
Proof.
  intros Ho Hm E. destruct (add_cascade o m data pw n r Ho Hm) as [H1 H2].
  destruct (get_key_factory m n) as [f|]; [|rewrite H1 in E by reflexivity; discriminate].
  destruct (H2 f eq_refl) as [H3 H4].
  destruct (decode_cases P HP C data pw) as [(w & Ew & _)|[(_ & Ew)|[(_ & _ & Ew)|(d & s & k & e & _ & _ & _ & Ew)]]].
  2-4: rewrite (H3 _ Ew) in E; discriminate.
  destruct (H4 w Ew) as [H5 H6].
  destruct (get n (w_keys w)) as [v|] eqn:En; [rewrite H5 in E by discriminate; discriminate|].
  destruct (H6 eq_refl) as (H7 & H8 & H9 & H10).
  destruct (secret_decided m w) as [[s Hs]|[(S1 & S2)|[(t & l & e & S1 & S2 & S3 & S4)|(s & S1 & S2)]]].
  - destruct (H10 s Hs) as [Hok Hfl]. destruct (key_data_from_seed f s) as [d| | |] eqn:Ed.
    2-4: specialize (Hfl ltac:(discriminate)); cbn [fails_as] in Hfl; congruence.
    destruct (Hok d eq_refl) as (data' & r' & w' & E' & Hx & Hw' & Hs' & Hr').
    assert (x = (data', r')) as -> by congruence. exists f, w, s, d, w'. auto 10.
  - rewrite (H7 S1 S2) in E. discriminate.
  - rewrite (H8 t l e S1 S2 S3 S4) in E. discriminate.
  - rewrite (H9 s S1 S2) in E. discriminate.
Qed.

(** ** C45 *)
Theorem hidden_keys o m data pw w : order_ok o -> manager_ok m ->
  keychain_data_from_bytes P C data pw = Ok w ->
  (forall kc, keychain_from_data P C o m data pw = Ok kc ->
     forall n, (get n (w_keys w) = None \/ get_key_factory m n = None -> lacks kc n) /\
       (forall d f, get n (w_keys w) = Some d -> get_key_factory m n = Some f ->
          exists K, key_from_data f d = Ok K /\ answers_as kc n K)) /\
  ((forall n d f, get n (w_keys w) = Some d -> get_key_factory m n = Some f ->
      exists K, key_from_data f d = Ok K) ->
   exists kc, keychain_from_data P C o m data pw = Ok kc) /\
  ((forall kc, keychain_from_data P C o m data pw <> Ok kc) -> exists n d f,
     get n (w_keys w) = Some d /\ get_key_factory m n = Some f /\
     fails_as n (key_from_data f d) (keychain_from_data P C o m data pw)).
Proof.
  intros Ho Hm E. pose proof (decode_ok P HP C data pw w E) as Hw.
  destruct (opening P C o m data pw w Ho Hm Hw E) as [H1 H2]. unfold get_key_factory. split; [|split].
  - intros kc Ek n. apply H1 in Ek as [_ Hk]. specialize (Hk n). split.
    + intros [Hn|Hn]; rewrite Hn in Hk; [now apply get_lacks|].
      destruct (get n (w_keys w)); now apply get_lacks.
    + intros d f Hd Hf. rewrite Hd, Hf in Hk. destruct Hk as (K & HK & Hg). exists K.
      split; [exact HK|now apply get_answers].
  - intros H. destruct (opens_exist m w Hm Hw) as [kc Hkc]; [intros; now apply (H n d f)|].
    exists kc. now apply H1.
  - intros H. destruct H2 as (n & f & d & Hd & Hf & Hfl); [|exists n, d, f; auto].
    intros kc Hkc. apply (H kc). now apply H1.
Qed.

(** ** C47 *)
Theorem backup o data pw w : order_ok o -> keychain_data_from_bytes P C data pw = Ok w ->
  (forall t l, w_mnemonic w = Some t -> w_dictionary w = Some l ->
     retrieve_mnemonic P C data pw = Ok (t, l)) /\
  (w_mnemonic w = None \/ w_dictionary w = None ->
     retrieve_mnemonic P C data pw = Err SeedIsNotSaved) /\
  exists entries, get_keys_data P C o data pw = Ok entries /\ Permutation entries (w_keys w).
Proof.
  intros Ho E. unfold retrieve_mnemonic, get_keys_data. rewrite E. cbn [bind rmap]. split; [|split].
  - intros t l -> ->. reflexivity.
  - destruct (w_mnemonic w); [|reflexivity]. destruct (w_dictionary w); [|reflexivity]. intros [|]; discriminate.
  - eexists. split; [reflexivity|apply Ho].
Qed.

Theorem backup_fails o data pw e : keychain_data_from_bytes P C data pw = Err e ->
  retrieve_mnemonic P C data pw = Err e /\ get_keys_data P C o data pw = Err e.
Proof. intros E. unfold retrieve_mnemonic, get_keys_data. rewrite E. split; reflexivity. Qed.

(** ** C48 *)
Lemma secret_words m w s t : wallet_secret P m w s -> w_seed w = None -> w_mnemonic w = Some t ->
  exists ws, phrase_of ws t /\ N.of_nat (List.length ws) = m_seed_size m / 32 * 3.
Proof.
  unfold wallet_secret, secret. intros H Hs Hm. rewrite Hs in H.
  destruct H as (t' & l & Ht & _ & ws & Hp & _ & _ & Hn & _). assert (t' = t) as -> by congruence. eauto.
Qed.

Lemma phrase_words ws ws' t : phrase_of ws t -> phrase_of ws' t -> ws = ws'.
Proof. intros H H'. apply phrase_split in H. apply phrase_split in H'. congruence. Qed.

Theorem short_phrase ns o m data pw n r w t l ws : order_ok o -> with_networks P ns = Ok m ->
  In n ns -> n = 2 ^ 31 \/ n = 2 ^ 31 + 60 ->
  keychain_data_from_bytes P C data pw = Ok w -> get n (w_keys w) = None ->
  w_seed w = None -> w_mnemonic w = Some t -> w_dictionary w = Some l ->
  phrase_of ws t -> List.length ws = 9%nat -> Forall (fun x => In x (to_dict l)) ws ->
  add_network P C o m data pw n r = Err (MnemonicError (MnemonicToShort 9 12)).
Proof.
  intros Ho E Hin Hn Ed Hg Hs Hmn Hl Hp H9 Hall. pose proof (builtin_manager_ok P ns m E) as Hm.
  assert (exists f, get_key_factory m n = Some f) as [f Hf].
  { unfold get_key_factory. destruct Hn as [->| ->]; eexists; apply (builtin_get P ns m _ _ E); (split; [exact Hin|]);
      unfold builtin_factory; [right; right|right; left]; split; reflexivity. }
  destruct (add_cascade o m data pw n r Ho Hm) as [_ H]. destruct (H f Hf) as [_ H1]. destruct (H1 w Ed) as [_ H2].
  destruct (H2 Hg) as (_ & H3 & _). apply (H3 t l _ Hs Hmn Hl).
  destruct (builtin_size P ns m E) as (ty & Hsz & _ & Hty).
  assert (ty = Type12Words) as -> by (apply Hty; destruct Hn as [->| ->]; auto). rewrite Hsz.
  destruct (seed_from_phrase P l (N.of_nat (to_key_size Type12Words)) t) as (ws' & Hp' & Hc).
  assert (ws' = ws) as -> by (eapply phrase_words; eassumption).
  cbv zeta in Hc. rewrite H9 in Hc.
  destruct Hc as [(pre & x & post & Ex & _ & Hx & _)|[_ [(Hw & _)|(_ & [(_ & Er)|[(Hlt & _)|(He & _)]])]]].
  - exfalso. subst ws. rewrite Forall_forall in Hall. apply Hx, Hall, in_or_app. right. now left.
  - exfalso. apply Hw. cbv. tauto.
  - exact Er.
  - vm_compute in Hlt. discriminate.
  - vm_compute in He. discriminate.
Qed.

Lemma short_effect a p b : effect P a p b -> builtin_op P p -> forall t ws,
  w_seed (snd a) = None -> w_mnemonic (snd a) = Some t -> phrase_of ws t -> List.length ws = 9%nat ->
  get (2 ^ 31) (w_keys (snd a)) = None -> get (2 ^ 31 + 60) (w_keys (snd a)) = None ->
  get (2 ^ 31) (w_keys (snd b)) = None /\ get (2 ^ 31 + 60) (w_keys (snd b)) = None.
Proof.
  intros H Hb t ws Hs Hmn Hp H9 Hg1 Hg2.
  destruct H as [| |pw m n f s d w w' Hf Hk Hsec Hd (S & M & D & W & G)| | | | | |]; cbn [snd] in *; auto.
  destruct Hb as [ns E].
  assert (n <> 2 ^ 31 /\ n <> 2 ^ 31 + 60) as [Hn1 Hn2].
  { destruct (secret_words m w s t Hsec Hs Hmn) as (ws' & Hp' & Hn).
    assert (ws' = ws) as -> by (eapply phrase_words; eassumption). rewrite H9 in Hn.
    destruct (builtin_size P ns m E) as (ty & Hsz & _ & Hty). apply (builtin_get P ns m n f E) in Hf as [Hin _].
    rewrite Hsz in Hn.
    split; intros ->; (assert (ty = Type12Words) as -> by (apply Hty; auto)); vm_compute in Hn; discriminate. }
  rewrite !G. destruct (N.eqb_spec (2 ^ 31) n) as [<-|_]; [contradiction|].
  destruct (N.eqb_spec (2 ^ 31 + 60) n) as [<-|_]; [contradiction|]. auto.
Qed.

Lemma short_effects a l b : effects P a l b -> Forall (builtin_op P) l -> forall t ws,
  w_seed (snd a) = None -> w_mnemonic (snd a) = Some t -> phrase_of ws t -> List.length ws = 9%nat ->
  get (2 ^ 31) (w_keys (snd a)) = None -> get (2 ^ 31 + 60) (w_keys (snd a)) = None ->
  get (2 ^ 31) (w_keys (snd b)) = None /\ get (2 ^ 31 + 60) (w_keys (snd b)) = None.
Proof.
  induction 1 as [a|a p b l c He _ IH]; intros Hl t ws Hs Hmn Hp H9 Hg1 Hg2; [auto|].
  apply Forall_cons_iff in Hl as [Hop Hl].
  pose proof (effect_secret P a p b He) as (E1 & E2 & _).
  destruct (short_effect a p b He Hop t ws Hs Hmn Hp H9 Hg1 Hg2) as [G1 G2].
  apply (IH Hl t ws); congruence.
Qed.

(** ** C56 *)
Theorem create_unordered o1 o2 o1' o2' m seed mn lang pw r :
  order_ok o1 -> order_ok o2 -> order_ok o1' -> order_ok o2' -> manager_ok m ->
  let a := new_keychain_data P o1 o2 m seed pw mn lang r in
  let b := new_keychain_data P o1' o2' m seed pw mn lang r in
  (exists w data data' r1 r2, a = Ok (data, r1) /\ b = Ok (data', r2) /\
     stored P pw w data /\ stored P pw w data' /\ forall i, r1 i = r2 i) \/
  (exists e, a = Err e /\ b = Err e) \/
  (exists s n f n' f', secret P m seed mn lang s /\
     get_key_factory m n = Some f /\ get_key_factory m n' = Some f' /\
     fails_as n (key_data_from_seed f s) a /\ fails_as n' (key_data_from_seed f' s) b).
Proof.
  intros Ho1 Ho2 Ho1' Ho2' Hm. cbv zeta.
  destruct (create_cases P o1 o2 Ho1 m Hm seed mn lang pw r) as [(s & keys & Hs & Hk & ->)|[(e & Hno & He & ->)|(s & n & f & Hs & Hf & Hno & Hfl)]].
  - left. rewrite (create_ok P o1' o2' Ho1' m Hm _ _ _ s keys pw r Hs Hk).
    set (w := new_wallet seed mn lang keys).
    exists w, (fst (seal P o2 w pw r)), (fst (seal P o2' w pw r)), (snd (seal P o2 w pw r)), (snd (seal P o2' w pw r)).
    rewrite <- !surjective_pairing. split; [reflexivity|]. split; [reflexivity|].
    split; [now apply seal_stored|]. split; [now apply seal_stored|]. intros i.
    now rewrite !(seal_rest P HP).
  - right. left. exists e. split; [reflexivity|]. unfold new_keychain_data. now rewrite He.
  - right. right.
    destruct (create_cases P o1' o2' Ho1' m Hm seed mn lang pw r) as [(s' & keys & Hs' & Hk & _)|[(e & Hn & _)|(s' & n' & f' & Hs' & Hf' & _ & Hfl')]].
    + assert (s' = s) as -> by (eapply secret_unique; eassumption). now apply Hno in Hk.
    + now apply Hn in Hs.
    + assert (s' = s) as -> by (eapply secret_unique; eassumption). exists s, n, f, n', f'. auto.
Qed.

Theorem open_unordered o o' m data pw : order_ok o -> order_ok o' -> manager_ok m ->
  let a := keychain_from_data P C o m data pw in
  let b := keychain_from_data P C o' m data pw in
  (exists kc, a = Ok kc /\ b = Ok kc) \/
  (exists e, a = Err e /\ b = Err e) \/
  (exists w n f d n' f' d', keychain_data_from_bytes P C data pw = Ok w /\
     get n (w_keys w) = Some d /\ get_key_factory m n = Some f /\
     get n' (w_keys w) = Some d' /\ get_key_factory m n' = Some f' /\
     fails_as n (key_from_data f d) a /\ fails_as n' (key_from_data f' d') b).
Proof.
  intros Ho Ho' Hm. cbv zeta.
  destruct (decode_cases P HP C data pw) as [(w & Ew & Hw)|[(_ & Ew)|[(_ & _ & Ew)|(d & s & k & e & _ & _ & _ & Ew)]]].
  2-4: right; left; eexists; split; apply opening_fails; exact Ew.
  destruct (opening P C o m data pw w Ho Hm Hw Ew) as [H1 H2].
  destruct (opening P C o' m data pw w Ho' Hm Hw Ew) as [H1' H2'].
  destruct (open_cases o Ho m Hm w (proj1 Hw)) as [(l & kc & _ & _ & Hkc)|(n & f & d & _ & _ & Hno & _)].
  - left. exists kc. split; [now apply H1|now apply H1'].
  - right. right. destruct (H2 Hno) as (n1 & f1 & d1 & A1 & A2 & A3).
    destruct (H2' Hno) as (n2 & f2 & d2 & B1 & B2 & B3). exists w, n1, f1, d1, n2, f2, d2. auto 10.
Qed.

Theorem add_unordered o o' m data pw n r : order_ok o -> order_ok o' -> manager_ok m ->
  let a := add_network P C o m data pw n r in
  let b := add_network P C o' m data pw n r in
  (exists w data1 data2 r1 r2, a = Ok (data1, r1) /\ b = Ok (data2, r2) /\
     stored P pw w data1 /\ stored P pw w data2 /\ forall i, r1 i = r2 i) \/
  ((forall x, a <> Ok x) /\ a = b).
Proof.
  intros Ho Ho' Hm. cbv zeta. destruct (add_network P C o m data pw n r) as [x| | |] eqn:E.
  - left. unfold add_network in *. destruct (get n (m_factories m)) as [f|]; [|discriminate]. cbn [ok_or bind] in *.
    destruct (keychain_data_from_bytes P C data pw) as [w| | |]; try discriminate. cbn [bind] in *.
    destruct (get n (w_keys w)); [discriminate|].
    destruct (seed_from_data P m (w_seed w) (w_mnemonic w) (w_dictionary w)) as [s| | |]; try discriminate. cbn [bind] in *.
    destruct (key_data_from_seed f s) as [d| | |]; try discriminate. cbn [map_err bind] in *.
    set (w' := {| w_seed := _; w_keys := _ |}) in *.
    exists w', (fst (seal P o w' pw r)), (fst (seal P o' w' pw r)), (snd (seal P o w' pw r)), (snd (seal P o' w' pw r)).
    rewrite <- !surjective_pairing. split; [now symmetry|]. split; [reflexivity|].
    split; [now apply seal_stored|]. split; [now apply seal_stored|]. intros i. now rewrite !(seal_rest P HP).
  - right. split; [discriminate|]. unfold add_network in *.
    destruct (get n (m_factories m)) as [f|]; [|exact (eq_sym E)]. cbn [ok_or bind] in *.
    destruct (keychain_data_from_bytes P C data pw) as [w| | |]; try (exact (eq_sym E)). cbn [bind] in *.
    destruct (get n (w_keys w)); [exact (eq_sym E)|].
    destruct (seed_from_data P m (w_seed w) (w_mnemonic w) (w_dictionary w)) as [s| | |]; try (exact (eq_sym E)). cbn [bind] in *.
    destruct (key_data_from_seed f s) as [d| | |]; try (exact (eq_sym E)). discriminate.
  - right. split; [discriminate|]. unfold add_network in *.
    destruct (get n (m_factories m)) as [f|]; [|exact (eq_sym E)]. cbn [ok_or bind] in *.
    destruct (keychain_data_from_bytes P C data pw) as [w| | |]; try (exact (eq_sym E)). cbn [bind] in *.
    destruct (get n (w_keys w)); [exact (eq_sym E)|].
    destruct (seed_from_data P m (w_seed w) (w_mnemonic w) (w_dictionary w)) as [s| | |]; try (exact (eq_sym E)). cbn [bind] in *.
    destruct (key_data_from_seed f s) as [d| | |]; try (exact (eq_sym E)). discriminate.
  - right. split; [discriminate|]. unfold add_network in *.
    destruct (get n (m_factories m)) as [f|]; [|exact (eq_sym E)]. cbn [ok_or bind] in *.
    destruct (keychain_data_from_bytes P C data pw) as [w| | |]; try (exact (eq_sym E)). cbn [bind] in *.
    destruct (get n (w_keys w)); [exact (eq_sym E)|].
    destruct (seed_from_data P m (w_seed w) (w_mnemonic w) (w_dictionary w)) as [s| | |]; try (exact (eq_sym E)). cbn [bind] in *.
    destruct (key_data_from_seed f s) as [d| | |]; try (exact (eq_sym E)). discriminate.
Qed.

Theorem backup_unordered o o' data pw : order_ok o -> order_ok o' ->
  (exists l l', get_keys_data P C o data pw = Ok l /\ get_keys_data P C o' data pw = Ok l' /\ Permutation l l') \/
  (exists e, get_keys_data P C o data pw = Err e /\ get_keys_data P C o' data pw = Err e).
Proof.
  intros Ho Ho'.
  destruct (decode_cases P HP C data pw) as [(w & Ew & Hw)|[(_ & Ew)|[(_ & _ & Ew)|(d & s & k & e & _ & _ & _ & Ew)]]].
  2-4: right; eexists; split; eapply backup_fails; exact Ew.
  left. destruct (backup o data pw w Ho Ew) as (_ & _ & l & El & Hl).
  destruct (backup o' data pw w Ho' Ew) as (_ & _ & l' & El' & Hl').
  exists l, l'. repeat (split; [assumption|]). eapply Permutation_trans; [exact Hl|now apply Permutation_sym].
Qed.

(** ** C58: panics *)
Lemma fails_calm {A B} n (r : res key_error A) (r' : res kc_error B) :
  fails_as n r r' -> (r' = Panic <-> r = Panic) /\ (r' = Undef <-> r = Undef).
Proof.
  unfold fails_as. destruct r; intros H; try contradiction; rewrite H; repeat split; congruence.
Qed.

Theorem builtin_calm ns m : with_networks P ns = Ok m ->
  (forall o1 o2 seed pw mn lang r, order_ok o1 -> order_ok o2 ->
     new_keychain_data P o1 o2 m seed pw mn lang r <> Panic /\
     new_keychain_data P o1 o2 m seed pw mn lang r <> Undef) /\
  (forall o data pw n r, order_ok o ->
     add_network P C o m data pw n r <> Panic /\ add_network P C o m data pw n r <> Undef) /\
  (forall o data pw, order_ok o ->
     keychain_from_data P C o m data pw <> Undef /\
     (keychain_from_data P C o m data pw = Panic -> In (2 ^ 31 + 1815) ns /\
        exists w d, keychain_data_from_bytes P C data pw = Ok w /\
          get (2 ^ 31 + 1815) (w_keys w) = Some d /\ (96 < List.length d)%nat)) /\
  (forall o data pw w d, order_ok o -> keychain_data_from_bytes P C data pw = Ok w ->
     In (2 ^ 31 + 1815) ns -> get (2 ^ 31 + 1815) (w_keys w) = Some d -> (96 < List.length d)%nat ->
     (forall n f d', n <> 2 ^ 31 + 1815 -> get n (w_keys w) = Some d' -> get_key_factory m n = Some f ->
        exists K, key_from_data f d' = Ok K) ->
     keychain_from_data P C o m data pw = Panic).
Proof.
  intros E. pose proof (builtin_manager_ok P ns m E) as Hm. split; [|split; [|split]].
  - intros o1 o2 seed pw mn lang r Ho1 Ho2.
    destruct (create_cases P o1 o2 Ho1 m Hm seed mn lang pw r) as [(s & keys & _ & _ & ->)|[(e & _ & _ & ->)|(s & n & f & _ & Hf & _ & Hfl)]].
    1-2: split; discriminate.
    apply (builtin_get P ns m n f E) in Hf as [_ Hb]. apply fails_calm in Hfl as [F1 F2].
    destruct (builtin_seed_calm P HP n f s Hb) as [G1 G2]. rewrite F1, F2. auto.
  - intros o data pw n r Ho. destruct (add_cascade o m data pw n r Ho Hm) as [H1 H2].
    destruct (get_key_factory m n) as [f|] eqn:Hf; [|rewrite H1 by reflexivity; split; discriminate].
    destruct (H2 f eq_refl) as [H3 H4].
    destruct (decode_cases P HP C data pw) as [(w & Ew & _)|[(_ & Ew)|[(_ & _ & Ew)|(d & s & k & e & _ & _ & _ & Ew)]]].
    2-4: rewrite (H3 _ Ew); split; discriminate.
    destruct (H4 w Ew) as [H5 H6].
    destruct (get n (w_keys w)) as [v|] eqn:En; [rewrite H5 by discriminate; split; discriminate|].
    destruct (H6 eq_refl) as (H7 & H8 & H9 & H10).
    destruct (secret_decided m w) as [[s Hs]|[(S1 & S2)|[(t & l & e & S1 & S2 & S3 & S4)|(s & S1 & S2)]]].
    2: rewrite (H7 S1 S2); split; discriminate.
    2: rewrite (H8 t l e S1 S2 S3 S4); split; discriminate.
    2: rewrite (H9 s S1 S2); split; discriminate.
    destruct (H10 s Hs) as [Hok Hfl]. unfold get_key_factory in Hf. apply (builtin_get P ns m n f E) in Hf as [_ Hb].
    destruct (builtin_seed_calm P HP n f s Hb) as [G1 G2].
    destruct (key_data_from_seed f s) as [d|e| |] eqn:Ed; [|specialize (Hfl ltac:(discriminate)); cbn [fails_as] in Hfl; rewrite Hfl; split; discriminate|congruence..].
    destruct (Hok d eq_refl) as (data' & r' & w' & -> & _). split; discriminate.
  - intros o data pw Ho.
    destruct (decode_cases P HP C data pw) as [(w & Ew & Hw)|[(_ & Ew)|[(_ & _ & Ew)|(d & s & k & e & _ & _ & _ & Ew)]]].
    2-4: rewrite (opening_fails P C o m data pw _ Ew); split; discriminate.
    destruct (hidden_keys o m data pw w Ho Hm Ew) as (_ & _ & H).
    destruct (keychain_from_data P C o m data pw) as [kc| | |] eqn:Ek; [split; discriminate|split; discriminate|..];
      (destruct H as (n & d & f & Hd & Hf & Hfl); [discriminate|]);
      unfold get_key_factory in Hf; apply (builtin_get P ns m n f E) in Hf as [Hin Hb];
      apply fails_calm in Hfl as [F1 F2]; destruct (builtin_load_calm P HP n f d Hb) as [G1 G2].
    + split; [discriminate|]. intros _. apply proj1 in F1. specialize (F1 eq_refl). apply G2 in F1 as [-> Hl].
      split; [exact Hin|]. exists w, d. auto.
    + exfalso. apply G1, F2. reflexivity.
  - intros o data pw w d Ho Ew Hin Hd Hl Hother.
    assert (get_key_factory m (2 ^ 31 + 1815) = Some (ada_factory P)) as Hf.
    { apply (builtin_get P ns m _ _ E). split; [exact Hin|]. left. auto. }
    destruct (builtin_load_calm P HP (2 ^ 31 + 1815) (ada_factory P) d ltac:(left; auto)) as [_ G2].
    assert (key_from_data (ada_factory P) d = Panic) as Hp by (apply G2; auto).
    destruct (hidden_keys o m data pw w Ho Hm Ew) as (H1 & _ & H3).
    destruct H3 as (n & d' & f & Hd' & Hf' & Hfl).
    { intros kc Ek. destruct (H1 kc Ek (2 ^ 31 + 1815)) as [_ H4]. destruct (H4 d _ Hd Hf) as (K & HK & _). congruence. }
    destruct (N.eq_dec n (2 ^ 31 + 1815)) as [->|Hn].
    + assert (d' = d) as -> by congruence. assert (f = ada_factory P) as -> by congruence.
      rewrite Hp in Hfl. exact Hfl.
    + destruct (Hother n f d' Hn Hd' Hf') as [K HK]. rewrite HK in Hfl. destruct Hfl.
Qed.

(** ** Created wallets and histories *)
Theorem seed_created_inv o1 o2 m s pw r x : order_ok o1 -> order_ok o2 -> manager_ok m ->
  keychain_data_from_seed P o1 o2 m s pw r = Ok x ->
  exists keys, List.length s = 64%nat /\ keys_from m s keys /\ wallet_ok (seed_wallet s keys) /\
    stored P pw (seed_wallet s keys) (fst x).
Proof.
  intros Ho1 Ho2 Hm E. apply (create_inv P o1 o2 Ho1 m Hm) in E as (s' & keys & [-> Hl] & Hk & ->).
  exists keys. split; [exact Hl|]. split; [exact Hk|]. split.
  - apply (new_wallet_ok P m Hm (Some s) None None s keys); auto. split; auto.
  - now apply seal_stored.
Qed.

Theorem phrase_created_inv o1 o2 m t lang pw r x : order_ok o1 -> order_ok o2 -> manager_ok m ->
  keychain_data_from_mnemonic P o1 o2 m t pw lang r = Ok x ->
  exists s keys, phrase_seed P (or_english lang) (m_seed_size m) t s /\ keys_from m s keys /\
    wallet_ok (phrase_wallet t (or_english lang) keys) /\
    stored P pw (phrase_wallet t (or_english lang) keys) (fst x).
Proof.
  intros Ho1 Ho2 Hm E. unfold keychain_data_from_mnemonic in E. change language_default with English in E. fold (or_english lang) in E.
  apply (create_inv P o1 o2 Ho1 m Hm) in E as (s & keys & Hs & Hk & ->). pose proof Hs as Hs0.
  destruct Hs as (t' & l' & Et & El & Hp). assert (t' = t) as -> by congruence.
  assert (l' = or_english lang) as -> by congruence.
  exists s, keys. split; [exact Hp|]. split; [exact Hk|]. split.
  - apply (new_wallet_ok P m Hm None (Some t) (Some (or_english lang)) s keys); auto. congruence.
  - now apply seal_stored.
Qed.

Theorem backup_history (l : list (order * op)) s pw w pws o : order_ok o ->
  Forall (fun x : order * op => order_ok (fst x) /\ op_ok (snd x) /\ incl (op_passwords (snd x)) pws) l ->
  wallet_ok w -> stored P pw w (fst s) -> In pw pws -> told_apart P C pws l s ->
  exists pw' w' entries, effects P (pw, w) (List.map snd l) (pw', w') /\
    (forall t lang, w_mnemonic w = Some t -> w_dictionary w = Some lang ->
       retrieve_mnemonic P C (fst (perform_all P C l s)) pw' = Ok (t, lang)) /\
    (w_mnemonic w = None \/ w_dictionary w = None ->
       retrieve_mnemonic P C (fst (perform_all P C l s)) pw' = Err SeedIsNotSaved) /\
    get_keys_data P C o (fst (perform_all P C l s)) pw' = Ok entries /\
    Permutation entries (w_keys w') /\
    (forall n d, get n (w_keys w) = Some d -> get n (w_keys w') = Some d).
Proof.
  intros Ho Hl Hw Hs Hi Ht. destruct (history P HP C l s pw w pws Hl Hw Hs Hi Ht) as (pw' & w' & He & _ & _ & _ & Ed & _).
  destruct (effects_secret P _ _ _ He) as (_ & E2 & E3 & E4). cbn [snd] in *.
  destruct (backup o _ _ _ Ho Ed) as (B1 & B2 & es & B3 & B4).
  exists pw', w', es. rewrite E2, E3 in *. auto 10.
Qed.

Theorem backup_v1 o data pw entries m : order_ok o ->
  decrypt P data pw = Ok (envelope 1 (v1_text entries)) ->
  Permutation entries m -> wf_map m /\ Forall (fun e => is_u32 (fst e)) m ->
  retrieve_mnemonic P C data pw = Err SeedIsNotSaved /\
  exists es, get_keys_data P C o data pw = Ok es /\ Permutation es m.
Proof.
  intros Ho E Hp Hm.
  assert (keychain_data_from_bytes P C data pw =
    Ok {| w_seed := None; w_mnemonic := None; w_dictionary := None; w_keys := m |}) as Ed.
  { unfold keychain_data_from_bytes. rewrite E. cbn [map_err bind].
    assert ((let* v := versioned_from_bytes C (envelope 1 (v1_text entries)) in get_data C v) =
      Ok {| w_seed := None; w_mnemonic := None; w_dictionary := None; w_keys := m |}) as ->
      by exact (v1_read C entries m Hp Hm). reflexivity. }
  destruct (backup o _ _ _ Ho Ed) as (_ & B2 & B3). split; [|exact B3]. apply B2. now left.
Qed.

Theorem short_never ns o1 o2 m0 t lang pw r x l pws : order_ok o1 -> order_ok o2 ->
  with_networks P ns = Ok m0 -> ~ In (2 ^ 31) ns -> ~ In (2 ^ 31 + 60) ns ->
  keychain_data_from_mnemonic P o1 o2 m0 t pw lang r = Ok x ->
  Forall (fun x : order * op => order_ok (fst x) /\ op_ok (snd x) /\ builtin_op P (snd x) /\
            incl (op_passwords (snd x)) pws) l ->
  In pw pws -> told_apart P C pws l x ->
  exists keys pw' w', effects P (pw, phrase_wallet t (or_english lang) keys) (List.map snd l) (pw', w') /\
    keychain_data_from_bytes P C (fst (perform_all P C l x)) pw' = Ok w' /\
    get (2 ^ 31) (w_keys w') = None /\ get (2 ^ 31 + 60) (w_keys w') = None.
Proof.
  intros Ho1 Ho2 Em Hn1 Hn2 E Hl Hi Ht. pose proof (builtin_manager_ok P ns m0 Em) as Hm.
  destruct (phrase_created_inv o1 o2 m0 t lang pw r x Ho1 Ho2 Hm E) as (s & keys & Hp & Hk & Hw & Hs).
  assert (Forall (fun x : order * op => order_ok (fst x) /\ op_ok (snd x) /\ incl (op_passwords (snd x)) pws) l) as Hl1.
  { eapply Forall_impl; [|exact Hl]. cbv beta. tauto. }
  assert (Forall (builtin_op P) (List.map snd l)) as Hl2.
  { apply Forall_map. eapply Forall_impl; [|exact Hl]. cbv beta. tauto. }
  destruct (history P HP C l x pw _ pws Hl1 Hw Hs Hi Ht) as (pw' & w' & He & _ & _ & _ & Ed & _).
  exists keys, pw', w'. split; [exact He|]. split; [exact Ed|].
  destruct Hp as (ws & Hph & _ & _ & Hlen & _).
  assert (List.length ws = 9%nat) as H9.
  { destruct (builtin_size P ns m0 Em) as (ty & Hsz & [->| ->] & Hty).
    - rewrite Hsz in Hlen. change (N.of_nat (to_key_size Type9Words) / 32 * 3) with 9 in Hlen. lia.
    - exfalso. apply proj1 in Hty. destruct (Hty eq_refl); contradiction. }
  assert (forall n, ~ In n ns -> get n keys = None) as Hg.
  { intros n Hn. destruct Hk as [_ Hk]. specialize (Hk n). destruct (get n (m_factories m0)) as [f|] eqn:Ef; [|exact Hk].
    apply (builtin_get P ns m0 n f Em) in Ef as [Hin _]. contradiction. }
  apply (short_effects _ _ _ He Hl2 t ws); auto; cbn [snd phrase_wallet w_keys]; auto.
Qed.

Theorem added_seed ma mb mall (o1 o2 o1' o2' : order) l s pw r r' :
  manager_ok ma -> manager_ok mb -> manager_ok mall ->
  order_ok o1 -> order_ok o2 -> order_ok o1' -> order_ok o2' ->
  Forall (fun x : order * N => order_ok (fst x)) l -> NoDup (List.map snd l) ->
  (forall n, get_key_factory mall n = match get_key_factory ma n with
                                      | Some f => Some f
                                      | None => get_key_factory mb n
                                      end) ->
  (forall n, In n (List.map snd l) <-> get_key_factory ma n = None /\ get_key_factory mb n <> None) ->
  List.length s = 64%nat ->
  (exists keys s1 s2 s3, keychain_data_from_seed P o1 o2 ma s pw r = Ok s1 /\
     add_all P C mb l pw s1 = Ok s2 /\
     keychain_data_from_seed P o1' o2' mall s pw r' = Ok s3 /\
     stored P pw (seed_wallet s keys) (fst s2) /\ stored P pw (seed_wallet s keys) (fst s3)) \/
  ((forall s1 s2, keychain_data_from_seed P o1 o2 ma s pw r = Ok s1 -> add_all P C mb l pw s1 <> Ok s2) /\
   (forall s3, keychain_data_from_seed P o1' o2' mall s pw r' <> Ok s3)).
Proof.
  intros Hma Hmb Hmall Ho1 Ho2 Ho1' Ho2' Hos Hnd Hall Hl Hlen.
  assert (forall m, secret P m (Some s) None None s) as Hsec by (intros m; split; auto).
  destruct (later_equals_start ma mb mall o1 o2 l (Some s) None None s pw r Hma Hmb Hmall Ho1 Ho2 Hos Hnd Hall Hl
    (fun _ => eq_refl) (Hsec ma) (Hsec mb)) as [H1 H2].
  destruct (keys_cases _ sorted_order_ok mall Hmall s) as [(keys & _ & _ & _ & Hk)|(n & f & _ & Hno & _)].
  - left. destruct (H1 keys Hk) as (s1 & s2 & E1 & E2 & Hst).
    destruct (seed_created P HP o1' o2' mall s pw r' keys Ho1' Ho2' Hmall Hlen Hk) as (data & r'' & E3 & Hst3 & _).
    exists keys, s1, s2, (data, r''). auto.
  - right. split.
    + intros s1 s2 E1 E2. destruct (H2 s1 s2 E1 E2) as [keys Hk]. now apply Hno in Hk.
    + intros s3 E3. destruct (seed_created_inv o1' o2' mall s pw r' s3 Ho1' Ho2' Hmall E3) as (keys & _ & Hk & _).
      now apply Hno in Hk.
Qed.

Theorem added_phrase ma mb mall (o1 o2 o1' o2' : order) l t lang pw r r' :
  manager_ok ma -> manager_ok mb -> manager_ok mall ->
  order_ok o1 -> order_ok o2 -> order_ok o1' -> order_ok o2' ->
  Forall (fun x : order * N => order_ok (fst x)) l -> NoDup (List.map snd l) ->
  (forall n, get_key_factory mall n = match get_key_factory ma n with
                                      | Some f => Some f
                                      | None => get_key_factory mb n
                                      end) ->
  (forall n, In n (List.map snd l) <-> get_key_factory ma n = None /\ get_key_factory mb n <> None) ->
  m_seed_size mb = m_seed_size ma -> m_seed_size mall = m_seed_size ma ->
  (exists keys s1 s2 s3, keychain_data_from_mnemonic P o1 o2 ma t pw lang r = Ok s1 /\
     add_all P C mb l pw s1 = Ok s2 /\
     keychain_data_from_mnemonic P o1' o2' mall t pw lang r' = Ok s3 /\
     stored P pw (phrase_wallet t (or_english lang) keys) (fst s2) /\
     stored P pw (phrase_wallet t (or_english lang) keys) (fst s3)) \/
  ((forall s1 s2, keychain_data_from_mnemonic P o1 o2 ma t pw lang r = Ok s1 -> add_all P C mb l pw s1 <> Ok s2) /\
   (forall s3, keychain_data_from_mnemonic P o1' o2' mall t pw lang r' <> Ok s3)).
Proof.
  intros Hma Hmb Hmall Ho1 Ho2 Ho1' Ho2' Hos Hnd Hall Hl Hb Hz.
  destruct (seed_from_mnemonic P t [] (m_seed_size ma) (or_english lang)) as [s|e| |] eqn:E.
  2:{ right. split; [intros s1 s2|intros s3]; rewrite (phrase_refused P _ _ _ t lang pw _ e); try discriminate; congruence. }
  2-3: exfalso; pose proof (seed_from_phrase_total P (or_english lang) (m_seed_size ma) t) as H; rewrite E in H; contradiction.
  apply seed_phrase_iff in E.
  assert (forall m, m_seed_size m = m_seed_size ma -> secret P m None (Some t) (Some (or_english lang)) s) as Hsec.
  { intros m Hz'. exists t, (or_english lang). rewrite Hz'. auto. }
  destruct (later_equals_start ma mb mall o1 o2 l None (Some t) (Some (or_english lang)) s pw r Hma Hmb Hmall Ho1 Ho2 Hos Hnd Hall Hl
    ltac:(congruence) (Hsec ma eq_refl) (Hsec mb Hb)) as [H1 H2].
  destruct (keys_cases _ sorted_order_ok mall Hmall s) as [(keys & _ & _ & _ & Hk)|(n & f & _ & Hno & _)].
  - left. destruct (H1 keys Hk) as (s1 & s2 & E1 & E2 & Hst).
    destruct (phrase_created P HP o1' o2' mall t lang pw r' s keys Ho1' Ho2' Hmall ltac:(now rewrite Hz) Hk) as (data & r'' & E3 & Hst3 & _).
    exists keys, s1, s2, (data, r''). auto.
  - right. split.
    + intros s1 s2 E1 E2. destruct (H2 s1 s2 E1 E2) as [keys Hk]. now apply Hno in Hk.
    + intros s3 E3. destruct (phrase_created_inv o1' o2' mall t lang pw r' s3 Ho1' Ho2' Hmall E3) as (s' & keys & Hs' & Hk & _).
      rewrite Hz in Hs'. apply seed_phrase_iff in Hs'. apply seed_phrase_iff in E. assert (s' = s) as -> by congruence.
      now apply Hno in Hk.
Qed.
End S.
