From Coq Require Import Strings.String.
From Verif Require Import Base BaseFacts Str StrFacts Prims Bip39 Bip39Spec Dict
  KeyPath Errors FMap FMapFacts Crypt CryptSpec CryptFacts Data DataSpec DataFacts XPrv XPrvSpec XPrvFacts Keys
  KeysSpec KeysFacts Mnemonic MnemonicFacts Keychain Manager ManagerSpec ManagerFacts WalletFacts HistorySpec.
Open Scope list_scope.
Local Strategy 1000 [XPrv.derive XPrv.derive_loop XPrv.derive_step XPrv.xprv_from_data].

Section H.
Variable P : prims.
Hypothesis HP : prims_ok P.
Variable C : data_config.

Lemma secret_unique m a b c s s' : secret P m a b c s -> secret P m a b c s' -> s = s'.
Proof. intros H H'. apply secret_iff in H. apply secret_iff in H'. congruence. Qed.

Lemma secret_length m a b c s : secret P m a b c s -> List.length s = 64%nat.
Proof.
  unfold secret. destruct a as [x|].
  - intros [_ H]. exact H.
  - intros (t & l & _ & _ & ws & _ & _ & _ & _ & ->). apply (pbkdf2_len P HP).
Qed.

(** ** Creation *)
Definition new_wallet (seed : option bytes) (mn : option str) (lang : option Language) (keys : fmap bytes) : wallet :=
  {| w_seed := seed; w_mnemonic := mn; w_dictionary := lang; w_keys := keys |}.

Section Create.
Variables o1 o2 : order.
Hypothesis Ho1 : order_ok o1.
Hypothesis Ho2 : order_ok o2.
Variable m : manager.
Hypothesis Hm : manager_ok m.

Lemma create_ok seed mn lang s keys pw r :
  secret P m seed mn lang s -> keys_from m s keys ->
  new_keychain_data P o1 o2 m seed pw mn lang r = Ok (seal P o2 (new_wallet seed mn lang keys) pw r).
Proof.
  intros Hs Hk. unfold new_keychain_data. apply secret_iff in Hs. rewrite Hs. cbn [bind].
  destruct (keys_complete o1 Ho1 m Hm s keys Hk) as (l & -> & <-). reflexivity.
Qed.

Lemma create_cases seed mn lang pw r :
  (exists s keys, secret P m seed mn lang s /\ keys_from m s keys /\
     new_keychain_data P o1 o2 m seed pw mn lang r = Ok (seal P o2 (new_wallet seed mn lang keys) pw r)) \/
  (exists e, (forall s, ~ secret P m seed mn lang s) /\
     seed_from_data P m seed mn lang = Err e /\
     new_keychain_data P o1 o2 m seed pw mn lang r = Err e) \/
  (exists s n f, secret P m seed mn lang s /\ get n (m_factories m) = Some f /\
     (forall keys, ~ keys_from m s keys) /\
     fails_as n (key_data_from_seed f s) (new_keychain_data P o1 o2 m seed pw mn lang r)).
Proof.
  destruct (seed_from_data_total P m seed mn lang) as [[s Es]|(e & Ee & Hno)].
  - pose proof (proj1 (secret_iff P m seed mn lang s) Es) as Hs.
    destruct (keys_cases o1 Ho1 m Hm s) as [(keys & l & _ & _ & Hk)|(n & f & Hf & Hno & H)].
    + left. exists s, keys. split; [exact Hs|]. split; [exact Hk|]. now apply create_ok with (s := s).
    + right. right. exists s, n, f. split; [exact Hs|]. split; [exact Hf|]. split; [exact Hno|].
      unfold new_keychain_data. rewrite Es. cbn [bind]. apply H.
  - right. left. exists e. split; [exact Hno|]. split; [exact Ee|].
    unfold new_keychain_data. now rewrite Ee.
Qed.

Lemma create_inv seed mn lang pw r x :
  new_keychain_data P o1 o2 m seed pw mn lang r = Ok x ->
  exists s keys, secret P m seed mn lang s /\ keys_from m s keys /\
    x = seal P o2 (new_wallet seed mn lang keys) pw r.
Proof.
  intros E. destruct (create_cases seed mn lang pw r) as [(s & keys & Hs & Hk & E')|[(e & _ & _ & E')|(s & n & f & _ & _ & _ & E')]].
  - exists s, keys. split; [exact Hs|]. split; [exact Hk|]. congruence.
  - congruence.
  - rewrite E in E'. unfold fails_as in E'. destruct (key_data_from_seed f s); try discriminate. destruct E'.
Qed.

Lemma new_wallet_ok seed mn lang s keys :
  (seed <> None -> mn = None) -> secret P m seed mn lang s -> keys_from m s keys ->
  wallet_ok (new_wallet seed mn lang keys).
Proof.
  intros Hmn Hs Hk. split; [apply Hk|]. split; [apply (keys_from_u32 m Hm s keys Hk)|].
  cbn [new_wallet w_mnemonic]. destruct seed as [x|].
  - rewrite Hmn by discriminate. exact I.
  - destruct Hs as (t & l & -> & _ & ws & Hp & Hall & _). now apply (known_valid l ws).
Qed.

(** [opens_to] for the wallet just made. *)
Lemma opens_new seed mn lang s keys kc : keys_from m s keys ->
  (opens_to m (new_wallet seed mn lang keys) kc <->
   wf_map kc /\ forall n, match get n (m_factories m) with
     | None => get n kc = None
     | Some f => exists d K, key_data_from_seed f s = Ok d /\ key_from_data f d = Ok K /\ get n kc = Some K
     end).
Proof.
  intros [_ Hk]. unfold opens_to. cbn [new_wallet w_keys].
  split; (intros [Hwf H]; split; [exact Hwf|]; intros n; specialize (H n); specialize (Hk n);
    destruct (get n (m_factories m)) as [f|]).
  - destruct Hk as (d & Hd & Eg). rewrite Eg in H. destruct H as (K & HK & E). eauto.
  - rewrite Hk in H. exact H.
  - destruct Hk as (d & Hd & Eg). rewrite Eg. destruct H as (d' & K & Hd' & HK & E).
    assert (d' = d) as -> by congruence. eauto.
  - rewrite Hk. exact H.
Qed.
End Create.

(** ** Opening *)
Lemma opening o m data pw w : order_ok o -> manager_ok m -> wallet_ok w ->
  keychain_data_from_bytes P C data pw = Ok w ->
  (forall kc, keychain_from_data P C o m data pw = Ok kc <-> opens_to m w kc) /\
  ((forall kc, ~ opens_to m w kc) -> exists n f d,
     get n (w_keys w) = Some d /\ get n (m_factories m) = Some f /\
     fails_as n (key_from_data f d) (keychain_from_data P C o m data pw)).
Proof.
  intros Ho Hm [Hw _] E. unfold keychain_from_data. rewrite E. cbn [bind]. split.
  - intros kc. split.
    + intros H. destruct (open_cases o Ho m Hm w Hw) as [(l & kc' & E1 & E2 & Hop)|(n & f & d & _ & _ & _ & Hf)].
      * rewrite E1 in H. cbn [bind] in H. rewrite E2 in H. injection H as <-. exact Hop.
      * specialize (Hf _ (fun keys => Ok (keychain_new keys))). rewrite H in Hf.
        unfold fails_as in Hf. destruct (key_from_data f d); try discriminate. destruct Hf.
    + intros H. destruct (open_complete o Ho m Hm w Hw kc H) as (l & E1 & E2).
      rewrite E1. cbn [bind]. now rewrite E2.
  - intros Hno. destruct (open_cases o Ho m Hm w Hw) as [(l & kc' & _ & _ & Hop)|(n & f & d & Hd & Hf & _ & Hfl)].
    + now apply Hno in Hop.
    + exists n, f, d. split; [exact Hd|]. split; [exact Hf|]. apply Hfl.
Qed.

Lemma opening_stored o m data pw w : order_ok o -> manager_ok m -> wallet_ok w ->
  stored P pw w data ->
  (forall kc, keychain_from_data P C o m data pw = Ok kc <-> opens_to m w kc) /\
  ((forall kc, ~ opens_to m w kc) -> exists n f d,
     get n (w_keys w) = Some d /\ get n (m_factories m) = Some f /\
     fails_as n (key_from_data f d) (keychain_from_data P C o m data pw)).
Proof. intros Ho Hm Hw Hs. apply opening; auto. now apply stored_read. Qed.

Lemma opening_fails o m data pw e : keychain_data_from_bytes P C data pw = Err e ->
  keychain_from_data P C o m data pw = Err e.
Proof. intros E. unfold keychain_from_data. now rewrite E. Qed.

(** ** Changing the password *)
Lemma change_ok data old new r d : decrypt P data old = Ok d ->
  change_password P data old new r = Ok (encrypt P d new r).
Proof. intros E. unfold change_password. now rewrite E. Qed.

Lemma change_inv data old new r x :
  change_password P data old new r = Ok x ->
  exists d, decrypt P data old = Ok d /\ x = encrypt P d new r.
Proof.
  unfold change_password. destruct (decrypt P data old) as [d| | |] eqn:E; try discriminate.
  cbn [map_err bind]. intros H. exists d. split; [reflexivity|]. congruence.
Qed.

Lemma change_decrypts data old new r data' r' d : decrypt P data old = Ok d ->
  change_password P data old new r = Ok (data', r') ->
  decrypt P data' new = Ok d /\ forall i, r' i = r (44 + i)%nat.
Proof.
  intros E H. apply change_inv in H as (d' & E' & Hx). assert (d' = d) as -> by congruence.
  pose proof (f_equal fst Hx) as H1. pose proof (f_equal snd Hx) as H2. cbn [fst snd] in H1, H2.
  rewrite H1, H2. split; [|apply (encrypt_layout P HP)]. apply (decrypt_encrypt P HP).
  apply (decrypt_exact P HP) in E. apply E.
Qed.

Theorem change_cases data old new r :
  (exists data' r', change_password P data old new r = Ok (data', r') /\
     keychain_data_from_bytes P C data' new = keychain_data_from_bytes P C data old /\
     (exists d, decrypt P data old = Ok d /\ decrypt P data' new = Ok d) /\
     (forall i, r' i = r (44 + i)%nat)) \/
  ((List.length data <= 60)%nat /\ change_password P data old new r = Err NotEnoughData) \/
  ((60 < List.length data)%nat /\
   (forall d salt nonce, List.length salt = 32%nat -> List.length nonce = 12%nat ->
      ~ is_sealed P old salt nonce d data) /\
   change_password P data old new r = Err WrongPassword).
Proof.
  destruct (decrypt P data old) as [d|[]| |] eqn:E.
  - left. pose proof (change_ok data old new r d E) as Hc.
    destruct (encrypt P d new r) as [data' r'] eqn:Ex. exists data', r'. split; [exact Hc|].
    destruct (change_decrypts _ _ _ _ _ _ _ E Hc) as [Hd Hr].
    split; [unfold keychain_data_from_bytes; now rewrite Hd, E|]. split; [eauto|exact Hr].
  - right. left. unfold change_password. rewrite E. split; [now apply (decrypt_exact P HP) in E|reflexivity].
  - right. right. unfold change_password. rewrite E. cbn [map_err bind kc_of_decrypt].
    assert (keychain_data_from_bytes P C data old = Err WrongPassword) as Ek
      by (unfold keychain_data_from_bytes; now rewrite E).
    destruct (decode_cases P HP C data old) as [(w & E' & _)|[(Hl & E')|[(Hl & Hno & _)|(d & s & n & e & _ & _ & _ & E')]]];
      try congruence. auto.
  - exfalso. destruct (decrypt_exact P HP data old) as (_ & _ & _ & H & _). contradiction.
  - exfalso. destruct (decrypt_exact P HP data old) as (_ & _ & _ & _ & H). contradiction.
Qed.

Theorem change_stored data pw new w r : stored P pw w data ->
  exists data' r', change_password P data pw new r = Ok (data', r') /\ stored P new w data'.
Proof.
  intros Hs. destruct (stored_decrypt P HP pw w data Hs) as (es & Hp & E).
  pose proof (change_ok data pw new r _ E) as Hc.
  destruct (encrypt P _ new r) as [data' r'] eqn:Ex. exists data', r'. split; [exact Hc|].
  pose proof (encrypt_layout P HP (envelope 2 (wallet_text w es)) new r) as H. rewrite Ex in H.
  cbn [fst snd] in H. destruct H as (H & Hsl & Hnl & _).
  exists es, (List.map r (seq 0 32)), (List.map r (seq 32 12)). auto.
Qed.

(** ** Adding a network *)
Lemma add_unsupported o m data pw n r : get n (m_factories m) = None ->
  add_network P C o m data pw n r = Err (NetworkIsNotSupported n).
Proof. intros E. unfold add_network. now rewrite E. Qed.

Section Add.
Variable o : order.
Hypothesis Ho : order_ok o.
Variable m : manager.
Hypothesis Hm : manager_ok m.
Variables (data : bytes) (pw : str) (n : N) (r : rng).

Lemma add_undecodable f e : get n (m_factories m) = Some f ->
  keychain_data_from_bytes P C data pw = Err e ->
  add_network P C o m data pw n r = Err e.
Proof. intros Ef E. unfold add_network. rewrite Ef. cbn [ok_or bind]. now rewrite E. Qed.

Lemma extended_ins w d : wallet_ok w ->
  extended w n d {| w_seed := w_seed w; w_mnemonic := w_mnemonic w; w_dictionary := w_dictionary w;
                    w_keys := ins n d (w_keys w) |}.
Proof.
  intros (Hw & _). repeat split; cbn [w_keys]; [now apply ins_wf|]. intros k. now apply get_ins.
Qed.

Lemma extended_unique w d w1 w2 : extended w n d w1 -> extended w n d w2 -> w1 = w2.
Proof.
  intros (S1 & M1 & D1 & W1 & G1) (S2 & M2 & D2 & W2 & G2).
  destruct w1 as [s1 m1 d1 k1], w2 as [s2 m2 d2 k2]. cbn [w_seed w_mnemonic w_dictionary w_keys] in *.
  assert (k1 = k2) as <- by (apply map_ext_get; auto; intros k; now rewrite G1, G2). congruence.
Qed.

Lemma extended_ok w d w' : wallet_ok w -> is_u32 n -> extended w n d w' -> wallet_ok w'.
Proof.
  intros (Hw & Hu & Hmn) Hn (S & M & D & W & G). split; [exact W|]. split; [|now rewrite M].
  apply Forall_forall. intros [k v] Hin. apply (In_get _ W) in Hin. rewrite G in Hin. cbn [fst].
  destruct (N.eqb_spec k n) as [->|]; [exact Hn|]. apply (In_get _ Hw) in Hin.
  rewrite Forall_forall in Hu. exact (Hu _ Hin).
Qed.

Theorem add_decoded f w : get n (m_factories m) = Some f ->
  keychain_data_from_bytes P C data pw = Ok w ->
  (get n (w_keys w) <> None -> add_network P C o m data pw n r = Err (KeyAlreadyExist n)) /\
  (get n (w_keys w) = None ->
    (forall e, seed_from_data P m (w_seed w) (w_mnemonic w) (w_dictionary w) = Err e ->
       add_network P C o m data pw n r = Err e) /\
    (forall s, wallet_secret P m w s ->
       (forall d, key_data_from_seed f s = Ok d -> exists data' r' w',
          add_network P C o m data pw n r = Ok (data', r') /\
          extended w n d w' /\ wallet_ok w' /\ stored P pw w' data' /\
          (forall i, r' i = r (44 + i)%nat)) /\
       ((forall d, key_data_from_seed f s <> Ok d) ->
          fails_as n (key_data_from_seed f s) (add_network P C o m data pw n r)))).
Proof.
  intros Ef E. pose proof (decode_ok P HP C data pw w E) as Hw.
  unfold add_network. rewrite Ef. cbn [ok_or bind]. rewrite E. cbn [bind]. split.
  - intros Hk. destruct (get n (w_keys w)); [reflexivity|congruence].
  - intros Hk. rewrite Hk. split.
    + intros e ->. reflexivity.
    + intros s Hs. apply secret_iff in Hs. rewrite Hs. cbn [bind]. split.
      * intros d Hd. rewrite Hd. cbn [map_err bind].
        set (w' := {| w_seed := _; w_keys := _ |}).
        pose proof (seal_stored P HP o w' pw r Ho) as Hst. pose proof (seal_rest P HP o w' pw r) as Hr.
        destruct (seal P o w' pw r) as [data' r']. cbn [fst snd] in *.
        exists data', r', w'. split; [reflexivity|]. pose proof (extended_ins w d Hw) as Hx.
        split; [exact Hx|]. split; [|auto]. apply (extended_ok w d); auto.
        destruct Hm as [_ Hf]. apply Hf in Ef as [<- (Hu & _)]. exact Hu.
      * intros Hno. destruct (key_data_from_seed f s) as [d|e| |]; cbn [map_err bind fails_as]; try reflexivity.
        now destruct (Hno d).
Qed.
End Add.

(** ** Histories *)
Lemma effect_secret a p b : effect P a p b ->
  w_seed (snd b) = w_seed (snd a) /\ w_mnemonic (snd b) = w_mnemonic (snd a) /\
  w_dictionary (snd b) = w_dictionary (snd a) /\
  (forall n d, get n (w_keys (snd a)) = Some d -> get n (w_keys (snd b)) = Some d).
Proof.
  intros H. destruct H as [| |pw m n f s d w w' Hf Hk Hs Hd (S & M & D & W & G)| | | | | |]; cbn [snd];
    repeat split; auto.
  intros k v Hv. rewrite G. destruct (N.eqb_spec k n) as [->|]; [congruence|exact Hv].
Qed.

Lemma effects_secret a l b : effects P a l b ->
  w_seed (snd b) = w_seed (snd a) /\ w_mnemonic (snd b) = w_mnemonic (snd a) /\
  w_dictionary (snd b) = w_dictionary (snd a) /\
  (forall n d, get n (w_keys (snd a)) = Some d -> get n (w_keys (snd b)) = Some d).
Proof.
  induction 1 as [a|a p b l c H _ (I1 & I2 & I3 & I4)]; [auto|].
  apply effect_secret in H as (H1 & H2 & H3 & H4).
  rewrite I1, I2, I3. repeat split; auto.
Qed.

Lemma effect_deterministic a p b c : effect P a p b -> effect P a p c -> b = c.
Proof.
  intros H H'. inversion H; subst; inversion H'; subst; try reflexivity; try congruence;
    repeat match goal with
    | Hs : wallet_secret P ?m ?w ?s, Hs' : wallet_secret P ?m ?w ?s' |- _ =>
      lazymatch s with s' => fail | _ => assert (s = s') by (eapply secret_unique; eassumption); subst s' end
    | Hn : forall s, ~ wallet_secret P ?m ?w s, Hs : wallet_secret P ?m ?w ?s |- _ => destruct (Hn s Hs)
    end; try congruence.
  - assert (f = f0) as -> by congruence. assert (d = d0) as -> by congruence.
    f_equal. eapply extended_unique; eassumption.
Qed.

Lemma effects_deterministic a l b : effects P a l b -> forall c, effects P a l c -> b = c.
Proof.
  induction 1 as [a|a p b l c H _ IH]; intros x Hx; inversion Hx; subst; [reflexivity|].
  apply IH. assert (b0 = b) as -> by (eapply effect_deterministic; eassumption). assumption.
Qed.

Lemma stored_accept pw w data : stored P pw w data -> exists d, decrypt P data pw = Ok d.
Proof. intros H. apply (stored_decrypt P HP) in H as (es & _ & E). eauto. Qed.

Lemma stored_long pw w data : stored P pw w data -> (60 < List.length data)%nat.
Proof.
  intros H. destruct (Nat.le_gt_cases (List.length data) 60) as [Hl|]; [|assumption].
  apply (decrypt_exact P HP data pw) in Hl. apply stored_accept in H as (d & E). congruence.
Qed.

Lemma rejected pws pw w data pw' :
  (forall pw pw' d d', In pw pws -> In pw' pws ->
     decrypt P data pw = Ok d -> decrypt P data pw' = Ok d' -> pw = pw') ->
  In pw pws -> In pw' pws -> stored P pw w data -> pw' <> pw ->
  decrypt P data pw' = Err DDecryptionFailed.
Proof.
  intros Ht Hi Hi' Hs Hne. pose proof (stored_long _ _ _ Hs) as Hl.
  destruct (stored_accept _ _ _ Hs) as (d & E).
  destruct (decrypt_exact P HP data pw') as (_ & Hn & _ & Hp & Hu).
  destruct (decrypt P data pw') as [d'|[]| |] eqn:E'; try congruence.
  - destruct Hne. symmetry. now apply (Ht pw pw' d d').
  - assert (List.length data <= 60)%nat by now apply Hn. lia.
Qed.

Lemma perform_effect o p s pw w pws : order_ok o -> op_ok p -> wallet_ok w ->
  stored P pw w (fst s) -> In pw pws -> incl (op_passwords p) pws ->
  (forall pw pw' d d', In pw pws -> In pw' pws ->
     decrypt P (fst s) pw = Ok d -> decrypt P (fst s) pw' = Ok d' -> pw = pw') ->
  exists pw' w', effect P (pw, w) p (pw', w') /\ wallet_ok w' /\ In pw' pws /\
    stored P pw' w' (fst (perform P C o p s)).
Proof.
  intros Ho Hp Hw Hs Hi Hincl Ht. destruct s as [data r]. cbn [fst] in *.
  destruct p as [old new|m pwa n|m pwa]; cbn [perform fst snd op_ok op_passwords] in *.
  - destruct (list_eq_dec N.eq_dec old pw) as [->|Hne].
    + destruct (change_stored data pw new w r Hs) as (data' & r' & E & Hs').
      exists new, w. split; [constructor|]. split; [exact Hw|]. split; [apply Hincl; right; now left|].
      rewrite E. exact Hs'.
    + exists pw, w. split; [now constructor|]. split; [exact Hw|]. split; [exact Hi|].
      assert (In old pws) as Hio by (apply Hincl; now left).
      unfold change_password. rewrite (rejected pws pw w data old Ht Hi Hio Hs Hne). exact Hs.
  - destruct (get n (m_factories m)) as [f|] eqn:Ef.
    2:{ exists pw, w. split; [now apply eff_add_unsupported|]. rewrite (add_unsupported o m data pwa n r Ef). auto. }
    destruct (list_eq_dec N.eq_dec pwa pw) as [->|Hne].
    2:{ exists pw, w. split; [now apply eff_add_wrong|]. split; [exact Hw|]. split; [exact Hi|].
        assert (In pwa pws) as Hio by (apply Hincl; now left).
        rewrite (add_undecodable o m data pwa n r f WrongPassword Ef); [exact Hs|].
        unfold keychain_data_from_bytes. now rewrite (rejected pws pw w data pwa Ht Hi Hio Hs Hne). }
    pose proof (stored_read P HP C pw w data Hw Hs) as E.
    destruct (add_decoded o Ho m Hp data pw n r f w Ef E) as [Hpres Habs].
    destruct (get n (w_keys w)) as [v|] eqn:Ek.
    { exists pw, w. split; [apply eff_add_present; congruence|]. rewrite Hpres by discriminate. auto. }
    specialize (Habs eq_refl) as [Hnos Hsec].
    destruct (seed_from_data_total P m (w_seed w) (w_mnemonic w) (w_dictionary w)) as [[sd Es]|(e & Ee & Hno)].
    + pose proof (proj1 (secret_iff P m _ _ _ sd) Es) as Hsd. destruct (Hsec sd Hsd) as [Hok Hfail].
      destruct (key_data_from_seed f sd) as [d| | |] eqn:Ed.
      * destruct (Hok d eq_refl) as (data' & r' & w' & E' & Hx & Hw' & Hs' & _).
        exists pw, w'. split; [eapply eff_add; eassumption|]. rewrite E'. auto.
      * exists pw, w. split; [eapply eff_add_failing; try eassumption; rewrite Ed; discriminate|].
        specialize (Hfail ltac:(discriminate)). cbn [fails_as] in Hfail. rewrite Hfail. auto.
      * exists pw, w. split; [eapply eff_add_failing; try eassumption; rewrite Ed; discriminate|].
        specialize (Hfail ltac:(discriminate)). cbn [fails_as] in Hfail. rewrite Hfail. auto.
      * exists pw, w. split; [eapply eff_add_failing; try eassumption; rewrite Ed; discriminate|].
        specialize (Hfail ltac:(discriminate)). cbn [fails_as] in Hfail. rewrite Hfail. auto.
    + exists pw, w. split; [now apply eff_add_no_secret|]. rewrite (Hnos e Ee). auto.
  - exists pw, w. split; [constructor|]. auto.
Qed.

Theorem history (l : list (order * op)) : forall s pw w pws,
  Forall (fun x : order * op => order_ok (fst x) /\ op_ok (snd x) /\ incl (op_passwords (snd x)) pws) l ->
  wallet_ok w -> stored P pw w (fst s) -> In pw pws -> told_apart P C pws l s ->
  exists pw' w', effects P (pw, w) (List.map snd l) (pw', w') /\ wallet_ok w' /\ In pw' pws /\
    stored P pw' w' (fst (perform_all P C l s)) /\
    keychain_data_from_bytes P C (fst (perform_all P C l s)) pw' = Ok w' /\
    (forall x, In x pws -> x <> pw' ->
       keychain_data_from_bytes P C (fst (perform_all P C l s)) x = Err WrongPassword).
Proof.
  induction l as [|[o p] l IH]; intros s pw w pws Hl Hw Hs Hi Ht; cbn [List.map snd perform_all told_apart] in *.
  - exists pw, w. split; [constructor|]. split; [exact Hw|]. split; [exact Hi|]. split; [exact Hs|].
    split; [now apply stored_read|]. intros x Hx Hne. unfold keychain_data_from_bytes.
    now rewrite (rejected pws pw w (fst s) x (proj1 Ht) Hi Hx Hs Hne).
  - apply Forall_cons_iff in Hl as [(Ho & Hp & Hincl) Hl]. cbn [fst snd] in *. destruct Ht as [Ht Ht'].
    destruct (perform_effect o p s pw w pws Ho Hp Hw Hs Hi Hincl Ht) as (pw1 & w1 & He & Hw1 & Hi1 & Hs1).
    destruct (IH _ pw1 w1 pws Hl Hw1 Hs1 Hi1 Ht') as (pw2 & w2 & He2 & H2).
    exists pw2, w2. split; [econstructor; eassumption|exact H2].
Qed.
End H.
