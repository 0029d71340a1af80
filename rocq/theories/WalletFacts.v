From Coq Require Import Strings.String.
From Verif Require Import Base BaseFacts Str StrFacts Prims Bip39 Bip39Spec Dict
  KeyPath Errors FMap FMapFacts Crypt CryptSpec CryptFacts Data DataSpec DataFacts Keys
  Mnemonic MnemonicFacts Keychain Manager ManagerSpec ManagerFacts.
Open Scope list_scope.
Local Strategy 1000 [XPrv.derive XPrv.derive_loop XPrv.derive_step XPrv.xprv_from_data].

Section W.
Variable P : prims.
Hypothesis HP : prims_ok P.
Variable C : data_config.

(** ** Storing and reading wallets *)
Lemma envelope_nonempty n d : envelope n d <> [].
Proof. unfold envelope. discriminate. Qed.

Lemma seal_stored o w pw r : order_ok o -> stored P pw w (fst (seal P o w pw r)).
Proof.
  intros Ho. unfold seal. rewrite versioned_text.
  destruct (encrypt_layout P HP (envelope 2 (wallet_text w (o _ (w_keys w)))) pw r) as (H & Hs & Hn & _).
  exists (o _ (w_keys w)), (List.map r (seq 0 32)), (List.map r (seq 32 12)). auto.
Qed.

Lemma seal_rest o w pw r i : snd (seal P o w pw r) i = r (44 + i)%nat.
Proof. unfold seal. apply (encrypt_layout P HP). Qed.

Lemma stored_decrypt pw w data : stored P pw w data ->
  exists entries, Permutation entries (w_keys w) /\
    decrypt P data pw = Ok (envelope 2 (wallet_text w entries)).
Proof.
  intros (es & salt & nonce & Hp & Hs & Hn & H). exists es. split; [exact Hp|].
  apply (decrypt_exact P HP). split; [apply envelope_nonempty|]. eauto.
Qed.

Lemma stored_read pw w data : wallet_ok w -> stored P pw w data ->
  keychain_data_from_bytes P C data pw = Ok w.
Proof.
  intros Hw H. apply stored_decrypt in H as (es & Hp & E). unfold keychain_data_from_bytes.
  rewrite E. cbn [map_err]. cbn [bind].
  assert ((let* v := versioned_from_bytes C (envelope 2 (wallet_text w es)) in get_data C v) = Ok w) as ->
    by exact (wallet_read C w es Hp Hw). reflexivity.
Qed.

Lemma stored_unique pw w w' data : wallet_ok w -> wallet_ok w' ->
  stored P pw w data -> stored P pw w' data -> w = w'.
Proof.
  intros Hw Hw' H H'. apply (stored_read _ _ _ Hw) in H. apply (stored_read _ _ _ Hw') in H'. congruence.
Qed.

(** C35 *)
Lemma decode_cases data pw :
  (exists w, keychain_data_from_bytes P C data pw = Ok w /\ wallet_ok w) \/
  ((List.length data <= 60)%nat /\ keychain_data_from_bytes P C data pw = Err NotEnoughData) \/
  ((60 < List.length data)%nat /\
   (forall d salt nonce, List.length salt = 32%nat -> List.length nonce = 12%nat ->
      ~ is_sealed P pw salt nonce d data) /\
   keychain_data_from_bytes P C data pw = Err WrongPassword) \/
  (exists d salt nonce e, List.length salt = 32%nat /\ List.length nonce = 12%nat /\
     is_sealed P pw salt nonce d data /\
     keychain_data_from_bytes P C data pw = Err (DataError e)).
Proof.
  unfold keychain_data_from_bytes. destruct (decrypt_exact P HP data pw) as (Hok & Hne & Hf & Hp & Hu).
  destruct (decrypt P data pw) as [d|[]| |] eqn:E; cbn [map_err bind kc_of_decrypt].
  - pose proof (proj1 (Hok d) eq_refl) as (_ & salt & nonce & Hs & Hn & Hd).
    pose proof (versioned_from_bytes_total C d) as Hv.
    destruct (versioned_from_bytes C d) as [v|e| |]; cbn [bind map_err] in *; try contradiction.
    + pose proof (get_data_total C v) as Hg. destruct (get_data C v) as [w|e| |]; cbn [map_err]; try contradiction.
      * left. eauto.
      * right. right. right. exists d, salt, nonce, e. auto.
    + right. right. right. exists d, salt, nonce, e. auto.
  - right. left. split; [now apply Hne|reflexivity].
  - right. right. left. assert (60 < List.length data)%nat as Hlen.
    { destruct (Nat.le_gt_cases (List.length data) 60) as [Hl|]; [|assumption].
      apply Hne in Hl. discriminate. }
    split; [exact Hlen|]. split; [|reflexivity].
    intros d salt nonce Hs Hn Hd. destruct d as [|b d].
    + apply (sealed_iff P HP) in Hd. cbv zeta in Hd. rewrite Hd in Hlen.
      rewrite !app_length, Hs, Hn, (chacha_tag_len P HP) in Hlen. cbn in Hlen. lia.
    + assert (decrypt P data pw = Ok (b :: d)) as E'.
      { apply (decrypt_exact P HP). split; [discriminate|]. eauto. }
      congruence.
  - now destruct Hp.
  - now destruct Hu.
Qed.

Lemma decode_ok data pw w : keychain_data_from_bytes P C data pw = Ok w -> wallet_ok w.
Proof.
  intros E. destruct (decode_cases data pw) as [(w' & E' & H)|[(_ & E')|[(_ & _ & E')|(d & s & n & e & _ & _ & _ & E')]]];
    rewrite E' in E; try discriminate. congruence.
Qed.

(** ** Seeds *)
Lemma secret_iff m seed mn lang s :
  seed_from_data P m seed mn lang = Ok s <-> secret P m seed mn lang s.
Proof.
  unfold seed_from_data, secret. destruct seed as [s'|].
  - change SEED_SIZE with 64%nat. destruct (Nat.eqb_spec (List.length s') 64) as [E|E].
    + split; [intros H; injection H as ->; auto|]. intros [-> _]. reflexivity.
    + split; [discriminate|]. intros [-> H]. contradiction.
  - destruct mn as [t|]; cbn [ok_or bind]; [|split; [discriminate|intros (t & l & H & _); discriminate]].
    destruct lang as [l|]; cbn [ok_or bind]; [|split; [discriminate|intros (t' & l & _ & H & _); discriminate]].
    destruct (seed_from_mnemonic P t [] (m_seed_size m) l) as [x|e| |] eqn:E; cbn [map_err].
    + split.
      * intros H. injection H as ->. exists t, l. split; [reflexivity|]. split; [reflexivity|].
        now apply seed_phrase_iff.
      * intros (t' & l' & Ht & Hl & H). injection Ht as <-. injection Hl as <-.
        apply seed_phrase_iff in H. congruence.
    + split; [discriminate|]. intros (t' & l' & Ht & Hl & H). injection Ht as <-. injection Hl as <-.
      apply seed_phrase_iff in H. congruence.
    + split; [discriminate|]. intros (t' & l' & Ht & Hl & H). injection Ht as <-. injection Hl as <-.
      apply seed_phrase_iff in H. congruence.
    + split; [discriminate|]. intros (t' & l' & Ht & Hl & H). injection Ht as <-. injection Hl as <-.
      apply seed_phrase_iff in H. congruence.
Qed.

Lemma seed_from_data_total m seed mn lang :
  (exists s, seed_from_data P m seed mn lang = Ok s) \/
  (exists e, seed_from_data P m seed mn lang = Err e /\ forall s, ~ secret P m seed mn lang s).
Proof.
  destruct (seed_from_data P m seed mn lang) as [s|e| |] eqn:E.
  - left. eauto.
  - right. exists e. split; [reflexivity|]. intros s H. apply secret_iff in H. congruence.
  - exfalso. unfold seed_from_data in E. destruct seed as [s|].
    + destruct (Nat.eqb _ _); discriminate.
    + destruct mn as [t|]; [|discriminate]. destruct lang as [l|]; [|discriminate]. cbn [ok_or bind] in E.
      pose proof (seed_from_phrase_total P l (m_seed_size m) t) as H.
      destruct (seed_from_mnemonic P t [] (m_seed_size m) l); try discriminate; contradiction.
  - exfalso. unfold seed_from_data in E. destruct seed as [s|].
    + destruct (Nat.eqb _ _); discriminate.
    + destruct mn as [t|]; [|discriminate]. destruct lang as [l|]; [|discriminate]. cbn [ok_or bind] in E.
      pose proof (seed_from_phrase_total P l (m_seed_size m) t) as H.
      destruct (seed_from_mnemonic P t [] (m_seed_size m) l); try discriminate; contradiction.
Qed.

(** ** Keys of a new wallet *)
Lemma data_of_ok s f d : key_data_from_seed f s = Ok d <-> data_of s f = Ok (f_network f, d).
Proof.
  unfold data_of, rmap. destruct (key_data_from_seed f s) as [x| | |]; cbn [bind map_err];
    (split; intros E; [|]); try discriminate; congruence.
Qed.

Lemma data_of_inv s f e : data_of s f = Ok e -> e = (f_network f, snd e) /\ key_data_from_seed f s = Ok (snd e).
Proof.
  unfold data_of, rmap. destruct (key_data_from_seed f s) as [x| | |]; cbn [bind map_err]; try discriminate.
  intros E. injection E as <-. split; reflexivity.
Qed.

Section Order.
Variable o : order.
Hypothesis Ho : order_ok o.
Variable m : manager.
Hypothesis Hm : manager_ok m.

Let fs := List.map snd (o _ (m_factories m)).

Lemma In_values f : In f fs <-> get (f_network f) (m_factories m) = Some f.
Proof.
  destruct Hm as [Hwf Hf]. unfold fs. rewrite in_map_iff. split.
  - intros ([n g] & E & Hin). cbn [snd] in E. subst g.
    apply (Permutation_in _ (Ho _ _)) in Hin. apply (In_get _ Hwf) in Hin.
    now rewrite (proj1 (Hf _ _ Hin)).
  - intros H. exists (f_network f, f). split; [reflexivity|].
    apply (Permutation_in _ (Permutation_sym (Ho _ _))). now apply (In_get _ Hwf).
Qed.

Lemma values_NoDup : NoDup (List.map f_network fs).
Proof.
  destruct Hm as [Hwf Hf]. unfold fs. rewrite map_map.
  assert (List.map (fun x => f_network (snd x)) (o _ (m_factories m)) = List.map fst (o _ (m_factories m))) as ->.
  { apply map_ext_in. intros [n f] Hin. apply (Permutation_in _ (Ho _ _)) in Hin.
    apply (In_get _ Hwf) in Hin. apply Hf in Hin. apply Hin. }
  eapply Permutation_NoDup; [|apply (wf_NoDup _ Hwf)].
  apply Permutation_map, Permutation_sym, Ho.
Qed.

Lemma keys_complete s keys : keys_from m s keys ->
  exists l, mapM (data_of s) fs = Ok l /\ of_list l = keys.
Proof.
  intros [Hk H]. destruct (mapM_cases (data_of s) fs) as [[l E]|(f & Hf & Hno & _)].
  - exists l. split; [exact E|]. apply mapM_inv in E.
    assert (List.map f_network fs = List.map fst l) as Hn.
    { apply (Forall2_map _ _ _ _ _ E). intros f e _ He. apply data_of_inv in He as [He _]. now rewrite He. }
    assert (NoDup (List.map fst l)) as Hd by (rewrite <- Hn; apply values_NoDup).
    apply map_ext_get; [apply of_list_wf|exact Hk|]. intros n. specialize (H n).
    destruct (get n (m_factories m)) as [f|] eqn:Ef.
    + destruct H as (d & Hd1 & ->). apply (of_list_NoDup l Hd).
      assert (f_network f = n) as Hfn by (now apply Hm). subst n.
      destruct (Forall2_In_l _ _ _ f E) as (e & He & Hde); [now apply In_values|].
      apply data_of_ok in Hd1. congruence.
    + rewrite H. destruct (get n (of_list l)) as [d|] eqn:Eg; [|reflexivity].
      apply (of_list_NoDup l Hd) in Eg. destruct (Forall2_In_r _ _ _ _ E Eg) as (f & Hf & Hde).
      apply data_of_inv in Hde as [Hde _]. injection Hde as ->. apply In_values in Hf. congruence.
  - apply In_values in Hf. specialize (H (f_network f)). rewrite Hf in H. destruct H as (d & Hd & _).
    apply data_of_ok in Hd. now apply Hno in Hd.
Qed.

Lemma keys_cases s :
  (exists keys l, mapM (data_of s) fs = Ok l /\ of_list l = keys /\ keys_from m s keys) \/
  (exists n f, get n (m_factories m) = Some f /\ (forall keys, ~ keys_from m s keys) /\
     forall B (k : list (N * bytes) -> res kc_error B),
       fails_as n (key_data_from_seed f s) (bind (mapM (data_of s) fs) k)).
Proof.
  destruct (mapM_cases (data_of s) fs) as [[l E]|(f & Hf & Hno & E)].
  - left. exists (of_list l), l. split; [exact E|]. split; [reflexivity|]. apply mapM_inv in E.
    assert (List.map f_network fs = List.map fst l) as Hn.
    { apply (Forall2_map _ _ _ _ _ E). intros f e _ He. apply data_of_inv in He as [He _]. now rewrite He. }
    assert (NoDup (List.map fst l)) as Hd by (rewrite <- Hn; apply values_NoDup).
    split; [apply of_list_wf|]. intros n. destruct (get n (m_factories m)) as [f|] eqn:Ef.
    + assert (f_network f = n) as Hfn by (now apply Hm). subst n.
      destruct (Forall2_In_l _ _ _ f E) as (e & He & Hde); [now apply In_values|].
      apply data_of_inv in Hde as [He2 Hde]. exists (snd e). split; [exact Hde|].
      apply (of_list_NoDup l Hd). now rewrite <- He2.
    + destruct (get n (of_list l)) as [d|] eqn:Eg; [|reflexivity].
      apply (of_list_NoDup l Hd) in Eg. destruct (Forall2_In_r _ _ _ _ E Eg) as (f & Hf & Hde).
      apply data_of_inv in Hde as [Hde _]. injection Hde as ->. apply In_values in Hf. congruence.
  - right. exists (f_network f), f. apply In_values in Hf. split; [exact Hf|]. split.
    + intros keys [_ H]. specialize (H (f_network f)). rewrite Hf in H. destruct H as (d & Hd & _).
      apply data_of_ok in Hd. now apply Hno in Hd.
    + intros B k. rewrite E. unfold data_of, rmap in *.
      destruct (key_data_from_seed f s) as [d|e| |]; cbn [bind map_err fails_as] in *; try reflexivity.
      now destruct (Hno (f_network f, d)).
Qed.

Lemma keys_from_unique s k k' : keys_from m s k -> keys_from m s k' -> k = k'.
Proof.
  intros H H'. apply keys_complete in H as (l & E & <-). apply keys_complete in H' as (l' & E' & <-). congruence.
Qed.

Lemma keys_from_u32 s keys : keys_from m s keys -> Forall (fun e => is_u32 (fst e)) keys.
Proof.
  intros [Hk H]. apply Forall_forall. intros [n d] Hin. apply (In_get _ Hk) in Hin. cbn [fst].
  specialize (H n). destruct (get n (m_factories m)) as [f|] eqn:E; [|congruence].
  destruct Hm as [_ Hf]. apply Hf in E as [<- (Hu & _)]. exact Hu.
Qed.

(** ** Loading the keys of a wallet *)
Variable w : wallet.
Hypothesis Hw : wf_map (w_keys w).

Let known := filter_map (fun '(network, key) =>
      option_map (fun factory => (network, factory, key)) (get network (m_factories m)))
      (o _ (w_keys w)).
Let load : N * KeyFactory * bytes -> res kc_error Key :=
  fun '(network, factory, key) => map_err (KeyError network) (key_from_data factory key).

Lemma In_known n f d : In (n, f, d) known <-> get n (w_keys w) = Some d /\ get n (m_factories m) = Some f.
Proof.
  unfold known. rewrite In_filter_map. split.
  - intros ([n' d'] & Hin & E). destruct (get n' (m_factories m)) as [f'|] eqn:Ef; [|discriminate].
    cbn [option_map] in E. injection E as -> -> ->. split; [|exact Ef].
    apply (In_get _ Hw), (Permutation_in _ (Ho _ _)), Hin.
  - intros [Hd Hf]. exists (n, d). split.
    + apply (Permutation_in _ (Permutation_sym (Ho _ _))), (In_get _ Hw), Hd.
    + rewrite Hf. reflexivity.
Qed.

Lemma known_NoDup : NoDup (List.map (fun x => fst (fst x)) known).
Proof.
  unfold known. apply (NoDup_filter_map _ fst).
  - intros [n d] [[n' f'] d']. destruct (get n (m_factories m)); cbn [option_map]; [|discriminate].
    intros E. injection E as <- _ _. reflexivity.
  - eapply Permutation_NoDup; [|apply (wf_NoDup _ Hw)]. apply Permutation_map, Permutation_sym, Ho.
Qed.

Lemma load_ok n f d K : get n (m_factories m) = Some f -> load (n, f, d) = Ok K ->
  key_from_data f d = Ok K /\ key_network K = n.
Proof.
  intros Hf E. unfold load in E. destruct (key_from_data f d) as [K'| | |] eqn:Ek; try discriminate.
  cbn [map_err] in E. injection E as ->. split; [reflexivity|].
  destruct Hm as [_ H]. apply H in Hf as [<- (_ & _ & _ & Hfk)]. now apply Hfk in Ek.
Qed.

Lemma open_complete kc : opens_to m w kc ->
  exists l, mapM load known = Ok l /\ keychain_new l = kc.
Proof.
  intros [Hk H]. destruct (mapM_cases load known) as [[l E]|([[n f] d] & Hin & Hno & _)].
  - exists l. split; [exact E|]. apply mapM_inv in E. unfold keychain_new.
    assert (List.map (fun x => fst (fst x)) known = List.map fst (List.map (fun key => (key_network key, key)) l)) as Hn.
    { rewrite map_map. apply (Forall2_map _ _ _ _ _ E). intros [[n f] d] K Hin HK. cbn [fst].
      apply In_known in Hin as [_ Hf]. now apply (load_ok n f d K Hf) in HK as [_ ->]. }
    pose proof known_NoDup as Hd. rewrite Hn in Hd.
    apply map_ext_get; [apply of_list_wf|exact Hk|]. intros n. specialize (H n).
    destruct (get n (of_list (List.map (fun key => (key_network key, key)) l))) as [K|] eqn:Eg.
    + apply (of_list_NoDup _ Hd) in Eg. apply in_map_iff in Eg as (K' & EK & HK).
      injection EK as En <-. destruct (Forall2_In_r _ _ _ _ E HK) as ([[n' f'] d'] & Hin & HL).
      apply In_known in Hin as [Hd1 Hf1]. apply (load_ok _ _ _ _ Hf1) in HL as [HL1 HL2].
      assert (n' = n) as -> by congruence. rewrite Hd1, Hf1 in H. destruct H as (K2 & H1 & ->). congruence.
    + destruct (get n (w_keys w)) as [d|] eqn:Ed; [|now symmetry].
      destruct (get n (m_factories m)) as [f|] eqn:Ef; [|now symmetry].
      destruct H as (K & HK & _). exfalso.
      assert (In (n, f, d) known) as Hin by (now apply In_known).
      destruct (Forall2_In_l _ _ _ _ E Hin) as (K' & HK' & HL).
      apply (load_ok _ _ _ _ Ef) in HL as [_ HL]. apply get_none in Eg. apply Eg.
      apply mem_In. unfold mem. erewrite (proj2 (of_list_NoDup _ Hd n K')); [reflexivity|].
      apply in_map_iff. exists K'. split; [now rewrite HL|exact HK'].
  - apply In_known in Hin as [Hd Hf]. specialize (H n). rewrite Hd, Hf in H. destruct H as (K & HK & _).
    exfalso. apply (Hno K). unfold load. now rewrite HK.
Qed.

Lemma open_cases :
  (exists l kc, mapM load known = Ok l /\ keychain_new l = kc /\ opens_to m w kc) \/
  (exists n f d, get n (w_keys w) = Some d /\ get n (m_factories m) = Some f /\
     (forall kc, ~ opens_to m w kc) /\
     forall B (k : list Key -> res kc_error B),
       fails_as n (key_from_data f d) (bind (mapM load known) k)).
Proof.
  destruct (mapM_cases load known) as [[l E]|([[n f] d] & Hin & Hno & E)].
  - left. exists l, (keychain_new l). split; [exact E|]. split; [reflexivity|]. apply mapM_inv in E. unfold keychain_new.
    assert (List.map (fun x => fst (fst x)) known = List.map fst (List.map (fun key => (key_network key, key)) l)) as Hn.
    { rewrite map_map. apply (Forall2_map _ _ _ _ _ E). intros [[n f] d] K Hin HK. cbn [fst].
      apply In_known in Hin as [_ Hf]. now apply (load_ok n f d K Hf) in HK as [_ ->]. }
    pose proof known_NoDup as Hd. rewrite Hn in Hd.
    split; [apply of_list_wf|]. intros n.
    assert (forall K, get n (of_list (List.map (fun key => (key_network key, key)) l)) = Some K ->
      exists f d, get n (w_keys w) = Some d /\ get n (m_factories m) = Some f /\ key_from_data f d = Ok K) as Hg.
    { intros K Eg. apply (of_list_NoDup _ Hd) in Eg. apply in_map_iff in Eg as (K' & EK & HK).
      injection EK as En <-. destruct (Forall2_In_r _ _ _ _ E HK) as ([[n' f'] d'] & Hin & HL).
      apply In_known in Hin as [Hd1 Hf1]. apply (load_ok _ _ _ _ Hf1) in HL as [HL1 HL2].
      assert (n' = n) as -> by congruence. eauto. }
    destruct (get n (w_keys w)) as [d|] eqn:Ed; [destruct (get n (m_factories m)) as [f|] eqn:Ef|].
    + assert (In (n, f, d) known) as Hin by (now apply In_known).
      destruct (Forall2_In_l _ _ _ _ E Hin) as (K' & HK' & HL).
      apply (load_ok _ _ _ _ Ef) in HL as [HL1 HL2]. exists K'. split; [exact HL1|].
      apply (of_list_NoDup _ Hd). apply in_map_iff. exists K'. split; [now rewrite HL2|exact HK'].
    + destruct (get n (of_list _)) as [K|]; [|reflexivity].
      destruct (Hg K eq_refl) as (f & d' & _ & Hf & _). discriminate.
    + destruct (get n (of_list _)) as [K|]; [|reflexivity].
      destruct (Hg K eq_refl) as (f & d' & Hd' & _ & _). discriminate.
  - right. apply In_known in Hin as [Hd Hf]. exists n, f, d. split; [exact Hd|]. split; [exact Hf|]. split.
    + intros kc [_ H]. specialize (H n). rewrite Hd, Hf in H. destruct H as (K & HK & _).
      apply (Hno K). unfold load. now rewrite HK.
    + intros B k. rewrite E. unfold load in *.
      destruct (key_from_data f d) as [K|e| |]; cbn [bind map_err fails_as] in *; try reflexivity.
      now destruct (Hno K).
Qed.

Lemma opens_to_unique kc kc' : opens_to m w kc -> opens_to m w kc' -> kc = kc'.
Proof.
  intros H H'. apply open_complete in H as (l & E & <-). apply open_complete in H' as (l' & E' & <-). congruence.
Qed.
End Order.
End W.
