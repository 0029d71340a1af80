(** Proofs about builds with some of the networks. *)
From Coq Require Import Strings.String.
From Verif Require Import Base Prims Bip39Spec Dict Errors FMap Data Keys Keychain Manager ManagerSpec HistorySpec
  Mnemonic MnemonicFacts ManagerFacts WalletFacts LifeFacts StoryFacts KeysFacts Features FeatureSpec InteropSpec.
Open Scope list_scope.

Section WithPrims.
Variable P : prims.

Lemma built_table (F : features) :
  List.map f_network (built_networks P F) = built_network_all F /\
  NoDup (built_network_all F) /\
  forall n, In n (built_network_all F) <-> built F n.
Proof.
  split; [destruct F as [[|] [|] [|]]; reflexivity|].
  split.
  - destruct F as [[|] [|] [|]]; cbn; repeat constructor; cbn; intuition discriminate.
  - intros n. unfold built. destruct F as [[|] [|] [|]]; cbn; intuition (try discriminate; subst; auto).
Qed.

Lemma existsb_same (ns ns' : list N) (n : N) : (In n ns <-> In n ns') ->
  existsb (fun x => x =? n) ns = existsb (fun x => x =? n) ns'.
Proof.
  intros H. apply eq_true_iff_eq. rewrite !existsb_in. exact H.
Qed.

Lemma built_chosen F ns ns' :
  (forall n, In n ns' <-> In n ns /\ In n (built_network_all F)) ->
  built_with_networks P F ns = with_networks P ns'.
Proof.
  intros H. unfold built_with_networks, with_networks. f_equal.
  assert (forall n, existsb (fun x => x =? n) ns'
            = existsb (fun x => x =? n) ns && existsb (fun x => x =? n) (built_network_all F)) as E.
  { intros n. apply eq_true_iff_eq. rewrite andb_true_iff, !existsb_in. apply H. }
  unfold built_networks, all_networks. cbn [filter f_network]. rewrite !E.
  destruct F as [[|] [|] [|]]; cbn [with_cardano with_ethereum with_bitcoin app filter built_network_all existsb];
    cbn; rewrite ?andb_true_r, ?andb_false_r; reflexivity.
Qed.

Lemma built_new_chosen F : built_new P F = with_networks P (built_network_all F).
Proof.
  unfold built_new, with_networks. f_equal.
  destruct F as [[|] [|] [|]]; reflexivity.
Qed.

Lemma built_default : built_networks P default_features = all_networks P /\
  built_network_all default_features = network_all /\
  built_new P default_features = manager_new P /\
  forall ns, built_with_networks P default_features ns = with_networks P ns.
Proof. repeat split; reflexivity. Qed.

(** The networks of [ns] that are built. *)
Definition present (F : features) (ns : list N) : list N :=
  filter (fun n => existsb (fun x => x =? n) (built_network_all F)) ns.

Lemma present_in F ns n : In n (present F ns) <-> In n ns /\ built F n.
Proof.
  unfold present. rewrite filter_In, existsb_in. destruct (built_table F) as (_ & _ & H). rewrite H. reflexivity.
Qed.

Lemma built_present F ns : built_with_networks P F ns = with_networks P (present F ns).
Proof.
  apply built_chosen. intros n. rewrite present_in. destruct (built_table F) as (_ & _ & H). rewrite H. reflexivity.
Qed.

Lemma present_twelve F ns : twelve_words F ns <-> In (2 ^ 31) (present F ns) \/ In (2 ^ 31 + 60) (present F ns).
Proof.
  rewrite !present_in. unfold twelve_words. split.
  - intros (n & [->| ->] & H); auto.
  - intros [H|H]; eexists; (split; [|exact H]); auto.
Qed.

Lemma built_restricted F ns ns' :
  (forall n, In n ns' <-> In n ns /\ built F n) -> built_with_networks P F ns = with_networks P ns'.
Proof.
  intros H. apply built_chosen. intros n. rewrite H. destruct (built_table F) as (_ & _ & H'). rewrite H'. reflexivity.
Qed.

Theorem built_managers F ns :
  (forall m, built_with_networks P F ns = Ok m -> manager_ok m /\
     forall n f, get_key_factory m n = Some f <-> In n ns /\ built F n /\ builtin_factory P n f) /\
  (twelve_words F ns -> exists m, built_with_networks P F ns = Ok m /\ m_seed_size m = 128) /\
  (~ twelve_words F ns -> In (2 ^ 31 + 1815) ns -> with_cardano F = true ->
     exists m, built_with_networks P F ns = Ok m /\ m_seed_size m = 96) /\
  ((forall n, In n ns -> ~ built F n) ->
     built_with_networks P F ns = Err (CantCalculateSeedSize 0 usize_max)) /\
  built_new P F = built_with_networks P F (built_network_all F).
Proof.
  rewrite !built_present, present_twelve. destruct (builtin_summary P (present F ns)) as (H1 & H2 & H3 & H4 & _).
  split; [|split; [|split; [|split]]].
  - intros m E. destruct (H1 m E) as (Hm & Hg & _). split; [exact Hm|]. intros n f. rewrite Hg, present_in. tauto.
  - exact H2.
  - intros Hn Hin Hc. apply H3; try tauto. rewrite present_in. split; [exact Hin|]. left. auto.
  - intros H. apply H4; rewrite present_in; intros [Hin Hb]; exact (H _ Hin Hb).
  - rewrite built_new_chosen, <- built_present. symmetry. apply built_restricted. intros n. destruct (built_table F) as (_ & _ & H). rewrite H. tauto.
Qed.

Variable C : data_config.
Hypothesis HP : prims_ok P.

Lemma builtin_data n f s : builtin_factory P n f -> List.length s = 64%nat ->
  (usable_for P [n] s -> exists d, key_data_from_seed f s = Ok d) /\
  (~ usable_for P [n] s -> key_data_from_seed f s = Err (key_of_secp SInvalidSecretKey)).
Proof.
  intros Hb Hl. unfold usable_for. cbn [In].
  destruct Hb as [[-> ->]|[[-> ->]|[-> ->]]].
  - split.
    + intros _. destruct (ada_seed_data P HP s Hl) as (h & _ & Hd & _). eauto.
    + intros H. exfalso. apply H. intros [[E|[]]|[E|[]]]; discriminate.
  - destruct (secp_seed P HP s Hl) as [(Hu & x & _ & _ & _ & Hd)|(Hn & _ & Hd)]; split; intros H; eauto; tauto.
  - destruct (secp_seed P HP s Hl) as [(Hu & x & _ & _ & Hd & _)|(Hn & Hd & _)]; split; intros H; eauto; tauto.
Qed.

Lemma built_size F ns m : built_with_networks P F ns = Ok m ->
  (twelve_words F ns /\ m_seed_size m = 128) \/ (~ twelve_words F ns /\ m_seed_size m = 96).
Proof.
  intros E. rewrite built_present in E. rewrite present_twelve.
  destruct (builtin_size P (present F ns) m E) as (t & Hs & Ht & Hi).
  destruct Ht as [->| ->]; rewrite Hs.
  - right. split; [|reflexivity]. intros H. apply Hi in H. discriminate.
  - left. split; [|reflexivity]. now apply Hi.
Qed.

Theorem added_across F G ns ns' m m' o1 o2 o t lang pw r r' x n f :
  built_with_networks P F ns = Ok m -> built_with_networks P G ns' = Ok m' ->
  order_ok o1 -> order_ok o2 -> order_ok o ->
  keychain_data_from_mnemonic P o1 o2 m t pw lang r = Ok x ->
  get_key_factory m n = None -> get_key_factory m' n = Some f ->
  ((twelve_words F ns <-> twelve_words G ns') ->
     (usable_for P [n] (bip39_seed P t) -> exists x', add_network P C o m' (fst x) pw n r' = Ok x') /\
     (~ usable_for P [n] (bip39_seed P t) ->
        add_network P C o m' (fst x) pw n r' = Err (KeyError n (key_of_secp SInvalidSecretKey)))) /\
  (~ twelve_words F ns -> twelve_words G ns' ->
     add_network P C o m' (fst x) pw n r' = Err (MnemonicError (MnemonicToShort 9 12))) /\
  (twelve_words F ns -> ~ twelve_words G ns' ->
     add_network P C o m' (fst x) pw n r' = Err (MnemonicError (MnemonicToLong 12 9))).
Proof.
  intros E E' Ho1 Ho2 Ho Ex Hn Hf.
  pose proof (built_size F ns m E) as Hsz. pose proof (built_size G ns' m' E') as Hsz'.
  rewrite built_present in E. rewrite built_present in E'.
  pose proof (builtin_manager_ok P _ m E) as Hm. pose proof (builtin_manager_ok P _ m' E') as Hm'.
  destruct (phrase_created_inv P HP o1 o2 m t lang pw r x Ho1 Ho2 Hm Ex) as (s & keys & Hp & Hk & Hw & Hst).
  pose proof (stored_read P HP C pw _ _ Hw Hst) as Hr.
  assert (get n (w_keys (phrase_wallet t (or_english lang) keys)) = None) as Hg.
  { cbn [phrase_wallet w_keys]. destruct Hk as [_ Hk]. specialize (Hk n). unfold get_key_factory in Hn. rewrite Hn in Hk. exact Hk. }
  destruct (add_cascade P HP C o m' (fst x) pw n r' Ho Hm') as [_ H]. destruct (H f Hf) as [_ H1].
  destruct (H1 _ Hr) as [_ H2]. destruct (H2 Hg) as (_ & Herr & _ & Hok). clear H H1 H2.
  assert (s = bip39_seed P t) as Es by (destruct Hp as (? & _ & _ & _ & _ & ->); reflexivity).
  assert (List.length s = 64%nat) as Hl by (subst s; apply HP).
  apply (builtin_get P _ m' n f E') in Hf as [_ Hb].
  pose proof Hp as (ws & Hph & Hall & Hwc & Hcnt & _).
  assert (forall e, seed_from_mnemonic P t [] (m_seed_size m') (or_english lang) = Err e ->
            add_network P C o m' (fst x) pw n r' = Err (MnemonicError e)) as Herr'
    by (intros e He; exact (Herr t (or_english lang) e eq_refl eq_refl eq_refl He)).
  destruct (seed_from_phrase P (or_english lang) (m_seed_size m') t) as (ws' & Hph' & Hc).
  assert (ws' = ws) as -> by (eapply phrase_words; eassumption). cbv zeta in Hc. rewrite Hcnt in Hc.
  split; [|split].
  - intros Hiff. assert (m_seed_size m' = m_seed_size m) as Em
      by (destruct Hsz as [[? ?]|[? ?]], Hsz' as [[? ?]|[? ?]]; (congruence || (exfalso; tauto))).
    assert (wallet_secret P m' (phrase_wallet t (or_english lang) keys) s) as Hsec.
    { cbn. exists t, (or_english lang). split; [reflexivity|]. split; [reflexivity|]. rewrite Em. exact Hp. }
    destruct (Hok s Hsec) as [Hd Hnd]. destruct (builtin_data n f s Hb Hl) as [Hu Hnu]. subst s. split.
    + intros H. destruct (Hu H) as [d Hd']. destruct (Hd d Hd') as (data' & r'' & w' & Ea & _). eauto.
    + intros H. specialize (Hnu H). rewrite Hnu in Hnd. apply Hnd. discriminate.
  - intros H9 H12. apply Herr'.
    destruct Hsz as [[? _]|[_ Hsz]]; [tauto|]. destruct Hsz' as [[_ Hsz']|[? _]]; [|tauto]. rewrite Hsz, Hsz' in *.
    destruct Hc as [(pre & v & post & Ev & _ & Hv & _)|[_ [(Hv & _)|(_ & [(_ & Er)|[(Hlt & _)|(He & _)]])]]].
    + exfalso. subst ws. rewrite Forall_forall in Hall. apply Hv, Hall, in_or_app. right. now left.
    + now exfalso.
    + exact Er.
    + vm_compute in Hlt. discriminate.
    + vm_compute in He. discriminate.
  - intros H9 H12. apply Herr'.
    destruct Hsz as [[_ Hsz]|[? _]]; [|tauto]. destruct Hsz' as [[? _]|[_ Hsz']]; [tauto|]. rewrite Hsz, Hsz' in *.
    destruct Hc as [(pre & v & post & Ev & _ & Hv & _)|[_ [(Hv & _)|(_ & [(Hlt & _)|[(_ & Er)|(He & _)]])]]].
    + exfalso. subst ws. rewrite Forall_forall in Hall. apply Hv, Hall, in_or_app. right. now left.
    + now exfalso.
    + vm_compute in Hlt. discriminate.
    + exact Er.
    + vm_compute in He. discriminate.
Qed.

Theorem added_across_seed F G ns ns' m m' o1 o2 o s pw r r' x n f :
  built_with_networks P F ns = Ok m -> built_with_networks P G ns' = Ok m' ->
  order_ok o1 -> order_ok o2 -> order_ok o ->
  keychain_data_from_seed P o1 o2 m s pw r = Ok x ->
  get_key_factory m n = None -> get_key_factory m' n = Some f ->
  (usable_for P [n] s -> exists x', add_network P C o m' (fst x) pw n r' = Ok x') /\
  (~ usable_for P [n] s ->
     add_network P C o m' (fst x) pw n r' = Err (KeyError n (key_of_secp SInvalidSecretKey))).
Proof.
  intros E E' Ho1 Ho2 Ho Ex Hn Hf. rewrite built_present in E. rewrite built_present in E'.
  pose proof (builtin_manager_ok P _ m E) as Hm. pose proof (builtin_manager_ok P _ m' E') as Hm'.
  destruct (seed_created_inv P HP o1 o2 m s pw r x Ho1 Ho2 Hm Ex) as (keys & Hl & Hk & Hw & Hst).
  pose proof (stored_read P HP C pw _ _ Hw Hst) as Hr.
  assert (get n (w_keys (seed_wallet s keys)) = None) as Hg.
  { cbn [seed_wallet w_keys]. destruct Hk as [_ Hk]. specialize (Hk n). unfold get_key_factory in Hn. rewrite Hn in Hk. exact Hk. }
  destruct (add_cascade P HP C o m' (fst x) pw n r' Ho Hm') as [_ H]. destruct (H f Hf) as [_ H1].
  destruct (H1 _ Hr) as [_ H2]. destruct (H2 Hg) as (_ & _ & _ & Hok). clear H H1 H2.
  apply (builtin_get P _ m' n f E') in Hf as [_ Hb].
  destruct (Hok s (conj eq_refl Hl)) as [Hd Hnd]. destruct (builtin_data n f s Hb Hl) as [Hu Hnu]. split.
  - intros H. destruct (Hu H) as [d Hd']. destruct (Hd d Hd') as (data' & r'' & w' & Ea & _). eauto.
  - intros H. specialize (Hnu H). rewrite Hnu in Hnd. apply Hnd. discriminate.
Qed.
End WithPrims.

(** ** The header *)
Lemma first_line (a b x y : bytes) : ~ In x0a a -> a ++ x0a :: x = b ++ x0a :: y ->
  (a = b /\ x = y) \/ exists b', b = a ++ x0a :: b' /\ x = b' ++ x0a :: y.
Proof.
  intros Ha E. revert b E. induction a as [|c a IH]; intros b E.
  - destruct b as [|d b]; cbn [app] in E.
    + left. split; [reflexivity|congruence].
    + right. exists b. cbn [app]. split; congruence.
  - destruct b as [|d b]; cbn [app] in E.
    + destruct Ha. left. congruence.
    + injection E as -> E. destruct (IH (fun H => Ha (or_intror H)) b E) as [[-> ->]|(b' & -> & ->)]; [now left|right]. exists b'. auto.
Qed.
Lemma line_first l0 rest l : ~ In x0a l0 -> line_of (l0 ++ [x0a] ++ rest) l <-> l = l0 \/ line_of rest l.
Proof.
  intros Hn. split.
  - intros (pre & post & E & Hl & [->|[pre' ->]]); cbn [app] in E.
    + apply (first_line l0 l) in E as [[-> _]|(b' & -> & _)]; [now left| |exact Hn].
      destruct Hl. apply in_or_app. right. now left.
    + rewrite <- app_assoc in E. cbn [app] in E.
      apply (first_line l0 pre') in E as [[_ ->]|(b' & _ & ->)]; [| |exact Hn]; right.
      * exists [], post. auto.
      * exists (b' ++ [x0a]), post. rewrite <- app_assoc. eauto.
  - intros [->|(pre & post & -> & Hl & Hp)].
    + exists [], rest. auto.
    + exists (l0 ++ [x0a] ++ pre), post. rewrite <- !app_assoc. split; [reflexivity|]. split; [exact Hl|]. right.
      destruct Hp as [->|[pre' ->]]; [exists l0; now rewrite app_nil_r|exists (l0 ++ [x0a] ++ pre'); now rewrite <- !app_assoc].
Qed.
Lemma line_none l : ~ line_of [] l.
Proof. intros (pre & post & E & _). destruct pre; [destruct l|]; discriminate. Qed.

(** The name that a definition gives. *)
Fixpoint until_tab (l : bytes) : bytes :=
  match l with [] => [] | c :: l => if Byte.eqb c x09 then [] else c :: until_tab l end.
Lemma definition_name name tabs l : ~ In x09 name -> tabs <> [] -> Forall (eq x09) tabs ->
  blit "#define " ++ name ++ tabs ++ blit "1" = l -> firstn 8 l = blit "#define " /\ until_tab (skipn 8 l) = name.
Proof.
  intros Hn Ht Hf <-. split; [reflexivity|]. change (until_tab (name ++ tabs ++ blit "1") = name).
  destruct tabs as [|c tabs]; [contradiction|]. inversion Hf as [|? ? <- _]; subst. clear -Hn.
  induction name as [|d name IH]; [reflexivity|]. cbn [app until_tab].
  destruct (Byte.eqb d x09) eqn:E; [apply Byte.byte_dec_bl in E; destruct Hn; now left|].
  f_equal. apply IH. intros H. apply Hn. now right.
Qed.
Lemma defines_line name l0 rest : ~ In x0a l0 ->
  defines (l0 ++ [x0a] ++ rest) name <->
  defines rest name \/
  ~ In x09 name /\ exists tabs, tabs <> [] /\ Forall (eq x09) tabs /\ blit "#define " ++ name ++ tabs ++ blit "1" = l0.
Proof.
  intros Hn. unfold defines. split.
  - intros (Hx & tabs & Ht & Hf & Hl). apply line_first in Hl as [<-|Hl]; [right|left|exact Hn]; eauto 10.
  - intros [(Hx & tabs & Ht & Hf & Hl)|(Hx & tabs & Ht & Hf & Hl)]; (split; [exact Hx|]; exists tabs; split; [exact Ht|]; split; [exact Hf|]);
      apply line_first; auto.
Qed.
Lemma defines_one name macro tabs rest : ~ In x09 macro -> ~ In x0a macro -> tabs <> [] -> Forall (eq x09) tabs ->
  defines (blit "#define " ++ macro ++ tabs ++ blit "1" ++ [x0a] ++ rest) name <-> name = macro \/ defines rest name.
Proof.
  intros Hm Hm0 Ht Hf.
  replace (blit "#define " ++ macro ++ tabs ++ blit "1" ++ [x0a] ++ rest)
    with ((blit "#define " ++ macro ++ tabs ++ blit "1") ++ [x0a] ++ rest) by now rewrite <- !app_assoc.
  rewrite defines_line.
  - split.
    + intros [H|(Hn & tabs' & Ht' & Hf' & E)]; [now right|left].
      destruct (definition_name name tabs' _ Hn Ht' Hf' E) as [_ <-].
      now destruct (definition_name macro tabs _ Hm Ht Hf eq_refl) as [_ ->].
    + intros [->|H]; [right|now left]. eauto 10.
  - rewrite !in_app_iff. intros [H|[H|[H|H]]]; [|contradiction| |].
    + vm_compute in H. repeat (destruct H as [H|H]; [discriminate|]). destruct H.
    + rewrite Forall_forall in Hf. specialize (Hf _ H). discriminate.
    + vm_compute in H. destruct H as [H|[]]. discriminate.
Qed.

Theorem header_defines F backup name : defines (config_header F backup) name <->
  (name = blit "WITH_FEATURE_CARDANO" /\ with_cardano F = true) \/
  (name = blit "WITH_FEATURE_ETHEREUM" /\ with_ethereum F = true) \/
  (name = blit "WITH_FEATURE_BITCOIN" /\ with_bitcoin F = true) \/
  (name = blit "WITH_FEATURE_BACKUP" /\ backup = true).
Proof.
  assert (forall rest, defines (blit "/* Library built with these features: */" ++ [x0a; x0a] ++ rest) name <-> defines rest name) as H0.
  { intros rest. change (blit "/* Library built with these features: */" ++ [x0a; x0a] ++ rest)
      with (blit "/* Library built with these features: */" ++ [x0a] ++ [] ++ [x0a] ++ rest).
    rewrite !defines_line.
    - split; [|auto]. intros [[H|(Hn & tabs & Ht & Hf & E)]|(Hn & tabs & Ht & Hf & E)]; [exact H| |];
        destruct (definition_name _ _ _ Hn Ht Hf E) as [H _]; discriminate H.
    - intros [].
    - intros H. vm_compute in H. repeat (destruct H as [H|H]; [discriminate|]). destruct H. }
  assert (forall macro tabs rest (b : bool), ~ In x09 macro -> ~ In x0a macro -> tabs <> [] -> Forall (eq x09) tabs ->
    defines ((if b then (blit "#define " ++ macro) ++ tabs ++ blit "1" ++ [x0a] else []) ++ rest) name <->
    (name = macro /\ b = true) \/ defines rest name) as H1.
  { intros macro tabs rest [|] Hm Hm0 Ht Hf.
    - rewrite <- !app_assoc. rewrite (defines_one name macro tabs rest Hm Hm0 Ht Hf). tauto.
    - cbn [app]. intuition discriminate. }
  unfold config_header. rewrite H0.
  change (blit "#define WITH_FEATURE_CARDANO") with (blit "#define " ++ blit "WITH_FEATURE_CARDANO").
  change (blit "#define WITH_FEATURE_ETHEREUM") with (blit "#define " ++ blit "WITH_FEATURE_ETHEREUM").
  change (blit "#define WITH_FEATURE_BITCOIN") with (blit "#define " ++ blit "WITH_FEATURE_BITCOIN").
  change (blit "#define WITH_FEATURE_BACKUP") with (blit "#define " ++ blit "WITH_FEATURE_BACKUP").
  rewrite <- (app_nil_r (if backup then _ else _)).
  rewrite !H1 by (try discriminate; try (repeat constructor);
    intros H; vm_compute in H; repeat (destruct H as [H|H]; [discriminate|]); destruct H).
  assert (~ defines [] name) as Hn by (intros (_ & tabs & _ & _ & Hl); now apply line_none in Hl). tauto.
Qed.
