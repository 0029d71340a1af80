From Coq Require Import Strings.String.
From Verif Require Import Base BaseFacts Str StrFacts Prims Bip39 Bip39Spec Bip39Facts Dict DictFacts
  KeyPath Errors FMap FMapFacts Crypt CryptSpec CryptFacts Data DataSpec DataFacts XPrv Keys KeysFacts
  Mnemonic Keychain Manager ManagerSpec.
Open Scope list_scope.
Local Strategy 1000 [derive derive_loop derive_step xprv_from_data].

(** ** mapM once more *)
Lemma mapM_cases {E A B} (f : A -> res E B) l :
  (exists bs, mapM f l = Ok bs) \/
  (exists a, In a l /\ (forall b, f a <> Ok b) /\ mapM f l = bind (f a) (fun _ => Ok [])).
Proof.
  induction l as [|a l IH]; [left; eexists; reflexivity|]. cbn [mapM].
  destruct (f a) as [b|e| |] eqn:Ea; cbn [bind].
  - destruct IH as [[bs ->]|(a' & Hin & Hno & ->)]; cbn [bind]; [left; eauto|].
    right. exists a'. split; [now right|]. split; [exact Hno|].
    destruct (f a') as [b'| | |] eqn:E'; try reflexivity. now destruct (Hno b').
  - right. exists a. split; [now left|]. rewrite Ea. split; [discriminate|reflexivity].
  - right. exists a. split; [now left|]. rewrite Ea. split; [discriminate|reflexivity].
  - right. exists a. split; [now left|]. rewrite Ea. split; [discriminate|reflexivity].
Qed.

Lemma Forall2_In_l {A B} (R : A -> B -> Prop) l l' a :
  Forall2 R l l' -> In a l -> exists b, In b l' /\ R a b.
Proof.
  induction 1 as [|x y l l' Hxy H IH]; intros Hin; [destruct Hin|].
  destruct Hin as [->|Hin]; [exists y; split; [now left|exact Hxy]|].
  destruct (IH Hin) as (b & Hb & Hr). exists b. split; [now right|exact Hr].
Qed.

Lemma Forall2_In_r {A B} (R : A -> B -> Prop) l l' b :
  Forall2 R l l' -> In b l' -> exists a, In a l /\ R a b.
Proof.
  induction 1 as [|x y l l' Hxy H IH]; intros Hin; [destruct Hin|].
  destruct Hin as [->|Hin]; [exists x; split; [now left|exact Hxy]|].
  destruct (IH Hin) as (a & Ha & Hr). exists a. split; [now right|exact Hr].
Qed.

Lemma Forall2_map {A B C} (R : A -> B -> Prop) (g : A -> C) (h : B -> C) l l' :
  Forall2 R l l' -> (forall a b, In a l -> R a b -> g a = h b) -> List.map g l = List.map h l'.
Proof.
  induction 1 as [|x y l l' Hxy H IH]; intros Hr; [reflexivity|]. cbn [List.map].
  f_equal; [apply Hr; [now left|exact Hxy]|]. apply IH. intros a b Ha. apply Hr. now right.
Qed.

Lemma In_filter_map {A B} (f : A -> option B) l b :
  In b (filter_map f l) <-> exists a, In a l /\ f a = Some b.
Proof.
  induction l as [|a l IH]; cbn [filter_map].
  - split; [intros []|intros (a & [] & _)].
  - destruct (f a) as [b'|] eqn:E; cbn [In]; rewrite IH; split.
    + intros [->|(a' & H & H')]; [exists a; split; [now left|exact E]|].
      exists a'. split; [now right|exact H'].
    + intros (a' & [->|H] & H'); [left; congruence|]. right. eauto.
    + intros (a' & H & H'). exists a'. split; [now right|exact H'].
    + intros (a' & [->|H] & H'); [congruence|]. eauto.
Qed.

Lemma NoDup_filter_map {A B C} (f : A -> option B) (g : A -> C) (h : B -> C) l :
  (forall a b, f a = Some b -> h b = g a) ->
  NoDup (List.map g l) -> NoDup (List.map h (filter_map f l)).
Proof.
  intros Hf. induction l as [|a l IH]; cbn [List.map filter_map]; intros H; [constructor|].
  apply NoDup_cons_iff in H as [Hn Hd]. destruct (f a) as [b|] eqn:E; [|auto].
  cbn [List.map]. constructor; [|auto]. intros Hin. apply Hn.
  apply in_map_iff in Hin as (b' & Hb & Hin). apply In_filter_map in Hin as (a' & Ha & Hf').
  apply in_map_iff. exists a'. split; [|exact Ha]. rewrite <- (Hf _ _ E), <- (Hf _ _ Hf'). congruence.
Qed.

(** ** Seed sizes *)
Definition size_step : N * N -> KeyFactory -> N * N :=
  fun '(min, max) f =>
    (N.max min (ss_min (f_seed_size f)), N.min max (ss_max (f_seed_size f))).

Lemma fold_sizes fs : forall lo hi,
  let '(lo', hi') := fold_left size_step fs (lo, hi) in
  lo <= lo' /\ hi' <= hi /\
  (forall f, In f fs -> ss_min (f_seed_size f) <= lo' /\ hi' <= ss_max (f_seed_size f)) /\
  (lo' = lo \/ exists f, In f fs /\ ss_min (f_seed_size f) = lo') /\
  (hi' = hi \/ exists f, In f fs /\ ss_max (f_seed_size f) = hi').
Proof.
  induction fs as [|f fs IH]; intros lo hi; cbn [fold_left].
  - split; [lia|]. split; [lia|]. split; [intros f []|]. split; now left.
  - cbn [size_step]. specialize (IH (N.max lo (ss_min (f_seed_size f))) (N.min hi (ss_max (f_seed_size f)))).
    destruct (fold_left size_step fs _) as [lo' hi']. destruct IH as (H1 & H2 & H3 & H4 & H5).
    split; [lia|]. split; [lia|]. split; [|split].
    + intros g [<-|Hg]; [lia|]. now apply H3.
    + destruct H4 as [->|(g & Hg & E)].
      * destruct (N.max_spec lo (ss_min (f_seed_size f))) as [[Hl ->]|[Hl ->]]; [|now left].
        right. exists f. split; [now left|reflexivity].
      * right. exists g. split; [now right|exact E].
    + destruct H5 as [->|(g & Hg & E)].
      * destruct (N.min_spec hi (ss_max (f_seed_size f))) as [[Hl ->]|[Hl ->]]; [now left|].
        right. exists f. split; [now left|reflexivity].
      * right. exists g. split; [now right|exact E].
Qed.

(** What [calculate_seed_size] computes. *)
Lemma size_cases fs : Forall factory_ok fs ->
  exists lo hi,
    (forall f, In f fs -> ss_min (f_seed_size f) <= lo /\ hi <= ss_max (f_seed_size f)) /\
    (lo = 0 \/ exists f, In f fs /\ ss_min (f_seed_size f) = lo) /\
    ((hi = usize_max /\ forall f, In f fs -> ss_max (f_seed_size f) = usize_max) \/
     exists f, In f fs /\ ss_max (f_seed_size f) = hi) /\
    ((0 < lo < hi /\ calculate_seed_size fs = Ok lo /\ common_size fs lo) \/
     (~ (0 < lo < hi) /\ calculate_seed_size fs = Err (CantCalculateSeedSize lo hi) /\
      forall s, ~ common_size fs s)).
Proof.
  intros Hfs. rewrite Forall_forall in Hfs. unfold calculate_seed_size. fold size_step.
  pose proof (fold_sizes fs 0 usize_max) as H. destruct (fold_left size_step fs _) as [lo hi].
  destruct H as (_ & Hhi & Hall & Hlo & Hmax). exists lo, hi. split; [exact Hall|]. split; [exact Hlo|].
  assert (forall s, common_size fs s -> s = lo /\ 0 < lo < hi) as Hu.
  { intros s (Hs & (f & Hf & Ef) & Hsz). pose proof (Hall f Hf) as [Hf1 _]. pose proof (Hsz f Hf) as Hf2.
    destruct (Hfs f Hf) as (_ & _ & Hu & _).
    assert (s = lo) as <-.
    { destruct Hlo as [->|(g & Hg & Eg)]; [lia|]. specialize (Hsz g Hg). lia. }
    split; [reflexivity|]. split; [exact Hs|].
    destruct Hmax as [->|(g & Hg & <-)]; [|apply Hsz, Hg]. unfold is_usize in Hu. lia. }
  split.
  { destruct Hmax as [->|H]; [left|now right]. split; [reflexivity|]. intros f Hf.
    destruct (Hall f Hf) as [_ H]. destruct (Hfs f Hf) as (_ & _ & Hm & _). unfold is_usize in Hm. lia. }
  destruct (N.eqb_spec lo 0) as [->|Hn].
  - right. split; [lia|]. split; [reflexivity|]. intros s Hs. apply Hu in Hs. lia.
  - destruct (N.leb_spec hi lo) as [Hle|Hlt].
    + right. split; [lia|]. split; [reflexivity|]. intros s Hs. apply Hu in Hs. lia.
    + left. split; [lia|]. split; [reflexivity|]. split; [lia|].
      split; [destruct Hlo as [|H]; [congruence|exact H]|].
      intros f Hf. specialize (Hall f Hf). lia.
Qed.

Lemma common_size_unique fs s s' : common_size fs s -> common_size fs s' -> s = s'.
Proof.
  intros (_ & (f & Hf & Ef) & H) (_ & (g & Hg & Eg) & H').
  specialize (H g Hg). specialize (H' f Hf). lia.
Qed.

Lemma get_rev_last n fs f :
  get n (rev (List.map (fun f => (f_network f, f)) fs)) = Some f <-> last_for n fs f.
Proof.
  rewrite <- map_rev. unfold last_for. induction fs as [|g fs IH] using rev_ind.
  - cbn. split; [discriminate|]. intros (pre & post & E & _). destruct pre; discriminate.
  - rewrite rev_unit. cbn [List.map get]. destruct (N.eqb_spec n (f_network g)) as [->|Hn].
    + split.
      * intros E. injection E as <-. exists fs, []. split; [reflexivity|]. split; [reflexivity|]. intros g' [].
      * intros (pre & post & E & Hf & Hlast). destruct post as [|x post] using rev_ind.
        -- apply app_inj_tail in E as [_ ->]. reflexivity.
        -- rewrite app_comm_cons, app_assoc in E. apply app_inj_tail in E as [_ ->].
           exfalso. apply (Hlast x); [apply in_or_app; right; now left|]. reflexivity.
    + rewrite IH. split.
      * intros (pre & post & -> & Hf & Hlast). exists pre, (post ++ [g]).
        split; [now rewrite <- app_assoc|]. split; [exact Hf|]. intros x Hx.
        apply in_app_or in Hx as [Hx|[<-|[]]]; [now apply Hlast|congruence].
      * intros (pre & post & E & Hf & Hlast). destruct post as [|x post] using rev_ind.
        -- apply app_inj_tail in E as [_ ->]. congruence.
        -- rewrite app_comm_cons, app_assoc in E. apply app_inj_tail in E as [-> ->].
           exists pre, post. split; [reflexivity|]. split; [exact Hf|].
           intros y Hy. apply Hlast, in_or_app. now left.
Qed.

Lemma factories_get n fs f :
  get n (of_list (List.map (fun f => (f_network f, f)) fs)) = Some f <-> last_for n fs f.
Proof. rewrite get_of_list. apply get_rev_last. Qed.

Lemma with_factories_ok fs m : Forall factory_ok fs -> with_factories fs = Ok m -> manager_ok m.
Proof.
  intros Hfs. unfold with_factories. destruct (calculate_seed_size fs) as [s| | |]; try discriminate.
  cbn [bind]. intros E. injection E as <-. split; [apply of_list_wf|]. cbn [m_factories].
  intros n f H. apply factories_get in H as (pre & post & -> & Hn & _). split; [exact Hn|].
  rewrite Forall_forall in Hfs. apply Hfs, in_or_app. right. now left.
Qed.

Theorem manager_sizes fs : Forall factory_ok fs ->
  (forall s, (exists m, with_factories fs = Ok m /\ m_seed_size m = s) <-> common_size fs s) /\
  (forall m, with_factories fs = Ok m -> manager_ok m /\
     forall n f, get_key_factory m n = Some f <-> last_for n fs f) /\
  ((forall s, ~ common_size fs s) -> exists lo hi,
     with_factories fs = Err (CantCalculateSeedSize lo hi) /\
     (forall f, In f fs -> ss_min (f_seed_size f) <= lo /\ hi <= ss_max (f_seed_size f)) /\
     (lo = 0 \/ exists f, In f fs /\ ss_min (f_seed_size f) = lo) /\
     ((hi = usize_max /\ forall f, In f fs -> ss_max (f_seed_size f) = usize_max) \/
      exists f, In f fs /\ ss_max (f_seed_size f) = hi)).
Proof.
  intros Hfs. destruct (size_cases fs Hfs) as (lo & hi & Hall & Hlo & Hhi & Hc).
  split; [|split].
  - intros s. unfold with_factories. destruct Hc as [(Hr & -> & Hcs)|(Hr & -> & Hno)]; cbn [bind].
    + split.
      * intros (m & E & <-). injection E as <-. exact Hcs.
      * intros H. rewrite (common_size_unique _ _ _ H Hcs). eexists. split; reflexivity.
    + split; [intros (m & E & _); discriminate|]. intros H. now apply Hno in H.
  - intros m Hm. split; [now apply (with_factories_ok fs)|]. intros n f.
    unfold with_factories in Hm. destruct (calculate_seed_size fs); try discriminate.
    cbn [bind] in Hm. injection Hm as <-. apply factories_get.
  - intros Hno. destruct Hc as [(_ & _ & Hcs)|(_ & E & _)]; [now apply Hno in Hcs|].
    exists lo, hi. unfold with_factories. rewrite E. auto.
Qed.

Lemma common_size_perm fs fs' s : Permutation fs fs' -> common_size fs s -> common_size fs' s.
Proof.
  intros Hp (H0 & (f & Hf & E) & H). split; [exact H0|]. split.
  - exists f. split; [now apply (Permutation_in _ Hp)|exact E].
  - intros g Hg. apply H. now apply (Permutation_in _ (Permutation_sym Hp)).
Qed.

Theorem sizes_unordered fs fs' s : Forall factory_ok fs -> Permutation fs fs' ->
  (exists m, with_factories fs = Ok m /\ m_seed_size m = s) <->
  (exists m, with_factories fs' = Ok m /\ m_seed_size m = s).
Proof.
  intros Hfs Hp. pose proof (Permutation_Forall Hp Hfs) as Hfs'.
  rewrite (proj1 (manager_sizes fs Hfs)), (proj1 (manager_sizes fs' Hfs')).
  split; apply common_size_perm; [exact Hp|now apply Permutation_sym].
Qed.

(** ** Built-in networks *)
Section Builtin.
Variable P : prims.

Lemma rmap_network {A} (mk : A -> Key) (n : N) (r : res key_error A) K :
  (forall a, key_network (mk a) = n) -> rmap mk r = Ok K -> key_network K = n.
Proof.
  intros Hm. destruct r as [a| | |]; try discriminate. unfold rmap. cbn [bind]. intros E.
  assert (mk a = K) as <- by congruence. apply Hm.
Qed.

Lemma builtin_ok : Forall factory_ok (all_networks P).
Proof.
  repeat constructor; try discriminate; intros data K H;
    cbn [ada_factory eth_factory btc_factory key_from_data f_network] in *;
    (eapply rmap_network; [|exact H]); reflexivity.
Qed.

Lemma filter_Forall {A} (Q : A -> Prop) p l : Forall Q l -> Forall Q (filter p l).
Proof. intros H. apply Forall_forall. intros a Ha. apply filter_In in Ha as [Ha _]. rewrite Forall_forall in H. auto. Qed.

Lemma existsb_in (ns : list N) n : existsb (fun x => x =? n) ns = true <-> In n ns.
Proof.
  rewrite existsb_exists. split.
  - intros (x & Hx & E). apply N.eqb_eq in E. congruence.
  - intros H. exists n. split; [exact H|apply N.eqb_refl].
Qed.

Definition builtin (n : N) : option KeyFactory :=
  if n =? CARDANO then Some (ada_factory P)
  else if n =? ETHEREUM then Some (eth_factory P)
  else if n =? BITCOIN then Some (btc_factory P)
  else None.

Definition chosen (ns : list N) : list KeyFactory :=
  filter (fun f => existsb (fun n => n =? f_network f) ns) (all_networks P).

Lemma chosen_ok ns : Forall factory_ok (chosen ns).
Proof. apply filter_Forall, builtin_ok. Qed.

Lemma In_chosen ns f : In f (chosen ns) <-> In f (all_networks P) /\ In (f_network f) ns.
Proof. unfold chosen. rewrite filter_In, existsb_in. reflexivity. Qed.

Lemma builtin_all n f : builtin n = Some f <-> In f (all_networks P) /\ f_network f = n.
Proof.
  unfold builtin, all_networks. cbn [In]. split.
  - destruct (N.eqb_spec n CARDANO); [|destruct (N.eqb_spec n ETHEREUM); [|destruct (N.eqb_spec n BITCOIN)]];
      intros E; try discriminate; assert (f = _) as -> by (injection E as <-; reflexivity); subst n; auto.
  - intros [[<-|[<-|[<-|[]]]] <-]; reflexivity.
Qed.

Lemma last_chosen ns n f : last_for n (chosen ns) f <-> In n ns /\ builtin n = Some f.
Proof.
  rewrite builtin_all. split.
  - intros (pre & post & E & Hn & _).
    assert (In f (chosen ns)) as H by (rewrite E; apply in_or_app; right; now left).
    apply In_chosen in H as [H1 H2]. subst n. auto.
  - intros (Hn & Hf & E). subst n. assert (In f (chosen ns)) as H by (apply In_chosen; auto).
    apply in_split in H as (pre & post & H). exists pre, post. split; [exact H|]. split; [reflexivity|].
    assert (NoDup (List.map f_network (chosen ns))) as Hd.
    { unfold chosen, all_networks. cbn [filter].
      destruct (existsb _ ns), (existsb _ ns), (existsb _ ns); cbn [List.map];
        repeat constructor; cbn; intros Hx; repeat destruct Hx as [Hx|Hx]; try discriminate Hx; exact Hx. }
    rewrite H, map_app in Hd. cbn [List.map] in Hd. apply NoDup_remove_2 in Hd.
    intros g Hg Eg. apply Hd, in_or_app. right. rewrite <- Eg. now apply in_map.
Qed.

Theorem builtin_managers (ns : list N) :
  (forall m, with_networks P ns = Ok m -> manager_ok m /\
     (forall n f, get_key_factory m n = Some f <-> In n ns /\ builtin n = Some f)) /\
  (In BITCOIN ns \/ In ETHEREUM ns ->
     exists m, with_networks P ns = Ok m /\ m_seed_size m = 128) /\
  (~ In BITCOIN ns -> ~ In ETHEREUM ns -> In CARDANO ns ->
     exists m, with_networks P ns = Ok m /\ m_seed_size m = 96) /\
  (~ In BITCOIN ns -> ~ In ETHEREUM ns -> ~ In CARDANO ns ->
     with_networks P ns = Err (CantCalculateSeedSize 0 usize_max)).
Proof.
  change (with_networks P ns) with (with_factories (chosen ns)).
  destruct (manager_sizes _ (chosen_ok ns)) as (Hs & Hm & _).
  split; [|split; [|split]].
  - intros m E. destruct (Hm m E) as [H1 H2]. split; [exact H1|]. intros n f. rewrite H2. apply last_chosen.
  - intros H. apply Hs. split; [reflexivity|]. split.
    + destruct H as [H|H]; [exists (btc_factory P)|exists (eth_factory P)];
        (split; [apply In_chosen; split; [cbn; auto|exact H]|reflexivity]).
    + intros f Hf. apply In_chosen in Hf as [[<-|[<-|[<-|[]]]] _]; split; (discriminate || reflexivity).
  - intros Hb He Ha. apply Hs. split; [reflexivity|]. split.
    + exists (ada_factory P). split; [apply In_chosen; split; [cbn; auto|exact Ha]|reflexivity].
    + intros f Hf. apply In_chosen in Hf as [[<-|[<-|[<-|[]]]] H].
      * split; (discriminate || reflexivity).
      * now destruct (He H).
      * now destruct (Hb H).
  - intros Hb He Ha. assert (chosen ns = []) as ->; [|reflexivity].
    destruct (chosen ns) as [|f fs] eqn:E; [reflexivity|].
    assert (In f (chosen ns)) as H by (rewrite E; now left).
    apply In_chosen in H as [[<-|[<-|[<-|[]]]] H]; contradiction.
Qed.
End Builtin.

Lemma factory_sizes : forall P : prims,
  (f_network (btc_factory P), ss_min (f_seed_size (btc_factory P)), ss_max (f_seed_size (btc_factory P))) = (2 ^ 31, 128, 256) /\
  (f_network (eth_factory P), ss_min (f_seed_size (eth_factory P)), ss_max (f_seed_size (eth_factory P))) = (2 ^ 31 + 60, 128, 256) /\
  (f_network (ada_factory P), ss_min (f_seed_size (ada_factory P)), ss_max (f_seed_size (ada_factory P))) = (2 ^ 31 + 1815, 96, 256).
Proof. repeat split. Qed.
