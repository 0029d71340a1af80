(** Proofs about texts of errors: where they may contain a NUL; and which
    operations of the built-in networks are free of undefined behaviour. *)
From Coq Require Import Strings.String Permutation.
From Verif Require Import Base Str Prims Bip39 Dict KeyPath Errors FMap Crypt Data XPrv XPrvSpec Keys Mnemonic
  Keychain Manager ManagerSpec Display Ffi FfiSpec KeyPathSpec Bip39Spec.
From Verif Require Import BaseFacts StrFacts FMapFacts KeyPathFacts XPrvFacts KeysFacts MnemonicFacts ManagerFacts WalletFacts
  LifeFacts StoryFacts.
Open Scope list_scope.
Local Strategy 1000 [XPrv.derive XPrv.derive_loop XPrv.derive_step XPrv.xprv_from_data].

(** ** NUL in UTF-8 *)
Lemma n2b_nonzero n : 0 < n < 256 -> n2b n <> x00.
Proof. intros H E. pose proof (b2n_n2b_small n ltac:(lia)) as H1. rewrite E in H1. cbn in H1. lia. Qed.
Lemma n2b_wrap n : 0 < n mod 256 -> n2b n <> x00.
Proof. intros H E. pose proof (b2n_n2b n) as H1. rewrite E in H1. cbn in H1. lia. Qed.

Lemma utf8_char_nul c : is_scalar c = true -> (In x00 (utf8_char c) <-> c = 0).
Proof.
  intros Hs. apply is_scalar_spec in Hs. split; [|intros ->; now left].
  unfold utf8_char. intros Hin. destruct (N.eq_dec c 0) as [|Hc]; [assumption|exfalso]. revert Hin.
  assert (forall x, x mod 64 < 64) by (intros; apply N.mod_lt; lia).
  pose proof (H c). pose proof (H (c / 64)). pose proof (H (c / 4096)).
  destruct (N.ltb_spec c 0x80). { intros [E|[]]. now apply (n2b_nonzero c ltac:(lia)). }
  destruct (N.ltb_spec c 0x800).
  { assert (c / 64 < 32) by (apply N.div_lt_upper_bound; lia).
    intros [E|[E|[]]]; revert E; apply n2b_nonzero; lia. }
  destruct (N.ltb_spec c 0x10000).
  { assert (c / 4096 < 16) by (apply N.div_lt_upper_bound; lia).
    intros [E|[E|[E|[]]]]; revert E; apply n2b_nonzero; lia. }
  assert (c / 262144 < 8) by (apply N.div_lt_upper_bound; lia).
  intros [E|[E|[E|[E|[]]]]]; revert E; apply n2b_nonzero; lia.
Qed.
Lemma utf8_nul s : valid_str s -> (In x00 (utf8 s) <-> In 0 s).
Proof.
  intros Hv. unfold utf8. rewrite in_flat_map. unfold valid_str in Hv. rewrite Forall_forall in Hv. split.
  - intros (c & Hc & H). apply utf8_char_nul in H; [now subst|now apply Hv].
  - intros H. exists 0. split; [exact H|]. now left.
Qed.

Lemma of_utf8_nul_n : forall n l s, (List.length l <= n)%nat -> of_utf8 l = Some s -> In 0 s -> In x00 l.
Proof.
  induction n as [|n IH]; intros l s Hn H Hin.
  { destruct l; [|cbn in Hn; lia]. injection H as <-. destruct Hin. }
  destruct l as [|b0 r0]; [injection H as <-; destruct Hin|]. cbn [List.length] in Hn.
  cbn [of_utf8] in H. cbv zeta in H.
  assert (forall r k s' x, (List.length r <= n)%nat -> option_map (cons k) (of_utf8 r) = Some s' -> k <> 0 ->
    In 0 s' -> In x (b0 :: r0) -> (forall y, In y r -> In y (b0 :: r0)) -> In x00 (b0 :: r0)) as Hgen.
  { intros r k s' x Hr E Hk Hi _ Hsub. destruct (of_utf8 r) as [u|] eqn:Er; [|discriminate]. injection E as <-.
    destruct Hi as [->|Hi]; [congruence|]. apply Hsub. now apply (IH r u). }
  destruct (N.ltb_spec (b2n b0) 0x80).
  { destruct (of_utf8 r0) as [u|] eqn:Er; [|discriminate]. injection H as <-. destruct Hin as [Hin|Hin].
    - left. apply b2n_inj. exact Hin.
    - right. apply (IH r0 u); [lia|exact Er|exact Hin]. }
  destruct r0 as [|b1 r1]; [discriminate|]. cbn [List.length] in Hn.
  destruct (is_cont b1) eqn:C1; cbn [negb] in H; [|discriminate].
  destruct (N.ltb_spec (b2n b0) 0xC2); [discriminate|].
  destruct (N.ltb_spec (b2n b0) 0xE0).
  { apply (Hgen r1 _ s b0 ltac:(lia) H); [lia|exact Hin|now left|]. intros y Hy. right. now right. }
  destruct r1 as [|b2 r2]; [discriminate|]. cbn [List.length] in Hn.
  destruct (is_cont b2) eqn:C2; cbn [negb] in H; [|discriminate].
  destruct (N.ltb_spec (b2n b0) 0xF0).
  { destruct ((_ <=? _) && _) eqn:Ec; [|discriminate]. apply andb_true_iff in Ec as [Ec _]. apply N.leb_le in Ec.
    apply (Hgen r2 _ s b0 ltac:(lia) H); [lia|exact Hin|now left|]. intros y Hy. right. right. now right. }
  destruct r2 as [|b3 r3]; [discriminate|]. cbn [List.length] in Hn.
  destruct (is_cont b3) eqn:C3; cbn [negb] in H; [|discriminate].
  destruct ((_ <=? _) && _) eqn:Ec; [|discriminate]. apply andb_true_iff in Ec as [Ec _]. apply N.leb_le in Ec.
  apply (Hgen r3 _ s b0 ltac:(lia) H); [lia|exact Hin|now left|]. intros y Hy. right. right. right. now right.
Qed.

(** Strings without NUL in their encoding *)
Notation nn s := (no_nul (utf8 s)).
Lemma nn_app a b : nn (a ++ b) <-> nn a /\ nn b.
Proof. unfold no_nul. rewrite utf8_app, in_app_iff. tauto. Qed.
Lemma nn_nil : nn [].
Proof. intros []. Qed.
Lemma of_utf8_nn l s : no_nul l -> of_utf8 l = Some s -> nn s.
Proof.
  intros Hl E Hin. apply utf8_nul in Hin; [|now apply JsonFacts.of_utf8_valid in E].
  apply Hl. now apply (of_utf8_nul_n (List.length l) l s).
Qed.
Lemma nn_ascii s : forallb (fun c => (0 <? c) && (c <? 128)) s = true -> nn s.
Proof.
  intros H Hin. rewrite forallb_forall in H. unfold utf8 in Hin. apply in_flat_map in Hin as (c & Hc & Hin).
  apply H in Hc. apply andb_true_iff in Hc as [H1 H2]. apply N.ltb_lt in H1. apply N.ltb_lt in H2.
  apply utf8_char_nul in Hin; [lia|]. apply is_scalar_spec. lia.
Qed.
Lemma nn_dec n : nn (dec n).
Proof.
  apply nn_ascii, forallb_forall. intros c Hc. pose proof (dec_fuel_digits 20 n) as H. rewrite Forall_forall in H.
  apply H in Hc. unfold digit in Hc. apply andb_true_iff. rewrite !N.ltb_lt. lia.
Qed.
Lemma nn_bin8 n : nn (bin8 n).
Proof.
  apply nn_ascii, forallb_forall. intros c Hc. unfold bin8 in Hc. apply in_map_iff in Hc as (i & <- & _).
  now destruct (N.testbit n i).
Qed.
Lemma nn_flat (p : str) s : (forall c, In c p -> In c s) -> nn s -> nn p.
Proof.
  intros H Hs Hin. apply Hs. unfold utf8 in *. apply in_flat_map in Hin as (c & Hc & Hin). apply in_flat_map. eauto.
Qed.

(** ** Errors whose texts have no NUL *)
Definition clean_mnemonic (e : mnemonic_error) : Prop :=
  match e with UnsupportedWordFound w => nn w | _ => True end.
Definition clean_kp (e : kp_error) : Prop :=
  match e with InvalidPathMarker m => nn m | _ => True end.
Definition clean_boxed (e : boxed_error) : Prop :=
  match e with BoxOther t => nn t | _ => True end.
Definition clean_key (e : key_error) : Prop :=
  match e with
  | InvalidKeyPath e => clean_kp e
  | InvalidMnemonic e => clean_mnemonic e
  | InvalidKeyData e => clean_boxed e
  | SignError e => clean_boxed e
  | _ => True
  end.
(** Without regard to data errors. *)
Definition clean (e : kc_error) : Prop :=
  match e with
  | KeyError _ e => clean_key e
  | MnemonicError e => clean_mnemonic e
  | KeyPathError e => clean_kp e
  | _ => True
  end.

Local Opaque lit.
Ltac nn_solve := rewrite ?nn_app; repeat split; auto using nn_dec, nn_bin8; try (apply nn_ascii; reflexivity).

Lemma show_secp_nn e : nn (show_secp e).
Proof. destruct e; cbn [show_secp]; nn_solve. Qed.
Lemma show_ada_nn e : nn (show_ada e).
Proof. destruct e; cbn [show_ada]; nn_solve. Qed.
Lemma show_bip39_nn e : nn (show_bip39 e).
Proof. destruct e; cbn [show_bip39]; nn_solve. Qed.
Lemma show_mnemonic_nn e : nn (show_mnemonic e) <-> clean_mnemonic e.
Proof.
  destruct e; cbn [show_mnemonic clean_mnemonic]; (split; [tauto||(rewrite !nn_app; tauto)|intros H]);
    nn_solve; auto using show_bip39_nn.
Qed.
Lemma show_boxed_nn e : nn (show_boxed e) <-> clean_boxed e.
Proof. destruct e; cbn [show_boxed clean_boxed]; split; auto using show_secp_nn, show_ada_nn. Qed.
Lemma show_network_nn n : nn (show_network n).
Proof. unfold show_network. nn_solve. Qed.

Section T.
Variable T : texts.
Hypothesis HT : texts_ok T.
Lemma show_kp_nn e : nn (show_kp e) <-> clean_kp e.
Proof.
  destruct e as [| | | | | | | |i []]; cbn [show_kp show_int clean_kp]; (split; [tauto||(rewrite !nn_app; tauto)|intros H]); nn_solve.
Qed.
Lemma show_key_nn e : nn (show_key e) <-> clean_key e.
Proof.
  destruct e; cbn [show_key clean_key]; (split; [tauto||(rewrite !nn_app, ?show_kp_nn, ?show_mnemonic_nn, ?show_boxed_nn; tauto)|intros H]);
    nn_solve; try (apply show_kp_nn; assumption); try (apply show_mnemonic_nn; assumption); try (apply show_boxed_nn; assumption).
Qed.
Theorem show_nn e : nn (show T e) <-> clean e /\ ~ nul_variant e.
Proof.
  pose proof HT as (H2 & H3).
  destruct e as [ | | | a b | a | a | a | a | [|v] | n e | e | e ]; cbn [show clean nul_variant show_data].
  1-9: split; [tauto|intros _; nn_solve; auto using show_network_nn].
  - split; [rewrite !nn_app; unfold no_nul; tauto|]. intros [_ H]. nn_solve.
  - split; [rewrite !nn_app, show_key_nn; tauto|]. intros [H _]. nn_solve; [now apply show_key_nn|apply show_network_nn].
  - split; [rewrite !nn_app, show_mnemonic_nn; tauto|]. intros [H _]. nn_solve. now apply show_mnemonic_nn.
  - split; [rewrite !nn_app, show_kp_nn; tauto|]. intros [H _]. nn_solve. now apply show_kp_nn.
Qed.
End T.

(** ** Outcomes without undefined behaviour and with errors of a kind *)
Definition tame {E A} (Q : E -> Prop) (r : res E A) : Prop :=
  match r with Err e => Q e | Undef => False | _ => True end.
Lemma tame_bind {E A B} (Q : E -> Prop) (r : res E A) (k : A -> res E B) :
  tame Q r -> (forall a, r = Ok a -> tame Q (k a)) -> tame Q (bind r k).
Proof. destruct r; cbn; auto. Qed.
Lemma tame_map_err {E F A} (g : E -> F) (Q : E -> Prop) (R : F -> Prop) (r : res E A) :
  tame Q r -> (forall e, Q e -> R (g e)) -> tame R (map_err g r).
Proof. destruct r; cbn; auto. Qed.
Lemma tame_rmap {E A B} (g : A -> B) (Q : E -> Prop) (r : res E A) : tame Q r -> tame Q (rmap g r).
Proof. destruct r; cbn; auto. Qed.
Lemma tame_calm {E A} (r : res E A) : r <> Panic /\ r <> Undef -> tame (fun _ => True) r.
Proof. destruct r; cbn; tauto. Qed.
Lemma tame_defined {E A} (Q : E -> Prop) (r : res E A) : tame Q r -> r <> Undef.
Proof. intros H ->. exact H. Qed.
Lemma tame_mapM {E A B} (Q : E -> Prop) (f : A -> res E B) l :
  (forall a, In a l -> tame Q (f a)) -> tame Q (mapM f l).
Proof.
  induction l as [|a l IH]; cbn [mapM]; intros H; [exact I|].
  apply tame_bind; [apply H; now left|]. intros b _. apply tame_bind; [apply IH; intros; apply H; now right|].
  intros; exact I.
Qed.
Lemma clean_secp e : clean_key (key_of_secp e).
Proof. destruct e; exact I. Qed.

Section K.
Variable P : prims.
Hypothesis HP : prims_ok P.

(** *** Keys *)
Definition tame_key (K : Key) : Prop := forall p, u32_path p ->
  tame clean_key (pub_key K p) /\ (forall d, tame clean_key (sign K d p)) /\
  forall d s, tame clean_key (verify K d s p).

Lemma check_tame {A} p (k : res key_error A) : tame clean_key k -> tame clean_key (check_rest p k).
Proof.
  intros H. unfold check_rest, path_err. destruct (_ <? _); [exact I|]. destruct (_ && _); [exact I|].
  now destruct (_ <=? _).
Qed.
Lemma derive_tame x i : is_u32 i -> tame (fun _ => True) (derive P x i).
Proof. intros H. apply tame_calm. now apply derive_total. Qed.

Lemma secp_key_tame n d : (forall p, u32_path p -> tame clean_key (d p)) -> tame_key (secp_key P n d).
Proof.
  intros H p Hp. cbn [secp_key pub_key sign verify]. split; [now apply tame_rmap, H|]. split.
  - intros dt. apply tame_bind; [now apply H|]. intros x _. apply tame_map_err with (Q := fun _ => True); [|intros; exact I].
    unfold xprv_sign. destruct (secp_sign P _ _) as [[[r s] i]|]; [|exact I]. now destruct (_ && _).
  - intros dt sg. apply tame_bind; [now apply H|]. intros x _. apply tame_map_err with (Q := fun _ => True).
    + unfold xpub_verify. now destruct (negb _).
    + intros e _. apply clean_secp.
Qed.

Lemma btc_tame x : tame_key (btc_key P x).
Proof.
  apply secp_key_tame. intros p (H1 & H2 & H3 & H4 & H5). unfold btc_derive_private.
  destruct (negb _); [exact I|]. apply check_tame. apply tame_map_err with (Q := fun _ => True); [|intros; apply clean_secp].
  repeat (apply tame_bind; [now apply derive_tame|intros ? _]). now apply derive_tame.
Qed.
Lemma eth_tame x : tame_key (eth_key P x).
Proof.
  apply secp_key_tame. intros p (H1 & H2 & H3 & H4 & H5). unfold eth_derive_private.
  destruct (negb _); [exact I|]. destruct (negb _); [exact I|]. apply check_tame.
  apply tame_map_err with (Q := fun _ => True); [|intros; apply clean_secp].
  repeat (apply tame_bind; [now apply derive_tame|intros ? _]). now apply derive_tame.
Qed.
Lemma ada_tame x : tame_key (ada_key P x).
Proof.
  intros p _. assert (tame clean_key (ada_derive_private P x p)) as H.
  { unfold ada_derive_private. destruct (negb _); [exact I|]. destruct (negb _); [exact I|]. now apply check_tame. }
  cbn [ada_key pub_key sign verify]. split; [now apply tame_rmap|]. split; [intros; now apply tame_rmap|].
  intros d s. destruct (Nat.ltb _ _); [exact I|]. destruct (negb _); [exact I|]. now apply tame_rmap.
Qed.

(** *** Factories *)
Definition tame_factory (f : KeyFactory) : Prop :=
  (forall s, tame clean_key (key_data_from_seed f s)) /\
  forall d, tame clean_key (key_from_data f d) /\ forall K, key_from_data f d = Ok K -> tame_key K.

Lemma with_seed_tame k s : (forall s, tame clean_key (k s)) -> tame clean_key (with_seed k s).
Proof.
  intros H. unfold with_seed, seed_from_slice. destruct (negb _); [exact I|]. cbn [map_err bind]. apply H.
Qed.
Lemma secp_seed_tame s : tame clean_key (secp_data_from_seed P s).
Proof.
  unfold secp_data_from_seed. apply tame_bind; [|intros; exact I].
  apply tame_map_err with (Q := fun _ => True); [|intros; apply clean_secp].
  destruct (from_seed_cases P HP s) as [(_ & x & -> & _)|(_ & ->)]; exact I.
Qed.
Lemma verified_tame d : tame clean_key (from_bytes_verified d).
Proof. unfold from_bytes_verified. destruct (negb _); [exact I|]. now destruct (negb _). Qed.
Lemma rmap_loaded {A} (mk : A -> Key) (r : res key_error A) :
  tame clean_key r -> (forall a, tame_key (mk a)) ->
  tame clean_key (rmap mk r) /\ forall K, rmap mk r = Ok K -> tame_key K.
Proof.
  intros H Hk. split; [now apply tame_rmap|]. intros K E. destruct r as [a| | |]; try discriminate.
  cbn in E. injection E as <-. apply Hk.
Qed.

Lemma all_tame : Forall tame_factory (all_networks P).
Proof.
  assert (tame_factory (ada_factory P)) as H1.
  { split; [intros s|intros d].
    - cbn [ada_factory key_data_from_seed]. apply with_seed_tame. intros x. apply verified_tame.
    - cbn [ada_factory key_from_data]. apply rmap_loaded; [|apply ada_tame]. unfold ada_from_data.
      destruct (Nat.ltb _ _); [exact I|]. destruct (negb _); [exact I|].
      apply tame_bind; [apply verified_tame|intros; exact I]. }
  assert (tame_factory (eth_factory P)) as H2.
  { split; [intros s|intros d].
    - cbn [eth_factory key_data_from_seed]. apply with_seed_tame, secp_seed_tame.
    - cbn [eth_factory key_from_data]. apply rmap_loaded; [|apply eth_tame]. unfold eth_from_data.
      apply tame_map_err with (Q := fun _ => True); [|intros; apply clean_secp].
      apply tame_bind; [now apply tame_calm, from_data_total|intros x _].
      apply tame_bind; [apply derive_tame; discriminate|intros y _]. apply derive_tame. discriminate. }
  assert (tame_factory (btc_factory P)) as H3.
  { split; [intros s|intros d].
    - cbn [btc_factory key_data_from_seed]. apply with_seed_tame, secp_seed_tame.
    - cbn [btc_factory key_from_data]. apply rmap_loaded; [|apply btc_tame]. unfold btc_from_data.
      apply tame_map_err with (Q := fun _ => True); [|intros; apply clean_secp]. now apply tame_calm, from_data_total. }
  unfold all_networks. auto.
Qed.

(** *** Managers *)
Definition tame_manager (m : manager) : Prop := forall n f, In (n, f) (m_factories m) -> tame_factory f.
Lemma new_tame ns m : with_networks P ns = Ok m -> tame_manager m.
Proof.
  intros E n f Hin.
  pose proof (builtin_manager_ok P _ m E) as Hm.
  assert (get n (m_factories m) = Some f) as Hg by (apply In_get; [apply Hm|exact Hin]).
  apply (builtin_get P _ m n f E) in Hg as [_ Hb]. pose proof all_tame as Ha. rewrite Forall_forall in Ha. apply Ha.
  unfold all_networks. destruct Hb as [[_ ->]|[[_ ->]|[_ ->]]]; cbn; auto.
Qed.

Lemma seed_tame m sd mn lang : (forall t, mn = Some t -> nn t) -> tame clean (seed_from_data P m sd mn lang).
Proof.
  intros H. unfold seed_from_data. destruct sd as [s|].
  - now destruct (Nat.eqb _ _).
  - destruct mn as [t|]; cbn [ok_or bind]; [|exact I]. destruct lang as [l|]; cbn [ok_or bind]; [|exact I].
    apply tame_map_err with (Q := clean_mnemonic); [|auto].
    destruct (seed_from_phrase P l (m_seed_size m) t) as (ws & Hp & Hc). cbv zeta in Hc.
    destruct Hc as [(pre & w & post & -> & _ & _ & ->)|(_ & [(_ & ->)|(_ & [(_ & ->)|[(_ & ->)|(_ & ->)]])])]; try exact I.
    cbn [tame clean_mnemonic]. apply nn_flat with t; [|now apply H].
    intros c Hc. apply phrase_join in Hp. subst t. clear - Hc.
    induction pre as [|p pre IH]; cbn [app].
    + destruct post; cbn [join]; [exact Hc|]. apply in_app_iff. now left.
    + destruct (pre ++ w :: post) eqn:E; [destruct pre; discriminate|].
      cbn [join]. rewrite !in_app_iff. auto.
Qed.

Lemma create_tame o1 o2 m sd pw mn lang r : order_ok o1 -> tame_manager m -> (forall t, mn = Some t -> nn t) ->
  tame clean (new_keychain_data P o1 o2 m sd pw mn lang r).
Proof.
  intros Ho Hm Hn. unfold new_keychain_data. apply tame_bind; [now apply seed_tame|]. intros s _.
  apply tame_bind; [|intros; exact I]. apply tame_mapM. intros f Hf. apply in_map_iff in Hf as ([n f'] & <- & Hf).
  apply (Permutation_in _ (Ho _ (m_factories m))) in Hf. cbn [snd].
  unfold data_of. apply tame_map_err with (Q := clean_key); [|auto]. apply tame_rmap. now apply (Hm n f' Hf).
Qed.

Lemma seed_calm m sd mn lang : tame (fun _ => True) (seed_from_data P m sd mn lang).
Proof.
  unfold seed_from_data. destruct sd as [s|]; [now destruct (Nat.eqb _ _)|].
  destruct mn as [t|]; cbn [ok_or bind]; [|exact I]. destruct lang as [l|]; cbn [ok_or bind]; [|exact I].
  apply tame_map_err with (Q := fun _ => True); [|auto]. pose proof (seed_from_phrase_total P l (m_seed_size m) t).
  now destruct (seed_from_mnemonic _ _ _ _ _).
Qed.
Lemma create_calm o1 o2 m sd pw mn lang r : order_ok o1 -> tame_manager m ->
  tame (fun _ => True) (new_keychain_data P o1 o2 m sd pw mn lang r).
Proof.
  intros Ho Hm. unfold new_keychain_data. apply tame_bind; [apply seed_calm|]. intros s _.
  apply tame_bind; [|intros; exact I]. apply tame_mapM. intros f Hf. apply in_map_iff in Hf as ([n f'] & <- & Hf).
  apply (Permutation_in _ (Ho _ (m_factories m))) in Hf. cbn [snd].
  unfold data_of. apply tame_map_err with (Q := clean_key); [|auto]. apply tame_rmap. now apply (Hm n f' Hf).
Qed.

Variable C : data_config.
Lemma decode_tame data pw : tame clean (keychain_data_from_bytes P C data pw).
Proof.
  destruct (decode_cases P HP C data pw) as [(w & -> & _)|[(_ & ->)|[(_ & _ & ->)|(d & s & k & e & _ & _ & _ & ->)]]]; exact I.
Qed.

Definition tame_keychain (kc : Keychain) : Prop := forall n p, u32_path p ->
  tame clean (kc_pub_key kc n p) /\ (forall d, tame clean (kc_sign kc n d p)) /\
  forall d s, tame clean (kc_verify kc n d s p).

Lemma open_tame o m data pw : order_ok o -> tame_manager m ->
  tame clean (keychain_from_data P C o m data pw) /\
  forall kc, keychain_from_data P C o m data pw = Ok kc -> tame_keychain kc.
Proof.
  intros Ho Hm. unfold keychain_from_data.
  pose proof (decode_tame data pw) as Hd. destruct (keychain_data_from_bytes P C data pw) as [w| | |]; cbn [bind tame] in *.
  2-4: split; [assumption||exact I|discriminate].
  set (known := filter_map _ _).
  assert (forall n f k, In (n, f, k) known -> tame_factory f) as Hk.
  { intros n f k Hin. apply In_filter_map in Hin as ([n' k'] & Hin & E). destruct (get n' (m_factories m)) as [f'|] eqn:Eg; [|discriminate].
    injection E as -> -> ->. apply get_In in Eg. now apply (Hm n). }
  set (load := fun '(network, factory, key) => map_err (KeyError network) (key_from_data factory key)).
  split.
  - apply tame_bind; [|intros; exact I]. apply tame_mapM. intros [[n f] k] Hin. cbn [load].
    apply tame_map_err with (Q := clean_key); [|auto]. now apply (Hk n f k Hin).
  - intros kc E. destruct (mapM load known) as [keys| | |] eqn:Em; try discriminate. injection E as <-.
    assert (forall K, In K keys -> tame_key K) as HK.
    { intros K HK. apply mapM_inv in Em. destruct (Forall2_In_r _ _ _ K Em HK) as ([[n f] k] & Hin & El).
      cbn [load] in El. apply map_err_ok in El. now apply (Hk n f k Hin) in El. }
    intros n p Hp. unfold kc_pub_key, kc_sign, kc_verify, pk, keychain_new.
    rewrite get_of_list, <- map_rev. destruct (get n (List.map _ _)) as [K|] eqn:Eg; cbn [ok_or bind].
    + apply get_In, in_map_iff in Eg as (K' & E' & Hin). injection E' as _ <-.
      apply in_rev in Hin. destruct (HK K' Hin p Hp) as (T1 & T2 & T3).
      split; [|split; intros]; apply tame_map_err with (Q := clean_key); auto.
    + split; [|split; intros]; exact I.
Qed.

Lemma add_tame o m data pw n r : tame_manager m ->
  (forall w t, keychain_data_from_bytes P C data pw = Ok w -> w_mnemonic w = Some t -> nn t) ->
  tame clean (add_network P C o m data pw n r).
Proof.
  intros Hm Hn. unfold add_network. destruct (get n (m_factories m)) as [f|] eqn:Ef; cbn [ok_or bind]; [|exact I].
  apply get_In in Ef. apply tame_bind; [apply decode_tame|]. intros w Ew.
  destruct (get n (w_keys w)); [exact I|]. apply tame_bind; [apply seed_tame; intros t; now apply Hn|]. intros s _.
  apply tame_bind; [|intros; exact I]. apply tame_map_err with (Q := clean_key); [|auto]. now apply (Hm n f Ef).
Qed.
(** Without the assumption on the phrase, only the error may differ. *)
Lemma add_calm o m data pw n r : tame_manager m -> add_network P C o m data pw n r <> Undef.
Proof.
  intros Hm. assert (tame (fun _ => True) (add_network P C o m data pw n r)) as H; [|intros E; rewrite E in H; exact H].
  assert (forall A (x : res kc_error A), tame clean x -> tame (fun _ => True) x) as Hw by (intros A []; cbn; auto).
  unfold add_network. destruct (get n (m_factories m)) as [f|] eqn:Ef; cbn [ok_or bind]; [|exact I].
  apply get_In in Ef. apply tame_bind; [apply Hw, decode_tame|]. intros w Ew.
  destruct (get n (w_keys w)); [exact I|]. apply tame_bind.
  - apply seed_calm.
  - intros s _. apply tame_bind; [|intros; exact I]. apply tame_map_err with (Q := clean_key); [|auto]. now apply (Hm n f Ef).
Qed.

Lemma change_tame data old new r : tame clean (change_password P data old new r).
Proof.
  unfold change_password. destruct (CryptFacts.decrypt_exact P HP data old) as (_ & _ & _ & _ & Hu).
  destruct (decrypt P data old) as [d|[]| |]; cbn; auto.
Qed.
Lemma retrieve_tame data pw : tame clean (retrieve_mnemonic P C data pw).
Proof.
  unfold retrieve_mnemonic. apply tame_bind; [apply decode_tame|]. intros w _.
  destruct (w_mnemonic w); cbn [ok_or bind]; [|exact I]. now destruct (w_dictionary w).
Qed.
Lemma keys_data_tame o data pw : tame clean (get_keys_data P C o data pw).
Proof. apply tame_rmap, decode_tame. Qed.
Lemma generate_tame ns m lang r : with_networks P ns = Ok m -> exists t r', generate_mnemonic P m lang r = Ok (t, r').
Proof.
  intros E.
  destruct (generated P HP ns m lang r E) as (ms & ws & t & s & _ & _ & _ & _ & Eg & _). rewrite Eg. eauto.
Qed.

Lemma path_tame prof s : nn s -> tame clean_kp (generic_from prof s).
Proof.
  intros Hn. assert (generic_from prof s <> Undef) as Hu by apply generic_defined.
  destruct (generic_from prof s) as [|e| |] eqn:E; cbn; auto.
  unfold generic_from in E. destruct (negb _); [injection E as <-; exact I|].
  destruct (negb (str_eqb _ _)) eqn:Em.
  - injection E as <-. cbn [clean_kp]. apply nn_flat with s; [|exact Hn]. intros c Hc.
    destruct (split 0x2F s) as [|p ps] eqn:Es; [now apply split_nonempty in Es|]. cbn [List.map nth] in Hc.
    assert (In c p) as Hp.
    { destruct (trimmed_trim p) as (a & b & -> & _). rewrite !in_app_iff. auto. }
    rewrite <- (join_split 0x2F s), Es. destruct ps; cbn [join]; [exact Hp|]. apply in_app_iff. now left.
  - assert (forall i t e', parse_int prof i t = Err e' -> clean_kp e') as Hi.
    { intros i t e'. unfold parse_int, hard_int, soft_int, add_u32, ok_or, str_from, str_to.
      intros H. repeat (destruct (Nat.eqb _ _); [injection H as <-; exact I|]).
      destruct (split_at _ t) as [[a b]|]; cbn [bind] in H; [|discriminate].
      destruct (str_eqb b _); repeat (destruct (Nat.eqb _ _); cbn [bind] in H; [injection H as <-; exact I|]).
      - destruct (parse_u32 a); cbn [bind map_err] in H; [|injection H as <-; exact I|discriminate..].
        destruct (_ <=? _); [discriminate|]. destruct prof; discriminate.
      - destruct (parse_u32 t); cbn [map_err] in H; [discriminate| |discriminate..]. injection H as <-; exact I. }
    cbv zeta in E.
    repeat match type of E with context [parse_int prof ?i ?t] =>
             let Ei := fresh "Ei" in destruct (parse_int prof i t) eqn:Ei; cbn [bind] in E;
             [|injection E as <-; exact (Hi _ _ _ Ei)|discriminate..] end.
    discriminate.
Qed.
Lemma add_u32_tame {E} prof a b (Q : E -> Prop) : tame Q (add_u32 prof a b).
Proof. unfold add_u32. destruct (_ <=? _); [exact I|]. now destruct prof. Qed.
Lemma btc_path_tame pu prof tn a c d : tame clean_kp (btc_path pu prof tn a c d).
Proof.
  unfold btc_path, btc_is_valid. destruct (_ <=? _); [exact I|]. destruct (_ && _); [exact I|]. destruct (_ <=? _); [exact I|].
  cbn [bind]. apply tame_bind; [apply add_u32_tame|intros; exact I].
Qed.
Lemma ada_path_tame prof a c d : tame clean_kp (ada_new prof a c d).
Proof.
  unfold ada_new. destruct (_ <=? _); [exact I|]. destruct (_ && _); [exact I|]. destruct (_ <=? _); [exact I|].
  apply tame_bind; [apply add_u32_tame|intros; exact I].
Qed.
Lemma eth_path_tame prof a : tame clean_kp (eth_new prof a).
Proof. unfold eth_new. destruct (_ <=? _); [exact I|]. apply tame_bind; [apply add_u32_tame|intros; exact I]. Qed.
Lemma metamask_tame a : tame clean_kp (eth_new_metamask a).
Proof. unfold eth_new_metamask. now destruct (_ <=? _). Qed.
End K.
