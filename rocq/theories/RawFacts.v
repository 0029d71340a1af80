(** Proofs about raw arguments. *)
From Coq Require Import Lia.
From Verif Require Import Base Str Prims Dict KeyPath Errors FMap Data Keys Keychain Manager Features Display Ffi FfiSpec FfiCallSpec
  FfiFacts Raw RawSpec.

Section Memory.
Variable h : heap.
Variable c : own.

Lemma from_off_some off b r : from_off off b = Some r <->
  exists pre, b = pre ++ r /\ N.of_nat (length pre) = off.
Proof.
  unfold from_off. split.
  - destruct (N.leb_spec off (N.of_nat (length b))) as [Hle|]; [|discriminate]. intros [= <-].
    exists (firstn (N.to_nat off) b). split; [symmetry; apply firstn_skipn|].
    rewrite firstn_length. lia.
  - intros (pre & -> & <-). rewrite app_length.
    rewrite (proj2 (N.leb_le _ _)) by lia. rewrite Nnat.Nat2N.id, skipn_app, skipn_all, Nat.sub_diag. reflexivity.
Qed.

Lemma memory_place p r : memory h c p = Some r <->
  exists all off pre, place h c p all off /\ all = pre ++ r /\ N.of_nat (length pre) = off.
Proof.
  split.
  - destruct p as [| |i off|i off]; cbn [memory]; try discriminate.
    + destruct (get i (live h)) as [[b|b| | | |]|] eqn:E; try discriminate; intros H;
        apply from_off_some in H as (pre & Hb & Hp).
      * exists b, off, pre. split; [now apply pl_bytes|auto].
      * exists (b ++ [x00]), off, pre. split; [now apply pl_text|auto].
    + destruct (get i c) as [b|] eqn:E; [|discriminate]. intros H. apply from_off_some in H as (pre & -> & Hp).
      exists (pre ++ r), off, pre. split; [now apply pl_own|auto].
  - intros (all & off & pre & Hp & -> & Hl).
    remember (pre ++ r) as al eqn:El. destruct Hp as [i off b E|i off b E|i off b E]; cbn [memory]; rewrite E;
      apply from_off_some; exists pre; auto.
Qed.

Lemma memory_readable p len b : p <> RNothing ->
  (readable h c p len b <-> exists r post, memory h c p = Some r /\ r = b ++ post /\ N.of_nat (length b) = len).
Proof.
  intros Hp. unfold readable. split.
  - intros (Hl & [[? _]|(all & off & pre & post & Hpl & -> & Ho)]); [contradiction|].
    exists (b ++ post), post. split; [|auto]. apply memory_place. eauto 8.
  - intros (r & post & Hm & -> & Hl). split; [exact Hl|]. right. apply memory_place in Hm as (all & off & pre & Hpl & -> & Ho).
    exists (pre ++ b ++ post), off, pre, post. auto.
Qed.

Lemma prefix_unique (b b' p p' : bytes) : b ++ p = b' ++ p' -> length b = length b' -> b = b'.
Proof.
  revert b'. induction b as [|x b IH]; intros [|y b']; cbn; try discriminate; [reflexivity|].
  intros [= -> H] [= Hl]. f_equal. now apply IH.
Qed.

Lemma readable_unique p len b b' : readable h c p len b -> readable h c p len b' -> b = b'.
Proof.
  destruct p as [| |i off|i off] eqn:Ep.
  2: { intros (_ & [[_ ->]|(? & ? & ? & ? & H & _)]) (_ & [[_ ->]|(? & ? & ? & ? & H' & _)]); [reflexivity|inversion H'|inversion H|inversion H]. }
  all: rewrite <- Ep; intros H H'; apply memory_readable in H as (r & q & E & Er & Hl); [|now rewrite Ep];
    apply memory_readable in H' as (r' & q' & E' & Er' & Hl'); [|now rewrite Ep];
    apply (prefix_unique b b' q q'); [congruence|lia].
Qed.

Lemma slice_spec {E} p len :
  (exists b, readable h c p len b /\ slice (E := E) h c p len = Ok b) \/
  ((forall b, ~ readable h c p len b) /\ slice (E := E) h c p len = Undef).
Proof.
  destruct (match p with RNothing => true | _ => false end) eqn:Ep.
  - destruct p; try discriminate. cbn [slice]. destruct (N.eqb_spec len 0) as [->|Hn].
    + left. exists []. split; [|reflexivity]. split; [reflexivity|]. now left.
    + right. split; [|reflexivity]. intros b (Hl & [[_ ->]|(? & ? & ? & ? & H & _)]); [now apply Hn; rewrite <- Hl|inversion H].
  - assert (p <> RNothing) as Hp by (intros ->; discriminate).
    assert (slice (E := E) h c p len = match memory h c p with
              | Some b => if len <=? N.of_nat (length b) then Ok (firstn (N.to_nat len) b) else Undef
              | None => Undef end) as -> by (destruct p; try reflexivity; discriminate).
    destruct (memory h c p) as [r|] eqn:Em.
    + destruct (N.leb_spec len (N.of_nat (length r))) as [Hle|Hgt].
      * left. exists (firstn (N.to_nat len) r). split; [|reflexivity]. apply memory_readable; [exact Hp|].
        exists r, (skipn (N.to_nat len) r). split; [exact Em|]. split; [symmetry; apply firstn_skipn|].
        rewrite firstn_length. lia.
      * right. split; [|reflexivity]. intros b H. apply memory_readable in H as (r' & post & Em' & Er & Hl); [|exact Hp].
        assert (r' = r) as -> by congruence. subst r. rewrite app_length in Hgt. lia.
    + right. split; [|reflexivity]. intros b H. apply memory_readable in H as (r' & post & Em' & _); [congruence|exact Hp].
Qed.

Lemma strlen_split b : has_nul b = true ->
  exists post, b = firstn (N.to_nat (strlen b)) b ++ x00 :: post /\ ~ In x00 (firstn (N.to_nat (strlen b)) b).
Proof.
  induction b as [|x b IH]; [discriminate|]. cbn [has_nul existsb strlen]. destruct (Byte.eqb x x00) eqn:E.
  - intros _. apply Byte.byte_dec_bl in E as ->. exists b. cbn. auto.
  - intros H. assert (Byte.eqb x00 x = false) as E'.
    { destruct (Byte.eqb x00 x) eqn:E'; [|reflexivity]. apply Byte.byte_dec_bl in E' as <-. discriminate. }
    rewrite E' in H. cbn [orb] in H. destruct (IH H) as (post & Hb & Hn). exists post.
    replace (N.to_nat (1 + strlen b)) with (S (N.to_nat (strlen b))) by lia. cbn [firstn app]. split; [now rewrite <- Hb|].
    intros [->|Hin]; [now rewrite Byte.byte_dec_lb in E|auto].
Qed.

Lemma has_nul_in b : has_nul b = true <-> In x00 b.
Proof.
  unfold has_nul. rewrite existsb_exists. split.
  - intros (x & Hin & E). now apply Byte.byte_dec_bl in E as <-.
  - intros H. exists x00. split; [exact H|reflexivity].
Qed.

Lemma first_nul (b b' : bytes) : forall p p', b ++ x00 :: p = b' ++ x00 :: p' -> ~ In x00 b -> ~ In x00 b' -> b = b'.
Proof.
  revert b'. induction b as [|x b IH]; intros [|y b'] p p' E Hb Hb'.
  - reflexivity.
  - exfalso. apply Hb'. left. now inversion E.
  - exfalso. apply Hb. left. now inversion E.
  - injection E as -> E. f_equal. apply (IH b' p p' E); cbn in Hb, Hb'; tauto.
Qed.

Lemma memory_terminated p b :
  terminated h c p b <-> ~ In x00 b /\ exists r post, memory h c p = Some r /\ r = b ++ x00 :: post.
Proof.
  unfold terminated. split.
  - intros (Hn & all & off & pre & post & Hpl & -> & Ho). split; [exact Hn|]. exists (b ++ x00 :: post), post. split; [|reflexivity].
    apply memory_place. eauto 8.
  - intros (Hn & r & post & Hm & ->). split; [exact Hn|]. apply memory_place in Hm as (all & off & pre & Hpl & -> & Ho).
    exists (pre ++ b ++ x00 :: post), off, pre, post. auto.
Qed.

Lemma terminated_unique p b b' : terminated h c p b -> terminated h c p b' -> b = b'.
Proof.
  rewrite !memory_terminated. intros (Hn & r & q & E & ->) (Hn' & r' & q' & E' & Er).
  apply (first_nul b b' q q'); auto. congruence.
Qed.

Lemma string_spec {E} p :
  (exists b, terminated h c p b /\ c_string (E := E) h c p = Ok b) \/
  ((forall b, ~ terminated h c p b) /\ c_string (E := E) h c p = Undef).
Proof.
  unfold c_string. destruct (memory h c p) as [r|] eqn:Em.
  - destruct (has_nul r) eqn:En.
    + destruct (strlen_split r En) as (post & Hr & Hn). left. exists (firstn (N.to_nat (strlen r)) r). split; [|reflexivity].
      apply memory_terminated. split; [exact Hn|]. exists r, post. auto.
    + right. split; [|reflexivity]. intros b H. apply memory_terminated in H as (_ & r' & post & Em' & Er).
      assert (r' = r) as -> by congruence.
      assert (has_nul r = true) by (apply has_nul_in; rewrite Er; apply in_or_app; right; now left). congruence.
  - right. split; [|reflexivity]. intros b H. apply memory_terminated in H as (_ & r' & post & Em' & _). congruence.
Qed.
End Memory.

(** ** One call *)
Section Call.
Variable P : prims.
Variable C : data_config.
Variable T : texts.
Variable bd : build.
Variable s : store.
Variable h : heap.
Variable c : own.

Definition ended {A} (l : list look) (r : res kc_error A) (K : Prop) : Prop :=
  (exists x, first_bad s h c l x /\ look_undefined s h c x /\ r = Undef) \/
  (exists x, first_bad s h c l x /\ look_panics s h c x /\ r = Panic) \/
  (Forall (look_fine s h c) l /\ K).

Lemma ended_nil {A} (r : res kc_error A) (K : Prop) : K -> ended [] r K.
Proof. intros H. right. right. auto. Qed.

Lemma ended_undef {A} x l (r : res kc_error A) (K : Prop) : look_undefined s h c x -> r = Undef -> ended (x :: l) r K.
Proof.
  intros H E. left. exists x. split; [|auto]. exists [], l. split; [reflexivity|]. split; [constructor|]. unfold look_fine. tauto.
Qed.

Lemma ended_panic {A} x l (r : res kc_error A) (K : Prop) : look_panics s h c x -> r = Panic -> ended (x :: l) r K.
Proof.
  intros H E. right. left. exists x. split; [|auto]. exists [], l. split; [reflexivity|]. split; [constructor|]. unfold look_fine. tauto.
Qed.

Lemma ended_fine {A} x l (r : res kc_error A) (K : Prop) : look_fine s h c x -> ended l r K -> ended (x :: l) r K.
Proof.
  intros Hx [(y & (pre & post & -> & Hpre & Hy) & H)|[(y & (pre & post & -> & Hpre & Hy) & H)|[Hl HK]]].
  - left. exists y. split; [|exact H]. exists (x :: pre), post. auto.
  - right. left. exists y. split; [|exact H]. exists (x :: pre), post. auto.
  - right. right. auto.
Qed.

Lemma ref_ended {A} v l (f : var -> res kc_error A) (K : Prop) :
  (forall x, v = Some x -> ended l (f x) K) -> ended (LRef v :: l) (bind (reference v) f) K.
Proof.
  intros H. destruct v as [x|].
  - apply ended_fine; [split; [discriminate|intros []]|]. now apply H.
  - apply ended_undef; reflexivity.
Qed.

Lemma language_ended {A} n l (f : CLanguage -> res kc_error A) (K : Prop) :
  (forall x, n = c_language_code x -> ended l (f x) K) -> ended (LLanguage n :: l) (bind (raw_language n) f) K.
Proof.
  intros H. destruct (N.le_gt_cases 8 n) as [Hn|Hn].
  - apply ended_undef; [exact Hn|]. unfold raw_language. assert (c_language_from n = None) as ->; [|reflexivity].
    destruct n as [|p]; [lia|]. do 4 (destruct p; try reflexivity; try lia).
  - apply ended_fine; [split; [cbn; lia|intros []]|]. unfold raw_language.
    assert (exists x, c_language_from n = Some x /\ n = c_language_code x) as (x & -> & E).
    { destruct n as [|p]; [exists CEnglish; auto|].
      do 3 (destruct p; try lia; try (eexists; split; reflexivity)). }
    cbn [bind]. now apply H.
Qed.

Lemma flag_ended {A} n l (f : bool -> res kc_error A) (K : Prop) :
  (forall x : bool, n = (if x then 1 else 0) -> ended l (f x) K) -> ended (LFlag n :: l) (bind (raw_bool n) f) K.
Proof.
  intros H. destruct (N.le_gt_cases 2 n) as [Hn|Hn].
  - apply ended_undef; [exact Hn|]. destruct n as [|[p|p|]]; try reflexivity; lia.
  - apply ended_fine; [split; [cbn; lia|intros []]|].
    assert (n = 0 \/ n = 1) as [->| ->] by lia; cbn [raw_bool bind]; [now apply (H false)|now apply (H true)].
Qed.

Lemma slice_ended {A} p len l (f : bytes -> res kc_error A) (K : Prop) :
  (forall b, readable h c p len b -> slice (E := kc_error) h c p len = Ok b -> ended l (f b) K) -> ended (LSlice p len :: l) (bind (slice h c p len) f) K.
Proof.
  intros H. destruct (slice_spec h c (E := kc_error) p len) as [(b & Hb & E)|(Hn & E)].
  - apply ended_fine; [split; [cbn; intros Hu; exact (Hu b Hb)|intros []]|]. specialize (H b Hb E). rewrite E. exact H.
  - apply ended_undef; [exact Hn|now rewrite E].
Qed.

Lemma manager_ended {A} m l (f : manager -> res kc_error A) (K : Prop) :
  (forall x, rust_manager (E := kc_error) h (s TManager m) = Ok x -> ended l (f x) K) ->
  ended (LManager (Some m) :: l) (bind (rust_manager h (s TManager m)) f) K.
Proof.
  intros H. unfold rust_manager in *. destruct (s TManager m) as [| |i] eqn:Es; cbn [is_null] in *.
  - apply ended_panic; [|reflexivity]. cbn. eauto.
  - apply ended_undef; [|reflexivity]. cbn. exists m. rewrite Es. repeat split; discriminate.
  - cbn [read] in *. destruct (get i (live h)) as [[| | | | |x]|] eqn:Eg.
    6: { apply ended_fine; [|cbn [bind]; now apply H]. split; cbn.
         - intros (m' & [= <-] & _ & Hn). exact (Hn i x Es Eg).
         - intros (m' & [= <-] & Hn). congruence. }
    all: apply ended_undef; [|reflexivity]; cbn; exists m; rewrite Es; split; [reflexivity|]; split; [discriminate|];
      intros j y [= <-]; congruence.
Qed.

Lemma keychain_ended {A} k l (f : Keychain -> res kc_error A) (K : Prop) :
  (forall x, rust_keychain (E := kc_error) h (s TKeychain k) = Ok x -> ended l (f x) K) ->
  ended (LKeychain (Some k) :: l) (bind (rust_keychain h (s TKeychain k)) f) K.
Proof.
  intros H. unfold rust_keychain in *. destruct (s TKeychain k) as [| |i] eqn:Es; cbn [is_null] in *.
  - apply ended_panic; [|reflexivity]. cbn. eauto.
  - apply ended_undef; [|reflexivity]. cbn. exists k. rewrite Es. repeat split; discriminate.
  - cbn [read] in *. destruct (get i (live h)) as [[| | | |x|]|] eqn:Eg.
    5: { apply ended_fine; [|cbn [bind]; now apply H]. split; cbn.
         - intros (m' & [= <-] & _ & Hn). exact (Hn i x Es Eg).
         - intros (m' & [= <-] & Hn). congruence. }
    all: apply ended_undef; [|reflexivity]; cbn; exists k; rewrite Es; split; [reflexivity|]; split; [discriminate|];
      intros j y [= <-]; congruence.
Qed.

Lemma text_ended {A} p l (f : str -> res kc_error A) (K : Prop) :
  (forall b x, terminated h c p b -> rust_str (E := kc_error) b = Ok x ->
     rust_text (E := kc_error) h c p = Ok x -> ended l (f x) K) ->
  ended (LString p :: l) (bind (rust_text h c p) f) K.
Proof.
  intros H. unfold rust_text in *. destruct (string_spec h c (E := kc_error) p) as [(b & Hb & E)|(Hn & E)].
  - rewrite E in *. cbn [bind] in *. unfold rust_str in *. destruct (of_utf8 b) as [x|] eqn:Eu.
    + apply ended_fine; [|cbn [bind]; apply (H b x Hb); rewrite ?Eu; reflexivity]. split; cbn.
      * intros Hu. exact (Hu b Hb).
      * intros (b' & Hb' & Eu'). rewrite (terminated_unique h c p b b' Hb Hb') in Eu. congruence.
    + apply ended_panic; [|reflexivity]. cbn. eauto.
  - rewrite E in *. now apply ended_undef.
Qed.

Theorem raw_cases {t} (a : raw_api t) (e : env) :
  (exists x, first_bad s h c (looks a) x /\ look_undefined s h c x /\ raw_body P C bd a s e h c = Undef) \/
  (exists x, first_bad s h c (looks a) x /\ look_panics s h c x /\ raw_body P C bd a s e h c = Panic) \/
  (Forall (look_fine s h c) (looks a) /\
   exists a', leads h c a a' /\ raw_body P C bd a s e h c = body P C bd a' s e h).
Proof.
  change (ended (looks a) (raw_body P C bd a s e h c)
            (exists a', leads h c a a' /\ raw_body P C bd a s e h c = body P C bd a' s e h)).
  destruct a; cbn [looks raw_body].
  - apply ended_nil. exists ManagerNew. split; [constructor|reflexivity].
  - apply ref_ended. intros v ->. apply manager_ended. intros x E. apply ended_nil. eexists. split; [constructor|]. reflexivity.
  - apply ref_ended. intros v ->. apply language_ended. intros cl ->. apply manager_ended. intros x E. apply ended_nil.
    exists (GenerateMnemonic v cl). split; [constructor|]. cbn [reference bind body]. rewrite E.
    unfold raw_language. destruct cl; reflexivity.
  - apply ref_ended. intros v ->. apply slice_ended. intros b Hb Es. apply manager_ended. intros x E.
    apply text_ended. intros tx u Ht Eu Er. apply ended_nil.
    exists (KeychainDataFromSeed v b tx). split; [now constructor|]. cbn [reference bind body]. rewrite Es, E, Er, Eu. reflexivity.
  - apply ref_ended. intros v ->. apply language_ended. intros cl ->. apply manager_ended. intros x E.
    apply text_ended. intros tx u Ht Eu Er. apply text_ended. intros ty w Ht' Ew Er'. apply ended_nil.
    exists (KeychainDataFromMnemonic v tx ty cl). split; [now constructor|]. cbn [reference bind body]. rewrite E, Er, Er', Eu.
    cbn [bind]. rewrite Ew. unfold raw_language. destruct cl; reflexivity.
  - apply ref_ended. intros v ->. apply slice_ended. intros b Hb Es. apply manager_ended. intros x E.
    apply text_ended. intros tx u Ht Eu Er. apply ended_nil.
    exists (KeychainFromData v b tx). split; [now constructor|]. cbn [reference bind body]. rewrite Es, E, Er, Eu. reflexivity.
  - apply ref_ended. intros v ->. apply slice_ended. intros b Hb Es. apply manager_ended. intros x E.
    apply text_ended. intros tx u Ht Eu Er. apply ended_nil.
    exists (AddNetwork v b tx n). split; [now constructor|]. cbn [reference bind body]. rewrite Es, E, Er, Eu. reflexivity.
  - apply ref_ended. intros v ->. apply slice_ended. intros b Hb Es. apply manager_ended. intros x E.
    apply text_ended. intros tx u Ht Eu Er. apply text_ended. intros ty w Ht' Ew Er'. apply ended_nil.
    exists (ChangePassword v b tx ty). split; [now constructor|]. cbn [reference bind body]. rewrite Es, E, Er, Eu. cbn [bind].
    rewrite Er', Ew. reflexivity.
  - apply ref_ended. intros v ->. apply slice_ended. intros b Hb Es. apply manager_ended. intros x E.
    apply text_ended. intros tx u Ht Eu Er. apply ended_nil.
    exists (GetKeysData v b tx). split; [now constructor|]. cbn [reference bind body]. rewrite Es, E, Er, Eu. reflexivity.
  - apply ref_ended. intros v ->. apply slice_ended. intros b Hb Es. apply manager_ended. intros x E.
    apply text_ended. intros tx u Ht Eu Er. apply ended_nil.
    exists (RetrieveMnemonic v b tx). split; [now constructor|]. cbn [reference bind body]. rewrite Es, E, Er, Eu. reflexivity.
  - apply ref_ended. intros v ->. apply keychain_ended. intros x E. apply ended_nil. eexists. split; [constructor|]. reflexivity.
  - apply ref_ended. intros v ->. apply keychain_ended. intros x E. apply ended_nil. eexists. split; [constructor|]. reflexivity.
  - apply ref_ended. intros v ->. apply slice_ended. intros b Hb Es. apply keychain_ended. intros x E. apply ended_nil.
    exists (Sign v n b path). split; [now constructor|]. cbn [reference bind body]. rewrite Es, E. reflexivity.
  - apply ref_ended. intros v ->. apply slice_ended. intros b Hb Es. apply slice_ended. intros b' Hb' Es'.
    apply keychain_ended. intros x E. apply ended_nil.
    exists (Verify v n b b' path). split; [now constructor|]. cbn [reference bind body]. rewrite Es. cbn [bind]. rewrite Es', E. reflexivity.
  - apply text_ended. intros tx u Ht Eu Er. apply ended_nil.
    exists (KeypathFromString tx). split; [now constructor|]. cbn [body]. rewrite Er, Eu. reflexivity.
  - apply flag_ended. intros f ->. apply ended_nil. exists (KeypathBitcoin44 f account change address).
    split; [constructor|]. destruct f; reflexivity.
  - apply flag_ended. intros f ->. apply ended_nil. exists (KeypathBitcoin49 f account change address).
    split; [constructor|]. destruct f; reflexivity.
  - apply flag_ended. intros f ->. apply ended_nil. exists (KeypathBitcoin84 f account change address).
    split; [constructor|]. destruct f; reflexivity.
  - apply ended_nil. eexists. split; [constructor|]. reflexivity.
  - apply ended_nil. eexists. split; [constructor|]. reflexivity.
  - apply ended_nil. eexists. split; [constructor|]. reflexivity.
Qed.
End Call.

(** ** What pointers lead to *)
Lemma slice_ok {E} h c p len b : readable h c p len b -> slice (E := E) h c p len = Ok b.
Proof.
  intros H. destruct (slice_spec h c (E := E) p len) as [(b' & Hb & ->)|(Hn & _)]; [|exfalso; exact (Hn b H)].
  f_equal. now apply (readable_unique h c p len).
Qed.

Lemma string_ok {E} h c p b : terminated h c p b -> c_string (E := E) h c p = Ok b.
Proof.
  intros H. destruct (string_spec h c (E := E) p) as [(b' & Hb & ->)|(Hn & _)]; [|exfalso; exact (Hn b H)].
  f_equal. now apply (terminated_unique h c p).
Qed.

Lemma leads_body P C bd h c t (a : raw_api t) (a' : api t) s e : leads h c a a' ->
  raw_body P C bd a s e h c = body P C bd a' s e h.
Proof.
  intros H. destruct H; cbn [raw_body body reference bind raw_bool]; unfold rust_text;
    repeat match goal with H : readable _ _ _ _ _ |- _ => rewrite (slice_ok _ _ _ _ _ H); clear H end; cbn [bind];
    repeat match goal with H : terminated _ _ _ _ |- _ => rewrite (string_ok _ _ _ _ H); clear H end;
    try reflexivity;
    try (match goal with l : CLanguage |- _ => destruct l; reflexivity end);
    match goal with f : bool |- _ => destruct f; reflexivity end.
Qed.

Lemma leads_entry P C T bd h c t (a : raw_api t) (a' : api t) out err s e : leads h c a a' ->
  raw_entry P C T bd a (Some out) (Some err) e s h c = entry P C T bd a' out err e s h.
Proof. intros H. unfold raw_entry, entry. cbn [reference bind]. now rewrite (leads_body P C bd h c t a a' s e H). Qed.
