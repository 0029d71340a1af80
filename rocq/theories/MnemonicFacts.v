From Coq Require Import Strings.String.
From Verif Require Import Base BaseFacts Str StrFacts Prims BitsSpec BitsFacts Bip39 Bip39Spec Bip39Facts Dict DictFacts
  KeyPath Errors Mnemonic FMap Manager ManagerSpec.
Open Scope list_scope.

Lemma phrase_join ws s : phrase_of ws s -> s = join [separator] ws.
Proof.
  intros (Hn & _ & ->). induction ws as [|w ws IH]; [congruence|].
  destruct ws as [|w' ws]; [cbn; now rewrite ?app_nil_r|].
  specialize (IH ltac:(discriminate)). cbn [removelast last List.map concat join] in *.
  rewrite <- IH, <- !app_assoc. reflexivity.
Qed.

Lemma phrase_split ws s : phrase_of ws s -> ws = split separator s.
Proof.
  intros H. rewrite (phrase_join ws s H). destruct H as (Hn & Hs & _). symmetry. now apply split_join.
Qed.

Lemma known_valid l ws s : phrase_of ws s -> Forall (fun w => In w (to_dict l)) ws -> valid_str s.
Proof.
  intros Hp H. rewrite (phrase_join ws s Hp). clear Hp.
  pose proof (language_words_valid l) as Hv. rewrite Forall_forall in Hv.
  induction H as [|w ws Hw H IH]; [constructor|].
  destruct ws as [|w' ws]; [cbn [join]; now apply Hv|].
  cbn [join]. apply Forall_app. split; [now apply Hv|]. apply Forall_app. split; [|exact IH].
  repeat constructor.
Qed.

Section M.
Variable P : prims.

Theorem seed_from_phrase_with u l size t :
  exists ws, phrase_of ws t /\
  ((exists pre w post, ws = pre ++ w :: post /\ Forall (fun w => In w (to_dict l)) pre /\
      ~ In w (to_dict l) /\
      seed_from_mnemonic P t u size l = Err (UnsupportedWordFound w)) \/
   (Forall (fun w => In w (to_dict l)) ws /\
    let n := N.of_nat (List.length ws) in
    let k := size / 32 * 3 in
    (~ word_count (List.length ws) /\
       seed_from_mnemonic P t u size l = Err (MWrongNumberOfWords n)) \/
    (word_count (List.length ws) /\
       (n < k /\ seed_from_mnemonic P t u size l = Err (MnemonicToShort n k) \/
        k < n /\ seed_from_mnemonic P t u size l = Err (MnemonicToLong n k) \/
        n = k /\ seed_from_mnemonic P t u size l
                 = Ok (pbkdf2 P (utf8 t) (blit "mnemonic" ++ utf8 u) 2048 64))))).
Proof.
  destruct (phrase_errors l t) as (ws & Hp & Hc). exists ws. split; [exact Hp|].
  unfold seed_from_mnemonic.
  destruct Hc as [(pre & w & post & E & Hpre & Hw & ->)|[(Hall & Hnc & ->)|(Hall & Hwc & ms & Ems)]].
  - left. exists pre, w, post. auto.
  - right. split; [exact Hall|]. left. auto.
  - right. split; [exact Hall|]. right. split; [exact Hwc|]. rewrite Ems. cbn [map_err bind].
    destruct (proj2 (phrase_round_trip l) t ms Ems) as (Ets & _ & _).
    assert (List.length ms = List.length ws) as Hl.
    { rewrite (phrase_split ws t Hp). unfold mnemonics_from_string in Ems.
      destruct (mapM (from_word (to_dict l)) (split separator t)) as [ms'| | |] eqn:Em; try discriminate.
      cbn [bind] in Ems. unfold from_mnemonics in Ems.
      destruct (from_word_count _); try discriminate. cbn [bind] in Ems. injection Ems as ->.
      now apply mapM_length in Em. }
    unfold get_type. rewrite Hl. apply word_count_type in Hwc as [ty Hty]. rewrite Hty.
    rewrite (proj2 (from_word_count_ok _ ty) eq_refl). cbn [unwrap map_err bind].
    destruct (N.ltb_spec (N.of_nat (mnemonic_count ty)) (size / 32 * 3)) as [Hlt|Hge]; [now left|right].
    destruct (N.ltb_spec (size / 32 * 3) (N.of_nat (mnemonic_count ty))) as [Hlt'|Hge']; [now left|right].
    split; [lia|]. rewrite Ets. cbn [map_err bind]. unfold seed_from_mnemonic_string.
    reflexivity.
Qed.

Theorem seed_from_phrase l size t :
  exists ws, phrase_of ws t /\
  ((exists pre w post, ws = pre ++ w :: post /\ Forall (fun w => In w (to_dict l)) pre /\
      ~ In w (to_dict l) /\
      seed_from_mnemonic P t [] size l = Err (UnsupportedWordFound w)) \/
   (Forall (fun w => In w (to_dict l)) ws /\
    let n := N.of_nat (List.length ws) in
    let k := size / 32 * 3 in
    (~ word_count (List.length ws) /\
       seed_from_mnemonic P t [] size l = Err (MWrongNumberOfWords n)) \/
    (word_count (List.length ws) /\
       (n < k /\ seed_from_mnemonic P t [] size l = Err (MnemonicToShort n k) \/
        k < n /\ seed_from_mnemonic P t [] size l = Err (MnemonicToLong n k) \/
        n = k /\ seed_from_mnemonic P t [] size l
                 = Ok (pbkdf2 P (utf8 t) (blit "mnemonic") 2048 64))))).
Proof. generalize (seed_from_phrase_with [] l size t). cbn [utf8 flat_map]. rewrite app_nil_r. auto. Qed.

Lemma seed_phrase_iff l size t s :
  seed_from_mnemonic P t [] size l = Ok s <-> phrase_seed P l size t s.
Proof.
  destruct (seed_from_phrase l size t) as (ws & Hp & Hc). cbv zeta in Hc. split.
  - intros E. destruct Hc as [(pre & w & post & _ & _ & _ & E')|(Hall & [(_ & E')|(Hwc & [(_ & E')|[(_ & E')|(Hn & E')]])])];
      rewrite E' in E; try discriminate.
    exists ws. split; [exact Hp|]. split; [exact Hall|]. split; [exact Hwc|]. split; [exact Hn|]. congruence.
  - intros (ws' & Hp' & Hall' & Hwc' & Hn' & ->).
    assert (ws' = ws) as -> by (rewrite (phrase_split _ _ Hp), (phrase_split _ _ Hp'); reflexivity).
    destruct Hc as [(pre & w & post & -> & _ & Hw & _)|(Hall & [(Hno & _)|(Hwc & [(Hlt & _)|[(Hlt & _)|(_ & E')]])])].
    + rewrite Forall_forall in Hall'. destruct Hw. apply Hall', in_or_app. right. now left.
    + contradiction.
    + lia.
    + lia.
    + exact E'.
Qed.

Lemma seed_from_phrase_total l size t :
  match seed_from_mnemonic P t [] size l with Ok _ | Err _ => True | _ => False end.
Proof.
  destruct (seed_from_phrase l size t) as (ws & _ & Hc). cbv zeta in Hc.
  destruct Hc as [(pre & w & post & _ & _ & _ & ->)|(_ & [(_ & ->)|(_ & [(_ & ->)|[(_ & ->)|(_ & ->)]])])]; exact I.
Qed.

Hypothesis HP : prims_ok P.

(** Generation for the sizes the built-in networks use. *)
Lemma generate_phrase t l r :
  let size := N.of_nat (to_key_size t) in
  let k := (to_key_size t / 8)%nat in
  let ent := List.map r (seq 0 k) in
  exists ms ws s,
    sentence_of ent (sha256 P ent) ms /\
    Forall2 (fun i w => nth_error (to_dict l) (N.to_nat i) = Some w) ms ws /\
    phrase_of ws s /\ N.of_nat (List.length ws) = size / 32 * 3 /\
    generate_entropy size r = Ok (ent, fun i => r (k + i)%nat) /\
    mnemonic_from_entropy P ent l = Ok s /\
    phrase_seed P l size s (pbkdf2 P (utf8 s) (blit "mnemonic") 2048 64).
Proof.
  cbv zeta. set (k := (to_key_size t / 8)%nat). set (ent := List.map r (seq 0 k)).
  set (e := {| e_type := t; e_bytes := ent |}).
  assert (entropy_wf e) as Hwf by (unfold entropy_wf, e, ent; cbn [e_bytes e_type]; now rewrite map_length, seq_length).
  destruct (to_mnemonics_ok P e HP Hwf) as (ms & Ems & Hl & Hs). cbn [e e_bytes e_type] in Hl, Hs.
  pose proof (language_dict_ok l) as Hd.
  destruct (phrase_to_string _ Hd ms (proj1 Hs)) as (ws & Ew & Hin & Efw & Hlw).
  assert (phrase_of ws (join [separator] ws)) as Hp.
  { pose proof (phrase_of_split (join [separator] ws)) as H. rewrite split_join in H; [exact H| |].
    - intros ->. cbn in Hlw. rewrite Hl in Hlw. destruct t; discriminate.
    - eapply words_no_space; eassumption. }
  exists ms, ws, (join [separator] ws). split; [exact Hs|]. split; [|split; [exact Hp|]].
  { apply mapM_inv in Ew. clear -Ew. induction Ew as [|m w ms ws H Ew IH]; constructor; [|exact IH].
    unfold to_word, lookup_word in H. destruct (nth_error _ _); [|discriminate]. injection H as ->. reflexivity. }
  rewrite Hlw, Hl. split; [destruct t; reflexivity|]. split; [|split].
  - unfold generate_entropy. rewrite (proj2 (from_entropy_size_ok _ t) eq_refl). reflexivity.
  - unfold mnemonic_from_entropy. rewrite (entropy_from_slice_ok e Hwf : entropy_from_slice ent = Ok e).
    cbn [bind]. rewrite Ems. cbn [bind]. unfold mnemonics_to_string. now rewrite Ew.
  - exists ws. split; [exact Hp|]. split; [exact Hin|]. rewrite Hlw, Hl.
    split; [apply word_count_type; now exists t|]. split; [destruct t; reflexivity|reflexivity].
Qed.

(** The checksum is not looked at: of two phrases that differ in their
    checksum only, one is wrong, and both are accepted. *)
Lemma wrong_checksum_accepted l t : exists s ms,
  mnemonics_from_string (to_dict l) s = Ok ms /\
  (exists a b, entropy_from_mnemonics P ms = Err (InvalidChecksum a b)) /\
  exists seed, seed_from_mnemonic P s [] (N.of_nat (to_key_size t)) l = Ok seed.
Proof.
  pose (ms x := repeat 0 (mnemonic_count t - 1) ++ [x] : list N).
  assert (forall x, List.length (ms x) = mnemonic_count t) as Hl.
  { intros x. unfold ms. rewrite app_length, repeat_length. destruct t; reflexivity. }
  assert (forall x, x < 2048 -> Forall (fun m => m < 2048) (ms x)) as Hf.
  { intros x Hx. apply Forall_app. split; [|now repeat constructor].
    apply Forall_forall. intros y Hy. apply repeat_spec in Hy. subst y. reflexivity. }
  assert (forall x, word_count (List.length (ms x))) as Hw.
  { intros x. rewrite Hl. apply word_count_type. now exists t. }
  assert (exists x, x < 2048 /\ exists a b, entropy_from_mnemonics P (ms x) = Err (InvalidChecksum a b)) as (x & Hx & Ex).
  { assert (forall x, x < 2 -> exists bits : list bool,
       bits = firstn (checksum_size_bits t) (bytes_bits (sha256 P (repeat x00 (to_key_size t / 8)))) /\
       (skipn (to_key_size t) (groups_bits (ms x)) <> bits ->
        exists a b, entropy_from_mnemonics P (ms x) = Err (InvalidChecksum a b))) as H.
    { intros x Hx. eexists. split; [reflexivity|].
      destruct (mnemonic_checksum_exact P (ms x) HP (Hw x)) as (ent & Hlen & Hb & _ & H). cbv zeta in H.
      rewrite Hl in Hlen.
      assert (ent = repeat x00 (to_key_size t / 8)) as ->.
      { apply bytes_bits_inj. rewrite Hb.
        replace (8 * List.length ent)%nat with (to_key_size t) by (destruct t; cbn in *; lia).
        assert (x = 0 \/ x = 1) as [-> | ->] by lia; destruct t; reflexivity. }
      rewrite repeat_length, type_bytes in H. intros Hne. eexists _, _. apply H.
      intros E. apply Hne. rewrite E. f_equal. destruct t; reflexivity. }
    destruct (H 0 eq_refl) as (b0 & E0 & H0). destruct (H 1 eq_refl) as (b1 & E1 & H1).
    destruct (list_eq_dec bool_dec (skipn (to_key_size t) (groups_bits (ms 0))) b0) as [Eq|Ne].
    - exists 1. split; [reflexivity|]. apply H1. rewrite E1, <- E0, <- Eq. destruct t; discriminate.
    - exists 0. split; [reflexivity|]. now apply H0. }
  destruct (proj1 (phrase_round_trip l) (ms x) (Hf x Hx) (Hw x)) as (s & Ets & Efs).
  exists s, (ms x). split; [exact Efs|]. split; [exact Ex|].
  unfold seed_from_mnemonic. rewrite Efs. cbn [map_err bind]. unfold get_type. rewrite Hl.
  rewrite (proj2 (from_word_count_ok _ t) eq_refl). cbn [unwrap map_err bind].
  replace (N.of_nat (to_key_size t) / 32 * 3) with (N.of_nat (mnemonic_count t)) by (destruct t; reflexivity).
  rewrite N.ltb_irrefl, Ets. cbn [map_err bind]. eauto.
Qed.
End M.
