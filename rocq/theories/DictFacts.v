From Verif Require Import Base BaseFacts Str Bip39 Bip39Spec Bip39Facts Dict.

Lemma in_all_languages l : In l all_languages.
Proof. destruct l; cbn; tauto. Qed.

Lemma language_dict_ok l : dict_ok (to_dict l).
Proof. destruct l; apply dict_okb_ok; vm_compute; reflexivity. Qed.

Lemma language_words_valid l : Forall valid_str (to_dict l).
Proof.
  assert (H : forallb (forallb is_scalar) (to_dict l) = true)
    by (destruct l; vm_compute; reflexivity).
  rewrite forallb_forall in H. apply Forall_forall. intros w Hw.
  specialize (H w Hw). rewrite forallb_forall in H. now apply Forall_forall.
Qed.

(** ** Public statements *)
Lemma dictionary_bijection l :
  length (to_dict l) = 2048%nat /\
  (forall i, i < 2048 ->
     exists w, to_word (to_dict l) i = Ok w /\ from_word (to_dict l) w = Ok i /\
       w <> [] /\ ~ In 0x20 w) /\
  (forall w i, from_word (to_dict l) w = Ok i ->
     i < 2048 /\ to_word (to_dict l) i = Ok w) /\
  (forall w, ~ In w (to_dict l) ->
     from_word (to_dict l) w = Err (LanguageError w)) /\
  (forall w, In w (to_dict l) -> exists i, from_word (to_dict l) w = Ok i).
Proof.
  pose proof (language_dict_ok l) as Hd.
  split; [apply Hd|]. split; [|split; [|split]].
  - intros i Hi. destruct (to_word_ok _ Hd i Hi) as (w & H1 & H2 & H3).
    exists w. split; [exact H1|]. split; [exact H3|]. now apply (word_shape _ Hd).
  - intros w i H. now apply (from_word_inv _ Hd) in H.
  - intros w. apply from_word_notin.
  - intros w Hw. destruct (from_word_in _ Hd w Hw) as (i & _ & H & _). eauto.
Qed.

Lemma phrase_round_trip l :
  (forall ms, Forall (fun m => m < 2048) ms -> word_count (length ms) ->
     exists s, mnemonics_to_string (to_dict l) ms = Ok s /\
       mnemonics_from_string (to_dict l) s = Ok ms) /\
  (forall s ms, mnemonics_from_string (to_dict l) s = Ok ms ->
     mnemonics_to_string (to_dict l) ms = Ok s /\
     Forall (fun m => m < 2048) ms /\ word_count (length ms)).
Proof.
  pose proof (language_dict_ok l) as Hd. split.
  - intros ms. apply (from_to_string _ Hd).
  - intros s ms H. apply (from_string_words _ Hd) in H. tauto.
Qed.

Lemma phrase_errors l s :
  exists ws, phrase_of ws s /\
  ((exists pre w post, ws = pre ++ w :: post /\
      Forall (fun w => In w (to_dict l)) pre /\ ~ In w (to_dict l) /\
      mnemonics_from_string (to_dict l) s = Err (LanguageError w)) \/
   (Forall (fun w => In w (to_dict l)) ws /\ ~ word_count (length ws) /\
      mnemonics_from_string (to_dict l) s
      = Err (WrongNumberOfWords (N.of_nat (length ws)))) \/
   (Forall (fun w => In w (to_dict l)) ws /\ word_count (length ws) /\
      exists ms, mnemonics_from_string (to_dict l) s = Ok ms)).
Proof.
  exists (split separator s). split; [apply phrase_of_split|].
  apply (from_string_cases _ (language_dict_ok l)).
Qed.

Lemma to_word_safe l i :
  (i < 2048 -> exists w, to_word (to_dict l) i = Ok w) /\
  (2048 <= i -> to_word (to_dict l) i = Undef).
Proof.
  pose proof (language_dict_ok l) as Hd. split; intros Hi.
  - destruct (to_word_ok _ Hd i Hi) as (w & H & _). eauto.
  - now apply (to_word_undef _ Hd).
Qed.

Lemma index_new_safe l i j : index_new i = Ok j ->
  exists w, to_word (to_dict l) j = Ok w.
Proof.
  unfold index_new, MAX_MNEMONIC_VALUE.
  destruct (N.leb_spec i 2047); [|discriminate]. intros H1. injection H1 as <-.
  apply to_word_safe. lia.
Qed.

Lemma unsafe_index :
  exists (l : Language) (i : N), is_u16 i /\ to_word (to_dict l) i = Undef.
Proof.
  exists English, 2048. split; [unfold is_u16, u16_max; lia|].
  apply to_word_safe. lia.
Qed.

Lemma string_new l s :
  (forall s', mnemonic_string_new (to_dict l) s = Ok s' <->
     s' = s /\ exists ms, mnemonics_from_string (to_dict l) s = Ok ms) /\
  (forall e, mnemonic_string_new (to_dict l) s = Err e <-> mnemonics_from_string (to_dict l) s = Err e) /\
  mnemonic_string_new (to_dict l) s <> Panic /\ mnemonic_string_new (to_dict l) s <> Undef.
Proof.
  assert (exists r, mnemonics_from_string (to_dict l) s = r /\ match r with Panic | Undef => False | _ => True end) as (r & E & Hr).
  { eexists. split; [reflexivity|]. destruct (phrase_errors l s) as (ws & _ & [(pre & w & post & _ & _ & _ & E)|[(_ & _ & E)|(_ & _ & ms & E)]]);
    rewrite E; constructor. }
  unfold mnemonic_string_new. rewrite E. destruct r as [ms|e| |]; try contradiction; cbn [bind].
  - split; [intros s'; split; [intros H; injection H as <-; eauto|intros [-> _]; reflexivity]|].
    split; [split; discriminate|]. split; discriminate.
  - split; [intros s'; split; [discriminate|intros [_ (ms & H)]; discriminate]|].
    split; [intros e'; split; intros H; injection H as <-; reflexivity|]. split; discriminate.
Qed.
