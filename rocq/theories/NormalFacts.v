(** Proofs about the normal form of phrases. *)
From Verif Require Import Base BaseFacts Str StrFacts Prims Bip39 Bip39Spec Bip39Facts Dict DictFacts DictSpec DictWords
  Errors Mnemonic OrderFacts NormalSpec.
Open Scope list_scope.

Definition inb (l : list N) (c : N) : bool := existsb (N.eqb c) l.
Lemma inb_in l c : inb l c = true <-> In c l.
Proof.
  unfold inb. rewrite existsb_exists. split; [intros (x & I & E); apply N.eqb_eq in E; now subst|].
  intros I. exists c. split; [exact I|apply N.eqb_refl].
Qed.

(** No two marks in a row *)
Fixpoint calm (s : str) : bool :=
  match s with
  | a :: ((b :: _) as r) => negb (inb marks a && inb marks b) && calm r
  | _ => true
  end.
Lemma calm_space u v : calm u = true -> calm v = true -> calm (u ++ 32 :: v) = true.
Proof.
  intros U V. assert (calm (32 :: v) = true) as W.
  { destruct v as [|b v]; [reflexivity|]. change (negb (inb marks 32 && inb marks b) && calm (b :: v) = true). now rewrite V. }
  induction u as [|a u IH]; [exact W|]. destruct u as [|b u].
  - change (negb (inb marks a && inb marks 32) && calm (32 :: v) = true). rewrite W. now rewrite andb_false_r.
  - change (negb (inb marks a && inb marks b) && calm (b :: u) = true) in U. apply andb_true_iff in U as [U1 U2].
    change (negb (inb marks a && inb marks b) && calm ((b :: u) ++ 32 :: v) = true). now rewrite U1, IH.
Qed.
Lemma calm_pair s : calm s = true -> forall p a b q, s = p ++ a :: b :: q -> In a marks -> In b marks -> False.
Proof.
  intros C p. revert s C. induction p as [|x p IH]; intros s C a b q -> A B.
  - change (negb (inb marks a && inb marks b) && calm (b :: q) = true) in C. apply inb_in in A, B. now rewrite A, B in C.
  - cbn [app] in C. refine (IH (p ++ a :: b :: q) _ a b q eq_refl A B).
    destruct (p ++ a :: b :: q) as [|y r]; [reflexivity|].
    change (negb (inb marks x && inb marks y) && calm (y :: r) = true) in C. now apply andb_true_iff in C as [_ C].
Qed.

Lemma words_normal l w : In w (to_dict l) -> calm w = true /\ forall c, In c w -> ~ In c voiced.
Proof.
  assert (forallb (fun w => calm w && forallb (fun c => negb (inb voiced c)) w) (to_dict l) = true) as H
    by (destruct l; vm_compute; reflexivity).
  intros I. rewrite forallb_forall in H. specialize (H w I). apply andb_true_iff in H as [H1 H2].
  split; [exact H1|]. intros c J V. rewrite forallb_forall in H2. specialize (H2 c J). apply inb_in in V. now rewrite V in H2.
Qed.

(** An accepted phrase and its words *)
Lemma accepted_words l s ms : mnemonics_from_string (to_dict l) s = Ok ms ->
  exists w ws, Forall (fun w => In w (to_dict l)) (w :: ws) /\ s = w ++ more ws.
Proof.
  intros H. apply from_string_words in H as (_ & C & T); [|apply language_dict_ok]. unfold mnemonics_to_string in T.
  destruct (mapM (to_word (to_dict l)) ms) as [ws| | |] eqn:E; try discriminate. cbn [bind] in T. injection T as <-.
  apply mapM_inv in E. destruct E as [|m w ms ws Hm E]; [cbn in C; intuition discriminate|].
  exists w, ws. split; [|apply join_more]. constructor; [now apply (to_word_in (to_dict l) m)|].
  clear C. induction E as [|m' w' ms ws Hm' E IH]; constructor; [now apply (to_word_in (to_dict l) m')|exact IH].
Qed.
Lemma accepted_chars l s ms c : mnemonics_from_string (to_dict l) s = Ok ms -> In c s ->
  c = 32 \/ exists w, In w (to_dict l) /\ In c w.
Proof.
  intros H I. destruct (accepted_words l s ms H) as (w & ws & D & ->). inversion_clear D as [|? ? D1 D2].
  apply in_app_iff in I as [I|I]; [right; eauto|]. unfold more in I. apply in_flat_map in I as (v & V & I).
  destruct I as [<-|I]; [now left|]. right. exists v. split; [|exact I]. rewrite Forall_forall in D2. auto.
Qed.

Theorem accepted_normal U l s ms : unicode_ok U -> mnemonics_from_string (to_dict l) s = Ok ms -> nfkd_form U s.
Proof.
  intros HU H. split.
  - apply Forall_forall. intros c I. destruct (decomposes U c) eqn:E; [|reflexivity]. exfalso.
    destruct (accepted_chars l s ms c H I) as [->|(w & W & J)].
    + apply (HU l 32) in E; [|now left]. cbn in E. intuition discriminate.
    + apply (HU l c) in E; [|right; eapply script_words; eauto]. now apply (proj2 (words_normal l w W) c).
  - intros p a b q E L. destruct (N.eq_dec (ccc U b) 0) as [Z|Z]; [exact Z|]. exfalso.
    assert (forall c, In c s -> ccc U c <> 0 -> In c marks) as M.
    { intros c I Q. apply (HU l c); [|exact Q]. destruct (accepted_chars l s ms c H I) as [->|(w & W & J)]; [now left|].
      right. eapply script_words; eauto. }
    assert (In a s /\ In b s) as [Ia Ib].
    { rewrite E. split; apply in_app_iff; right; [now left|right; now left]. }
    assert (calm s = true) as C.
    { destruct (accepted_words l s ms H) as (w & ws & D & ->). clear -D. revert w D.
      induction ws as [|v ws IH]; intros w D; inversion_clear D as [|? ? D1 D2].
      - cbn [more flat_map]. rewrite app_nil_r. now apply (words_normal l).
      - cbn [more flat_map]. fold (more ws). cbn [app]. apply calm_space; [now apply (words_normal l)|]. now apply IH. }
    apply (calm_pair s C p a b q E); apply M; auto. lia.
Qed.

(** Refused phrases *)
Lemma refused_word P l s c u size : In c s -> c <> 32 -> (forall w, In w (to_dict l) -> ~ In c w) ->
  exists w, ~ In w (to_dict l) /\ mnemonics_from_string (to_dict l) s = Err (LanguageError w) /\
    seed_from_mnemonic P s u size l = Err (UnsupportedWordFound w).
Proof.
  intros I N F. destruct (from_string_cases (to_dict l) (language_dict_ok l) s) as [(pre & w & post & _ & _ & W & E)|H].
  - exists w. split; [exact W|]. split; [exact E|]. unfold seed_from_mnemonic. rewrite E. reflexivity.
  - exfalso. assert (Forall (fun w => In w (to_dict l)) (split separator s)) as D by (destruct H as [[H _]|[H _]]; exact H).
    clear H. rewrite <- (join_split separator s) in I. destruct (split separator s) as [|w ws]; [easy|].
    rewrite join_more in I. inversion_clear D as [|? ? D1 D2]. apply in_app_iff in I as [I|I]; [now apply (F w)|].
    unfold more in I. apply in_flat_map in I as (v & V & [E|I]); [apply N; symmetry; exact E|]. rewrite Forall_forall in D2. now apply (F v); auto.
Qed.
Theorem foreign_refused P l s c u size : In c s -> c <> 32 -> ~ in_script l c ->
  exists w, ~ In w (to_dict l) /\ mnemonics_from_string (to_dict l) s = Err (LanguageError w) /\
    seed_from_mnemonic P s u size l = Err (UnsupportedWordFound w).
Proof. intros I N F. apply (refused_word P l s c u size I N). intros w W J. apply F. eapply script_words; eauto. Qed.
Theorem composed_refused P U l s c u size : unicode_ok U -> In c s -> decomposes U c = true ->
  exists w, ~ In w (to_dict l) /\ mnemonics_from_string (to_dict l) s = Err (LanguageError w) /\
    seed_from_mnemonic P s u size l = Err (UnsupportedWordFound w).
Proof.
  intros HU I D. apply (refused_word P l s c u size I).
  - intros ->. apply (HU l 32) in D; [|now left]. cbn in D. intuition discriminate.
  - intros w W J. apply (HU l c) in D; [|right; eapply script_words; eauto]. now apply (proj2 (words_normal l w W) c).
Qed.

(** The tables of Unicode, as far as used *)
Definition ucd : unicode :=
  {| decomposes := inb voiced;
     ccc := fun c => if inb [0x300; 0x301; 0x303] c then 230 else if inb [0x3099; 0x309A] c then 8 else 0 |}.
Lemma ucd_ok : unicode_ok ucd.
Proof.
  intros l c _. split; [apply inb_in|]. unfold ucd. cbn [ccc].
  destruct (inb [0x300; 0x301; 0x303] c) eqn:E; [intros _; apply inb_in in E; cbn in *; tauto|].
  destruct (inb [0x3099; 0x309A] c) eqn:E'; [intros _; apply inb_in in E'; cbn in *; tauto|]. congruence.
Qed.

(** The first Spanish word, nine times, with and without its accent composed *)
Lemma equivalent_refused P u : exists s s' ms,
  s' = flat_map (fun c => if c =? 0xE1 then [0x61; 0x301] else [c]) s /\
  mnemonics_from_string (to_dict Spanish) s' = Ok ms /\
  (forall size, exists w, seed_from_mnemonic P s u size Spanish = Err (UnsupportedWordFound w)) /\
  exists seed, seed_from_mnemonic P s' u 96 Spanish = Ok seed.
Proof.
  pose (w := [0xE1; 0x62; 0x61; 0x63; 0x6F]).
  exists (w ++ more (repeat w 8)), (flat_map (fun c => if c =? 0xE1 then [0x61; 0x301] else [c]) (w ++ more (repeat w 8))), (repeat 0 9).
  assert (mnemonics_from_string (to_dict Spanish)
    (flat_map (fun c => if c =? 0xE1 then [0x61; 0x301] else [c]) (w ++ more (repeat w 8))) = Ok (repeat 0 9)) as E
    by (vm_compute; reflexivity).
  split; [reflexivity|]. split; [exact E|]. split.
  - intros size. destruct (foreign_refused P Spanish (w ++ more (repeat w 8)) 0xE1 u size) as (v & _ & _ & H); [now left|discriminate| |eauto].
    cbn [in_script]. unfold latin. lia.
  - destruct (from_string_words _ (language_dict_ok Spanish) _ _ E) as (_ & _ & T).
    unfold seed_from_mnemonic. rewrite E. cbn [map_err bind].
    change (get_type (repeat 0 9)) with (@Ok bip39_error Type_ Type9Words). cbn [map_err bind]. rewrite T. cbn [map_err bind].
    change (N.of_nat (mnemonic_count Type9Words) <? 96 / 32 * 3) with false.
    change (96 / 32 * 3 <? N.of_nat (mnemonic_count Type9Words)) with false. eauto.
Qed.
