From Verif Require Import Base BaseFacts Str BitsSpec BitsFacts Prims Bip39 Bip39Spec Bip39Facts Dict DictFacts Lang LangSpec LangFacts LangCode LangCodeSpec.

Lemma cut_split sep s : cut sep s (split_str sep s).
Proof.
  destruct sep as [|c sep].
  - right. now split.
  - left. split; [discriminate|]. apply split_pieces. discriminate.
Qed.
Lemma cut_fun sep s ps : cut sep s ps -> ps = split_str sep s.
Proof.
  intros [[Hs Hp]|[-> ->]]; [|reflexivity].
  eapply pieces_fun; [exact Hp|]. now apply split_pieces.
Qed.

Lemma next_ok {E A B} (m : talking E A) (k : A -> talking E B) h a h' : m h = (Ok a, h') -> next m k h = k a h'.
Proof. intros H. unfold next. now rewrite H. Qed.
Lemma next_err {E A B} (m : talking E A) (k : A -> talking E B) h e h' : m h = (Err e, h') -> next m k h = (Err e, h').
Proof. intros H. unfold next. now rewrite H. Qed.
Lemma next_panic {E A B} (m : talking E A) (k : A -> talking E B) h h' : m h = (Panic, h') -> next m k h = (Panic, h').
Proof. intros H. unfold next. now rewrite H. Qed.

Section S.
Variable S : speaker.

Lemma separator_ok {E} h sep : S h CallSeparator = Ok sep -> @say_separator S E h = (Ok sep, h ++ [CallSeparator]).
Proof. intros H. unfold say_separator. now rewrite H. Qed.
Lemma separator_panic {E} h : S h CallSeparator = Panic -> @say_separator S E h = (Panic, h ++ [CallSeparator]).
Proof. intros H. unfold say_separator. now rewrite H. Qed.
Lemma word_ok h m w : S h (CallWord m) = Ok w -> say_to_word S m h = (Ok w, h ++ [CallWord m]).
Proof. intros H. unfold say_to_word. now rewrite H. Qed.
Lemma word_bad h m : wordless S h m -> say_to_word S m h = (Panic, h ++ [CallWord m]).
Proof. intros [H|[e H]]; unfold say_to_word; now rewrite H. Qed.

(** ** Reading *)
Lemma read_looked h ws ms h' : looked_up S h ws ms h' ->
  forall vec post, say_read S vec (ws ++ post) h = say_read S (vec ++ ms) post h'.
Proof.
  induction 1 as [h|h w m ws ms h' Hm Hl IH]; intros vec post.
  - now rewrite app_nil_r.
  - cbn [app say_read]. unfold next at 1, say_from_word at 1. rewrite Hm. cbn [map_err].
    rewrite IH, <- app_assoc. reflexivity.
Qed.
Lemma looked_length h ws ms h' : looked_up S h ws ms h' -> length ms = length ws.
Proof. induction 1; cbn [length]; congruence. Qed.

Lemma from_mnemonics_cases (ms : list N) :
  (word_count (length ms) /\ from_mnemonics ms = Ok ms) \/
  (~ word_count (length ms) /\ from_mnemonics ms = Err (WrongNumberOfWords (N.of_nat (length ms)))).
Proof.
  unfold from_mnemonics. rewrite word_count_type.
  destruct (from_word_count_total (N.of_nat (length ms))) as [[t Ht]|E].
  - left. rewrite Ht. split; [|reflexivity]. exists t. apply from_word_count_ok in Ht. lia.
  - right. rewrite E. split; [|reflexivity]. intros [t Ht].
    assert (F : from_word_count (N.of_nat (length ms)) = Ok t) by (apply from_word_count_ok; now rewrite Ht). congruence.
Qed.

Theorem reading_run h s r h' : reading S h s r h' -> say_from_string S s h = (r, h').
Proof.
  intros H. unfold say_from_string.
  destruct H as [Hs|sep ps pre w post ms h' e Hs Hc -> Hl He|sep ps pre w post ms h' Hs Hc -> Hl He|sep ps ms h' Hs Hc Hl Hw|sep ps ms h' Hs Hc Hl Hw].
  - exact (next_panic _ _ _ _ (separator_panic _ Hs)).
  - rewrite (next_ok _ _ _ _ _ (separator_ok _ _ Hs)), <- (cut_fun _ _ _ Hc).
    apply next_err. rewrite (read_looked _ _ _ _ Hl). cbn [say_read]. unfold next, say_from_word. now rewrite He.
  - rewrite (next_ok _ _ _ _ _ (separator_ok _ _ Hs)), <- (cut_fun _ _ _ Hc).
    apply next_panic. rewrite (read_looked _ _ _ _ Hl). cbn [say_read]. unfold next, say_from_word. now rewrite He.
  - rewrite (next_ok _ _ _ _ _ (separator_ok _ _ Hs)), <- (cut_fun _ _ _ Hc).
    rewrite (next_ok _ _ _ ms h').
    + unfold silent. rewrite <- (looked_length _ _ _ _ Hl) in *. destruct (from_mnemonics_cases ms) as [[H _]|[_ ->]]; [contradiction|reflexivity].
    + rewrite <- (app_nil_r ps), (read_looked _ _ _ _ Hl). reflexivity.
  - rewrite (next_ok _ _ _ _ _ (separator_ok _ _ Hs)), <- (cut_fun _ _ _ Hc).
    rewrite (next_ok _ _ _ ms h').
    + unfold silent. rewrite <- (looked_length _ _ _ _ Hl) in *. destruct (from_mnemonics_cases ms) as [[_ ->]|[H _]]; [reflexivity|contradiction].
    + rewrite <- (app_nil_r ps), (read_looked _ _ _ _ Hl). reflexivity.
Qed.

Hypothesis HS : speaker_ok S.

Lemma lookups h ws :
  (exists ms h', looked_up S h ws ms h') \/
  (exists pre w post ms h', ws = pre ++ w :: post /\ looked_up S h pre ms h' /\
     (S h' (CallMnemonic w) = Panic \/ exists e, S h' (CallMnemonic w) = Err e)).
Proof.
  revert h. induction ws as [|w ws IH]; intros h.
  - left. exists [], h. constructor.
  - destruct (S h (CallMnemonic w)) as [m|e| |] eqn:Em.
    + destruct (IH (h ++ [CallMnemonic w])) as [(ms & h' & H)|(pre & v & post & ms & h' & -> & H & H')].
      * left. exists (m :: ms), h'. now constructor.
      * right. exists (w :: pre), v, post, (m :: ms), h'. split; [reflexivity|]. split; [now constructor|exact H'].
    + right. exists [], w, ws, [], h. split; [reflexivity|]. split; [constructor|]. right. now exists e.
    + right. exists [], w, ws, [], h. split; [reflexivity|]. split; [constructor|]. now left.
    + now destruct (sp_defined S HS h (CallMnemonic w)).
Qed.

Lemma reading_exists h s : exists r h', reading S h s r h'.
Proof.
  destruct (S h CallSeparator) as [sep|e| |] eqn:Es.
  - destruct (lookups (h ++ [CallSeparator]) (split_str sep s)) as [(ms & h' & H)|(pre & w & post & ms & h' & E & H & [H'|[e H']])].
    + destruct (from_mnemonics_cases ms) as [[Hw _]|[Hw _]]; rewrite (looked_length _ _ _ _ H) in Hw; eexists _, _.
      * eapply rd_ok; [exact Es|apply cut_split|exact H|exact Hw].
      * eapply rd_count; [exact Es|apply cut_split|exact H|exact Hw].
    + eexists _, _. eapply rd_panic; [exact Es|apply cut_split|exact E|exact H|exact H'].
    + eexists _, _. eapply rd_unknown; [exact Es|apply cut_split|exact E|exact H|exact H'].
  - now destruct (sp_separator S HS h e).
  - eexists _, _. now apply rd_separator.
  - now destruct (sp_defined S HS h CallSeparator).
Qed.

Theorem reading_iff h s r h' : reading S h s r h' <-> say_from_string S s h = (r, h').
Proof.
  split; [apply reading_run|]. intros E. destruct (reading_exists h s) as (r' & h'' & H).
  pose proof (reading_run _ _ _ _ H) as E'. rewrite E in E'. injection E' as -> ->. exact H.
Qed.

Theorem checking h s : let out := say_from_string S s h in
  say_string_new S s h = (rmap (fun _ => s) (fst out), snd out).
Proof.
  cbv zeta. unfold say_string_new, next. destruct (say_from_string S s h) as [[a|e| |] h']; reflexivity.
Qed.

(** ** Writing *)
Lemma write_appended h ms t h' : appended S h ms t h' ->
  forall vec post, say_write S false vec (ms ++ post) h = say_write S false (vec ++ t) post h'.
Proof.
  induction 1 as [h|h m ms sep w t h' Hs Hw Ha IH]; intros vec post.
  - now rewrite app_nil_r.
  - cbn [app say_write]. rewrite (next_ok _ _ _ (vec ++ sep) (h ++ [CallSeparator])).
    2:{ rewrite (next_ok _ _ _ _ _ (separator_ok _ _ Hs)). reflexivity. }
    rewrite (next_ok _ _ _ _ _ (word_ok _ _ _ Hw)).
    replace ((h ++ [CallSeparator]) ++ [CallWord m]) with (h ++ [CallSeparator; CallWord m]) by (rewrite <- app_assoc; reflexivity).
    rewrite IH, <- !app_assoc. reflexivity.
Qed.

Lemma write_first vec m ms h : say_write S true vec (m :: ms) h = (say! w := say_to_word S m in say_write S false (vec ++ w) ms) h.
Proof. reflexivity. Qed.
Lemma write_next vec m ms h sep : S h CallSeparator = Ok sep ->
  say_write S false vec (m :: ms) h = (say! w := say_to_word S m in say_write S false ((vec ++ sep) ++ w) ms) (h ++ [CallSeparator]).
Proof.
  intros Hs. cbn [say_write]. rewrite (next_ok _ _ _ (vec ++ sep) (h ++ [CallSeparator])); [reflexivity|].
  rewrite (next_ok _ _ _ _ _ (separator_ok _ _ Hs)). reflexivity.
Qed.

Theorem writing_run h ms r h' : writing S h ms r h' -> say_to_string S ms h = (r, h').
Proof.
  intros H. unfold say_to_string.
  destruct H as [|m ms w t h' Hw Ha|m ms Hw|m pre m' post w t h' Hw Ha Hs|m pre m' post w t h' sep Hw Ha Hs Hw'].
  - reflexivity.
  - rewrite write_first, (next_ok _ _ _ _ _ (word_ok _ _ _ Hw)), <- (app_nil_r ms), (write_appended _ _ _ _ Ha). reflexivity.
  - rewrite write_first. exact (next_panic _ _ _ _ (word_bad _ _ Hw)).
  - rewrite write_first, (next_ok _ _ _ _ _ (word_ok _ _ _ Hw)), (write_appended _ _ _ _ Ha).
    cbn [say_write]. apply next_panic. exact (next_panic _ _ _ _ (separator_panic _ Hs)).
  - rewrite write_first, (next_ok _ _ _ _ _ (word_ok _ _ _ Hw)), (write_appended _ _ _ _ Ha), (write_next _ _ _ _ _ Hs),
      (next_panic _ _ _ _ (word_bad _ _ Hw')), <- app_assoc. reflexivity.
Qed.

Lemma word_cases h m : (exists w, S h (CallWord m) = Ok w) \/ wordless S h m.
Proof.
  destruct (S h (CallWord m)) as [w|e| |] eqn:E; [left; now exists w|right; right; now exists e|right; now left|].
  now destruct (sp_defined S HS h (CallWord m)).
Qed.
Lemma separator_cases h : (exists sep, S h CallSeparator = Ok sep) \/ S h CallSeparator = Panic.
Proof.
  destruct (S h CallSeparator) as [sep|e| |] eqn:E; [left; now exists sep|now destruct (sp_separator S HS h e)|now right|].
  now destruct (sp_defined S HS h CallSeparator).
Qed.
Lemma appends h ms :
  (exists t h', appended S h ms t h') \/
  (exists pre m post t h', ms = pre ++ m :: post /\ appended S h pre t h' /\
     (S h' CallSeparator = Panic \/ exists sep, S h' CallSeparator = Ok sep /\ wordless S (h' ++ [CallSeparator]) m)).
Proof.
  revert h. induction ms as [|m ms IH]; intros h.
  - left. exists [], h. constructor.
  - destruct (separator_cases h) as [[sep Hs]|Hs].
    2:{ right. exists [], m, ms, [], h. split; [reflexivity|]. split; [constructor|]. now left. }
    destruct (word_cases (h ++ [CallSeparator]) m) as [[w Hw]|Hw].
    2:{ right. exists [], m, ms, [], h. split; [reflexivity|]. split; [constructor|]. right. now exists sep. }
    destruct (IH (h ++ [CallSeparator; CallWord m])) as [(t & h' & H)|(pre & v & post & t & h' & -> & H & H')].
    + left. exists (sep ++ w ++ t), h'. now constructor.
    + right. exists (m :: pre), v, post, (sep ++ w ++ t), h'. split; [reflexivity|]. split; [now constructor|exact H'].
Qed.
Lemma writing_exists h ms : exists r h', writing S h ms r h'.
Proof.
  destruct ms as [|m ms]; [eexists _, _; constructor|].
  destruct (word_cases h m) as [[w Hw]|Hw]; [|eexists _, _; now apply wr_first].
  destruct (appends (h ++ [CallWord m]) ms) as [(t & h' & H)|(pre & v & post & t & h' & -> & H & [H'|(sep & H' & H2)])].
  - eexists _, _. eapply wr_ok; eassumption.
  - eexists _, _. eapply wr_separator; eassumption.
  - eexists _, _. eapply wr_word; eassumption.
Qed.
Theorem writing_iff h ms r h' : writing S h ms r h' <-> say_to_string S ms h = (r, h').
Proof.
  split; [apply writing_run|]. intros E. destruct (writing_exists h ms) as (r' & h'' & H).
  pose proof (writing_run _ _ _ _ H) as E'. rewrite E in E'. injection E' as -> ->. exact H.
Qed.
End S.

(** ** The calls *)
Lemma looked_calls S h ws ms h' : looked_up S h ws ms h' -> h' = h ++ map CallMnemonic ws.
Proof.
  induction 1 as [h|h w m ws ms h' Hm Hl IH]; [now rewrite app_nil_r|].
  rewrite IH, <- app_assoc. reflexivity.
Qed.
Theorem read_calls S h s : speaker_ok S -> exists ws,
  snd (say_from_string S s h) = h ++ CallSeparator :: map CallMnemonic ws /\
  (forall sep, S h CallSeparator = Ok sep -> exists post, cut sep s (ws ++ post) /\
     (forall ms, fst (say_from_string S s h) = Ok ms -> post = [] /\ length ms = length ws)).
Proof.
  intros HS. destruct (reading_exists S HS h s) as (r & h' & H). rewrite (reading_run _ _ _ _ _ H). cbn [fst snd].
  assert (forall (a b : str), Ok (E := str) a = Ok b -> a = b) as inj by (intros a b E; now injection E).
  destruct H as [Hs|sep ps pre w post ms h' e Hs Hc -> Hl He|sep ps pre w post ms h' Hs Hc -> Hl He|sep ps ms h' Hs Hc Hl Hw|sep ps ms h' Hs Hc Hl Hw].
  - exists []. split; [reflexivity|]. intros sep E. rewrite Hs in E. discriminate E.
  - exists (pre ++ [w]). rewrite (looked_calls _ _ _ _ _ Hl), map_app, <- !app_assoc. split; [reflexivity|].
    intros sep' E. rewrite Hs in E. apply inj in E. subst sep'. exists post. rewrite <- app_assoc. split; [exact Hc|discriminate].
  - exists (pre ++ [w]). rewrite (looked_calls _ _ _ _ _ Hl), map_app, <- !app_assoc. split; [reflexivity|].
    intros sep' E. rewrite Hs in E. apply inj in E. subst sep'. exists post. rewrite <- app_assoc. split; [exact Hc|discriminate].
  - exists ps. rewrite (looked_calls _ _ _ _ _ Hl), <- !app_assoc. split; [reflexivity|].
    intros sep' E. rewrite Hs in E. apply inj in E. subst sep'. exists []. rewrite app_nil_r. split; [exact Hc|discriminate].
  - exists ps. rewrite (looked_calls _ _ _ _ _ Hl), <- !app_assoc. split; [reflexivity|].
    intros sep' E. rewrite Hs in E. apply inj in E. subst sep'. exists []. rewrite app_nil_r. split; [exact Hc|].
    intros ms' E. injection E as <-. split; [reflexivity|]. exact (looked_length _ _ _ _ _ Hl).
Qed.

Definition gap (m : N) : list lang_call := [CallSeparator; CallWord m].
Lemma appended_calls S h ms t h' : appended S h ms t h' -> h' = h ++ flat_map gap ms.
Proof.
  induction 1 as [h|h m ms sep w t h' Hs Hw Ha IH]; [now rewrite app_nil_r|].
  rewrite IH, <- app_assoc. reflexivity.
Qed.
Theorem write_calls S h m ms : speaker_ok S -> exists post,
  h ++ CallWord m :: flat_map gap ms = snd (say_to_string S (m :: ms) h) ++ post /\
  ((exists s, fst (say_to_string S (m :: ms) h) = Ok s) -> post = []).
Proof.
  intros HS. destruct (writing_exists S HS h (m :: ms)) as (r & h' & H). rewrite (writing_run _ _ _ _ _ H). cbn [fst snd].
  inversion H as [|? ? w t ? Hw Ha|? ? Hw|? pre m' post w t ? Hw Ha Hs|? pre m' post w t ? sep Hw Ha Hs Hw']; subst.
  - exists []. rewrite (appended_calls _ _ _ _ _ Ha), app_nil_r, <- app_assoc. split; reflexivity.
  - exists (flat_map gap ms). rewrite <- app_assoc. split; [reflexivity|]. intros [s E]. discriminate E.
  - exists (CallWord m' :: flat_map gap post). rewrite (appended_calls _ _ _ _ _ Ha), flat_map_app, <- !app_assoc.
    split; [reflexivity|]. intros [s E]. discriminate E.
  - exists (flat_map gap post). rewrite (appended_calls _ _ _ _ _ Ha), flat_map_app, <- !app_assoc.
    split; [reflexivity|]. intros [s E]. discriminate E.
Qed.

(** ** Languages that are functions *)
Lemma read_constant S L : speaks S L -> forall ws vec h,
  fst (say_read S vec ws h) = (let* ms := mapM (lang_from_word L) ws in Ok (vec ++ ms)).
Proof.
  intros HS. induction ws as [|w ws IH]; intros vec h; cbn [say_read mapM bind].
  - now rewrite app_nil_r.
  - destruct (HS h) as (_ & _ & Hm & _). unfold next, say_from_word, lang_from_word. rewrite Hm.
    destruct (l_mnemonic L w) as [m|e| |]; cbn [map_err bind fst]; [|reflexivity..].
    rewrite IH. fold (lang_from_word L). destruct (mapM (lang_from_word L) ws) as [ms|e| |]; cbn [bind]; [|reflexivity..].
    rewrite <- app_assoc. reflexivity.
Qed.
Lemma write_constant S L : speaks S L -> forall ms vec h,
  fst (say_write S false vec ms h)
  = (let* ws := mapM (lang_to_word L) ms in Ok (vec ++ concat (map (fun w => l_separator L ++ w) ws))).
Proof.
  intros HS. induction ms as [|m ms IH]; intros vec h; cbn [say_write mapM bind].
  - cbn. now rewrite app_nil_r.
  - destruct (HS h) as (_ & Hs & _). rewrite (next_ok _ _ _ (vec ++ l_separator L) (h ++ [CallSeparator])).
    2:{ rewrite (next_ok _ _ _ _ _ (separator_ok _ _ _ Hs)). reflexivity. }
    unfold next, say_to_word, lang_to_word. destruct (HS (h ++ [CallSeparator])) as (_ & _ & _ & Hw). rewrite Hw.
    destruct (l_word L m) as [w|e| |]; cbn [unwrap map_err bind fst]; [|reflexivity..].
    rewrite IH. fold (lang_to_word L). destruct (mapM (lang_to_word L) ms) as [ws|e| |]; cbn [bind]; [|reflexivity..].
    cbn [map concat]. rewrite <- !app_assoc. reflexivity.
Qed.
Lemma join_concat sep w ws : join sep (w :: ws) = w ++ concat (map (fun w => sep ++ w) ws).
Proof.
  revert w. induction ws as [|v ws IH]; intros w; cbn [map concat]; [cbn; now rewrite app_nil_r|].
  change (join sep (w :: v :: ws)) with (w ++ sep ++ join sep (v :: ws)). rewrite IH, <- !app_assoc. reflexivity.
Qed.
Theorem constant_speaker S L : speaks S L -> forall h,
  (forall s, fst (say_from_string S s h) = lang_from_string L s) /\
  (forall s, fst (say_string_new S s h) = lang_string_new L s) /\
  (forall ms, fst (say_to_string S ms h) = lang_to_string L ms).
Proof.
  intros HS h.
  assert (forall s, fst (say_from_string S s h) = lang_from_string L s) as Hr.
  { intros s. destruct (HS h) as (_ & Hs & _). unfold say_from_string, lang_from_string.
    rewrite (next_ok _ _ _ _ _ (separator_ok _ _ _ Hs)). unfold next at 1.
    pose proof (read_constant S L HS (split_str (l_separator L) s) [] (h ++ [CallSeparator])) as E.
    destruct (say_read S [] _ _) as [r h']. cbn [fst] in E. subst r.
    destruct (mapM _ _) as [ms|e| |]; reflexivity. }
  split; [exact Hr|]. split.
  - intros s. unfold lang_string_new. rewrite <- Hr. unfold say_string_new, next.
    destruct (say_from_string S s h) as [[a|e| |] h']; reflexivity.
  - intros [|m ms]; [reflexivity|]. unfold say_to_string. rewrite write_first. unfold lang_to_string. cbn [mapM].
    unfold next, say_to_word. destruct (HS h) as (_ & _ & _ & Hw). rewrite Hw. unfold lang_to_word at 1.
    destruct (l_word L m) as [w|e| |]; cbn [unwrap map_err bind fst]; [|reflexivity..].
    rewrite (write_constant S L HS). destruct (mapM _ ms) as [ws|e| |]; cbn [bind]; [|reflexivity..].
    rewrite join_concat. reflexivity.
Qed.

(** ** What becomes of the indices *)
Theorem wrapped P ms : prims_ok P -> word_count (length ms) ->
  entropy_from_mnemonics P ms = entropy_from_mnemonics P (map (fun m => m mod 2048) ms).
Proof.
  intros HP Hw. apply word_count_type in Hw as [t Ht].
  destruct (entropy_from_mnemonics_spec P ms t HP Ht) as (e & We & Te & Be & ->).
  destruct (entropy_from_mnemonics_spec P (map (fun m => m mod 2048) ms) t HP ltac:(now rewrite map_length))
    as (e' & We' & Te' & Be' & ->).
  rewrite groups_bits_mod in *. assert (e' = e) as ->; [|reflexivity].
  rewrite <- Be in Be'. apply bytes_bits_inj in Be'. destruct e, e'. cbn in *. congruence.
Qed.
Theorem translated (l : Dict.Language) ms :
  (Forall (fun m => m < 2048) ms -> exists t, mnemonics_to_string (to_dict l) ms = Ok t) /\
  (Exists (fun m => 2048 <= m) ms -> mnemonics_to_string (to_dict l) ms = Undef).
Proof.
  unfold mnemonics_to_string. split.
  - intros H. induction H as [|m ms Hm H [t IH]]; [now eexists|].
    destruct (proj1 (to_word_safe l m) Hm) as [w Hw]. cbn [mapM]. rewrite Hw. cbn [bind].
    destruct (mapM (to_word (to_dict l)) ms); [|discriminate..]. now eexists.
  - intros H. assert (mapM (to_word (to_dict l)) ms = Undef) as ->; [|reflexivity].
    induction ms as [|m ms IH]; [now apply Exists_nil in H|]. cbn [mapM].
    destruct (N.lt_ge_cases m 2048) as [Hm|Hm].
    + destruct (proj1 (to_word_safe l m) Hm) as [w Hw]. rewrite Hw. cbn [bind].
      apply Exists_cons in H as [H|H]; [lia|]. now rewrite (IH H).
    + now rewrite (proj2 (to_word_safe l m) Hm).
Qed.

(** ** Code that changes its mind *)
Definition speaker_of (sep : list lang_call -> str) (mn : list lang_call -> str -> res str N)
  (wd : list lang_call -> N -> res str str) : speaker := fun h q =>
  match q with
  | CallName => Ok []
  | CallSeparator => Ok (sep h)
  | CallMnemonic w => mn h w
  | CallWord m => wd h m
  end.
Definition number_word (m : N) : res str str := if m <? 2048 then Ok [1000 + m] else Err [].
Definition number_mnemonic (w : str) : res str N :=
  match w with
  | [c] => if (1000 <=? c) && (c <? 3048) then Ok (c - 1000) else Err w
  | _ => Err w
  end.
Lemma speaker_of_ok sep mn wd : (forall h w m, mn h w = Ok m -> m < 65536) ->
  (forall h w, mn h w <> Undef) -> (forall h m, wd h m <> Undef) -> speaker_ok (speaker_of sep mn wd).
Proof.
  intros H1 H2 H3. constructor; try discriminate; [exact H1|]. intros h []; try discriminate; [apply H2|apply H3].
Qed.
Lemma number_mnemonic_ok w m : number_mnemonic w = Ok m -> m < 65536.
Proof.
  unfold number_mnemonic. destruct w as [|c [|]]; try discriminate. destruct (_ && _) eqn:E; [|discriminate].
  apply andb_true_iff in E as [_ E]. apply N.ltb_lt in E. intros H. injection H as <-. lia.
Qed.
Lemma number_mnemonic_defined w : number_mnemonic w <> Undef.
Proof. unfold number_mnemonic. destruct w as [|c [|]]; try discriminate. now destruct (_ && _). Qed.
Lemma number_word_defined m : number_word m <> Undef.
Proof. unfold number_word. now destruct (_ <? _). Qed.
Lemma number_words m : m < 2048 -> number_word m = Ok [1000 + m] /\ number_mnemonic [1000 + m] = Ok m.
Proof.
  intros H. unfold number_word, number_mnemonic. rewrite (proj2 (N.ltb_lt m 2048) H).
  rewrite (proj2 (N.leb_le 1000 (1000 + m))), (proj2 (N.ltb_lt (1000 + m) 3048)) by lia.
  cbn [andb]. split; [reflexivity|]. f_equal. lia.
Qed.

(** Knows every number when first asked, none after ten calls. *)
Definition forgetful : speaker := speaker_of (fun _ => [0x20])
  (fun h w => if Nat.ltb (length h) 10 then number_mnemonic w else Err w) (fun _ => number_word).
(** Has an index beyond the dictionaries. *)
Definition boundless : speaker := speaker_of (fun _ => [0x20]) (fun _ _ => Ok 2048) (fun _ => number_word).
(** Changes between two separators. *)
Definition two_separators : speaker := speaker_of
  (fun h => if Nat.even (Nat.div2 (length h)) then [0x20] else [0x21]) (fun _ => number_mnemonic) (fun _ => number_word).

Definition nine : list N := [1; 2; 3; 4; 5; 6; 7; 8; 9].
Definition nine_words : str := join [0x20] (map (fun m => [1000 + m]) nine).

Theorem checked_once : exists S s h e, speaker_ok S /\
  say_string_new S s [] = (Ok s, h) /\ fst (say_string_new S s h) = Err (LanguageError e).
Proof.
  exists forgetful, nine_words. eexists _, _. split.
  - apply speaker_of_ok.
    + intros h w m. destruct (Nat.ltb _ _); [apply number_mnemonic_ok|discriminate].
    + intros h w. destruct (Nat.ltb _ _); [apply number_mnemonic_defined|discriminate].
    + intros h m. apply number_word_defined.
  - split; vm_compute; reflexivity.
Qed.
Theorem undefined_translation : exists S s h ms, speaker_ok S /\
  say_from_string S s [] = (Ok ms, h) /\ forall l, mnemonics_to_string (to_dict l) ms = Undef.
Proof.
  exists boundless, nine_words. eexists _, (repeat 2048 9). split; [|split; [vm_compute; reflexivity|]].
  - apply speaker_of_ok; try discriminate; [|intros; apply number_word_defined].
    intros h w m H. injection H as <-. lia.
  - intros l. apply translated. constructor. lia.
Qed.
Theorem mixed_separators : exists S ms s h e, speaker_ok S /\ word_count (length ms) /\ Forall (fun m => m < 2048) ms /\
  (forall h m, m < 2048 -> exists w, S h (CallWord m) = Ok w /\
     (forall h', S h' (CallWord m) = Ok w /\ S h' (CallMnemonic w) = Ok m) /\
     forall h' sep, S h' CallSeparator = Ok sep -> sep <> [] /\ disjoint_from sep w) /\
  say_to_string S ms [] = (Ok s, h) /\ fst (say_from_string S s h) = Err (LanguageError e).
Proof.
  exists two_separators, nine. eexists _, _, _. split; [|split; [now left|split; [repeat constructor|split; [|split; vm_compute; reflexivity]]]].
  - apply speaker_of_ok; intros; [eapply number_mnemonic_ok; eassumption|apply number_mnemonic_defined|apply number_word_defined].
  - intros h0 m Hm. destruct (number_words m Hm) as [H1 H2]. exists [1000 + m]. split; [exact H1|]. split; [now split|].
    intros h' sep E. cbn in E. apply (f_equal (fun r => match r with Ok a => a | _ => [] end)) in E. subst sep.
    destruct (Nat.even _); (split; [discriminate|]); intros c [<-|[]] [H|[]]; clear - H Hm; lia.
Qed.

(** ** Closures *)
Theorem generates t gen :
  generate_with t gen = match gen (repeat x00 (to_key_size t / 8)) with
                        | None => Panic
                        | Some bs => Ok {| e_type := t; e_bytes := bs |}
                        end.
Proof. destruct t; reflexivity. Qed.
