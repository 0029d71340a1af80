(** Facts about the words of the eight lists, by computation. *)
From Verif Require Import Base BaseFacts Str Bip39 Bip39Spec Bip39Facts Dict DictFacts DictSpec.

Definition latinb (c : N) : bool := (0x61 <=? c) && (c <=? 0x7A).
Definition scriptb (l : Language) (c : N) : bool :=
  match l with
  | English | Italian => latinb c
  | French => latinb c || (c =? 0x300) || (c =? 0x301)
  | Spanish => latinb c || (c =? 0x301) || (c =? 0x303)
  | Japanese => (0x3042 <=? c) && (c <=? 0x309A)
  | Korean => (0x1100 <=? c) && (c <=? 0x11C2)
  | ChineseSimplified | ChineseTraditional => (0x4E00 <=? c) && (c <=? 0x9FFF)
  end.
Lemma scriptb_ok l c : scriptb l c = true -> in_script l c.
Proof.
  destruct l; cbn [scriptb in_script]; unfold latinb, latin;
    rewrite ?orb_true_iff, ?andb_true_iff, ?N.leb_le, ?N.eqb_eq; tauto.
Qed.

Lemma script_words l w c : In w (to_dict l) -> In c w -> in_script l c.
Proof.
  assert (H : forallb (forallb (scriptb l)) (to_dict l) = true) by (destruct l; vm_compute; reflexivity).
  intros Hw Hc. rewrite forallb_forall in H. specialize (H w Hw). rewrite forallb_forall in H.
  apply scriptb_ok, H, Hc.
Qed.

Lemma chinese_one l w : is_chinese l -> In w (to_dict l) -> exists c, w = [c].
Proof.
  intros Hl Hw.
  assert (H : forallb (fun w => match w with [_] => true | _ => false end) (to_dict l) = true)
    by (destruct Hl as [-> | ->]; vm_compute; reflexivity).
  rewrite forallb_forall in H. specialize (H w Hw). destruct w as [|c [|]]; try discriminate. eauto.
Qed.

Lemma ends l : to_word (to_dict l) 0 = Ok (fst (first_last l)) /\ to_word (to_dict l) 2047 = Ok (snd (first_last l)).
Proof. destruct l; split; vm_compute; reflexivity. Qed.

Lemma NoDup_map_inj {A B} (f : A -> B) l : NoDup (map f l) -> forall x y, In x l -> In y l -> f x = f y -> x = y.
Proof.
  induction l as [|a l IH]; cbn [map In]; [tauto|]. intros Hn x y. inversion_clear Hn as [|? ? H1 H2].
  intros [<-|Hx] [<-|Hy] E; auto.
  - destruct H1. rewrite E. now apply in_map.
  - destruct H1. rewrite <- E. now apply in_map.
Qed.
Lemma four_letters l w w' : is_latin l -> In w (to_dict l) -> In w' (to_dict l) ->
  firstn 4 (letters w) = firstn 4 (letters w') -> w = w'.
Proof.
  intros Hl. apply (NoDup_map_inj (fun w => firstn 4 (letters w))). apply nodupb_ok.
  destruct Hl as [->|[->|[->| ->]]]; vm_compute; reflexivity.
Qed.

(** ** Words in two lists *)
Lemma scripts_apart l l' c : in_script l c -> in_script l' c ->
  l = l' \/ (is_latin l /\ is_latin l') \/ (is_chinese l /\ is_chinese l').
Proof.
  unfold is_latin, is_chinese.
  destruct l, l'; cbn [in_script]; unfold latin; intros H1 H2; first [now left | right; left; split; tauto | right; right; split; tauto | exfalso; lia].
Qed.

Definition starts (c : N) (w : str) : bool := match w with x :: _ => c =? x | [] => false end.
Definition alphabet : list N := [0x61; 0x62; 0x63; 0x64; 0x65; 0x66; 0x67; 0x68; 0x69; 0x6A; 0x6B; 0x6C; 0x6D;
  0x6E; 0x6F; 0x70; 0x71; 0x72; 0x73; 0x74; 0x75; 0x76; 0x77; 0x78; 0x79; 0x7A].
Definition apartb (a b : dict) : bool :=
  forallb (fun w => match w with c :: _ => existsb (N.eqb c) alphabet | [] => false end) a &&
  forallb (fun c => let b' := filter (starts c) b in
    forallb (fun w => negb (memb w b')) (filter (starts c) a)) alphabet.
Lemma apartb_ok a b w : apartb a b = true -> In w a -> In w b -> False.
Proof.
  unfold apartb. rewrite andb_true_iff, !forallb_forall. intros [H1 H2] Ha Hb.
  specialize (H1 w Ha). destruct w as [|c w]; [discriminate|].
  apply existsb_exists in H1 as (c' & Hc & E). apply N.eqb_eq in E. subst c'.
  specialize (H2 c Hc). cbv zeta in H2. rewrite forallb_forall in H2.
  assert (forall d, In (c :: w) d -> In (c :: w) (filter (starts c) d)) as Hf.
  { intros d Hd. apply filter_In. split; [exact Hd|]. cbn. apply N.eqb_refl. }
  specialize (H2 _ (Hf a Ha)). apply negb_true_iff in H2.
  assert (memb (c :: w) (filter (starts c) b) = true) by (apply memb_in; auto). congruence.
Qed.
Lemma latin_apart l l' w : is_latin l -> is_latin l' -> In w (to_dict l) -> In w (to_dict l') ->
  l = l' \/ (l = English /\ l' = French) \/ (l = French /\ l' = English).
Proof.
  assert (apartb (to_dict English) (to_dict Italian) = true) as H1 by (vm_compute; reflexivity).
  assert (apartb (to_dict English) (to_dict Spanish) = true) as H2 by (vm_compute; reflexivity).
  assert (apartb (to_dict French) (to_dict Italian) = true) as H3 by (vm_compute; reflexivity).
  assert (apartb (to_dict French) (to_dict Spanish) = true) as H4 by (vm_compute; reflexivity).
  assert (apartb (to_dict Italian) (to_dict Spanish) = true) as H5 by (vm_compute; reflexivity).
  intros [->|[->|[->| ->]]] [->|[->|[->| ->]]] Ha Hb.
  - left; reflexivity.
  - right; left; split; reflexivity.
  - destruct (apartb_ok _ _ _ H1 Ha Hb).
  - destruct (apartb_ok _ _ _ H2 Ha Hb).
  - right; right; split; reflexivity.
  - left; reflexivity.
  - destruct (apartb_ok _ _ _ H3 Ha Hb).
  - destruct (apartb_ok _ _ _ H4 Ha Hb).
  - destruct (apartb_ok _ _ _ H1 Hb Ha).
  - destruct (apartb_ok _ _ _ H3 Hb Ha).
  - left; reflexivity.
  - destruct (apartb_ok _ _ _ H5 Ha Hb).
  - destruct (apartb_ok _ _ _ H2 Hb Ha).
  - destruct (apartb_ok _ _ _ H4 Hb Ha).
  - destruct (apartb_ok _ _ _ H5 Hb Ha).
  - left; reflexivity.
Qed.

(** English and French: never at the same place. *)
Lemma same_place {A} : forall (a b : list A) i w, nth_error a i = Some w -> nth_error b i = Some w -> In (w, w) (combine a b).
Proof.
  induction a as [|x a IH]; intros [|y b] [|i] w; cbn; try discriminate.
  - intros [= ->] [= ->]. now left.
  - intros H1 H2. right. now apply (IH b i).
Qed.
Lemma english_french i w : nth_error (to_dict English) i = Some w -> nth_error (to_dict French) i = Some w -> False.
Proof.
  assert (forallb (fun p => negb (str_eqb (fst p) (snd p))) (combine (to_dict English) (to_dict French)) = true) as H
    by (vm_compute; reflexivity).
  intros H1 H2. rewrite forallb_forall in H. specialize (H _ (same_place _ _ _ _ H1 H2)).
  cbn [fst snd] in H. now rewrite str_eqb_refl in H.
Qed.

(** The Chinese lists: always at the same place. *)
Definition headn (w : str) : N := match w with c :: _ => c | [] => 0 end.
Fixpoint heads_agree (i : N) (a : list N) (b : list N) : bool :=
  match a with
  | [] => true
  | c :: a' =>
    (fix go (j : N) (l : list N) : bool :=
       match l with
       | [] => true
       | x :: l' => if c =? x then i =? j else go (j + 1) l'
       end) 0 b && heads_agree (i + 1) a' b
  end.
Lemma heads_agree_ok a b : NoDup b -> forall k, heads_agree k a b = true ->
  forall i j c, nth_error a i = Some c -> nth_error b j = Some c -> k + N.of_nat i = N.of_nat j.
Proof.
  intros Hn. induction a as [|x a IH]; intros k H [|i] j c; cbn [nth_error]; try discriminate; cbn [heads_agree] in H;
    apply andb_true_iff in H as [H1 H2].
  - intros [= <-] Hj. clear IH H2.
    enough (forall m, (fix go (j : N) (l : list N) : bool :=
       match l with [] => true | x0 :: l' => if x =? x0 then k =? j else go (j + 1) l' end) m b = true ->
       k = m + N.of_nat j) as E by (rewrite (E 0 H1); lia).
    clear H1. revert j Hj. induction b as [|y b IHb]; intros [|j]; cbn [nth_error]; try discriminate.
    + intros [= ->] m. rewrite N.eqb_refl. intros E. apply N.eqb_eq in E. lia.
    + intros Hj m. inversion_clear Hn. destruct (N.eqb_spec x y) as [->|_].
      * apply nth_error_In in Hj. contradiction.
      * intros E. rewrite (IHb H0 j Hj (m + 1) E). lia.
  - intros Hi Hj. specialize (IH (k + 1) H2 i j c Hi Hj). lia.
Qed.
Lemma chinese_same l l' i j w : is_chinese l -> is_chinese l' ->
  nth_error (to_dict l) i = Some w -> nth_error (to_dict l') j = Some w -> i = j.
Proof.
  intros Hl Hl' Hi Hj.
  assert (heads_agree 0 (map headn (to_dict ChineseSimplified)) (map headn (to_dict ChineseTraditional)) = true) as H
    by (vm_compute; reflexivity).
  assert (forall l, is_chinese l -> NoDup (map headn (to_dict l))) as Hh.
  { intros l0 H0. destruct (language_dict_ok l0) as (_ & Hn & _).
    assert (forall w, In w (to_dict l0) -> exists c, w = [c]) as H1 by (intros; eapply chinese_one; eauto).
    revert Hn H1. clear. induction (to_dict l0) as [|w d IH]; intros Hn H1; [constructor|].
    inversion_clear Hn. cbn [map]. constructor; [|apply IH; [assumption|intros; apply H1; now right]].
    intros Hin. apply in_map_iff in Hin as (w' & E & Hw'). destruct (H1 w (or_introl eq_refl)) as (c & ->).
    destruct (H1 w' (or_intror Hw')) as (c' & ->). cbn in E. subst c'. contradiction. }
  assert (forall a b, NoDup (to_dict a) -> nth_error (to_dict a) i = Some w -> nth_error (to_dict a) j = Some w -> a = b -> i = j) as Hs.
  { intros a _ Hn H1 H2 _. eapply NoDup_nth_error; [exact Hn| |congruence]. apply nth_error_Some. congruence. }
  apply (map_nth_error headn) in Hi as Hi2. apply (map_nth_error headn) in Hj as Hj2.
  destruct Hl as [-> | ->], Hl' as [-> | ->].
  - apply (Hs ChineseSimplified ChineseSimplified); auto. apply language_dict_ok.
  - pose proof (heads_agree_ok _ _ (Hh _ (or_intror eq_refl)) 0 H i j (headn w) Hi2 Hj2). lia.
  - pose proof (heads_agree_ok _ _ (Hh _ (or_intror eq_refl)) 0 H j i (headn w) Hj2 Hi2). lia.
  - apply (Hs ChineseTraditional ChineseTraditional); auto. apply language_dict_ok.
Qed.

Lemma from_word_nth l w i : from_word (to_dict l) w = Ok i -> nth_error (to_dict l) (N.to_nat i) = Some w.
Proof.
  intros H. apply (from_word_inv _ (language_dict_ok l)) in H as (_ & _ & H). unfold to_word, lookup_word in H.
  destruct (nth_error (to_dict l) (N.to_nat i)); cbn [unwrap] in H; [now injection H as ->|discriminate].
Qed.

(** Words that two languages share. *)
Theorem shared_words l l' w i i' : l <> l' -> from_word (to_dict l) w = Ok i -> from_word (to_dict l') w = Ok i' ->
  (is_chinese l /\ is_chinese l' /\ i = i') \/
  ((l = English /\ l' = French \/ l = French /\ l' = English) /\ i <> i').
Proof.
  intros Hne Hi Hi'. apply from_word_nth in Hi, Hi'. pose proof (nth_error_In _ _ Hi) as Hw. pose proof (nth_error_In _ _ Hi') as Hw'.
  assert (exists c, In c w) as (c & Hc).
  { destruct (language_dict_ok l) as (_ & _ & Hf). rewrite Forall_forall in Hf. destruct (Hf w Hw) as [Hn _].
    destruct w as [|c w]; [contradiction|]. exists c. now left. }
  destruct (scripts_apart l l' c (script_words l w c Hw Hc) (script_words l' w c Hw' Hc)) as [?|[[L1 L2]|[L1 L2]]]; [contradiction| |].
  - right. destruct (latin_apart l l' w L1 L2 Hw Hw') as [?|E]; [contradiction|]. split; [exact E|]. intros <-.
    destruct E as [[-> ->]|[-> ->]]; [exact (english_french _ _ Hi Hi')|exact (english_french _ _ Hi' Hi)].
  - left. split; [exact L1|]. split; [exact L2|]. pose proof (chinese_same l l' _ _ w L1 L2 Hi Hi'). lia.
Qed.

Lemma mapM_Forall2 {E A B} (f : A -> res E B) l r : mapM f l = Ok r -> Forall2 (fun a b => f a = Ok b) l r.
Proof.
  revert r. induction l as [|a l IH]; intros r; cbn; [intros [= <-]; constructor|].
  destruct (f a) eqn:Ea; cbn; try discriminate. destruct (mapM f l); cbn; try discriminate. intros [= <-]. constructor; auto.
Qed.

(** Phrases that two languages accept. *)
Theorem shared_phrases l l' s ms ms' : l <> l' ->
  mnemonics_from_string (to_dict l) s = Ok ms -> mnemonics_from_string (to_dict l') s = Ok ms' ->
  (is_chinese l /\ is_chinese l' /\ ms = ms') \/
  ((l = English /\ l' = French \/ l = French /\ l' = English) /\ Forall2 (fun i i' => i <> i') ms ms').
Proof.
  unfold mnemonics_from_string. intros Hne H H'.
  assert (forall l ms, (let* ms := mapM (from_word (to_dict l)) (split separator s) in from_mnemonics ms) = Ok ms ->
    Forall2 (fun w i => from_word (to_dict l) w = Ok i) (split separator s) ms) as Hm.
  { intros l0 m0 H0. destruct (mapM (from_word (to_dict l0)) (split separator s)) eqn:E; cbn in H0; try discriminate.
    unfold from_mnemonics in H0. destruct (from_word_count _); cbn in H0; try discriminate. injection H0 as <-.
    now apply mapM_Forall2. }
  apply Hm in H, H'. assert (split separator s <> []) as Hs.
  { destruct (phrase_of_split s) as [Hn _]. exact Hn. }
  clear Hm. destruct (split separator s) as [|w ws]; [contradiction|]. clear Hs.
  inversion H as [|? i ? ms1 H1 H2]; subst. inversion H' as [|? i' ? ms1' H1' H2']; subst.
  destruct (shared_words l l' w i i' Hne H1 H1') as [(A & B & ->)|[A B]].
  - left. split; [exact A|]. split; [exact B|]. f_equal. clear H H' H1 H1' i'. revert ms1' H2'.
    induction H2 as [|w1 i1 ws m1 E1 _ IH]; intros m2 H2; inversion H2 as [|? i2 ? m2' E2 F2]; subst; [reflexivity|].
    f_equal; [|now apply IH]. destruct (shared_words l l' w1 i1 i2 Hne E1 E2) as [(_ & _ & ->)|[[[-> ->]|[-> ->]] _]]; [reflexivity|..];
      destruct A as [A|A]; discriminate A.
  - right. split; [exact A|]. constructor; [exact B|]. clear H H' H1 H1' B. revert ms1' H2'.
    induction H2 as [|w1 i1 ws m1 E1 _ IH]; intros m2 H2; inversion H2 as [|? i2 ? m2' E2 F2]; subst; constructor; [|now apply IH].
    destruct (shared_words l l' w1 i1 i2 Hne E1 E2) as [(C1 & _)|[_ C2]]; [|exact C2].
    destruct A as [[-> ->]|[-> ->]]; destruct C1 as [C1|C1]; discriminate C1.
Qed.

Lemma words l :
  (forall w c, In w (to_dict l) -> In c w -> in_script l c) /\
  (is_chinese l -> forall w, In w (to_dict l) -> exists c : N, w = [c]) /\
  to_word (to_dict l) 0 = Ok (fst (first_last l)) /\ to_word (to_dict l) 2047 = Ok (snd (first_last l)).
Proof.
  split; [intros w c; apply script_words|]. split; [intros Hl w; now apply chinese_one|]. apply ends.
Qed.
