(** Proofs about phrases in any language (Lang.v). *)
From Coq Require Import Lia.
From Verif Require Import Base BaseFacts Str StrFacts Prims Bits Bip39 Bip39Spec Bip39Facts Lang LangSpec.

(** ** Occurrences *)
Lemma starts_with_spec p s : starts_with p s = true <-> exists b, s = p ++ b.
Proof.
  revert s; induction p as [|c p IH]; intros [|d s]; cbn.
  - split; [exists []; reflexivity|reflexivity].
  - split; [exists (d :: s); reflexivity|reflexivity].
  - split; [discriminate|]. intros [b E]; discriminate.
  - rewrite andb_true_iff, N.eqb_eq, IH. split.
    + intros [-> [b ->]]. now exists b.
    + intros [b E]. injection E as -> ->. split; [reflexivity|now exists b].
Qed.

Lemma occurs_0 sep s : occurs_at sep s 0 <-> exists b, s = sep ++ b.
Proof.
  split.
  - intros ([|x a] & b & Hl & ->); [now exists b|discriminate].
  - intros [b ->]. now exists [], b.
Qed.

Lemma occurs_cons sep c s i : occurs_at sep (c :: s) (S i) <-> occurs_at sep s i.
Proof.
  split.
  - intros ([|x a] & b & Hl & E); [discriminate|]. injection E as -> ->. exists a, b.
    split; [now injection Hl|reflexivity].
  - intros (a & b & Hl & ->). exists (c :: a), b. cbn. now rewrite Hl.
Qed.

Lemma occurs_nil sep i : sep <> [] -> ~ occurs_at sep [] i.
Proof.
  intros Hs (a & b & _ & E). symmetry in E. apply app_eq_nil in E as [_ E].
  apply app_eq_nil in E as [E _]. now apply Hs.
Qed.

(** ** Splitting *)
Lemma split_on_skip sep x s : split_on sep (length x) (x ++ s) = split_on sep 0 s.
Proof. induction x as [|c x IH]; [reflexivity|]. cbn [length app split_on]. exact IH. Qed.

Lemma split_on_sep sep b : sep <> [] -> split_on sep 0 (sep ++ b) = [] :: split_on sep 0 b.
Proof.
  intros Hs. destruct sep as [|c sep]; [congruence|].
  cbn [app split_on].
  assert (E : starts_with (c :: sep) (c :: sep ++ b) = true).
  { apply starts_with_spec. now exists b. }
  rewrite E. cbn [length]. replace (S (length sep) - 1)%nat with (length sep) by lia.
  f_equal. apply split_on_skip.
Qed.

Lemma split_on_char sep c s : starts_with sep (c :: s) = false ->
  split_on sep 0 (c :: s) = on_head (cons c) (split_on sep 0 s).
Proof. intros E. cbn [split_on]. now rewrite E. Qed.

Lemma split_str_on sep s : sep <> [] -> split_str sep s = split_on sep 0 s.
Proof. destruct sep; [congruence|reflexivity]. Qed.

Lemma pieces_char sep c s ps : pieces sep s ps -> ~ occurs_at sep (c :: s) 0 ->
  pieces sep (c :: s) (on_head (cons c) ps).
Proof.
  intros H N0. destruct H as [s Hno|a b ps Hmin Hps]; cbn [on_head].
  - apply p_last. intros [|i] Hi; [tauto|]. exact (Hno i (proj1 (occurs_cons _ _ _ _) Hi)).
  - change (c :: a ++ sep ++ b) with ((c :: a) ++ sep ++ b). apply p_cut; [|exact Hps].
    intros [|i] Hi; [exfalso; exact (N0 Hi)|].
    apply (proj1 (occurs_cons _ _ _ _)), Hmin in Hi. cbn. lia.
Qed.

Lemma split_pieces_n sep : sep <> [] -> forall n s, (length s <= n)%nat ->
  pieces sep s (split_on sep 0 s).
Proof.
  intros Hs. induction n as [|n IH]; intros s Hl.
  - destruct s; [|cbn in Hl; lia]. apply p_last. intros i. now apply occurs_nil.
  - destruct s as [|c s]; [apply p_last; intros i; now apply occurs_nil|].
    destruct (starts_with sep (c :: s)) eqn:E.
    + apply starts_with_spec in E as [b E]. rewrite E, split_on_sep by exact Hs.
      change (sep ++ b) with ([] ++ sep ++ b) at 1. apply p_cut; [cbn; lia|].
      apply IH. apply (f_equal (@length N)) in E. rewrite app_length in E. cbn in E, Hl.
      destruct sep; [congruence|]. cbn in E. lia.
    + rewrite split_on_char by exact E.
      assert (N0 : ~ occurs_at sep (c :: s) 0).
      { intros H. apply occurs_0 in H. apply starts_with_spec in H. congruence. }
      apply pieces_char; [apply IH; cbn in Hl; lia|exact N0].
Qed.

Lemma split_pieces sep s : sep <> [] -> pieces sep s (split_str sep s).
Proof.
  intros Hs. rewrite split_str_on by exact Hs. now apply (split_pieces_n sep Hs (length s)).
Qed.

Lemma app_same_length {A} (a a' b b' : list A) : length a = length a' -> a ++ b = a' ++ b' -> a = a' /\ b = b'.
Proof.
  revert a'; induction a as [|x a IH]; intros [|y a'] Hl E; try discriminate; [now split|].
  injection E as -> E. apply IH in E as [-> ->]; [now split|now injection Hl].
Qed.

Lemma pieces_fun sep s ps : pieces sep s ps -> forall qs, pieces sep s qs -> ps = qs.
Proof.
  induction 1 as [s Hno|a b ps Hmin Hps IH]; intros qs Hq.
  - inversion Hq as [s' Hno' E1 E2|a b qs' Hmin Hqs E1 E2]; [reflexivity|].
    exfalso. apply (Hno (length a)). subst s. now exists a, b.
  - remember (a ++ sep ++ b) as t eqn:Et. destruct Hq as [t Hno|a' b' qs' Hmin' Hqs].
    + exfalso. apply (Hno (length a)). now exists a, b.
    + assert (L : length a = length a').
      { apply Nat.le_antisymm.
        - apply Hmin. now exists a', b'.
        - apply Hmin'. rewrite Et. now exists a, b. }
      apply app_same_length in Et as [-> Et]; [|now symmetry].
      apply app_inv_head in Et as ->. f_equal. now apply IH.
Qed.

Lemma pieces_nonempty sep s ps : pieces sep s ps -> ps <> [].
Proof. destruct 1; discriminate. Qed.

Lemma put_together_cons sep w v ws :
  put_together sep (w :: v :: ws) = w ++ sep ++ put_together sep (v :: ws).
Proof.
  unfold put_together. change (removelast (w :: v :: ws)) with (w :: removelast (v :: ws)).
  change (last (w :: v :: ws) []) with (last (v :: ws) []). cbn [List.map concat].
  now rewrite <- !app_assoc.
Qed.

Lemma join_put_together sep ws : join sep ws = put_together sep ws.
Proof.
  induction ws as [|w [|v ws] IH]; [reflexivity| |].
  - unfold put_together. reflexivity.
  - rewrite put_together_cons, <- IH. reflexivity.
Qed.

Lemma pieces_join sep s ps : pieces sep s ps -> put_together sep ps = s.
Proof.
  induction 1 as [s Hno|a b ps Hmin Hps IH]; [reflexivity|].
  destruct ps as [|p ps]; [now apply pieces_nonempty in Hps|].
  now rewrite put_together_cons, IH.
Qed.

(** An occurrence that starts inside [w] ends inside [w ++ sep]. *)
Lemma occurs_short sep w b i : (i <= length w)%nat ->
  occurs_at sep (w ++ sep ++ b) i -> occurs_at sep (w ++ sep) i.
Proof.
  intros Hi (x & y & Hx & E).
  assert (Hy : (length b <= length y)%nat).
  { apply (f_equal (@length N)) in E. rewrite !app_length in E. lia. }
  exists x, (firstn (length y - length b) y). split; [exact Hx|].
  rewrite app_assoc in E. rewrite <- (firstn_skipn (length y - length b) y) in E.
  rewrite !app_assoc in E. rewrite <- (app_assoc x sep) in E.
  apply (f_equal (@rev N)) in E. rewrite !(rev_app_distr _ b), !(rev_app_distr _ (skipn _ y)) in E.
  apply app_same_length in E as [_ E]; [|rewrite !rev_length, skipn_length; lia].
  apply (f_equal (@rev N)) in E. now rewrite !rev_involutive in E.
Qed.

Lemma occurs_long sep w b i : occurs_at sep (w ++ sep) i -> occurs_at sep (w ++ sep ++ b) i.
Proof.
  intros (x & y & Hx & E). exists x, (y ++ b). split; [exact Hx|].
  rewrite app_assoc, E, <- !app_assoc. reflexivity.
Qed.

Lemma pieces_separable sep ws : pieces sep (put_together sep ws) ws <-> separable sep ws.
Proof.
  induction ws as [|w [|v ws] IH].
  - split; [intros H; now apply pieces_nonempty in H|intros [H _]; congruence].
  - unfold put_together, separable. cbn [removelast last List.map concat app]. split.
    + intros H. split; [discriminate|]. split; [constructor|].
      inversion H as [s Hno E1 E2|a b ps Hmin Hps E1 E2]; [exact Hno|].
      subst. now apply pieces_nonempty in Hps.
    + intros (_ & _ & H). now apply p_last.
  - rewrite put_together_cons. unfold separable in *.
    change (removelast (w :: v :: ws)) with (w :: removelast (v :: ws)).
    change (last (w :: v :: ws) []) with (last (v :: ws) []). split.
    + intros H. split; [discriminate|].
      remember (w ++ sep ++ put_together sep (v :: ws)) as t eqn:Et.
      remember (w :: v :: ws) as l eqn:El.
      destruct H as [t Hno|a b ps Hmin Hps]; [discriminate|].
      injection El as -> ->. apply app_inv_head, app_inv_head in Et as ->.
      apply IH in Hps as (_ & H1 & H2). split; [|exact H2]. constructor; [|exact H1].
      intros i Hi. apply Hmin. now apply occurs_long.
    + intros (_ & H1 & H2). inversion H1 as [|x l Hw Hr E1]; subst.
      apply p_cut.
      * intros i Hi. destruct (Nat.le_gt_cases (length w) i) as [Hl|Hl]; [exact Hl|].
        apply Hw, occurs_short with (b := put_together sep (v :: ws)); [lia|exact Hi].
      * apply IH. split; [discriminate|]. now split.
Qed.

(** ** When words can be told apart *)
Lemma disjoint_no_occurrence sep w i : sep <> [] -> disjoint_from sep w -> ~ occurs_at sep w i.
Proof.
  intros Hs Hd (a & b & _ & ->). destruct sep as [|c sep]; [congruence|].
  apply (Hd c); [|now left]. apply in_app_iff. right. now left.
Qed.

Lemma disjoint_ends_clearly sep w : sep <> [] -> disjoint_from sep w -> ends_clearly sep w.
Proof.
  intros Hs Hd i (a & b & Ha & E). destruct (Nat.le_gt_cases (length w) i) as [Hl|Hl]; [exact Hl|].
  exfalso. destruct sep as [|c sep]; [congruence|].
  assert (Hc : nth_error (w ++ c :: sep) i = Some c).
  { rewrite E, <- Ha, nth_error_app2 by lia. now rewrite Nat.sub_diag. }
  rewrite nth_error_app1 in Hc by lia. apply nth_error_In in Hc.
  apply (Hd c Hc). now left.
Qed.

Lemma Forall_removelast {A} (Q : A -> Prop) l : Forall Q l -> Forall Q (removelast l).
Proof.
  induction l as [|x [|y l] IH]; intros H; [exact H|constructor|].
  change (removelast (x :: y :: l)) with (x :: removelast (y :: l)).
  inversion H; subst. constructor; auto.
Qed.

Lemma Forall_last {A} (Q : A -> Prop) d l : l <> [] -> Forall Q l -> Q (last l d).
Proof.
  induction l as [|x [|y l] IH]; intros Hne H; [congruence| |]; inversion H; subst; [assumption|].
  change (last (x :: y :: l) d) with (last (y :: l) d). apply IH; [discriminate|assumption].
Qed.

Lemma disjoint_separable sep ws : sep <> [] -> ws <> [] -> Forall (disjoint_from sep) ws ->
  separable sep ws.
Proof.
  intros Hs Hne H. split; [exact Hne|]. split.
  - apply Forall_removelast. apply Forall_impl with (2 := H). intros w. now apply disjoint_ends_clearly.
  - intros i. apply disjoint_no_occurrence; [exact Hs|]. apply (Forall_last _ [] ws Hne H).
Qed.

(** A separator of one character. *)
Lemma single_separable c ws : ws <> [] ->
  (separable [c] ws <-> Forall (fun w => ~ In c w) ws).
Proof.
  intros Hne. split.
  - intros H. apply pieces_separable in H.
    remember (put_together [c] ws) as s eqn:Es. clear Es Hne.
    induction H as [s Hno|a b ps Hmin Hps IH].
    + constructor; [|constructor]. intros Hc. apply in_split in Hc as (x & y & ->).
      apply (Hno (length x)). now exists x, y.
    + constructor; [|exact IH]. intros Hc. apply in_split in Hc as (x & y & ->).
      assert (H : (length (x ++ c :: y) <= length x)%nat).
      { apply Hmin. exists x, (y ++ [c] ++ b). split; [reflexivity|].
        now rewrite <- app_assoc. }
      rewrite app_length in H. cbn in H. lia.
  - intros H. apply disjoint_separable; [discriminate|exact Hne|].
    apply Forall_impl with (2 := H). intros w Hw d Hd [<-|[]]. tauto.
Qed.

(** ** Reading and writing phrases *)
Lemma map_err_ok {E F A} (f : E -> F) (r : res E A) a : map_err f r = Ok a <-> r = Ok a.
Proof. destruct r; cbn; split; congruence. Qed.

Lemma mapM_outcome {E A B} (f : A -> res E B) l :
  (exists bs, mapM f l = Ok bs /\ Forall2 (fun a b => f a = Ok b) l bs) \/
  exists pre a post, l = pre ++ a :: post /\ Forall (fun x => exists y, f x = Ok y) pre /\
    (forall b, f a <> Ok b) /\
    mapM f l = match f a with Ok _ => Panic | Err e => Err e | Panic => Panic | Undef => Undef end.
Proof.
  induction l as [|a l IH]; [left; exists []; split; [reflexivity|constructor]|].
  cbn [mapM]. destruct (f a) as [b|e| |] eqn:E1;
    try (right; exists [], a, l; split; [reflexivity|]; split; [constructor|]; rewrite E1;
         split; [discriminate|reflexivity]).
  destruct IH as [(bs & -> & H)|(pre & x & post & -> & H1 & H2 & H3)].
  - left. exists (b :: bs). split; [reflexivity|now constructor].
  - right. exists (a :: pre), x, post. split; [reflexivity|]. split; [constructor; eauto|].
    split; [exact H2|]. rewrite H3. cbn [bind]. destruct (f x); try reflexivity.
Qed.

Section Language.
Variable L : language.
Notation sep := (l_separator L).

Lemma from_string_cases s : sep <> [] ->
  exists ps, pieces sep s ps /\ (forall qs, pieces sep s qs -> qs = ps) /\
  ((exists pre w post, ps = pre ++ w :: post /\
      Forall (fun p => exists m, l_mnemonic L p = Ok m) pre /\
      ((exists e, l_mnemonic L w = Err e /\ lang_from_string L s = Err (LanguageError e)) \/
       (l_mnemonic L w = Panic /\ lang_from_string L s = Panic) \/
       (l_mnemonic L w = Undef /\ lang_from_string L s = Undef))) \/
   (exists ms, Forall2 (fun p m => l_mnemonic L p = Ok m) ps ms /\
      (word_count (length ms) -> lang_from_string L s = Ok ms) /\
      (~ word_count (length ms) ->
         lang_from_string L s = Err (WrongNumberOfWords (N.of_nat (length ms)))))).
Proof.
  intros Hs. exists (split_str sep s). split; [now apply split_pieces|]. split.
  { intros qs Hq. apply (pieces_fun sep s qs Hq). now apply split_pieces. }
  unfold lang_from_string.
  destruct (mapM_outcome (lang_from_word L) (split_str sep s))
    as [(ms & -> & H)|(pre & w & post & Hps & H1 & H2 & ->)].
  - right. exists ms. split.
    + induction H as [|p m ps ms Hpm H IH]; constructor; auto.
      unfold lang_from_word in Hpm. now apply map_err_ok in Hpm.
    + cbn [bind]. unfold from_mnemonics. rewrite word_count_type. split.
      * intros [t Ht]. assert (E : from_word_count (N.of_nat (length ms)) = Ok t)
          by (apply from_word_count_ok; now rewrite Ht). now rewrite E.
      * intros Hn. destruct (from_word_count_total (N.of_nat (length ms))) as [[t Ht]| ->]; [|reflexivity].
        exfalso. apply Hn. exists t. apply from_word_count_ok in Ht. lia.
  - left. exists pre, w, post. split; [exact Hps|]. split.
    { apply Forall_impl with (2 := H1). intros p [m Hm]. exists m.
      unfold lang_from_word in Hm. now apply map_err_ok in Hm. }
    unfold lang_from_word in *. destruct (l_mnemonic L w) as [m|e| |]; cbn in *.
    + now destruct (H2 m).
    + left. now exists e.
    + right. left. now split.
    + right. right. now split.
Qed.

Lemma to_string_cases ms :
  (exists ws, Forall2 (fun m w => l_word L m = Ok w) ms ws /\
     lang_to_string L ms = Ok (put_together sep ws)) \/
  (exists pre m post, ms = pre ++ m :: post /\
     Forall (fun m => exists w, l_word L m = Ok w) pre /\
     (((exists e, l_word L m = Err e) \/ l_word L m = Panic) /\ lang_to_string L ms = Panic \/
      l_word L m = Undef /\ lang_to_string L ms = Undef)).
Proof.
  unfold lang_to_string.
  assert (Hok : forall m w, lang_to_word L m = Ok w <-> l_word L m = Ok w).
  { intros m w. unfold lang_to_word. destruct (l_word L m); cbn; split; congruence. }
  destruct (mapM_outcome (lang_to_word L) ms) as [(ws & -> & H)|(pre & m & post & -> & H1 & H2 & ->)].
  - left. exists ws. split.
    + induction H as [|m w ms ws Hm H IH]; constructor; auto. now apply Hok.
    + cbn [bind]. now rewrite join_put_together.
  - right. exists pre, m, post. split; [reflexivity|]. split.
    { apply Forall_impl with (2 := H1). intros x [w Hw]. exists w. now apply Hok. }
    unfold lang_to_word in *. destruct (l_word L m) as [w|e| |]; cbn in *.
    + now destruct (H2 w).
    + left. split; [left; now exists e|reflexivity].
    + left. split; [now right|reflexivity].
    + right. now split.
Qed.

Lemma to_string_words ms ws : Forall2 (fun m w => l_word L m = Ok w) ms ws ->
  lang_to_string L ms = Ok (put_together sep ws).
Proof.
  intros H. unfold lang_to_string.
  rewrite (mapM_Forall2 (lang_to_word L) ms ws); [cbn; now rewrite join_put_together|].
  induction H as [|m w ms ws Hm H IH]; constructor; auto. unfold lang_to_word. now rewrite Hm.
Qed.

Lemma from_string_pieces s ps ms : sep <> [] -> pieces sep s ps ->
  Forall2 (fun p m => l_mnemonic L p = Ok m) ps ms -> word_count (length ms) ->
  lang_from_string L s = Ok ms.
Proof.
  intros Hs Hp H Hc. unfold lang_from_string.
  rewrite (pieces_fun sep s _ (split_pieces sep s Hs) ps Hp).
  rewrite (mapM_Forall2 (lang_from_word L) ps ms).
  - cbn [bind]. apply word_count_type in Hc as [t Ht]. unfold from_mnemonics.
    assert (E : from_word_count (N.of_nat (length ms)) = Ok t) by (apply from_word_count_ok; now rewrite Ht).
    now rewrite E.
  - clear Hp Hc. induction H as [|p m ps ms Hm H IH]; constructor; auto. unfold lang_from_word. now rewrite Hm.
Qed.

Lemma from_string_ok s ms : sep <> [] -> lang_from_string L s = Ok ms ->
  exists ps, pieces sep s ps /\ Forall2 (fun p m => l_mnemonic L p = Ok m) ps ms /\ word_count (length ms).
Proof.
  intros Hs H. exists (split_str sep s). split; [now apply split_pieces|].
  unfold lang_from_string in H.
  destruct (mapM (lang_from_word L) (split_str sep s)) as [ns| | |] eqn:E; try discriminate.
  cbn [bind] in H. unfold from_mnemonics in H.
  destruct (from_word_count (N.of_nat (length ns))) as [t| | |] eqn:Et; try discriminate.
  injection H as ->. split.
  - apply mapM_inv in E. clear Et. induction E as [|p m ps ms Hm E IH]; constructor; auto.
    unfold lang_from_word in Hm. now apply map_err_ok in Hm.
  - apply word_count_type. exists t. apply from_word_count_ok in Et. lia.
Qed.

Lemma lang_round_trip ms ws : sep <> [] -> word_count (length ms) ->
  Forall2 (fun m w => l_word L m = Ok w /\ l_mnemonic L w = Ok m) ms ws ->
  exists s, lang_to_string L ms = Ok s /\
    (separable sep ws -> lang_from_string L s = Ok ms) /\
    ((forall w m, l_mnemonic L w = Ok m -> l_word L m = Ok w) ->
     lang_from_string L s = Ok ms -> separable sep ws).
Proof.
  intros Hs Hc H. exists (put_together sep ws).
  assert (H1 : Forall2 (fun m w => l_word L m = Ok w) ms ws).
  { clear Hc. induction H as [|m w ms ws [Hm _] H IH]; constructor; auto. }
  assert (H2 : Forall2 (fun w m => l_mnemonic L w = Ok m) ws ms).
  { clear Hc H1. induction H as [|m w ms ws [_ Hm] H IH]; constructor; auto. }
  split; [now apply to_string_words|]. split.
  - intros Hsep. apply from_string_pieces with (ps := ws); auto. now apply pieces_separable.
  - intros Hex Hr. apply from_string_ok in Hr as (ps & Hp & Hr & _); [|exact Hs].
    assert (E : ps = ws).
    { clear Hc Hp H H2. revert ws H1. induction Hr as [|p m ps ms Hm Hr IH]; intros ws H1; inversion H1; subst; [reflexivity|].
      f_equal; [|now apply IH]. apply Hex in Hm. congruence. }
    subst ps. now apply pieces_separable.
Qed.

Lemma lang_read_back s ms : sep <> [] ->
  (forall w m, l_mnemonic L w = Ok m -> l_word L m = Ok w) ->
  lang_from_string L s = Ok ms -> lang_to_string L ms = Ok s.
Proof.
  intros Hs Hex H. apply from_string_ok in H as (ps & Hp & H & _); [|exact Hs].
  rewrite (to_string_words ms ps); [now rewrite (pieces_join sep s ps Hp)|].
  clear Hp. induction H as [|p m ps ms Hm H IH]; constructor; auto.
Qed.

Lemma lang_empty_separator s : sep = [] ->
  (forall e, l_mnemonic L [] = Err e -> lang_from_string L s = Err (LanguageError e)) /\
  (forall ms, lang_from_string L s = Ok ms ->
     exists ns first last, ms = first :: ns ++ [last] /\
       l_mnemonic L [] = Ok first /\ l_mnemonic L [] = Ok last /\
       Forall2 (fun c m => l_mnemonic L [c] = Ok m) s ns).
Proof.
  intros Hs. unfold lang_from_string. rewrite Hs. cbn [split_str]. split.
  - intros e He. cbn [mapM app]. unfold lang_from_word at 1. now rewrite He.
  - intros ms H. destruct (mapM _ _) as [ns| | |] eqn:E; try discriminate.
    assert (ns = ms).
    { cbn [bind] in H. unfold from_mnemonics in H. destruct (from_word_count _); try discriminate. now injection H. }
    subst ns. apply mapM_inv in E.
    apply Forall2_app_inv_l in E as (a & b & Ha & Hb & ->).
    apply Forall2_app_inv_l in Hb as (b1 & b2 & Hb1 & Hb2 & ->).
    inversion Ha as [|x y l l' Hx Hl]; subst. inversion Hl; subst.
    inversion Hb2 as [|x' y' k k' Hx' Hk]; subst. inversion Hk; subst.
    exists b1, y, y'. unfold lang_from_word in *. apply map_err_ok in Hx, Hx'.
    repeat split; auto.
    remember (List.map (fun c : N => [c]) s) as q eqn:Eq. clear - Hb1 Eq.
    revert s Eq. induction Hb1 as [|p m ps ms Hm H IH]; intros [|c s] Eq; try discriminate; constructor.
    + injection Eq as -> ->. now apply map_err_ok in Hm.
    + injection Eq as -> ->. now apply IH.
Qed.

Lemma lang_string_new_ok s s' :
  lang_string_new L s = Ok s' <-> s' = s /\ exists ms, lang_from_string L s = Ok ms.
Proof.
  unfold lang_string_new. destruct (lang_from_string L s) as [ms|e| |]; cbn.
  - split; [intros H; injection H as <-; split; [reflexivity|now exists ms]|intros [-> _]; reflexivity].
  - split; [discriminate|intros [_ [ms H]]; discriminate].
  - split; [discriminate|intros [_ [ms H]]; discriminate].
  - split; [discriminate|intros [_ [ms H]]; discriminate].
Qed.

Lemma lang_entropy P e : prims_ok P -> entropy_wf e -> sep <> [] ->
  (forall m, m < 2048 -> exists w, l_word L m = Ok w /\ l_mnemonic L w = Ok m /\ disjoint_from sep w) ->
  exists ms s, to_mnemonics P e = Ok ms /\ lang_to_string L ms = Ok s /\
    lang_from_string L s = Ok ms /\ entropy_from_mnemonics P ms = Ok e.
Proof.
  intros HP Hwf Hs HL.
  destruct (to_mnemonics_ok P e HP Hwf) as (ms & H1 & H2 & Hlt & H3).
  assert (Hw : exists ws, Forall2 (fun m w => l_word L m = Ok w /\ l_mnemonic L w = Ok m) ms ws /\
                          Forall (disjoint_from sep) ws).
  { clear H1 H2 H3. induction Hlt as [|m ms Hm Hlt IH]; [exists []; now split|].
    destruct IH as (ws & IH1 & IH2). destruct (HL m Hm) as (w & Ha & Hb & Hc).
    exists (w :: ws). split; constructor; auto. }
  destruct Hw as (ws & Hw & Hd).
  assert (Hc : word_count (length ms)).
  { apply word_count_type. now exists (e_type e). }
  destruct (lang_round_trip ms ws Hs Hc Hw) as (s & Ht & Hr & _).
  exists ms, s. split; [exact H1|]. split; [exact Ht|]. split.
  - apply Hr, disjoint_separable; auto. intros ->. inversion Hw; subst. destruct Hc as [E|[E|[E|[E|[E|[E|[]]]]]]]; discriminate.
  - destruct (round_trip P e HP Hwf) as (ms' & Hm & Hb). congruence.
Qed.
End Language.

(** ** The built-in dictionaries *)
Lemma split_on_single c s : split_on [c] 0 s = split c s.
Proof.
  induction s as [|d s IH]; [reflexivity|].
  cbn [split_on split starts_with length]. rewrite andb_true_r, (N.eqb_sym c d).
  cbn [Nat.sub]. rewrite IH. destruct (d =? c); [reflexivity|].
  unfold on_head. destruct (split c s); reflexivity.
Qed.

Lemma default_same name d ms s :
  lang_to_string (default_language name d) ms = mnemonics_to_string d ms /\
  lang_from_string (default_language name d) s = mnemonics_from_string d s /\
  lang_string_new (default_language name d) s = mnemonic_string_new d s.
Proof.
  assert (Hw : forall m, lang_to_word (default_language name d) m = to_word d m).
  { intros m. unfold lang_to_word, to_word, lookup_word. cbn. destruct (nth_error d (N.to_nat m)); reflexivity. }
  assert (Hm : forall w, lang_from_word (default_language name d) w = from_word d w).
  { intros w. unfold lang_from_word, from_word, lookup_mnemonic, index_new. cbn [l_mnemonic default_language].
    destruct (position w d) as [v|]; [|reflexivity]. now destruct (v mod 65536 <=? MAX_MNEMONIC_VALUE). }
  assert (Hext : forall A B (f g : A -> res bip39_error B) l, (forall a, f a = g a) -> mapM f l = mapM g l).
  { intros A B f g l H. induction l as [|a l IH]; [reflexivity|]. cbn [mapM]. now rewrite H, IH. }
  assert (Hf : lang_from_string (default_language name d) s = mnemonics_from_string d s).
  { unfold lang_from_string, mnemonics_from_string. cbn [l_separator default_language].
    rewrite split_str_on by discriminate. rewrite split_on_single.
    now rewrite (Hext _ _ _ _ (split 0x20 s) Hm). }
  split; [|split; [exact Hf|]].
  - unfold lang_to_string, mnemonics_to_string. cbn [l_separator default_language].
    now rewrite (Hext _ _ _ _ ms Hw).
  - unfold lang_string_new, mnemonic_string_new. now rewrite Hf.
Qed.

(** ** A language whose words do not contain its separator, and yet two
    phrases have the same text *)
Definition unclear_language : language := {|
  l_name := [];
  l_separator := [97; 97];
  l_mnemonic w :=
    if str_eqb w [120] then Ok 0
    else if str_eqb w [120; 97] then Ok 1
    else if str_eqb w [97; 120] then Ok 2
    else match w with
         | [c] => if (1003 <=? c) && (c <? 3048) then Ok (c - 1000) else Err w
         | _ => Err w
         end;
  l_word m :=
    if m =? 0 then Ok [120]
    else if m =? 1 then Ok [120; 97]
    else if m =? 2 then Ok [97; 120]
    else if m <? 2048 then Ok [1000 + m]
    else Err []
|}.

Lemma occurs_length sep s i : occurs_at sep s i -> (i + length sep <= length s)%nat.
Proof. intros (a & b & <- & ->). rewrite !app_length. lia. Qed.

Lemma unclear_words m : m < 2048 ->
  exists w, l_word unclear_language m = Ok w /\ l_mnemonic unclear_language w = Ok m /\
    forall i, ~ occurs_at (l_separator unclear_language) w i.
Proof.
  intros Hm. cbn [unclear_language l_word l_mnemonic l_separator].
  destruct (m =? 0) eqn:E0; [apply N.eqb_eq in E0 as ->; exists [120]; repeat split;
    intros i Hi; apply occurs_length in Hi; cbn in Hi; lia|].
  destruct (m =? 1) eqn:E1.
  { apply N.eqb_eq in E1 as ->; exists [120; 97]; repeat split.
    intros i Hi. pose proof (occurs_length _ _ _ Hi) as Hl. cbn in Hl.
    assert (i = 0)%nat as -> by lia. apply occurs_0 in Hi as [b E]; discriminate. }
  destruct (m =? 2) eqn:E2.
  { apply N.eqb_eq in E2 as ->; exists [97; 120]; repeat split.
    intros i Hi. pose proof (occurs_length _ _ _ Hi) as Hl. cbn in Hl.
    assert (i = 0)%nat as -> by lia. apply occurs_0 in Hi as [b E]; discriminate. }
  apply N.eqb_neq in E0, E1, E2. rewrite (proj2 (N.ltb_lt m 2048) Hm).
  exists [1000 + m]. split; [reflexivity|]. split.
  - assert (H1 : str_eqb [1000 + m] [120] = false).
    { cbn [str_eqb]. rewrite andb_true_r. apply N.eqb_neq. lia. }
    assert (H2 : str_eqb [1000 + m] [120; 97] = false) by (cbn [str_eqb]; apply andb_false_r).
    assert (H3 : str_eqb [1000 + m] [97; 120] = false) by (cbn [str_eqb]; apply andb_false_r).
    rewrite H1, H2, H3, (proj2 (N.leb_le 1003 (1000 + m))), (proj2 (N.ltb_lt (1000 + m) 3048)) by lia.
    cbn [andb]. f_equal. lia.
  - intros i Hi. apply occurs_length in Hi. cbn in Hi. lia.
Qed.

Lemma unclear_exact w m : l_mnemonic unclear_language w = Ok m -> l_word unclear_language m = Ok w.
Proof.
  cbn [unclear_language l_word l_mnemonic].
  destruct (str_eqb w [120]) eqn:E0; [apply str_eqb_eq in E0 as ->; intros H; injection H as <-; reflexivity|].
  destruct (str_eqb w [120; 97]) eqn:E1; [apply str_eqb_eq in E1 as ->; intros H; injection H as <-; reflexivity|].
  destruct (str_eqb w [97; 120]) eqn:E2; [apply str_eqb_eq in E2 as ->; intros H; injection H as <-; reflexivity|].
  destruct w as [|c [|d w]]; try discriminate.
  destruct ((1003 <=? c) && (c <? 3048)) eqn:E; [|discriminate].
  apply andb_true_iff in E as [Ea Eb]. apply N.leb_le in Ea. apply N.ltb_lt in Eb.
  intros H; injection H as <-.
  rewrite (proj2 (N.eqb_neq (c - 1000) 0)), (proj2 (N.eqb_neq (c - 1000) 1)),
    (proj2 (N.eqb_neq (c - 1000) 2)), (proj2 (N.ltb_lt (c - 1000) 2048)) by lia.
  do 2 f_equal. lia.
Qed.

Lemma unclear_phrases : exists (L : language) (ms ms' : list N) (s : str),
  l_separator L <> [] /\
  (forall m, m < 2048 -> exists w, l_word L m = Ok w /\ l_mnemonic L w = Ok m /\
     forall i, ~ occurs_at (l_separator L) w i) /\
  (forall w m, l_mnemonic L w = Ok m -> l_word L m = Ok w) /\
  Forall (fun m => m < 2048) ms /\ Forall (fun m => m < 2048) ms' /\
  word_count (length ms) /\ word_count (length ms') /\ ms <> ms' /\
  lang_to_string L ms = Ok s /\ lang_to_string L ms' = Ok s /\
  lang_from_string L s = Ok ms'.
Proof.
  exists unclear_language, [1; 0; 0; 0; 0; 0; 0; 0; 0], [0; 2; 0; 0; 0; 0; 0; 0; 0].
  eexists. split; [discriminate|]. split; [exact unclear_words|]. split; [exact unclear_exact|].
  split; [repeat constructor|]. split; [repeat constructor|]. split; [now left|]. split; [now left|].
  split; [discriminate|]. split; [vm_compute; reflexivity|]. split; vm_compute; reflexivity.
Qed.

Lemma empty_separator_unreadable : exists (L : language) (ms : list N) (s : str),
  (forall m, m < 2048 -> exists w, l_word L m = Ok w /\ l_mnemonic L w = Ok m) /\
  (forall w m, l_mnemonic L w = Ok m -> l_word L m = Ok w) /\
  Forall (fun m => m < 2048) ms /\ word_count (length ms) /\
  lang_to_string L ms = Ok s /\ lang_from_string L s = Err (LanguageError []).
Proof.
  exists {| l_name := []; l_separator := []; l_mnemonic := l_mnemonic unclear_language;
            l_word := l_word unclear_language |}, [0; 0; 0; 0; 0; 0; 0; 0; 0].
  eexists. split. { intros m Hm. destruct (unclear_words m Hm) as (w & H1 & H2 & _). now exists w. }
  split; [exact unclear_exact|]. split; [repeat constructor|]. split; [now left|].
  split; vm_compute; reflexivity.
Qed.
