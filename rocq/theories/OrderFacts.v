(** Proofs about comparisons. *)
From Verif Require Import Base BaseFacts Str StrFacts Hex Bip39 BitsSpec BitsFacts Bip39Spec Bip39Facts CodingFacts
  Prims Dict DictFacts DictSpec DictWords Values ValuesSpec ValuesFacts Order OrderSpec.
Open Scope list_scope.

(** * Alphabetical order as a function *)
Fixpoint ncmp (a b : list N) : comparison :=
  match a, b with
  | [], [] => Eq
  | [], _ => Lt
  | _, [] => Gt
  | x :: a, y :: b => match N.compare x y with Eq => ncmp a b | c => c end
  end.

Lemma ncmp_eq : forall a b, ncmp a b = Eq <-> a = b.
Proof.
  induction a as [|x a IH]; intros [|y b]; cbn [ncmp]; try (split; (discriminate || reflexivity)).
  destruct (N.compare_spec x y) as [->|H|H].
  - rewrite IH. split; [now intros ->|now intros [= ->]].
  - split; [discriminate|]. intros [= -> _]. lia.
  - split; [discriminate|]. intros [= -> _]. lia.
Qed.
Lemma ncmp_anti : forall a b, ncmp b a = CompOpp (ncmp a b).
Proof.
  induction a as [|x a IH]; intros [|y b]; cbn [ncmp CompOpp]; try reflexivity.
  rewrite (N.compare_antisym x y). destruct (N.compare x y); cbn [CompOpp]; auto.
Qed.
Lemma ncmp_trans : forall a b c, ncmp a b = Lt -> ncmp b c = Lt -> ncmp a c = Lt.
Proof.
  induction a as [|x a IH]; intros [|y b] [|z c]; cbn [ncmp]; try discriminate; try reflexivity.
  destruct (N.compare_spec x y), (N.compare_spec y z), (N.compare_spec x z); try discriminate; try reflexivity; try lia.
  apply IH.
Qed.
Lemma ncmp_below : forall a b, ncmp a b = Lt <-> lex_below a b.
Proof.
  intros a b. split.
  - revert b. induction a as [|x a IH]; intros [|y b]; cbn [ncmp]; try discriminate.
    + intros _. left. now exists y, b.
    + destruct (N.compare_spec x y) as [->|H|H]; try discriminate.
      * intros E. destruct (IH b E) as [(c & r & ->)|(p & u & r & v & r' & -> & -> & L)].
        -- left. now exists c, r.
        -- right. now exists (y :: p), u, r, v, r'.
      * intros _. right. now exists [], x, a, y, b.
  - intros [(c & r & ->)|(p & u & r & v & r' & -> & -> & L)].
    + induction a as [|x a IH]; [reflexivity|]. cbn [app ncmp]. now rewrite N.compare_refl.
    + induction p as [|x p IH]; cbn [app ncmp].
      * now apply N.compare_lt_iff in L as ->.
      * now rewrite N.compare_refl.
Qed.
Lemma ncmp_order {A} (ok : A -> Prop) (f : A -> list N) cmp :
  (forall a b, ok a -> ok b -> cmp a b = ncmp (f a) (f b)) -> (forall a b, ok a -> ok b -> f a = f b -> a = b) ->
  total_order ok cmp.
Proof.
  intros C F x y z X Y Z. rewrite !C by assumption. split; [|split].
  - rewrite ncmp_eq. split; [auto|now intros ->].
  - rewrite (ncmp_anti (f x) (f y)). destruct (ncmp (f x) (f y)); cbn [CompOpp]; split; congruence.
  - apply ncmp_trans.
Qed.

(** * UTF-8 keeps the order *)
Lemma bytes_cmp_app : forall a b r r', length a = length b ->
  bytes_cmp (a ++ r) (b ++ r') = match bytes_cmp a b with Eq => bytes_cmp r r' | c => c end.
Proof.
  induction a as [|x a IH]; intros [|y b] r r' L; try discriminate; [reflexivity|]. injection L as L.
  cbn [app bytes_cmp]. rewrite (IH b r r' L). now destruct (N.compare (b2n x) (b2n y)).
Qed.
Lemma bytes_cmp_refl a : bytes_cmp a a = Eq.
Proof. induction a as [|x a IH]; [reflexivity|]. cbn [bytes_cmp]. now rewrite N.compare_refl. Qed.

From Coq Require Import ZifyBool ZifyNat ZifyN.
Section DivMod.
Ltac Zify.zify_post_hook ::= Z.div_mod_to_equations.
Lemma char_below c d r r' : d <= 0x10FFFF -> c < d -> bytes_cmp (utf8_char c ++ r) (utf8_char d ++ r') = Lt.
Proof.
  intros M L. unfold utf8_char.
  destruct (N.ltb_spec c 0x80), (N.ltb_spec d 0x80); try lia.
  { cbn [app bytes_cmp]. rewrite !b2n_n2b_small by lia. now apply N.compare_lt_iff in L as ->. }
  { destruct (N.ltb_spec d 0x800); [|destruct (N.ltb_spec d 0x10000)]; cbn [app bytes_cmp];
      rewrite !b2n_n2b_small by lia; match goal with |- context [N.compare ?x ?y] => assert (N.compare x y = Lt) as -> by (apply N.compare_lt_iff; lia) end; reflexivity. }
  destruct (N.ltb_spec c 0x800), (N.ltb_spec d 0x800); try lia.
  { cbn [app bytes_cmp]. rewrite !b2n_n2b_small by lia.
    repeat match goal with |- context [N.compare ?x ?y] => destruct (N.compare_spec x y) end; try reflexivity; lia. }
  { destruct (N.ltb_spec d 0x10000); cbn [app bytes_cmp];
      rewrite !b2n_n2b_small by lia; match goal with |- context [N.compare ?x ?y] => assert (N.compare x y = Lt) as -> by (apply N.compare_lt_iff; lia) end; reflexivity. }
  destruct (N.ltb_spec c 0x10000), (N.ltb_spec d 0x10000); try lia.
  { cbn [app bytes_cmp]. rewrite !b2n_n2b_small by lia.
    repeat match goal with |- context [N.compare ?x ?y] => destruct (N.compare_spec x y) end; try reflexivity; lia. }
  { cbn [app bytes_cmp];
      rewrite !b2n_n2b_small by lia; match goal with |- context [N.compare ?x ?y] => assert (N.compare x y = Lt) as -> by (apply N.compare_lt_iff; lia) end; reflexivity. }
  cbn [app bytes_cmp]. rewrite !b2n_n2b_small by lia.
  repeat match goal with |- context [N.compare ?x ?y] => destruct (N.compare_spec x y) end; try reflexivity; lia.
Qed.
End DivMod.

Lemma bytes_cmp_anti : forall a b, bytes_cmp b a = CompOpp (bytes_cmp a b).
Proof.
  induction a as [|x a IH]; intros [|y b]; cbn [bytes_cmp CompOpp]; try reflexivity.
  rewrite (N.compare_antisym (b2n x) (b2n y)). destruct (N.compare (b2n x) (b2n y)); cbn [CompOpp]; auto.
Qed.
Lemma scalar_max c : is_scalar c = true -> c <= 0x10FFFF.
Proof. unfold is_scalar. lia. Qed.
Lemma utf8_char_some c : exists x r, utf8_char c = x :: r.
Proof. unfold utf8_char. destruct (c <? 0x80), (c <? 0x800), (c <? 0x10000); eauto. Qed.

Lemma string_ncmp : forall a b, valid_str a -> valid_str b -> string_cmp a b = ncmp a b.
Proof.
  unfold string_cmp. induction a as [|c a IH]; intros [|d b] A B; cbn [ncmp utf8 flat_map]; try reflexivity.
  - destruct (utf8_char_some d) as (x & r & ->). reflexivity.
  - destruct (utf8_char_some c) as (x & r & ->). reflexivity.
  - inversion_clear A as [|? ? A1 A2]. inversion_clear B as [|? ? B1 B2]. apply scalar_max in A1, B1.
    fold (utf8 a) (utf8 b). destruct (N.compare_spec c d) as [->|H|H].
    + rewrite bytes_cmp_app by reflexivity. rewrite bytes_cmp_refl. now apply IH.
    + now apply char_below.
    + rewrite bytes_cmp_anti, char_below by assumption. reflexivity.
Qed.

Lemma string_eqb_eq a b : valid_str a -> valid_str b -> (string_eqb a b = true <-> a = b).
Proof. intros A B. unfold string_eqb. rewrite bytes_eqb_eq. split; [now apply utf8_inj|now intros ->]. Qed.

Theorem phrases_ordered :
  total_order valid_str phrase_cmp /\
  (forall s s', valid_str s -> valid_str s' -> (phrase_cmp s s' = Lt <-> lex_below s s')) /\
  (forall s s', valid_str s -> valid_str s' -> (phrase_eqb s s' = true <-> s = s')) /\
  total_order valid_str dictionary_cmp /\
  (forall w w', valid_str w -> valid_str w' -> (dictionary_cmp w w' = Lt <-> lex_below w w')) /\
  (forall w w', valid_str w -> valid_str w' -> (dictionary_eqb w w' = true <-> w = w')).
Proof.
  assert (total_order valid_str string_cmp) as T.
  { apply (ncmp_order _ (fun s => s)); [exact string_ncmp|auto]. }
  assert (forall s s', valid_str s -> valid_str s' -> (string_cmp s s' = Lt <-> lex_below s s')) as L.
  { intros s s' S S'. rewrite string_ncmp by assumption. apply ncmp_below. }
  exact (conj T (conj L (conj string_eqb_eq (conj T (conj L string_eqb_eq))))).
Qed.

(** * Numbers and errors *)
Lemma mnemonics_eqb_eq : forall a b, mnemonics_eqb a b = true <-> a = b.
Proof.
  induction a as [|x a IH]; intros [|y b]; cbn [mnemonics_eqb]; try (split; (discriminate || reflexivity)).
  rewrite andb_true_iff, N.eqb_eq, IH. split; [now intros [-> ->]|now intros [= -> ->]].
Qed.
Lemma N_order : total_order (fun _ => True) N.compare.
Proof.
  intros x y z _ _ _. split; [apply N.compare_eq_iff|]. split.
  - rewrite N.compare_lt_iff, N.compare_gt_iff. reflexivity.
  - rewrite !N.compare_lt_iff. apply N.lt_trans.
Qed.
Theorem others_compared :
  total_order (fun _ => True) index_cmp /\ (forall a b, index_cmp a b = Lt <-> a < b) /\
  total_order (fun _ => True) hex_error_cmp /\
  (forall i j, hex_error_cmp (UnknownSymbol i) (UnknownSymbol j) = Lt <-> i < j) /\
  (forall a b, mnemonics_eqb a b = true <-> a = b) /\
  (forall e e', rust_error e -> rust_error e' -> (bip39_eqb e e' = true <-> e = e')).
Proof.
  split; [exact N_order|]. split; [exact N.compare_lt_iff|]. split.
  { intros [i] [j] [k] _ _ _. destruct (N_order i j k I I I) as (H1 & H2 & H3). cbn [hex_error_cmp]. split; [|auto].
    rewrite H1. split; [now intros ->|now intros [= ->]]. }
  split; [exact N.compare_lt_iff|]. split; [exact mnemonics_eqb_eq|].
  intros [] []; cbn [bip39_eqb rust_error]; intros A B; try (split; discriminate);
    try (rewrite N.eqb_eq; split; [now intros ->|now intros [= ->]]).
  - unfold dictionary_eqb. rewrite string_eqb_eq by assumption. split; [now intros ->|now intros [= ->]].
  - rewrite andb_true_iff, !N.eqb_eq. split; [now intros [-> ->]|now intros [= -> ->]].
Qed.

(** * Phrases of sorted word lists *)
Definition above_space (w : str) : Prop := Forall (fun c => 32 < c) w.
(** nothing, or a space and more *)
Definition starts_space (r : str) : Prop := r = [] \/ exists t, r = 32 :: t.
Lemma word_rest : forall w w' r r', above_space w -> above_space w' -> starts_space r -> starts_space r' ->
  ncmp (w ++ r) (w' ++ r') = match ncmp w w' with Eq => ncmp r r' | c => c end.
Proof.
  induction w as [|x w IH]; intros [|y w'] r r' W W' R R'; cbn [app ncmp]; try reflexivity.
  - inversion_clear W' as [|? ? H _]. destruct R as [->|(t & ->)]; cbn [ncmp]; [reflexivity|].
    now apply N.compare_lt_iff in H as ->.
  - inversion_clear W as [|? ? H _]. destruct R' as [->|(t & ->)]; cbn [ncmp]; [reflexivity|].
    now apply N.compare_gt_iff in H as ->.
  - inversion_clear W. inversion_clear W'. rewrite IH by assumption. now destruct (N.compare x y).
Qed.
Definition more (ws : list str) : str := flat_map (fun w => 32 :: w) ws.
Lemma join_more w ws : join [separator] (w :: ws) = w ++ more ws.
Proof.
  revert w. induction ws as [|v ws IH]; intros w; [cbn; now rewrite app_nil_r|].
  change (join [separator] (w :: v :: ws)) with (w ++ [separator] ++ join [separator] (v :: ws)). now rewrite IH.
Qed.
Lemma more_space ws : starts_space (more ws).
Proof. destruct ws as [|w ws]; [now left|right]. cbn. eauto. Qed.

Section Sorted.
Variable d : dict.
Hypothesis D : dict_ok d.
Hypothesis S : forall i j w w', i < j -> to_word d i = Ok w -> to_word d j = Ok w' -> ncmp w w' = Lt.
Hypothesis A : forall w, In w d -> above_space w.

Lemma to_word_in i w : to_word d i = Ok w -> In w d.
Proof.
  unfold to_word, lookup_word. destruct (nth_error d (N.to_nat i)) eqn:E; [|discriminate].
  intros [= <-]. now apply nth_error_In in E.
Qed.
Lemma words_cmp i j w w' : to_word d i = Ok w -> to_word d j = Ok w' -> ncmp w w' = N.compare i j.
Proof.
  intros H H'. destruct (N.compare_spec i j) as [->|L|L].
  - apply ncmp_eq. congruence.
  - now apply (S i j).
  - rewrite ncmp_anti, (S j i w' w L H' H). reflexivity.
Qed.
Lemma more_cmp : forall ms ws ms' ws', mapM (to_word d) ms = Ok ws -> mapM (to_word d) ms' = Ok ws' ->
  ncmp (more ws) (more ws') = ncmp ms ms'.
Proof.
  intros ms ws ms' ws' H H'. apply mapM_inv in H, H'. revert ms' ws' H'.
  induction H as [|m w ms ws Hm H IH]; intros ms' ws' H'; destruct H' as [|m' w' ms' ws' Hm' H']; try reflexivity.
  cbn [more flat_map ncmp app]. fold (more ws) (more ws'). rewrite N.compare_refl.
  rewrite word_rest; eauto using more_space, to_word_in.
  rewrite (words_cmp m m' w w') by assumption. destruct (N.compare m m'); auto.
Qed.
Lemma sorted_phrases s s' ms ms' : ms <> [] -> ms' <> [] ->
  mnemonics_to_string d ms = Ok s -> mnemonics_to_string d ms' = Ok s' -> ncmp s s' = ncmp ms ms'.
Proof.
  intros Z Z' H H'. unfold mnemonics_to_string in H, H'.
  destruct (mapM (to_word d) ms) as [ws| | |] eqn:E; try discriminate. cbn [bind] in H. injection H as <-.
  destruct (mapM (to_word d) ms') as [ws'| | |] eqn:E'; try discriminate. cbn [bind] in H'. injection H' as <-.
  rewrite <- (more_cmp _ _ _ _ E E'). apply mapM_inv in E, E'.
  destruct E as [|m w ms ws Hm E]; [easy|]. destruct E' as [|m' w' ms' ws' Hm' E']; [easy|].
  rewrite !join_more. cbn [more flat_map ncmp app]. rewrite N.compare_refl. reflexivity.
Qed.
End Sorted.

(** ** The lists that are sorted *)
Fixpoint sortedb (l : list str) : bool :=
  match l with
  | w :: ((w' :: _) as r) => match ncmp w w' with Lt => sortedb r | _ => false end
  | _ => true
  end.
Lemma sortedb_ok : forall l, sortedb l = true -> forall i j w w', (i < j)%nat ->
  nth_error l i = Some w -> nth_error l j = Some w' -> ncmp w w' = Lt.
Proof.
  assert (forall l w, sortedb (w :: l) = true -> forall j w', nth_error l j = Some w' -> ncmp w w' = Lt) as K.
  { induction l as [|v l IH]; intros w E j w' H; [destruct j; discriminate|].
    cbn [sortedb] in E. destruct (ncmp w v) eqn:C; try discriminate. destruct j as [|j].
    - cbn in H. injection H as <-. exact C.
    - cbn [nth_error] in H. apply (ncmp_trans w v); [exact C|]. now apply (IH v E j). }
  induction l as [|v l IH]; intros E i j w w' L H H'; [destruct i; discriminate|].
  destruct j as [|j]; [lia|]. destruct i as [|i].
  - cbn in H. injection H as ->. now apply (K l w E j).
  - cbn [nth_error] in H, H'. assert (sortedb l = true) as E'.
    { cbn [sortedb] in E. destruct l as [|u l]; [reflexivity|]. destruct (ncmp v u); easy. }
    apply (IH E' i j); auto. lia.
Qed.
Lemma alphabetical_sorted l : alphabetical l -> forall i j w w', i < j ->
  to_word (to_dict l) i = Ok w -> to_word (to_dict l) j = Ok w' -> ncmp w w' = Lt.
Proof.
  intros H i j w w' L. assert (sortedb (to_dict l) = true) as E by (destruct H as [->|[->| ->]]; vm_compute; reflexivity).
  unfold to_word, lookup_word. destruct (nth_error (to_dict l) (N.to_nat i)) eqn:F; [|discriminate].
  destruct (nth_error (to_dict l) (N.to_nat j)) eqn:G; [|discriminate]. intros [= <-] [= <-].
  apply (sortedb_ok _ E (N.to_nat i) (N.to_nat j)); auto. lia.
Qed.
Lemma dict_above l w : In w (to_dict l) -> above_space w.
Proof.
  intros H. apply Forall_forall. intros c C. pose proof (script_words l w c H C) as I.
  destruct l; cbn [in_script] in I; unfold latin in I; lia.
Qed.
Lemma script_scalar l c : in_script l c -> is_scalar c = true.
Proof. unfold is_scalar. destruct l; cbn [in_script]; unfold latin; lia. Qed.
Lemma phrase_valid l ms s : mnemonics_to_string (to_dict l) ms = Ok s -> valid_str s.
Proof.
  unfold mnemonics_to_string. destruct (mapM (to_word (to_dict l)) ms) as [ws| | |] eqn:E; try discriminate.
  cbn [bind]. intros [= <-]. apply mapM_inv in E.
  assert (Forall valid_str ws) as V.
  { induction E as [|m w ms ws Hm E IH]; constructor; [|exact IH]. apply Forall_forall. intros c C.
    apply (script_scalar l), (script_words l w); [|exact C]. now apply (to_word_in (to_dict l) m). }
  clear E. destruct ws as [|w ws]; [constructor|]. rewrite join_more. inversion_clear V as [|? ? V1 V2].
  apply Forall_app. split; [exact V1|]. induction V2 as [|v vs Hv V IH]; [constructor|].
  constructor; [reflexivity|]. apply Forall_app. now split.
Qed.
Lemma counted (ms : list N) : word_count (length ms) -> ms <> [].
Proof. intros H ->. cbn in H. intuition discriminate. Qed.

Theorem alphabetical_phrases l s s' ms ms' : alphabetical l ->
  mnemonics_from_string (to_dict l) s = Ok ms -> mnemonics_from_string (to_dict l) s' = Ok ms' ->
  (phrase_cmp s s' = Lt <-> lex_below ms ms').
Proof.
  intros L H H'. apply from_string_words in H as (_ & C & T); [|apply language_dict_ok].
  apply from_string_words in H' as (_ & C' & T'); [|apply language_dict_ok].
  unfold phrase_cmp. rewrite string_ncmp by eauto using phrase_valid.
  rewrite (sorted_phrases (to_dict l) (alphabetical_sorted l L) (dict_above l) s s' ms ms'); auto using counted.
  apply ncmp_below.
Qed.

(** ** Entropy *)
Lemma groups_cmp : forall ms ms', length ms = length ms' -> Forall (fun m => m < 2048) ms -> Forall (fun m => m < 2048) ms' ->
  ncmp ms ms' = N.compare (value (groups_bits ms)) (value (groups_bits ms')).
Proof.
  induction ms as [|m ms IH]; intros [|m' ms'] L M M'; try discriminate; [reflexivity|]. injection L as L.
  inversion_clear M as [|? ? M1 M2]. inversion_clear M' as [|? ? M1' M2'].
  cbn [ncmp]. rewrite (IH ms' L M2 M2'). unfold groups_bits. cbn [flat_map]. fold (groups_bits ms) (groups_bits ms').
  rewrite !value_app, !value_bits by assumption.
  assert (length (groups_bits ms') = length (groups_bits ms)) as E.
  { clear -L. revert ms' L. induction ms as [|m ms IH]; intros [|m' ms'] L; try discriminate; [reflexivity|].
    injection L as L. unfold groups_bits. cbn [flat_map]. rewrite !app_length, !bits_length. f_equal. now apply IH. }
  pose proof (value_bound (groups_bits ms)) as B. pose proof (value_bound (groups_bits ms')) as B'. rewrite E in *.
  set (k := 2 ^ N.of_nat (length (groups_bits ms))) in *.
  destruct (N.compare_spec m m') as [->|H|H].
  - destruct (N.compare_spec (value (groups_bits ms)) (value (groups_bits ms'))); symmetry;
      [apply N.compare_eq_iff|apply N.compare_lt_iff|apply N.compare_gt_iff]; lia.
  - symmetry. apply N.compare_lt_iff. nia.
  - symmetry. apply N.compare_gt_iff. nia.
Qed.
Lemma value_bytes e : value (bytes_bits e) = of_be e.
Proof.
  induction e as [|x e IH]; [reflexivity|]. unfold bytes_bits. cbn [flat_map]. fold (bytes_bits e).
  rewrite value_app, of_be_cons, IH, value_bits by apply b2n_lt. rewrite bytes_bits_length.
  replace (N.of_nat (8 * length e)) with (8 * N.of_nat (length e)) by lia. now rewrite N.pow_mul_r.
Qed.
Theorem entropy_phrases P l e e' ms ms' s s' : prims_ok P -> alphabetical l ->
  entropy_wf e -> entropy_wf e' -> e_type e = e_type e' ->
  to_mnemonics P e = Ok ms -> to_mnemonics P e' = Ok ms' ->
  mnemonics_to_string (to_dict l) ms = Ok s -> mnemonics_to_string (to_dict l) ms' = Ok s' ->
  (phrase_cmp s s' = Lt <-> of_be (e_bytes e) < of_be (e_bytes e')).
Proof.
  intros HP L W W' T H H' Hs Hs'.
  destruct (to_mnemonics_ok P e HP W) as (ms0 & E & N1 & M1 & G1). rewrite H in E. injection E as <-.
  destruct (to_mnemonics_ok P e' HP W') as (ms0 & E & N2 & M2 & G2). rewrite H' in E. injection E as <-.
  assert (length (e_bytes e) = length (e_bytes e')) as LE by (unfold entropy_wf in *; congruence).
  assert (ms <> [] /\ ms' <> []) as [Z Z'].
  { split; intros ->; [destruct (e_type e)|destruct (e_type e')]; discriminate. }
  unfold phrase_cmp. rewrite string_ncmp by eauto using phrase_valid.
  rewrite (sorted_phrases (to_dict l) (alphabetical_sorted l L) (dict_above l) s s' ms ms'); auto.
  rewrite groups_cmp by (congruence || assumption). rewrite G1, G2, !value_app, !value_bytes, <- LE.
  rewrite N.compare_lt_iff.
  assert (forall b : bytes, length b = 32%nat -> length (firstn (8 * length (e_bytes e) / 32) (bytes_bits b)) = Nat.min (8 * length (e_bytes e) / 32) 256) as F.
  { intros b Hb. rewrite firstn_length, bytes_bits_length, Hb. reflexivity. }
  pose proof (value_bound (firstn (8 * length (e_bytes e) / 32) (bytes_bits (sha256 P (e_bytes e))))) as B.
  pose proof (value_bound (firstn (8 * length (e_bytes e) / 32) (bytes_bits (sha256 P (e_bytes e'))))) as B'.
  rewrite !F in * by apply (sha256_len P HP).
  set (k := 2 ^ N.of_nat (Nat.min (8 * length (e_bytes e) / 32) 256)) in *.
  destruct (N.lt_trichotomy (of_be (e_bytes e)) (of_be (e_bytes e'))) as [Q|[Q|Q]].
  - split; [auto|]. intros _. nia.
  - assert (e_bytes e = e_bytes e') as Q'.
    { rewrite <- (be_of_be (e_bytes e)), <- (be_of_be (e_bytes e')). now rewrite LE, Q. }
    rewrite Q'. lia.
  - split; [|lia]. intros R. nia.
Qed.

(** * Expectations that fail *)
(** two words of a list in the wrong order *)
Fixpoint inversion_at (i : N) (l : list str) : option N :=
  match l with
  | w :: ((w' :: _) as r) => match ncmp w w' with Lt => inversion_at (i + 1) r | _ => Some i end
  | _ => None
  end.
Lemma unsorted_phrases l : ~ alphabetical l -> exists s s' ms ms',
  mnemonics_from_string (to_dict l) s = Ok ms /\ mnemonics_from_string (to_dict l) s' = Ok ms' /\
  phrase_cmp s s' = Lt /\ lex_below ms' ms.
Proof.
  intros L.
  assert (match inversion_at 0 (to_dict l) with
    | Some i =>
      match mnemonics_to_string (to_dict l) (repeat i 9), mnemonics_to_string (to_dict l) (repeat (i + 1) 9) with
      | Ok s', Ok s => mnemonics_from_string (to_dict l) s = Ok (repeat (i + 1) 9) /\
          mnemonics_from_string (to_dict l) s' = Ok (repeat i 9) /\ phrase_cmp s s' = Lt /\
          ncmp (repeat i 9) (repeat (i + 1) 9) = Lt
      | _, _ => False
      end
    | None => False
    end) as H.
  { destruct l; try (destruct L; unfold alphabetical; tauto); vm_compute; repeat split. }
  destruct (inversion_at 0 (to_dict l)) as [i|]; [|easy].
  destruct (mnemonics_to_string (to_dict l) (repeat i 9)) as [s'| | |]; try easy.
  destruct (mnemonics_to_string (to_dict l) (repeat (i + 1) 9)) as [s| | |]; try easy.
  destruct H as (H1 & H2 & H3 & H4). exists s, s', (repeat (i + 1) 9), (repeat i 9).
  split; [exact H1|]. split; [exact H2|]. split; [exact H3|]. now apply ncmp_below.
Qed.
Lemma fewer_words_above : exists s s' ms ms',
  mnemonics_from_string (to_dict English) s = Ok ms /\ mnemonics_from_string (to_dict English) s' = Ok ms' /\
  phrase_cmp s s' = Lt /\ (length ms' < length ms)%nat.
Proof.
  assert (match mnemonics_to_string (to_dict English) (repeat 0 12), mnemonics_to_string (to_dict English) (repeat 2047 9) with
      | Ok s, Ok s' => mnemonics_from_string (to_dict English) s = Ok (repeat 0 12) /\
          mnemonics_from_string (to_dict English) s' = Ok (repeat 2047 9) /\ phrase_cmp s s' = Lt
      | _, _ => False
      end) as H by (vm_compute; repeat split).
  destruct (mnemonics_to_string (to_dict English) (repeat 0 12)) as [s| | |]; [|destruct H|destruct H|destruct H].
  destruct (mnemonics_to_string (to_dict English) (repeat 2047 9)) as [s'| | |]; [|destruct H|destruct H|destruct H].
  destruct H as (H1 & H2 & H3). exists s, s', (repeat 0 12), (repeat 2047 9). split; [exact H1|]. split; [exact H2|]. split; [exact H3|]. rewrite !repeat_length. lia.
Qed.
