(** The texts of the errors are those of the format strings and tell the
    errors apart. *)
From Coq Require Import Strings.String.
From Verif Require Import Base BaseFacts Str StrFacts KeyPathSpec KeyPathFacts Bip39 KeyPath Errors Display TextSpec.
Open Scope list_scope.

Local Arguments dec : simpl never.
Local Arguments bin8 : simpl never.

Ltac literals H := repeat match type of H with context [lit ?s] =>
  let v := eval vm_compute in (lit s) in change (lit s) with v in H end.
Ltac literals_goal := repeat match goal with |- context [lit ?s] =>
  let v := eval vm_compute in (lit s) in change (lit s) with v end.
Ltac differ E := exfalso; cbn in E; literals E; cbn [app] in E; discriminate E.

(** ** The format strings *)
Lemma bin8_exact n : n < 256 -> binary_text n (bin8 n).
Proof.
  intros H. rewrite <- (b2n_n2b_small n H). generalize (n2b n). clear n H. intros b.
  unfold binary_text, bin8. split; [reflexivity|]. split.
  - apply Forall_map, Forall_forall. intros i _. destruct (N.testbit _ _); auto.
  - destruct b; vm_compute; reflexivity.
Qed.

Ltac texts := cbn [fill]; literals_goal; cbn; rewrite ?app_nil_r; reflexivity.

Lemma secp_text_exact e : show_secp e = secp_text e.
Proof. destruct e; unfold show_secp, secp_text; texts. Qed.
Lemma ada_text_exact e : show_ada e = ada_text e.
Proof. destruct e; unfold show_ada, ada_text; texts. Qed.
Lemma bip39_text_exact e : bip39_text e (show_bip39 e).
Proof.
  destruct e; unfold show_bip39, bip39_text; try texts.
  intros Ha Hb. exists (bin8 computed), (bin8 found). split; [now apply bin8_exact|]. split; [now apply bin8_exact|].
  texts.
Qed.
Lemma mnemonic_text_exact e : mnemonic_text e (show_mnemonic e).
Proof.
  destruct e; unfold show_mnemonic, mnemonic_text; try texts.
  exists (show_bip39 e). split; [apply bip39_text_exact|]. texts.
Qed.

Section T.
Variable T : texts.

Lemma kp_text_exact e : show_kp e = kp_text e.
Proof. destruct e as [| | | | | | | |i []]; unfold show_kp, kp_text, show_int, int_text; texts. Qed.
Lemma boxed_text_exact e : show_boxed e = boxed_text e.
Proof. destruct e; [apply secp_text_exact|apply ada_text_exact|reflexivity]. Qed.
Lemma key_text_exact e : key_text e (show_key e).
Proof.
  destruct e; unfold show_key, key_text; rewrite ?kp_text_exact, ?boxed_text_exact; try texts.
  exists (show_mnemonic e). split; [apply mnemonic_text_exact|]. texts.
Qed.
Lemma network_text_exact n : show_network n = network_text n.
Proof. unfold show_network, network_text; texts. Qed.

Theorem error_text_exact e : error_text T e (show T e).
Proof.
  destruct e; unfold show, error_text; rewrite ?network_text_exact, ?kp_text_exact; try texts.
  - destruct e; unfold show_data; texts.
  - exists (show_key e). split; [apply key_text_exact|]. texts.
  - exists (show_mnemonic e). split; [apply mnemonic_text_exact|]. texts.
Qed.
End T.

(** ** Telling errors apart *)
Definition is_digit (c : N) : bool := (48 <=? c) && (c <=? 57).
Lemma dec_is_digit n : Forall (fun c => is_digit c = true) (dec n).
Proof. eapply Forall_impl; [|apply dec_fuel_digits]. intros c Hc. unfold digit in Hc. unfold is_digit. lia. Qed.
Lemma dec_inj a b : word a -> word b -> dec a = dec b -> a = b.
Proof.
  intros Ha Hb E. unfold word, usize_max in *.
  assert (forall n, n <= 2 ^ 64 - 1 -> digits_value (dec n) = n) as H.
  { intros n Hn. apply dec_fuel_value. eapply N.le_lt_trans; [exact Hn|]. reflexivity. }
  rewrite <- (H a Ha), <- (H b Hb). now rewrite E.
Qed.
Lemma digits_cut d d' c c' r r' : Forall (fun c => is_digit c = true) d -> Forall (fun c => is_digit c = true) d' ->
  is_digit c = false -> is_digit c' = false -> d ++ c :: r = d' ++ c' :: r' -> d = d' /\ c :: r = c' :: r'.
Proof.
  intros Hd. revert d'. induction Hd as [|x d Hx Hd IH]; intros d' Hd' Hc Hc' E.
  - destruct Hd' as [|y d' Hy Hd']; [auto|]. cbn in E. injection E as -> _. congruence.
  - destruct Hd' as [|y d' Hy Hd']; cbn in E; injection E as <- E; [congruence|].
    destruct (IH d' Hd' Hc Hc' E) as [-> ->]. auto.
Qed.
Lemma dec_cut a b c c' r r' : word a -> word b -> is_digit c = false -> is_digit c' = false ->
  dec a ++ c :: r = dec b ++ c' :: r' -> a = b /\ c :: r = c' :: r'.
Proof.
  intros Ha Hb Hc Hc' E. apply digits_cut in E as [E1 E2]; auto using dec_is_digit. split; [|exact E2]. now apply dec_inj.
Qed.
(** a number in parentheses at the end of a text *)
Lemma end_cut a b x y : word x -> word y -> a ++ lit "(" ++ dec x ++ lit ")" = b ++ lit "(" ++ dec y ++ lit ")" -> a = b /\ x = y.
Proof.
  intros Hx Hy E. rewrite !app_assoc in E. apply app_inj_tail in E as [E _]. apply (f_equal (@rev N)) in E.
  rewrite !rev_app_distr in E. cbn [rev app] in E. change (rev (lit "(")) with [40] in E. cbn [app] in E.
  apply digits_cut in E as [E1 E2]; try reflexivity; try (apply Forall_rev, dec_is_digit).
  apply (f_equal (@rev N)) in E1. rewrite !rev_involutive in E1. injection E2 as E2. apply (f_equal (@rev N)) in E2.
  rewrite !rev_involutive in E2. split; [exact E2|]. now apply dec_inj.
Qed.

Lemma dec_lit a b s r r' : word a -> word b -> match lit s with c :: _ => is_digit c = false | [] => False end ->
  dec a ++ lit s ++ r = dec b ++ lit s ++ r' -> a = b /\ r = r'.
Proof.
  intros Ha Hb Hs E. destruct (lit s) as [|c l]; [easy|]. cbn [app] in E. apply dec_cut in E as [-> E]; auto. split; [reflexivity|].
  injection E as E. now apply app_inv_head in E.
Qed.
Ltac pull E := repeat first
  [ apply app_inv_head in E
  | apply dec_lit in E as [? E]; [|assumption|assumption|reflexivity]
  | apply dec_inj in E; [|assumption|assumption]
  | apply app_inv_tail in E ]; subst; try reflexivity.
Ltac parts := repeat match goal with H : _ /\ _ |- _ => destruct H end.
Ltac pairs E := try reflexivity; try (differ E).

Lemma show_secp_inj e e' : named_secp e -> named_secp e' -> show_secp e = show_secp e' -> e = e'.
Proof. destruct e, e'; intros H H' E; pairs E; cbn [show_secp named_secp] in *; parts; pull E. Qed.
Lemma show_ada_inj e e' : named_ada e -> named_ada e' -> show_ada e = show_ada e' -> e = e'.
Proof. destruct e, e'; intros H H' E; pairs E; cbn [show_ada named_ada] in *; parts; pull E. Qed.
Lemma bin8_inj a b : a < 256 -> b < 256 -> bin8 a = bin8 b -> a = b.
Proof.
  intros Ha Hb E. destruct (bin8_exact a Ha) as (_ & _ & <-). destruct (bin8_exact b Hb) as (_ & _ & <-). now rewrite E.
Qed.
Lemma app_inv_length {A} (a b c d : list A) : List.length a = List.length b -> a ++ c = b ++ d -> a = b /\ c = d.
Proof.
  revert b. induction a as [|x a IH]; intros [|y b] L E; try discriminate; [auto|]. injection L as L. injection E as <- E.
  destruct (IH b L E) as [-> ->]. auto.
Qed.
Lemma show_bip39_inj e e' : named_bip39 e -> named_bip39 e' -> show_bip39 e = show_bip39 e' -> e = e'.
Proof.
  destruct e, e'; intros H H' E; pairs E; try easy; cbn [show_bip39 named_bip39] in *; parts; pull E.
  apply app_inv_length in E as [E1 E]; [|reflexivity]. apply app_inv_head in E. f_equal; now apply bin8_inj.
Qed.
Lemma show_mnemonic_inj e e' : named_mnemonic e -> named_mnemonic e' -> show_mnemonic e = show_mnemonic e' -> e = e'.
Proof.
  destruct e, e'; intros H H' E; pairs E; cbn [show_mnemonic named_mnemonic] in *; parts; pull E.
  all: try (f_equal; now apply show_bip39_inj).
  all: literals E; cbn [app] in E; apply dec_cut in E as [_ E]; try assumption; try reflexivity; discriminate E.
Qed.
Lemma show_boxed_inj e e' : named_boxed e -> named_boxed e' -> show_boxed e = show_boxed e' -> e = e'.
Proof.
  destruct e as [e|e|], e' as [e'|e'|]; cbn [named_boxed show_boxed]; intros H H' E; try easy.
  - f_equal. now apply show_secp_inj.
  - destruct e, e'; differ E.
  - destruct e, e'; differ E.
  - f_equal. now apply show_ada_inj.
Qed.

Section U.
Variable T : texts.
Lemma show_kp_inj e e' : named_kp e -> named_kp e' -> show_kp e = show_kp e' -> e = e'.
Proof.
  destruct e, e'; intros H H' E; pairs E; cbn [show_kp named_kp] in *; parts; pull E.
  f_equal. destruct e, e0; (reflexivity || discriminate E).
Qed.
Lemma show_key_inj e e' : named_key e -> named_key e' -> show_key e = show_key e' -> e = e'.
Proof.
  destruct e, e'; intros H H' E; pairs E; cbn [show_key named_key] in *; parts; pull E; f_equal.
  - now apply show_kp_inj.
  - now apply show_mnemonic_inj.
  - now apply show_boxed_inj.
  - now apply show_boxed_inj.
Qed.

(** Which variant it is can always be read off the text. *)
Theorem kind_of_text (T' : texts) e e' : show T e = show T' e' -> kind e = kind e'.
Proof.
  destruct e, e'; intros E; try reflexivity; try (differ E); exfalso; cbn [show] in E;
    apply (f_equal (fun l => hd 0 (rev l))) in E; rewrite !rev_app_distr in E; discriminate E.
Qed.

Theorem error_of_text : texts_differ T -> forall e e', named e -> named e' -> show T e = show T e' -> e = e'.
Proof.
  intros HT e e' H H' E. pose proof (kind_of_text T e e' E) as Hk.
  destruct e, e'; try discriminate Hk; clear Hk; cbn [show named] in *; parts; try reflexivity; pull E.
  - assert (forall v, show_data T (DUnknownVariant v) = fill "unknown variant `{}`, expected {}" [v; variant_rest T]) as Hv
      by (intros v; unfold show_data; texts).
    destruct e as [|v], e0 as [|v0]; [reflexivity| | |].
    + rewrite Hv in E. now apply HT in E.
    + rewrite Hv in E. symmetry in E. now apply HT in E.
    + cbn [show_data] in E. pull E.
  - assert (forall a b, show_key a ++ lit " for network " ++ show_network b
      = (show_key a ++ lit " for network Network") ++ lit "(" ++ dec b ++ lit ")") as Hs.
    { intros a b. unfold show_network. rewrite <- !app_assoc. f_equal. }
    rewrite !Hs in E. apply end_cut in E as [E ->]; try assumption. pull E. f_equal. now apply show_key_inj.
  - f_equal. now apply show_mnemonic_inj.
  - f_equal. now apply show_kp_inj.
Qed.
End U.

(** The text of [MnemonicToLong] does not say that the phrase is too long. *)
Theorem too_long_says_short (T : texts) size max :
  exists rest, show T (MnemonicError (MnemonicToLong size max)) = lit "Mnemonic error Mnemonic " ++ dec size ++ lit " too short" ++ rest.
Proof.
  eexists. cbn [show show_mnemonic]. rewrite (app_assoc (lit "Mnemonic error ")).
  change (lit "Mnemonic error " ++ lit "Mnemonic ") with (lit "Mnemonic error Mnemonic ").
  change (lit " too short. Max: ") with (lit " too short" ++ lit ". Max: "). rewrite <- !app_assoc. reflexivity.
Qed.

Theorem custom_mimics : exists e e', e <> e' /\ forall T, show T e = show T e'.
Proof.
  exists (KeyError 0 (SignError (BoxSecp SInvalidMessage))), (KeyError 0 (SignError (BoxOther (lit "Invalid message")))).
  split; [discriminate|]. reflexivity.
Qed.
