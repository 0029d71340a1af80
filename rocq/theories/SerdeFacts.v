(** Proofs for Serde.v. *)
From Coq Require Import Strings.String.
From Verif Require Import Base BaseFacts Str Hex Bip39 Dict Errors Base64 Json JsonFacts Data DataSpec DataFacts
  CodingSpec CodingFacts JsonSpec DocumentSpec JsonReadFacts DocumentFacts Serde SerdeSpec.
Open Scope list_scope.
Local Open Scope byte_scope.

(** * Enums *)

Section Enum.
Context {A : Type}.
Variable variant : str -> option (content A).
Variable U : str -> A -> Prop.
Variable K : str -> A -> bytes -> Prop.

Definition variant_ok : Prop := forall s,
  match variant s with
  | None => (forall a, ~ U s a) /\ (forall a v, ~ K s a v)
  | Some (UnitVariant a0) => (forall a, U s a <-> a = a0) /\ (forall a v, K s a v <-> a = a0 /\ v = blit "null")
  | Some (NewtypeVariant p) => (forall a, ~ U s a) /\ reads p (K s)
  end.
Definition enum_text (a : A) (t : bytes) : Prop :=
  exists s, (U s a /\ string_text s t) \/ (exists v, K s a v /\ object_text [(s, v)] t).

Lemma object1 s v t : object_text [(s, v)] t <->
  exists w q w2 w3 w4, ws w /\ ws w2 /\ ws w3 /\ ws w4 /\ string_text s q /\
    t = "{" :: w ++ q ++ w2 ++ ":" :: w3 ++ v ++ w4 ++ ["}"].
Proof.
  split.
  - intros (ts & body & F & He & ->). inversion F as [|? m ? ? Hm F']; subst. inversion F'; subst.
    destruct He as (w1 & w4 & Hw1 & -> & Hw4). destruct Hm as (q & w2 & w3 & Hq & Hw2 & Hw3 & ->). cbn [fst snd] in *.
    cbn [more_elements] in Hw4. exists w1, q, w2, w3, w4. do 5 (split; [assumption|]).
    change (blit "{") with ["{"]. change (blit "}") with ["}"]. change (blit ":") with [":"]. assoc. reflexivity.
  - intros (w & q & w2 & w3 & w4 & Hw & Hw2 & Hw3 & Hw4 & Hq & ->).
    exists [q ++ w2 ++ blit ":" ++ w3 ++ v], (w ++ (q ++ w2 ++ blit ":" ++ w3 ++ v) ++ w4). split; [|split].
    + constructor; [|constructor]. exists q, w2, w3. auto.
    + exists w, w4. auto.
    + change (blit "{") with ["{"]. change (blit "}") with ["}"]. change (blit ":") with [":"]. assoc. reflexivity.
Qed.

Lemma reads_enum : variant_ok -> reads (parse_enum variant) enum_text.
Proof.
  intros Hv. split; [|split].
  - intros l a r. unfold parse_enum. destruct (skip_ws l) as [|b l1] eqn:E; [discriminate|].
    destruct (byte_eqb b "{") eqn:Eb.
    + apply skip_ws_head in E as (w & Hw & ->). apply byte_eqb_eq in Eb as ->.
      destruct (parse_str l1) as [[s l2]| | |] eqn:E1; try discriminate. cbn [bind].
      specialize (Hv s). destruct (variant s) as [c|]; [|discriminate]. cbn [ok_or bind].
      destruct (expect ":" l2) as [[x l3]| | |] eqn:E2; try discriminate. cbn [bind].
      destruct (match c with UnitVariant a => _ | NewtypeVariant p => p l3 end) as [[a' l4]| | |] eqn:E3; try discriminate. cbn [bind].
      destruct (expect "}" l4) as [[x'' l5]| | |] eqn:E4; try discriminate. cbn [bind].
      intros H. injection H as <- <-. apply parse_str_sound in E1 as (w1 & q & Hw1 & -> & Hs).
      apply expect_sound in E2 as (w2 & Hw2 & ->). apply expect_sound in E4 as (w4 & Hw4 & ->).
      assert (exists w3 v, ws w3 /\ l3 = w3 ++ v ++ w4 ++ "}" :: l5 /\ K s a' v) as (w3 & v & Hw3 & -> & Hk).
      { destruct c as [a0|p].
        - destruct (parse_null l3) as [[y l']| | |] eqn:En; try discriminate. cbn [bind] in E3. injection E3 as <- ->.
          apply null_sound in En as (w3 & Hw3 & ->). exists w3, (blit "null"). split; [exact Hw3|]. split; [reflexivity|].
          now apply Hv.
        - destruct Hv as [_ (Hp & _)]. apply Hp in E3 as (w3 & v & Hw3 & -> & Hk). exists w3, v. auto. }
      exists w, ("{" :: w1 ++ q ++ w2 ++ ":" :: w3 ++ v ++ w4 ++ ["}"]). split; [exact Hw|].
      split; [assoc; reflexivity|]. exists s. right. exists v. split; [exact Hk|]. apply object1. exists w1, q, w2, w3, w4. auto 6.
    + destruct (byte_eqb b """"); [|discriminate]. destruct (parse_str l) as [[s l2]| | |] eqn:E1; try discriminate. cbn [bind].
      specialize (Hv s). destruct (variant s) as [[a0|p]|]; try discriminate. cbn [ok_or bind]. intros H. injection H as <- <-.
      apply parse_str_sound in E1 as (w & q & Hw & -> & Hs). exists w, q. split; [exact Hw|]. split; [reflexivity|].
      exists s. left. split; [now apply Hv|exact Hs].
  - intros w t r a Hw (s & [(Hu & Hs)|(v & Hk & Ho)]) Hr; unfold parse_enum; specialize (Hv s).
    + rewrite (parse_str_complete w t r s Hw Hs). rewrite skip_ws_app by exact Hw. destruct Hs as (body & bs & -> & _).
      change (skip_ws (([x22] ++ body ++ [x22]) ++ r)) with ("""" :: (body ++ [x22]) ++ r).
      change (byte_eqb """" "{") with false. change (byte_eqb """" """") with true. cbv iota. cbn [bind].
      destruct (variant s) as [[a0|p]|]; cbn [ok_or bind].
      * now apply Hv in Hu as ->.
      * now apply Hv in Hu.
      * now apply Hv in Hu.
    + apply object1 in Ho as (w1 & q & w2 & w3 & w4 & Hw1 & Hw2 & Hw3 & Hw4 & Hq & ->).
      rewrite skip_ws_app by exact Hw. cbn [app]. rewrite skip_ws_hit by reflexivity.
      change (byte_eqb "{" "{") with true. cbv iota. rewrite <- !app_assoc. rewrite (parse_str_complete w1 q _ s Hw1 Hq). cbn [bind].
      destruct (variant s) as [c|]; cbn [ok_or bind]; [|now apply Hv in Hk].
      cbn [app]. rewrite expect_complete by auto. cbn [bind]. rewrite <- ?app_assoc. cbn [app].
      destruct c as [a0|p].
      * apply Hv in Hk as [-> ->]. rewrite null_complete by auto. cbn [bind]. rewrite expect_complete by auto. reflexivity.
      * destruct Hv as [_ (_ & Hp & _)]. rewrite (Hp w3 v _ a Hw3 Hk); [|apply stop_ws; [exact Hw4|cbn; auto 10]].
        cbn [bind]. rewrite expect_complete by auto. reflexivity.
  - intros a v (s & [(_ & H)|(v' & _ & H)]); [now apply string_starts in H|now apply object_starts in H].
Qed.

End Enum.

(** Which names are reported as unknown. *)
Section Names.
Context {A : Type}.
Variable variant : str -> option (content A).
Definition only_malformed {B} (p : parser B) : Prop := forall l e, p l = Err e -> e = DMalformed.
Lemma expect_malformed c : only_malformed (expect c).
Proof.
  intros l e. unfold expect. destruct (skip_ws l) as [|b r]; [intros H; now injection H|].
  destruct (byte_eqb b c); [discriminate|]. intros H; now injection H.
Qed.
Lemma text_malformed t : only_malformed (expect_text t).
Proof.
  induction t as [|c t IH]; intros l e; cbn [expect_text]; [discriminate|].
  destruct l as [|b r]; [intros H; now injection H|]. destruct (byte_eqb b c); [apply IH|intros H; now injection H].
Qed.
Lemma null_malformed : only_malformed parse_null.
Proof.
  intros l e. unfold parse_null. destruct (skip_ws l) as [|b r]; [intros H; now injection H|].
  destruct (byte_eqb b "n"); [apply text_malformed|intros H; now injection H].
Qed.
Lemma str_malformed : only_malformed parse_str.
Proof.
  intros l e. unfold parse_str. destruct (expect """" l) as [[x l1]|e'| |] eqn:E1; cbn [bind]; try discriminate.
  - destruct (str_body l1) as [[s r]|]; [|intros H; now injection H]. destruct (of_utf8 s); [discriminate|intros H; now injection H].
  - intros H. injection H as ->. now apply expect_malformed in E1.
Qed.
Lemma integer_malformed : only_malformed integer.
Proof.
  intros l e. unfold integer. destruct l as [|b r]; [intros H; now injection H|].
  destruct (byte_eqb b "0").
  - destruct r as [|d r]; [discriminate|]. destruct (_ || _); [intros H; now injection H|discriminate].
  - destruct (is_digit b); [|intros H; now injection H]. destruct (digits 0 (b :: r)) as [n r'].
    destruct (no_float r'); [discriminate|intros H; now injection H].
Qed.
Lemma uint_malformed C max : only_malformed (parse_uint C max).
Proof.
  intros l e. unfold parse_uint. destruct (skip_ws l) as [|b r]; [intros H; now injection H|].
  destruct (byte_eqb b "-").
  - destruct (integer r) as [[n r']|e'| |] eqn:E1; cbn [bind]; try discriminate.
    + destruct (_ && _); [discriminate|intros H; now injection H].
    + intros H. injection H as ->. now apply integer_malformed in E1.
  - destruct (integer (b :: r)) as [[n r']|e'| |] eqn:E1; cbn [bind]; try discriminate.
    + destruct (n <=? max)%N; [discriminate|intros H; now injection H].
    + intros H. injection H as ->. now apply integer_malformed in E1.
Qed.

Definition named (s : str) (l : bytes) : Prop :=
  exists w q r, ws w /\ string_text s q /\ (l = w ++ q ++ r \/ exists w', ws w' /\ l = w ++ "{" :: w' ++ q ++ r).

Lemma enum_unknown : (forall s p, variant s = Some (NewtypeVariant p) -> only_malformed p) ->
  forall l s, from_slice (parse_enum variant) l = Err (DUnknownVariant s) <-> variant s = None /\ named s l.
Proof.
  intros Hp l s. unfold from_slice. split.
  - destruct (parse_enum variant l) as [[a r]|e| |] eqn:E0; cbn [bind]; try discriminate.
    { destruct (skip_ws r); discriminate. }
    intros H. injection H as ->. revert E0. unfold parse_enum. destruct (skip_ws l) as [|b l1] eqn:E1; [discriminate|].
    destruct (byte_eqb b "{") eqn:Eb.
    + apply skip_ws_head in E1 as (w & Hw & ->). apply byte_eqb_eq in Eb as ->.
      destruct (parse_str l1) as [[s' l2]|e| |] eqn:E1; cbn [bind]; try discriminate.
      2:{ intros H. injection H as ->. now apply str_malformed in E1. }
      apply parse_str_sound in E1 as (w1 & q & Hw1 & -> & Hs).
      destruct (variant s') as [c|] eqn:Ev; cbn [ok_or bind].
      2:{ intros H. injection H as ->. split; [exact Ev|]. exists w, q, l2. split; [exact Hw|]. split; [exact Hs|]. right. exists w1. auto. }
      destruct (expect ":" l2) as [[x l3]|e| |] eqn:E2; cbn [bind]; try discriminate.
      2:{ intros H. injection H as ->. now apply expect_malformed in E2. }
      destruct (match c with UnitVariant a => _ | NewtypeVariant p => p l3 end) as [[a' l4]|e| |] eqn:E3; cbn [bind]; try discriminate.
      2:{ intros H. injection H as ->. exfalso. destruct c as [a0|p].
          - destruct (parse_null l3) as [[y l']|e| |] eqn:En; cbn [bind] in E3; try discriminate.
            injection E3 as ->. now apply null_malformed in En.
          - now apply (Hp _ _ Ev) in E3. }
      destruct (expect "}" l4) as [[x'' l5]|e| |] eqn:E4; cbn [bind]; try discriminate.
      intros H. injection H as ->. now apply expect_malformed in E4.
    + destruct (byte_eqb b """"); [|discriminate]. destruct (parse_str l) as [[s' l2]|e| |] eqn:E2; cbn [bind]; try discriminate.
      2:{ intros H. injection H as ->. now apply str_malformed in E2. }
      apply parse_str_sound in E2 as (w1 & q & Hw1 & -> & Hs).
      destruct (variant s') as [[a0|p]|] eqn:Ev; cbn [ok_or bind]; try discriminate.
      intros H. injection H as ->. split; [exact Ev|]. exists w1, q, l2. auto.
  - intros (Hv & w & q & r & Hw & Hq & [->|(w' & Hw' & ->)]); unfold parse_enum.
    + rewrite (parse_str_complete w q r s Hw Hq), skip_ws_app by exact Hw. destruct Hq as (body & bs & -> & _).
      change (skip_ws (([x22] ++ body ++ [x22]) ++ r)) with ("""" :: (body ++ [x22]) ++ r).
      change (byte_eqb """" "{") with false. change (byte_eqb """" """") with true. cbv iota. cbn [bind]. now rewrite Hv.
    + rewrite skip_ws_app, skip_ws_hit by (exact Hw || reflexivity). change (byte_eqb "{" "{") with true. cbv iota.
      rewrite (parse_str_complete w' q r s Hw' Hq). cbn [bind]. now rewrite Hv.
Qed.

Lemma yields_enum : (forall s p, variant s = Some (NewtypeVariant p) -> yields p (fun _ => True)) ->
  yields (parse_enum variant) (fun _ => True).
Proof.
  intros Hp l. unfold parse_enum. pose proof (skip_ws_length l) as Hw.
  destruct (skip_ws l) as [|b r]; [exact I|]. cbn [List.length] in Hw.
  destruct (byte_eqb b "{").
  - pose proof (yields_str r) as H1. destruct (parse_str r) as [[s r1]| | |]; cbn [bind]; try assumption.
    destruct (variant s) as [c|] eqn:Ev; [|exact I]. cbn [ok_or bind].
    pose proof (yields_expect ":" r1) as H2. destruct (expect ":" r1) as [[x r2]| | |]; cbn [bind]; try assumption.
    assert (match (match c with UnitVariant a => let* '(_, r) := parse_null r2 in Ok (a, r) | NewtypeVariant p => p r2 end) with
      | Ok (_, r3) => (List.length r3 < List.length r2)%nat | Err _ => True | _ => False end) as H3.
    { destruct c as [a|p].
      - pose proof (yields_null r2) as H3. destruct (parse_null r2) as [[y r3]| | |]; cbn [bind]; try assumption. tauto.
      - pose proof (Hp s p Ev r2) as H3. destruct (p r2) as [[y r3]| | |]; try assumption. tauto. }
    destruct (match c with UnitVariant a => _ | NewtypeVariant p => p r2 end) as [[y r3]| | |]; cbn [bind]; try assumption.
    pose proof (yields_expect "}" r3) as H4. destruct (expect "}" r3) as [[z r4]| | |]; cbn [bind]; try assumption.
    split; [lia|trivial].
  - destruct (byte_eqb b """"); [|exact I]. pose proof (yields_str l) as H1.
    destruct (parse_str l) as [[s r1]| | |]; cbn [bind]; try assumption.
    destruct (variant s) as [[a|p]|]; cbn [ok_or bind]; try exact I. tauto.
Qed.

End Names.

Definition answers {A} (r : res data_error A) : Prop := match r with Ok _ | Err _ => True | Panic | Undef => False end.
Lemma slice_answers {A} (p : parser A) Q l : yields p Q -> answers (from_slice p l).
Proof.
  intros H. specialize (H l). unfold from_slice, answers. destruct (p l) as [[a r]| | |]; cbn [bind]; try exact H.
  destruct (skip_ws r); exact I.
Qed.
Lemma slice_printed {A} (p : parser A) t a : p (t ++ []) = Ok (a, []) -> from_slice p t = Ok a.
Proof. rewrite app_nil_r. intros H. unfold from_slice. now rewrite H. Qed.
Lemma whole_ext {A} (Q R : A -> bytes -> Prop) : (forall a t, Q a t <-> R a t) -> forall a l, whole (Q a) l <-> whole (R a) l.
Proof. intros H a l. unfold whole. split; intros (w & v & w' & E & Hw & Hw' & Hq); exists w, v, w'; repeat split; auto; now apply H. Qed.

(** * The types *)

Lemma type_names ty s : In (ty, s) types <-> type_variant s = Some (UnitVariant ty).
Proof.
  unfold type_variant. split.
  - intros H. cbn [types In] in H. repeat destruct H as [H|H]; try contradiction; injection H as <- <-; reflexivity.
  - destruct (find _ _) as [t|] eqn:E; [|discriminate]. cbn [option_map]. intros H. injection H as ->.
    apply find_some in E as [_ E]. apply str_eqb_eq in E. subst s. destruct ty; cbn [types In]; auto 8.
Qed.
Lemma type_not_newtype s p : type_variant s <> Some (NewtypeVariant p).
Proof. unfold type_variant. destruct (find _ _); discriminate. Qed.
Lemma type_ok : variant_ok type_variant (fun s a => In (a, s) types) (fun s a v => In (a, s) types /\ v = blit "null").
Proof.
  intros s. destruct (type_variant s) as [[a0|p]|] eqn:E.
  - assert (forall a, In (a, s) types <-> a = a0) as H.
    { intros a. rewrite type_names, E. split; [intros H; now injection H|now intros ->]. }
    split; [exact H|]. intros a v. now rewrite H.
  - now apply type_not_newtype in E.
  - assert (forall a, ~ In (a, s) types) as H by (intros a; rewrite type_names, E; discriminate).
    split; [exact H|]. intros a v [H' _]. now apply H in H'.
Qed.
Lemma type_exact l ty : read_type l = Ok ty <-> whole (type_text ty) l.
Proof.
  unfold read_type. rewrite (from_slice_iff _ _ l ty (reads_enum _ _ _ type_ok)). apply (whole_ext (enum_text _ _) type_text).
  intros a t. split.
  - intros (s & [(Hn & Hs)|(v & (Hn & ->) & Ho)]); exists s; (split; [exact Hn|]); [now left|now right].
  - intros (s & Hn & [Hs|Ho]); exists s; [now left|]. right. exists (blit "null"). auto.
Qed.

Lemma word_error_ok : variant_ok word_error_variant (fun _ _ => False) (fun s a v => s = word_error_name /\ string_text a v).
Proof.
  intros s. unfold word_error_variant. destruct (str_eqb s word_error_name) eqn:E.
  - apply str_eqb_eq in E as ->. split; [auto|]. destruct reads_str as (H1 & H2 & H3). split; [|split].
    + intros l a r H. apply H1 in H as (w & v & Hw & -> & Hq). exists w, v. auto.
    + intros w v r a Hw [_ Hv]. now apply H2.
    + intros a v [_ Hv]. now apply H3 in Hv.
  - split; [auto|]. intros a v [-> _]. assert (str_eqb word_error_name word_error_name = true) by now apply str_eqb_eq. congruence.
Qed.
Lemma word_error_exact l w : read_word_error l = Ok w <-> whole (word_error_text w) l.
Proof.
  unfold read_word_error. rewrite (from_slice_iff _ _ l w (reads_enum _ _ _ word_error_ok)). apply (whole_ext (enum_text _ _) word_error_text).
  intros a t. split.
  - intros (s & [([] & _)|(v & (-> & Hv) & Ho)]). exists v. auto.
  - intros (v & Hv & Ho). exists word_error_name. right. exists v. split; [split; [reflexivity|exact Hv]|exact Ho].
Qed.
Lemma phrase_exact l s : read_phrase l = Ok s <-> whole (string_text s) l.
Proof. exact (from_slice_iff _ _ l s reads_str). Qed.
Lemma language_exact l a : read_language l = Ok a <-> whole (language_text a) l.
Proof. exact (from_slice_iff _ _ l a reads_language). Qed.

Section Config.
Variable C : json_config.
Let D : data_config := {| json_cfg := C; b64_cfg := {| b64_any_trailing_bits := true; b64_short_padding := true |} |}.

Lemma network_exact l n : read_network C l = Ok n <-> whole (number_of (minus_zero C) u32_max n) l.
Proof. exact (from_slice_iff _ _ l n (reads_uint D u32_max)). Qed.
Definition hex_content (e : hex_error) (v : bytes) : Prop :=
  match e with UnknownSymbol n => number_of (minus_zero C) usize_max n v end.
Lemma reads_hex_error : reads (parse_hex_error C) hex_content.
Proof.
  destruct (reads_uint D usize_max) as (H1 & H2 & H3). split; [|split].
  - intros l a r. unfold parse_hex_error. destruct (parse_uint C usize_max l) as [[n l']| | |] eqn:E; try discriminate. cbn [bind].
    intros H. injection H as <- <-. exact (H1 _ _ _ E).
  - intros w v r [n] Hw Hv Hr. unfold parse_hex_error. pose proof (H2 w v r n Hw Hv Hr) as H. cbn [json_cfg D] in H. now rewrite H.
  - intros [n] v Hv. exact (H3 n v Hv).
Qed.
Lemma hex_error_ok : variant_ok (hex_error_variant C) (fun _ _ => False) (fun s a v => s = hex_error_name /\ hex_content a v).
Proof.
  intros s. unfold hex_error_variant. destruct (str_eqb s hex_error_name) eqn:E.
  - apply str_eqb_eq in E as ->. split; [auto|]. destruct reads_hex_error as (H1 & H2 & H3). split; [|split].
    + intros l a r H. apply H1 in H as (w & v & Hw & -> & Hq). exists w, v. auto.
    + intros w v r a Hw [_ Hv]. now apply H2.
    + intros a v [_ Hv]. now apply H3 in Hv.
  - split; [auto|]. intros a v [-> _]. assert (str_eqb hex_error_name hex_error_name = true) by now apply str_eqb_eq. congruence.
Qed.
Lemma hex_error_exact l e : read_hex_error C l = Ok e <-> whole (hex_error_text (minus_zero C) e) l.
Proof.
  unfold read_hex_error. rewrite (from_slice_iff _ _ l e (reads_enum _ _ _ hex_error_ok)).
  apply (whole_ext (enum_text _ _) (hex_error_text (minus_zero C))).
  intros [n] t. split.
  - intros (s & [([] & _)|(v & (-> & Hv) & Ho)]). exists v. auto.
  - intros (v & Hv & Ho). exists hex_error_name. right. exists v. split; [split; [reflexivity|exact Hv]|exact Ho].
Qed.

Theorem read_exact : forall l,
  (forall s, read_phrase l = Ok s <-> whole (string_text s) l) /\
  (forall ty, read_type l = Ok ty <-> whole (type_text ty) l) /\
  (forall w, read_word_error l = Ok w <-> whole (word_error_text w) l) /\
  (forall e, read_hex_error C l = Ok e <-> whole (hex_error_text (minus_zero C) e) l) /\
  (forall n, read_network C l = Ok n <-> whole (number_of (minus_zero C) u32_max n) l) /\
  (forall a, read_language l = Ok a <-> whole (language_text a) l).
Proof.
  intros l. split; [intros; apply phrase_exact|]. split; [intros; apply type_exact|]. split; [intros; apply word_error_exact|].
  split; [intros; apply hex_error_exact|]. split; [intros; apply network_exact|]. intros; apply language_exact.
Qed.

Theorem read_answers : forall l,
  answers (read_phrase l) /\ answers (read_type l) /\ answers (read_word_error l) /\ answers (read_hex_error C l) /\
  answers (read_network C l) /\ answers (read_language l).
Proof.
  intros l. split; [apply (slice_answers _ _ _ yields_str)|].
  split; [refine (slice_answers _ (fun _ => True) l (yields_enum _ _)); intros s p H; now apply type_not_newtype in H|].
  split; [refine (slice_answers _ (fun _ => True) l (yields_enum _ _)); intros s p H|].
  { revert H. unfold word_error_variant. destruct (str_eqb s word_error_name); [|discriminate]. intros H. injection H as <-.
    eapply yields_weaken; [|apply yields_str]. auto. }
  split; [refine (slice_answers _ (fun _ => True) l (yields_enum _ _)); intros s p H|].
  { revert H. unfold hex_error_variant. destruct (str_eqb s hex_error_name); [|discriminate]. intros H. injection H as <-.
    intros l'. pose proof (yields_uint C usize_max l') as H'. unfold parse_hex_error.
    destruct (parse_uint C usize_max l') as [[n r]| | |]; cbn [bind]; tauto. }
  split; [apply (slice_answers _ _ _ (yields_uint C u32_max))|apply (slice_answers _ _ _ yields_language)].
Qed.

Theorem unknown_names : forall l s,
  (read_type l = Err (DUnknownVariant s) <-> ~ In s (List.map snd types) /\ named s l) /\
  (read_word_error l = Err (DUnknownVariant s) <-> s <> lit "MnemonicWordNotFoundInDictionary" /\ named s l) /\
  (read_hex_error C l = Err (DUnknownVariant s) <-> s <> lit "UnknownSymbol" /\ named s l).
Proof.
  intros l s. split; [|split].
  - unfold read_type. rewrite enum_unknown by (intros s' p H; now apply type_not_newtype in H).
    assert (type_variant s = None <-> ~ In s (List.map snd types)) as ->; [|reflexivity]. split.
    + intros E H. apply in_map_iff in H as ((ty & s') & <- & H). apply type_names in H. cbn [snd] in E. congruence.
    + intros H. destruct (type_variant s) as [[ty|p]|] eqn:E; [|now apply type_not_newtype in E|reflexivity].
      apply type_names in E. exfalso. apply H. apply in_map_iff. now exists (ty, s).
  - unfold read_word_error. rewrite enum_unknown.
    2:{ intros s' p. unfold word_error_variant. destruct (str_eqb s' word_error_name); [|discriminate]. intros H. injection H as <-. exact str_malformed. }
    assert (word_error_variant s = None <-> s <> word_error_name) as H; [|exact (and_iff_compat_r _ H)].
    unfold word_error_variant. destruct (str_eqb s word_error_name) eqn:E.
    + apply str_eqb_eq in E. split; [discriminate|contradiction].
    + split; [|reflexivity]. intros _ ->. assert (str_eqb word_error_name word_error_name = true) by now apply str_eqb_eq. congruence.
  - unfold read_hex_error. rewrite enum_unknown.
    2:{ intros s' p. unfold hex_error_variant. destruct (str_eqb s' hex_error_name); [|discriminate]. intros H. injection H as <-.
        intros l' e. unfold parse_hex_error. destruct (parse_uint C usize_max l') as [[n r]|e'| |] eqn:E; cbn [bind]; try discriminate.
        intros H. injection H as ->. now apply uint_malformed in E. }
    assert (hex_error_variant C s = None <-> s <> hex_error_name) as H; [|exact (and_iff_compat_r _ H)].
    unfold hex_error_variant. destruct (str_eqb s hex_error_name) eqn:E.
    + apply str_eqb_eq in E. split; [discriminate|contradiction].
    + split; [|reflexivity]. intros _ ->. assert (str_eqb hex_error_name hex_error_name = true) by now apply str_eqb_eq. congruence.
Qed.

(** * Written values *)

Theorem written :
  (forall s, write_phrase s = quoted_str s) /\
  (forall ty, write_type ty = type_written ty) /\
  (forall w, write_word_error w = blit "{""MnemonicWordNotFoundInDictionary"":" ++ quoted_str w ++ blit "}") /\
  (forall n s, is_usize n -> numeral n s ->
     write_hex_error (UnknownSymbol n) = blit "{""UnknownSymbol"":" ++ utf8 s ++ blit "}") /\
  (forall n s, is_u32 n -> numeral n s -> write_network n = utf8 s) /\
  (forall a, write_language a = dictionary_text (Some a)).
Proof.
  assert (forall s, print_str (utf8 s) = quoted_str s) as Hs.
  { intros s. unfold print_str, quoted_str, quoted. now rewrite flat_escape. }
  split; [exact Hs|]. split; [intros []; reflexivity|]. split.
  { intros w. unfold write_word_error, print_newtype, print_struct, print_field. cbn [commas]. rewrite (Hs w). reflexivity. }
  split.
  { intros n s Hn H. apply (dec_exact n Hn) in H as ->.
    unfold write_hex_error, print_newtype, print_struct, print_field, print_num. cbn [commas].
    generalize (utf8 (dec n)). intros t. reflexivity. }
  split; [|intros []; reflexivity].
  intros n s Hn H. apply dec_exact in H as ->; [unfold write_network, print_num; reflexivity|].
  eapply N.le_trans; [exact Hn|]. apply N.leb_le. vm_compute. reflexivity.
Qed.

Lemma usize_small n : is_usize n -> (n < 10 ^ 20)%N.
Proof. intros Hn. eapply N.le_lt_trans; [exact Hn|]. apply N.ltb_lt. vm_compute. reflexivity. Qed.

Lemma read_written_phrase s : valid_str s -> read_phrase (write_phrase s) = Ok s.
Proof. intros Hs. apply slice_printed. apply parse_str_print. now apply of_utf8_utf8. Qed.

Lemma newtype_print {A} (variant : str -> option (content A)) name v p a : valid_str name ->
  variant name = Some (NewtypeVariant p) -> p (v ++ ["}"]) = Ok (a, ["}"]) ->
  from_slice (parse_enum variant) (print_newtype name v) = Ok a.
Proof.
  intros Hn Hv Hp. unfold from_slice, parse_enum, print_newtype, print_struct. cbn [commas]. rewrite skip_ws_hit by reflexivity.
  change (byte_eqb "{" "{") with true. cbv iota. unfold print_field. rewrite <- app_assoc.
  rewrite (parse_str_print _ _ _ (of_utf8_utf8 _ Hn)). cbn [bind]. rewrite Hv. cbn [ok_or bind app].
  rewrite expect_hit by reflexivity. cbn [bind]. rewrite Hp. cbn [bind]. rewrite expect_hit by reflexivity. reflexivity.
Qed.

Theorem round_trips :
  (forall s, valid_str s -> read_phrase (write_phrase s) = Ok s) /\
  (forall ty, read_type (write_type ty) = Ok ty) /\
  (forall w, valid_str w -> read_word_error (write_word_error w) = Ok w) /\
  (forall n, is_usize n -> read_hex_error C (write_hex_error (UnknownSymbol n)) = Ok (UnknownSymbol n)) /\
  (forall n, is_u32 n -> read_network C (write_network n) = Ok n) /\
  (forall a, read_language (write_language a) = Ok a).
Proof.
  split; [exact read_written_phrase|]. split; [intros []; vm_compute; reflexivity|]. split.
  { intros w Hw. apply (newtype_print _ _ _ parse_str); [apply Forall_forall, forallb_forall; vm_compute; reflexivity|reflexivity|].
    apply parse_str_print. now apply of_utf8_utf8. }
  split.
  { intros n Hn. apply (newtype_print _ _ _ (parse_hex_error C)); [apply Forall_forall, forallb_forall; vm_compute; reflexivity|reflexivity|].
    unfold parse_hex_error. rewrite parse_uint_print; [reflexivity|now apply usize_small|exact Hn|vm_compute; auto]. }
  split; [|intros []; vm_compute; reflexivity].
  intros n Hn. apply slice_printed. apply parse_uint_print; [|exact Hn|apply stop_num; exact I].
  apply usize_small. eapply N.le_trans; [exact Hn|]. apply N.leb_le. vm_compute. reflexivity.
Qed.
End Config.

(** * Not validated *)

Theorem any_phrase : forall s, valid_str s -> exists t, read_phrase t = Ok s.
Proof. intros s Hs. exists (write_phrase s). now apply read_written_phrase. Qed.

Theorem unvalidated : exists t s, read_phrase t = Ok s /\ forall d : dict, mnemonic_string_new d s <> Ok s.
Proof.
  exists (blit """"""), []. split; [vm_compute; reflexivity|]. intros d.
  unfold mnemonic_string_new, mnemonics_from_string. change (split separator []) with [@nil N]. cbn [mapM].
  unfold from_word, lookup_mnemonic. destruct (position [] d) as [v|]; [|discriminate].
  destruct (unwrap (index_new (v mod 65536))) as [m| | |]; cbn [bind]; discriminate.
Qed.

Theorem read_never_panics : forall (C : json_config) (l : bytes),
  let answers A (r : res data_error A) := (exists a, r = Ok a) \/ (exists e, r = Err e) in
  answers _ (read_phrase l) /\ answers _ (read_type l) /\ answers _ (read_word_error l) /\
  answers _ (read_hex_error C l) /\ answers _ (read_network C l) /\ answers _ (read_language l).
Proof.
  intros C l an. assert (forall A (r : res data_error A), answers r -> an A r) as H.
  { intros A [a|e| |] H; [left|right|contradiction|contradiction]; eauto. }
  destruct (read_answers C l) as (H1 & H2 & H3 & H4 & H5 & H6). auto 8.
Qed.
