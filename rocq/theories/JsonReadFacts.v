(** The parsers of Json.v read exactly the texts of JsonSpec.v. *)
From Verif Require Import Base BaseFacts Str Bip39 KeyPath Errors BitsSpec Base64 Json JsonFacts CodingSpec CodingFacts JsonSpec.
Local Open Scope byte_scope.

(** ** White space *)
Lemma is_ws_spec b : is_ws b = true <-> In b [x20; x09; x0a; x0d].
Proof. split; destruct b; cbn; intros H; try discriminate; try tauto; repeat destruct H as [H|H]; try discriminate; try contradiction; reflexivity. Qed.
Lemma ws_nil : ws [].
Proof. constructor. Qed.
Lemma ws_cons b t : is_ws b = true -> ws t -> ws (b :: t).
Proof. intros H Ht. constructor; [now apply is_ws_spec|exact Ht]. Qed.
Lemma skip_ws_split l : exists w, ws w /\ l = w ++ skip_ws l.
Proof.
  induction l as [|b l (w & Hw & E)]; cbn [skip_ws]; [exists []; split; [apply ws_nil|reflexivity]|].
  destruct (is_ws b) eqn:Hb; [|exists []; split; [apply ws_nil|reflexivity]].
  exists (b :: w). split; [now apply ws_cons|]. cbn [app]. now f_equal.
Qed.
Lemma skip_ws_app w r : ws w -> skip_ws (w ++ r) = skip_ws r.
Proof.
  induction 1 as [|b w Hb _ IH]; [reflexivity|]. cbn [app skip_ws]. apply is_ws_spec in Hb as ->. exact IH.
Qed.
Lemma skip_ws_ws l : ws l <-> skip_ws l = [].
Proof.
  split; intros H.
  - rewrite <- (app_nil_r l), skip_ws_app by exact H. reflexivity.
  - destruct (skip_ws_split l) as (w & Hw & E). rewrite H, app_nil_r in E. now subst.
Qed.
Lemma skip_ws_idem l : skip_ws (skip_ws l) = skip_ws l.
Proof. induction l as [|b l IH]; [reflexivity|]. cbn [skip_ws]. destruct (is_ws b) eqn:E; [exact IH|]. cbn [skip_ws]. now rewrite E. Qed.
Lemma skip_ws_head l b r : skip_ws l = b :: r -> exists w, ws w /\ l = w ++ b :: r.
Proof. intros E. destruct (skip_ws_split l) as (w & Hw & E'). rewrite E in E'. eauto. Qed.

(** ** What parsers read *)
Definition stop (r : bytes) : Prop :=
  match r with [] => True | b :: _ => In b [x20; x09; x0a; x0d; ","; "]"; "}"; ":"] end.
Definition starts (v : bytes) : Prop :=
  exists b l, v = b :: l /\ is_ws b = false /\ byte_eqb b "]" = false /\ byte_eqb b "," = false.
Definition sound {A} (p : parser A) (Q : A -> bytes -> Prop) : Prop :=
  forall l a r, p l = Ok (a, r) -> exists w v, ws w /\ l = w ++ v ++ r /\ Q a v.
Definition complete {A} (p : parser A) (Q : A -> bytes -> Prop) : Prop :=
  forall w v r a, ws w -> Q a v -> stop r -> p (w ++ v ++ r) = Ok (a, r).
Definition reads {A} (p : parser A) (Q : A -> bytes -> Prop) : Prop :=
  sound p Q /\ complete p Q /\ forall a v, Q a v -> starts v.

Lemma stop_ws w r : ws w -> stop r -> stop (w ++ r).
Proof. destruct 1 as [|b w Hb _]; [auto|]. intros _. cbn in *. tauto. Qed.
Lemma stop_num r : stop r -> after_num r.
Proof.
  destruct r as [|b r]; [split; [reflexivity|exact I]|]. cbn [stop]. intros H.
  repeat destruct H as [<-|H]; try contradiction; split; reflexivity.
Qed.

Lemma expect_sound c l x r : expect c l = Ok (x, r) -> exists w, ws w /\ l = w ++ c :: r.
Proof.
  unfold expect. destruct (skip_ws l) as [|b r'] eqn:E; [discriminate|].
  destruct (byte_eqb b c) eqn:Eb; [|discriminate]. intros H. injection H as _ <-.
  apply byte_eqb_eq in Eb as ->. now apply skip_ws_head.
Qed.
Lemma expect_complete c w r : is_ws c = false -> ws w -> expect c (w ++ c :: r) = Ok (tt, r).
Proof.
  intros Hc Hw. unfold expect. rewrite skip_ws_app by exact Hw. rewrite skip_ws_hit by exact Hc.
  now rewrite byte_eqb_refl.
Qed.
Lemma expect_text_sound t : forall l x r, expect_text t l = Ok (x, r) -> l = t ++ r.
Proof.
  induction t as [|c t IH]; intros l x r; cbn [expect_text]. { intros H. injection H as _ ->. reflexivity. }
  destruct l as [|b l]; [discriminate|]. destruct (byte_eqb b c) eqn:E; [|discriminate].
  intros H. apply byte_eqb_eq in E as ->. cbn [app]. f_equal. now apply IH in H.
Qed.
Lemma expect_text_complete t r : expect_text t (t ++ r) = Ok (tt, r).
Proof. induction t as [|c t IH]; [reflexivity|]. cbn [app expect_text]. now rewrite byte_eqb_refl. Qed.

(** ** Strings *)
Lemma hex_digit_iff b n : hex_digit b = Some n <-> hexdigit n b.
Proof.
  split.
  - intros H. destruct b; vm_compute in H; try discriminate; injection H as <-; first [left; reflexivity | right; reflexivity].
  - unfold hexdigit. intros H. assert (exists k, N.to_nat n = k) as (k & Ek) by eauto.
    assert (n = N.of_nat k) as -> by lia. rewrite Ek in H.
    do 16 (destruct k as [|k]; [destruct H as [H|H]; vm_compute in H; injection H as <-; reflexivity|]).
    destruct H as [H|H]; cbn in H; destruct k; discriminate.
Qed.
Lemma hex4_iff a b c d n : hex4 a b c d = Some n <-> code_unit n [a; b; c; d].
Proof.
  unfold hex4, code_unit. split.
  - destruct (hex_digit a) as [x|] eqn:Ea; [|discriminate]. destruct (hex_digit b) as [y|] eqn:Eb; [|discriminate].
    destruct (hex_digit c) as [z|] eqn:Ec; [|discriminate]. destruct (hex_digit d) as [w|] eqn:Ed; [|discriminate].
    intros H. injection H as <-. exists x, y, z, w, a, b, c, d. split; [reflexivity|]. split; [lia|].
    repeat split; now apply hex_digit_iff.
  - intros (x & y & z & w & a' & b' & c' & d' & E & -> & Ha & Hb & Hc & Hd). injection E as <- <- <- <-.
    apply hex_digit_iff in Ha as ->, Hb as ->, Hc as ->, Hd as ->. f_equal. lia.
Qed.
Lemma code_unit_cons n u : code_unit n u -> exists a b c d, u = [a; b; c; d] /\ hex4 a b c d = Some n.
Proof.
  intros H. pose proof H as (x & y & z & w & a & b & c & d & -> & _). exists a, b, c, d.
  split; [reflexivity|]. now apply hex4_iff.
Qed.
Lemma code_unit_bound n u : code_unit n u -> (n < 65536)%N.
Proof.
  intros (x & y & z & w & a & b & c & d & _ & -> & Ha & Hb & Hc & Hd).
  assert (forall n b, hexdigit n b -> (n < 16)%N) as H.
  { intros m e [He|He]; apply nth_error_split in He as (l1 & l2 & E & El); apply (f_equal (@List.length byte)) in E;
      rewrite app_length in E; cbn in E; lia. }
  apply H in Ha, Hb, Hc, Hd. lia.
Qed.
Lemma simple_escape_iff e c : simple_escape e = Some c <-> In (e, c) escapes.
Proof.
  split.
  - intros H. destruct e; vm_compute in H; try discriminate; injection H as <-; vm_compute; tauto.
  - intros H. vm_compute in H. repeat destruct H as [H|H]; try contradiction; injection H as <- <-; reflexivity.
Qed.
Lemma plain_iff b : plain b <-> byte_eqb b """" = false /\ byte_eqb b "\" = false /\ N.ltb (b2n b) 32 = false.
Proof.
  unfold plain. rewrite N.ltb_ge. change x22 with """". change x5c with "\".
  assert (forall a, byte_eqb b a = false <-> b <> a) as H.
  { intros a. rewrite <- byte_eqb_eq. destruct (byte_eqb b a); split; intros; [discriminate|contradiction|discriminate|reflexivity]. }
  rewrite !H. tauto.
Qed.
Lemma rep_iff n rep : utf8_rep n rep <-> is_scalar n = true /\ rep = utf8_char n.
Proof. split; [apply rep_char|]. intros [H ->]. now apply char_rep. Qed.

Lemma push_iff pre o s r : push pre o = Some (s, r) <-> exists s', o = Some (s', r) /\ s = pre ++ s'.
Proof.
  unfold push, option_map. destruct o as [[s' r']|].
  - split; [intros H; injection H as <- <-; eauto|intros (s0 & H & ->); now injection H as -> ->].
  - split; [discriminate|intros (? & H & _); discriminate].
Qed.
Lemma low_iff n : low_surrogate n = true <-> (0xDC00 <= n < 0xE000)%N.
Proof. unfold low_surrogate. rewrite andb_true_iff, !N.leb_le. lia. Qed.
Lemma high_iff n : high_surrogate n = true <-> (0xD800 <= n < 0xDC00)%N.
Proof. unfold high_surrogate. rewrite andb_true_iff, !N.leb_le. lia. Qed.

Lemma str_body_sound : forall n l s r, (length l <= n)%nat -> str_body l = Some (s, r) ->
  exists t, l = t ++ x22 :: r /\ string_chars t s.
Proof.
  induction n as [|n IH]; intros l s r Hn; destruct l as [|b l]; cbn [length] in Hn; try lia; try discriminate.
  cbn [str_body].
  destruct (byte_eqb b """") eqn:Eq. { intros H. injection H as <- <-. apply byte_eqb_eq in Eq as ->. exists []. split; [reflexivity|constructor]. }
  destruct (byte_eqb b "\") eqn:Eb.
  - apply byte_eqb_eq in Eb as ->. destruct l as [|e l]; [discriminate|]. cbn [length] in Hn.
    destruct (simple_escape e) as [c|] eqn:Ee.
    { intros H. apply push_iff in H as (s' & H & ->). apply IH in H as (t & -> & Ht); [|lia].
      exists ("\" :: e :: t). split; [reflexivity|]. apply chars_escape; [now apply simple_escape_iff|exact Ht]. }
    destruct (byte_eqb e "u") eqn:Eu; [|discriminate]. apply byte_eqb_eq in Eu as ->. cbn [negb].
    destruct l as [|h1 [|h2 [|h3 [|h4 l]]]]; try discriminate. cbn [length] in Hn.
    destruct (hex4 h1 h2 h3 h4) as [m|] eqn:Eh; [|discriminate]. apply hex4_iff in Eh.
    destruct (low_surrogate m) eqn:El; [discriminate|].
    destruct (high_surrogate m) eqn:Em.
    + destruct l as [|e1 [|e2 [|g1 [|g2 [|g3 [|g4 l]]]]]]; try discriminate. cbn [length] in Hn.
      destruct (byte_eqb e1 "\") eqn:E1; [|discriminate]. destruct (byte_eqb e2 "u") eqn:E2; [|discriminate].
      apply byte_eqb_eq in E1 as ->, E2 as ->. cbn [andb].
      destruct (hex4 g1 g2 g3 g4) as [k|] eqn:Eg; [|discriminate]. apply hex4_iff in Eg.
      destruct (low_surrogate k) eqn:Ek; [|discriminate].
      intros H. apply push_iff in H as (s' & H & ->). apply IH in H as (t & -> & Ht); [|lia].
      apply low_iff in Ek. apply high_iff in Em.
      exists ("\" :: "u" :: [h1; h2; h3; h4] ++ "\" :: "u" :: [g1; g2; g3; g4] ++ t). split; [reflexivity|].
      apply (chars_pair m k [h1; h2; h3; h4] [g1; g2; g3; g4]); auto.
      apply rep_iff. rewrite is_scalar_spec. split; [lia|]. f_equal. lia.
    + intros H. apply push_iff in H as (s' & H & ->). apply IH in H as (t & -> & Ht); [|lia].
      exists ("\" :: "u" :: [h1; h2; h3; h4] ++ t). split; [reflexivity|].
      apply (chars_unit m [h1; h2; h3; h4]); auto. pose proof (code_unit_bound _ _ Eh).
      apply rep_iff. split; [|reflexivity]. rewrite is_scalar_spec.
      assert (~ (0xDC00 <= m < 0xE000)%N) by (rewrite <- low_iff; congruence).
      assert (~ (0xD800 <= m < 0xDC00)%N) by (rewrite <- high_iff; congruence). lia.
  - destruct (N.ltb (b2n b) 32) eqn:E32; [discriminate|].
    intros H. apply push_iff in H as (s' & H & ->). apply IH in H as (t & -> & Ht); [|lia].
    exists (b :: t). split; [reflexivity|]. apply chars_plain; [now apply plain_iff|exact Ht].
Qed.

Lemma str_body_complete t s r : string_chars t s -> str_body (t ++ x22 :: r) = Some (s, r).
Proof.
  induction 1 as [|b t s Hb _ IH|e c t s He _ IH|n u rep t s Hu Hr _ IH|h l u u' rep t s Hu Hu' Hh Hl Hr _ IH].
  - reflexivity.
  - apply plain_iff in Hb as (H1 & H2 & H3). cbn [app str_body]. rewrite H1, H2, H3, IH. reflexivity.
  - apply simple_escape_iff in He. cbn [app str_body]. change (byte_eqb x5c """") with false. change (byte_eqb x5c "\") with true.
    cbv iota. rewrite He, IH. reflexivity.
  - pose proof (code_unit_bound _ _ Hu) as Hb. apply code_unit_cons in Hu as (h1 & h2 & h3 & h4 & -> & Hu).
    change ((blit _ ++ [h1; h2; h3; h4] ++ t) ++ x22 :: r) with ("\" :: "u" :: h1 :: h2 :: h3 :: h4 :: t ++ x22 :: r).
    cbn [str_body]. change (byte_eqb "\" """") with false. change (byte_eqb "\" "\") with true.
    change (simple_escape "u") with (@None byte). change (byte_eqb "u" "u") with true. cbv iota. cbn [negb]. rewrite Hu.
    apply rep_iff in Hr as [Hs ->]. rewrite is_scalar_spec in Hs.
    destruct (low_surrogate n) eqn:El; [apply low_iff in El; lia|]. destruct (high_surrogate n) eqn:Em; [apply high_iff in Em; lia|].
    rewrite IH. reflexivity.
  - apply code_unit_cons in Hu as (h1 & h2 & h3 & h4 & -> & Hu). apply code_unit_cons in Hu' as (g1 & g2 & g3 & g4 & -> & Hu').
    change ((blit _ ++ [h1; h2; h3; h4] ++ blit _ ++ [g1; g2; g3; g4] ++ t) ++ x22 :: r)
      with ("\" :: "u" :: h1 :: h2 :: h3 :: h4 :: "\" :: "u" :: g1 :: g2 :: g3 :: g4 :: t ++ x22 :: r).
    cbn [str_body]. change (byte_eqb "\" """") with false. change (byte_eqb "\" "\") with true.
    change (simple_escape "u") with (@None byte). change (byte_eqb "u" "u") with true. cbv iota. cbn [negb andb]. rewrite Hu, Hu'.
    apply rep_iff in Hr as [Hs ->].
    destruct (low_surrogate h) eqn:El; [apply low_iff in El; lia|].
    rewrite (proj2 (high_iff h)) by lia. rewrite (proj2 (low_iff l)) by lia. rewrite IH.
    replace ((h - 0xD800) * 1024 + (l - 0xDC00) + 0x10000)%N with (0x10000 + (h - 0xD800) * 0x400 + (l - 0xDC00))%N by lia. reflexivity.
Qed.

Lemma of_utf8_text bs s : of_utf8 bs = Some s <-> utf8_text s bs.
Proof. apply utf8_exact. Qed.

Lemma parse_str_sound l s r : parse_str l = Ok (s, r) -> exists w v, ws w /\ l = w ++ v ++ r /\ string_text s v.
Proof.
  unfold parse_str. destruct (expect """" l) as [[x l1]| | |] eqn:E; try discriminate. cbn [bind].
  apply expect_sound in E as (w & Hw & ->). destruct (str_body l1) as [[bs r1]|] eqn:Eb; [|discriminate].
  destruct (of_utf8 bs) as [t|] eqn:Eu; [|discriminate]. intros H. injection H as <- <-.
  apply (str_body_sound (length l1)) in Eb as (t' & -> & Ht); [|lia]. apply of_utf8_text in Eu.
  exists w, (x22 :: t' ++ [x22]). split; [exact Hw|]. split.
  - cbn [app]. rewrite <- app_assoc. reflexivity.
  - exists t', bs. auto.
Qed.
Lemma parse_str_complete w v r s : ws w -> string_text s v -> parse_str (w ++ v ++ r) = Ok (s, r).
Proof.
  intros Hw (body & bs & -> & Hc & Hu). unfold parse_str. cbn [app]. rewrite <- app_assoc. cbn [app].
  change x22 with """" at 1. rewrite expect_complete by auto. cbn [bind].
  rewrite (str_body_complete _ _ _ Hc). apply of_utf8_text in Hu. now rewrite Hu.
Qed.
Lemma string_starts s v : string_text s v -> starts v.
Proof. intros (body & bs & -> & _). exists x22, (body ++ [x22]). repeat split. Qed.
Lemma reads_str : reads parse_str string_text.
Proof.
  split; [exact parse_str_sound|]. split; [|exact string_starts].
  intros w v r a Hw Hv _. now apply parse_str_complete.
Qed.

(** ** Numbers *)
Lemma is_digit_iff b : is_digit b = true <-> digit b.
Proof. unfold is_digit, digit. rewrite andb_true_iff, !N.leb_le. reflexivity. Qed.
Lemma digit_byte b : digit b -> exists d, (d < 10)%N /\ b = n2b (48 + d).
Proof.
  unfold digit. intros H. exists (b2n b - 48)%N. split; [lia|]. replace (48 + (b2n b - 48))%N with (b2n b) by lia.
  symmetry. apply n2b_b2n.
Qed.
Lemma digits_sound l : forall acc n r, digits acc l = (n, r) -> exists ds, Forall (fun d => (d < 10)%N) ds /\
  l = List.map n2b (List.map (N.add 48) ds) ++ r /\ n = horner acc ds /\ match r with b :: _ => is_digit b = false | [] => True end.
Proof.
  induction l as [|b l IH]; intros acc n r; cbn [digits].
  { intros H. injection H as <- <-. exists []. repeat split; constructor. }
  destruct (is_digit b) eqn:Eb.
  - intros H. apply IH in H as (ds & F & -> & -> & Hr). apply is_digit_iff in Eb. destruct (digit_byte b Eb) as (d & Hd & ->).
    exists (d :: ds). split; [now constructor|]. split; [reflexivity|]. split; [|exact Hr]. cbn [horner]. f_equal.
    rewrite b2n_n2b_small by lia. lia.
  - intros H. injection H as <- <-. exists []. repeat split; [constructor|exact Eb].
Qed.
Lemma digit_map ds : Forall (fun d => (d < 10)%N) ds -> digit_str (List.map (N.add 48) ds).
Proof. induction 1; cbn [List.map]; constructor; [lia|assumption]. Qed.

Lemma integer_sound l n r : integer l = Ok (n, r) -> exists s, numeral n s /\ l = List.map n2b s ++ r.
Proof.
  unfold integer. destruct l as [|b l]; [discriminate|]. destruct (byte_eqb b "0") eqn:E0.
  - apply byte_eqb_eq in E0 as ->. intros H. exists (List.map (N.add 48) [0%N]). split.
    + assert (n = 0%N) as ->. { destruct l; [congruence|]. destruct (_ || _); [discriminate|congruence]. }
      exists [0%N]. split; [reflexivity|]. split; [repeat constructor|]. split; [reflexivity|]. now left.
    + assert (r = l) as -> by (destruct l; [congruence|destruct (_ || _); [discriminate|congruence]]). reflexivity.
  - destruct (is_digit b) eqn:Ed; [|discriminate]. destruct (digits 0 (b :: l)) as [m r'] eqn:E.
    destruct (no_float r'); [|discriminate]. intros H. injection H as <- <-.
    apply digits_sound in E as (ds & F & El & -> & Hr).
    exists (List.map (N.add 48) ds). split; [|exact El]. exists ds. split; [reflexivity|]. split; [exact F|]. split; [reflexivity|].
    right. destruct ds as [|d ds].
    + cbn in El. subst r'. congruence.
    + exists d, ds. split; [reflexivity|]. intros ->. injection El as -> _. discriminate.
Qed.
Lemma integer_complete n s r : numeral n s -> after_num r -> integer (List.map n2b s ++ r) = Ok (n, r).
Proof.
  intros (ds & -> & F & Hv & Hd) Hr. destruct Hd as [->|(d & ds' & -> & Hn)].
  - cbn in Hv. subst n. change (List.map n2b (List.map (N.add 48) [0%N])) with ["0"]. cbn [app integer].
    change (byte_eqb "0" "0") with true. cbv iota. destruct Hr as [H1 H2]. destruct r as [|b r]; [reflexivity|].
    rewrite H2, H1. reflexivity.
  - pose proof (digits_map _ (digit_map _ F) 0 r) as Hm. rewrite fold_horner, Hv, (digits_stop n r Hr) in Hm.
    inversion_clear F as [|? ? Hd _].
    cbn [List.map app] in *. unfold integer. rewrite n2b_neq; [|lia|change (b2n "0") with 48%N; lia]. rewrite is_digit_n2b by lia.
    rewrite Hm, (proj1 Hr). reflexivity.
Qed.
Lemma numeral_digits n s : numeral n s -> digit_str s.
Proof. intros (ds & -> & F & _). now apply digit_map. Qed.
Lemma numeral_bytes n s t : numeral n s -> (utf8_text s t <-> t = List.map n2b s).
Proof.
  intros H. apply numeral_digits in H. rewrite utf8_text_iff, (utf8_digits s H).
  split; [intros [_ E]; exact E|]. intros E. split; [|exact E].
  eapply Forall_impl; [|exact H]. intros c Hc. apply is_scalar_spec. cbv beta in Hc. lia.
Qed.

(** ** Lists *)
Ltac assoc := cbn [app]; repeat (rewrite <- !app_assoc; cbn [app]).
Lemma ws_app a b : ws a -> ws b -> ws (a ++ b).
Proof. intros Ha Hb. apply Forall_app. auto. Qed.
Lemma seq_next_sound first l more l' : seq_next first l = Ok (more, l') ->
  (more = false /\ (exists r, l' = "]" :: r) /\ exists w, ws w /\ l = w ++ l') \/
  (more = true /\ if first then exists w, ws w /\ l = w ++ l' else exists w w', ws w /\ ws w' /\ l = w ++ "," :: w' ++ l').
Proof.
  unfold seq_next. destruct (skip_ws l) as [|b r] eqn:E; [discriminate|]. apply skip_ws_head in E as (w & Hw & ->).
  destruct (byte_eqb b "]") eqn:Eb.
  { intros H. injection H as <- <-. apply byte_eqb_eq in Eb as ->. left. split; [reflexivity|]. split; eauto. }
  destruct (byte_eqb b "," && negb first) eqn:Ec.
  - apply andb_true_iff in Ec as [Ec Ef]. apply byte_eqb_eq in Ec as ->. destruct first; [discriminate|].
    destruct (skip_ws r) as [|b' r'] eqn:E; [discriminate|]. apply skip_ws_head in E as (w' & Hw' & ->).
    destruct (byte_eqb b' "]"); [discriminate|]. intros H. injection H as <- <-. right. split; [reflexivity|]. eauto.
  - destruct first; [|discriminate]. intros H. injection H as <- <-. right. split; [reflexivity|]. eauto.
Qed.
Lemma seq_next_more_first w v r : ws w -> starts v -> seq_next true (w ++ v ++ r) = Ok (true, v ++ r).
Proof.
  intros Hw (b & l & -> & H1 & H2 & _). unfold seq_next. rewrite skip_ws_app by exact Hw. cbn [app]. rewrite skip_ws_hit by exact H1.
  rewrite H2. cbn [negb]. rewrite andb_false_r. reflexivity.
Qed.
Lemma seq_next_more w w' v r : ws w -> ws w' -> starts v ->
  seq_next false (w ++ "," :: w' ++ v ++ r) = Ok (true, v ++ r).
Proof.
  intros Hw Hw' (b & l & -> & H1 & H2 & _). unfold seq_next. rewrite skip_ws_app by exact Hw. rewrite skip_ws_hit by reflexivity.
  change (byte_eqb "," "]") with false. change (byte_eqb "," "," && negb false)%bool with true. cbv iota.
  rewrite skip_ws_app by exact Hw'. cbn [app]. rewrite skip_ws_hit by exact H1. rewrite H2. reflexivity.
Qed.
Lemma seq_next_done first w r : ws w -> seq_next first (w ++ "]" :: r) = Ok (false, "]" :: r).
Proof. intros Hw. unfold seq_next. rewrite skip_ws_app by exact Hw. reflexivity. Qed.

Definition body_of (first : bool) (vs : list bytes) (body : bytes) : Prop :=
  if first then elements vs body else more_elements vs body.
Lemma body_cons first w w' v vs body : ws w -> ws w' -> more_elements vs body ->
  body_of first (v :: vs) (if first then w ++ v ++ body else w ++ "," :: w' ++ v ++ body).
Proof. intros Hw Hw' H. destruct first; [exists w, body|exists w, w', body]; auto. Qed.
Lemma body_cons_inv first v vs body : body_of first (v :: vs) body ->
  exists w w' t, ws w /\ ws w' /\ body = (if first then w ++ v ++ t else w ++ "," :: w' ++ v ++ t) /\ more_elements vs t.
Proof.
  destruct first; cbn [body_of elements more_elements].
  - intros (w & t & Hw & -> & H). exists w, [], t. repeat split; [exact Hw|apply ws_nil|exact H].
  - intros (w & w' & t & Hw & Hw' & -> & H). exists w, w', t. auto.
Qed.
Lemma body_nil first body : body_of first [] body <-> ws body.
Proof. destruct first; reflexivity. Qed.
Lemma more_stop c vs t r : In c ["]"; "}"] -> more_elements vs t -> stop (t ++ c :: r).
Proof.
  intros Hc. destruct vs as [|v vs]; cbn [more_elements].
  - intros Hw. apply stop_ws; [exact Hw|]. cbn in *. tauto.
  - intros (w & w' & t' & Hw & _ & -> & _). rewrite <- app_assoc. apply stop_ws; [exact Hw|]. cbn. tauto.
Qed.
Lemma starts_app v r : starts v -> starts (v ++ r).
Proof. intros (b & l & -> & H). exists b, (l ++ r). auto. Qed.

Section Vec.
Variables (A : Type) (p : parser A) (Q : A -> bytes -> Prop).
Hypothesis Hp : reads p Q.

Lemma seq_loop_sound : forall fuel first l al r, seq_loop fuel p first l = Ok (al, r) ->
  (exists r', r = "]" :: r') /\ exists vs body, l = body ++ r /\ Forall2 Q al vs /\ body_of first vs body.
Proof.
  destruct Hp as (Hs & _ & _).
  induction fuel as [|fuel IH]; intros first l al r; cbn [seq_loop]; [discriminate|].
  destruct (seq_next first l) as [[more l1]| | |] eqn:E; try discriminate. cbn [bind].
  apply seq_next_sound in E as [(-> & Hr & w & Hw & ->)|(-> & E)].
  - intros H. injection H as <- <-. split; [exact Hr|]. exists [], w. repeat split; [constructor|]. now apply body_nil.
  - destruct (p l1) as [[a l2]| | |] eqn:Ep; try discriminate. cbn [bind].
    destruct (seq_loop fuel p false l2) as [[al' r']| | |] eqn:El; try discriminate. cbn [bind].
    intros H. injection H as <- <-. apply IH in El as (Hr & vs & body & -> & F & Hb). split; [exact Hr|].
    apply Hs in Ep as (w1 & v & Hw1 & -> & Hq).
    exists (v :: vs). destruct first.
    + destruct E as (w & Hw & ->). exists ((w ++ w1) ++ v ++ body). split; [now rewrite !app_assoc|]. split; [now constructor|].
      apply (body_cons true (w ++ w1) [] v vs body); [now apply ws_app|apply ws_nil|exact Hb].
    + destruct E as (w & w' & Hw & Hw' & ->). exists (w ++ "," :: (w' ++ w1) ++ v ++ body).
      split; [rewrite <- !app_assoc; cbn [app]; rewrite <- !app_assoc; reflexivity|]. split; [now constructor|].
      apply (body_cons false w (w' ++ w1) v vs body); [exact Hw|now apply ws_app|exact Hb].
Qed.
Lemma seq_loop_complete : forall al vs, Forall2 Q al vs -> forall fuel first body r, body_of first vs body -> (length body < fuel)%nat ->
  seq_loop fuel p first (body ++ "]" :: r) = Ok (al, "]" :: r).
Proof.
  destruct Hp as (_ & Hc & Hst).
  induction 1 as [|a v al vs Hq _ IH]; intros fuel first body r Hb Hf; (destruct fuel as [|fuel]; [lia|]); cbn [seq_loop].
  - apply body_nil in Hb. rewrite seq_next_done by exact Hb. reflexivity.
  - pose proof (Hst _ _ Hq) as Hv. apply body_cons_inv in Hb as (w & w' & t & Hw & Hw' & -> & Ht).
    assert (seq_next first ((if first then w ++ v ++ t else w ++ "," :: w' ++ v ++ t) ++ "]" :: r) = Ok (true, v ++ t ++ "]" :: r)) as ->.
    { destruct first; rewrite <- ?app_assoc; cbn [app]; rewrite <- ?app_assoc; [now apply seq_next_more_first|now apply seq_next_more]. }
    cbn [bind]. pose proof (Hc [] v (t ++ "]" :: r) a ws_nil Hq) as Hd. cbn [app] in Hd.
    rewrite Hd by (eapply more_stop; [cbn; tauto|exact Ht]). cbn [bind].
    rewrite (IH fuel false t r Ht); [reflexivity|]. destruct Hv as (b & l & -> & _).
    destruct first; rewrite ?app_length in Hf; cbn [length app] in Hf; rewrite ?app_length in Hf; cbn [length] in Hf; rewrite ?app_length in Hf; lia.
Qed.
Lemma array_starts vs t : array_text vs t -> starts t.
Proof. intros (body & _ & ->). exists "[", (body ++ ["]"]). repeat split. Qed.
Lemma reads_vec : reads (parse_vec p) (fun al t => exists vs, array_text vs t /\ Forall2 Q al vs).
Proof.
  split; [|split].
  - intros l al r. unfold parse_vec. destruct (expect "[" l) as [[x l1]| | |] eqn:E; try discriminate. cbn [bind].
    apply expect_sound in E as (w & Hw & ->).
    destruct (seq_loop (S (length l1)) p true l1) as [[al' l2]| | |] eqn:El; try discriminate. cbn [bind].
    apply seq_loop_sound in El as ((r' & ->) & vs & body & -> & F & Hb).
    rewrite expect_hit by reflexivity. cbn [bind]. intros H. injection H as <- <-.
    exists w, ("[" :: body ++ ["]"]). split; [exact Hw|]. split; [cbn [app]; rewrite <- app_assoc; reflexivity|].
    exists vs. split; [|exact F]. exists body. auto.
  - intros w t r al Hw (vs & (body & Hb & ->) & F) _. unfold parse_vec.
    change (w ++ (blit _ ++ body ++ blit _) ++ r) with (w ++ "[" :: (body ++ ["]"]) ++ r).
    rewrite <- app_assoc. rewrite expect_complete by auto. cbn [bind app].
    rewrite (seq_loop_complete _ _ F (S (length (body ++ "]" :: r))) true body r Hb) by (rewrite app_length; lia). cbn [bind].
    rewrite expect_hit by reflexivity. reflexivity.
  - intros al t (vs & H & _). now apply array_starts in H.
Qed.

Lemma seq_elem_sound first l a r : seq_elem first p l = Ok (a, r) ->
  exists w w' v, ws w /\ ws w' /\ Q a v /\ l = if first then w ++ v ++ r else w ++ "," :: w' ++ v ++ r.
Proof.
  destruct Hp as (Hs & _ & _). unfold seq_elem. destruct (seq_next first l) as [[more l1]| | |] eqn:E; try discriminate. cbn [bind].
  apply seq_next_sound in E as [(-> & _)|(-> & E)]; [discriminate|]. intros H. apply Hs in H as (w1 & v & Hw1 & -> & Hq).
  destruct first.
  - destruct E as (w & Hw & ->). exists (w ++ w1), [], v. split; [now apply ws_app|]. split; [apply ws_nil|]. split; [exact Hq|].
    now rewrite !app_assoc.
  - destruct E as (w & w' & Hw & Hw' & ->). exists w, (w' ++ w1), v. split; [exact Hw|]. split; [now apply ws_app|]. split; [exact Hq|].
    now rewrite <- !app_assoc.
Qed.
Lemma seq_elem_complete first w w' v a r : ws w -> ws w' -> Q a v -> stop r ->
  seq_elem first p (if first then w ++ v ++ r else w ++ "," :: w' ++ v ++ r) = Ok (a, r).
Proof.
  destruct Hp as (_ & Hc & Hst). intros Hw Hw' Hq Hr. unfold seq_elem. pose proof (Hst _ _ Hq) as Hv.
  assert (seq_next first (if first then w ++ v ++ r else w ++ "," :: w' ++ v ++ r) = Ok (true, v ++ r)) as ->.
  { destruct first; [now apply seq_next_more_first|now apply seq_next_more]. }
  cbn [bind]. exact (Hc [] v r a ws_nil Hq Hr).
Qed.
End Vec.

(** ** Objects *)
Lemma map_next_sound first l more l' : map_next first l = Ok (more, l') ->
  (more = false /\ (exists r, l' = "}" :: r) /\ exists w, ws w /\ l = w ++ l') \/
  (more = true /\ (exists r, l' = """" :: r) /\
   if first then exists w, ws w /\ l = w ++ l' else exists w w', ws w /\ ws w' /\ l = w ++ "," :: w' ++ l').
Proof.
  unfold map_next. destruct (skip_ws l) as [|b r] eqn:E; [discriminate|]. apply skip_ws_head in E as (w & Hw & ->).
  destruct (byte_eqb b "}") eqn:Eb.
  { intros H. injection H as <- <-. apply byte_eqb_eq in Eb as ->. left. split; [reflexivity|]. split; eauto. }
  destruct (byte_eqb b "," && negb first) eqn:Ec.
  - apply andb_true_iff in Ec as [Ec Ef]. apply byte_eqb_eq in Ec as ->. destruct first; [discriminate|].
    destruct (skip_ws r) as [|b' r'] eqn:E; [discriminate|]. apply skip_ws_head in E as (w' & Hw' & ->).
    destruct (byte_eqb b' """") eqn:Eq; [|discriminate]. intros H. injection H as <- <-. apply byte_eqb_eq in Eq as ->.
    right. split; [reflexivity|]. split; eauto.
  - destruct first; [|discriminate]. destruct (byte_eqb b """") eqn:Eq; [|discriminate]. intros H. injection H as <- <-.
    apply byte_eqb_eq in Eq as ->. right. split; [reflexivity|]. split; eauto.
Qed.
Lemma map_next_more_first w r : ws w -> map_next true (w ++ """" :: r) = Ok (true, """" :: r).
Proof. intros Hw. unfold map_next. rewrite skip_ws_app by exact Hw. reflexivity. Qed.
Lemma map_next_more w w' r : ws w -> ws w' -> map_next false (w ++ "," :: w' ++ """" :: r) = Ok (true, """" :: r).
Proof.
  intros Hw Hw'. unfold map_next. rewrite skip_ws_app by exact Hw. rewrite skip_ws_hit by reflexivity.
  change (byte_eqb "," "}") with false. change (byte_eqb "," "," && negb false)%bool with true. cbv iota.
  rewrite skip_ws_app by exact Hw'. reflexivity.
Qed.
Lemma map_next_done first w r : ws w -> map_next first (w ++ "}" :: r) = Ok (false, "}" :: r).
Proof. intros Hw. unfold map_next. rewrite skip_ws_app by exact Hw. reflexivity. Qed.

Lemma object_starts ms t : object_text ms t -> starts t.
Proof. intros (ts & body & _ & _ & ->). exists "{", (body ++ ["}"]). repeat split. Qed.
Lemma member_quote m t : member_text m t -> exists r, t = """" :: r.
Proof. intros (q & w & w' & (body & bs & -> & _) & _ & _ & ->). eexists. reflexivity. Qed.

Section Struct.
Variables (S A : Type) (field : S -> str -> parser S) (step : S -> str * bytes -> S -> Prop).
Hypothesis field_sound : forall s k l s' r, field s k l = Ok (s', r) -> exists w v, ws w /\ l = w ++ v ++ r /\ step s (k, v) s'.
Hypothesis field_complete : forall s k w v r s', ws w -> step s (k, v) s' -> stop r -> field s k (w ++ v ++ r) = Ok (s', r).

Inductive steps : S -> list (str * bytes) -> S -> Prop :=
| steps_nil s : steps s [] s
| steps_cons s m s1 ms s2 : step s m s1 -> steps s1 ms s2 -> steps s (m :: ms) s2.

Lemma map_loop_sound : forall fuel first s l s' r, map_loop fuel field first s l = Ok (s', r) ->
  (exists r', r = "}" :: r') /\
  exists ms ts body, l = body ++ r /\ Forall2 member_text ms ts /\ body_of first ts body /\ steps s ms s'.
Proof.
  induction fuel as [|fuel IH]; intros first s l s' r; cbn [map_loop]; [discriminate|].
  destruct (map_next first l) as [[more l1]| | |] eqn:E; try discriminate. cbn [bind].
  apply map_next_sound in E as [(-> & Hr & w & Hw & ->)|(-> & _ & E)].
  - intros H. injection H as <- <-. split; [exact Hr|]. exists [], [], w. repeat split; [constructor| |constructor]. now apply body_nil.
  - destruct (parse_str l1) as [[k l2]| | |] eqn:Ek; try discriminate. cbn [bind].
    destruct (expect ":" l2) as [[x l3]| | |] eqn:Ec; try discriminate. cbn [bind].
    destruct (field s k l3) as [[s1 l4]| | |] eqn:Ef; try discriminate. cbn [bind]. intros H.
    apply IH in H as (Hr & ms & ts & body & -> & F & Hb & Hst). split; [exact Hr|].
    apply parse_str_sound in Ek as (w1 & q & Hw1 & -> & Hq). apply expect_sound in Ec as (w2 & Hw2 & ->).
    apply field_sound in Ef as (w3 & v & Hw3 & -> & Hs).
    set (mt := q ++ w2 ++ [":"] ++ w3 ++ v).
    assert (member_text (k, v) mt) as Hm by (exists q, w2, w3; auto).
    exists ((k, v) :: ms), (mt :: ts). destruct first.
    + destruct E as (w & Hw & ->). exists ((w ++ w1) ++ mt ++ body).
      split; [unfold mt; rewrite <- !app_assoc; reflexivity|]. split; [now constructor|]. split; [|econstructor; eassumption].
      apply (body_cons true (w ++ w1) [] mt ts body); [now apply ws_app|apply ws_nil|exact Hb].
    + destruct E as (w & w' & Hw & Hw' & ->). exists (w ++ "," :: (w' ++ w1) ++ mt ++ body).
      split; [unfold mt; assoc; reflexivity|].
      split; [now constructor|]. split; [|econstructor; eassumption].
      apply (body_cons false w (w' ++ w1) mt ts body); [exact Hw|now apply ws_app|exact Hb].
Qed.
Lemma map_loop_complete : forall ms ts, Forall2 member_text ms ts -> forall fuel first s s' body r, body_of first ts body ->
  steps s ms s' -> (length body < fuel)%nat -> map_loop fuel field first s (body ++ "}" :: r) = Ok (s', "}" :: r).
Proof.
  induction 1 as [|m mt ms ts Hm _ IH]; intros fuel first s s' body r Hb Hs Hf; (destruct fuel as [|fuel]; [lia|]); cbn [map_loop].
  - apply body_nil in Hb. rewrite map_next_done by exact Hb. inversion Hs; subst. reflexivity.
  - inversion Hs as [|? ? s1 ? ? H1 H2]; subst. destruct m as [k v].
    apply body_cons_inv in Hb as (w & w' & t & Hw & Hw' & -> & Ht).
    destruct (member_quote _ _ Hm) as (q0 & Eq).
    assert (map_next first ((if first then w ++ mt ++ t else w ++ "," :: w' ++ mt ++ t) ++ "}" :: r) = Ok (true, mt ++ t ++ "}" :: r)) as ->.
    { rewrite Eq. destruct first; assoc;
        [now apply map_next_more_first|now apply (map_next_more w w')]. }
    cbn [bind]. assert (length t < fuel)%nat as Hl.
    { rewrite Eq in Hf. clear -Hf.
      destruct first; rewrite ?app_length in Hf; cbn [length app] in Hf; rewrite ?app_length in Hf; cbn [length] in Hf; rewrite ?app_length in Hf; lia. }
    destruct Hm as (q & w1 & w2 & Hq & Hw1 & Hw2 & ->). cbn [fst snd] in *.
    rewrite <- !app_assoc.
    change (blit _ ++ w2 ++ v ++ t ++ "}" :: r) with (":" :: w2 ++ v ++ t ++ "}" :: r).
    pose proof (parse_str_complete [] q (w1 ++ ":" :: w2 ++ v ++ t ++ "}" :: r) k ws_nil Hq) as Hk. cbn [app] in Hk.
    rewrite Hk. cbn [bind]. rewrite expect_complete by auto. cbn [bind].
    rewrite (field_complete s k w2 v (t ++ "}" :: r) s1 Hw2 H1) by (eapply more_stop; [cbn; tauto|exact Ht]). cbn [bind].
    exact (IH fuel false s1 s' t r Ht H2 Hl).
Qed.

Variables (init : S) (finish : S -> res data_error A) (positional : parser A) (R : A -> list bytes -> Prop).
Hypothesis pos_sound : forall l a w r, ws w -> positional l = Ok (a, w ++ "]" :: r) ->
  exists vs body, l = body ++ "]" :: r /\ elements vs body /\ R a vs.
Hypothesis pos_complete : forall vs body a r, elements vs body -> R a vs ->
  exists w, ws w /\ positional (body ++ "]" :: r) = Ok (a, w ++ "]" :: r).

Lemma reads_struct : reads (parse_struct field init finish positional) (fun a t =>
  (exists ms s, object_text ms t /\ steps init ms s /\ finish s = Ok a) \/
  (exists vs, array_text vs t /\ R a vs)).
Proof.
  split; [|split].
  - intros l a r. unfold parse_struct. destruct (skip_ws l) as [|b l1] eqn:E; [discriminate|].
    apply skip_ws_head in E as (w & Hw & ->). destruct (byte_eqb b "{") eqn:Eb.
    + apply byte_eqb_eq in Eb as ->. destruct (map_loop _ field true init l1) as [[s l2]| | |] eqn:El; try discriminate. cbn [bind].
      destruct (finish s) as [a'| | |] eqn:Ef; try discriminate. cbn [bind].
      apply map_loop_sound in El as ((r' & ->) & ms & ts & body & -> & F & Hb & Hs).
      rewrite expect_hit by reflexivity. cbn [bind]. intros H. injection H as <- <-.
      exists w, ("{" :: body ++ ["}"]). split; [exact Hw|]. split; [cbn [app]; rewrite <- app_assoc; reflexivity|].
      left. exists ms, s. split; [|auto]. exists ts, body. auto.
    + destruct (byte_eqb b "[") eqn:Ec; [|discriminate]. apply byte_eqb_eq in Ec as ->.
      destruct (positional l1) as [[a' l2]| | |] eqn:Ep; try discriminate. cbn [bind].
      destruct (expect "]" l2) as [[x l3]| | |] eqn:Ex; try discriminate. cbn [bind]. intros H. injection H as <- <-.
      apply expect_sound in Ex as (w' & Hw' & ->). apply pos_sound in Ep as (vs & body & -> & He & HR); [|exact Hw'].
      exists w, ("[" :: body ++ ["]"]). split; [exact Hw|]. split; [cbn [app]; rewrite <- app_assoc; reflexivity|].
      right. exists vs. split; [|exact HR]. exists body. auto.
  - intros w t r a Hw H _. unfold parse_struct. rewrite skip_ws_app by exact Hw.
    destruct H as [(ms & s & (ts & body & F & He & ->) & Hs & Hf)|(vs & (body & He & ->) & HR)].
    + change ((blit _ ++ body ++ blit _) ++ r) with ("{" :: (body ++ ["}"]) ++ r). rewrite skip_ws_hit by reflexivity.
      change (byte_eqb "{" "{") with true. cbv iota. rewrite <- app_assoc. cbn [app].
      rewrite (map_loop_complete ms ts F (Datatypes.S (length (body ++ "}" :: r))) true init s body r He Hs) by (rewrite app_length; lia).
      cbn [bind]. rewrite Hf. cbn [bind]. rewrite expect_hit by reflexivity. reflexivity.
    + change ((blit _ ++ body ++ blit _) ++ r) with ("[" :: (body ++ ["]"]) ++ r). rewrite skip_ws_hit by reflexivity.
      change (byte_eqb "[" "{") with false. change (byte_eqb "[" "[") with true. cbv iota. rewrite <- app_assoc. cbn [app].
      destruct (pos_complete vs body a r He HR) as (w' & Hw' & ->). cbn [bind]. rewrite expect_complete by auto. reflexivity.
  - intros a t [(ms & s & H & _)|(vs & H & _)]; [now apply object_starts in H|now apply array_starts in H].
Qed.
End Struct.

(** ** Skipped values *)
Lemma ign_str_sound : forall n l r, (length l <= n)%nat -> ign_str l = Some r -> exists t, l = t ++ x22 :: r /\ loose_chars t.
Proof.
  induction n as [|n IH]; intros l r Hn; destruct l as [|b l]; cbn [length] in Hn; try lia; try discriminate.
  cbn [ign_str].
  destruct (byte_eqb b """") eqn:Eq. { intros H. injection H as <-. apply byte_eqb_eq in Eq as ->. exists []. split; [reflexivity|constructor]. }
  destruct (byte_eqb b "\") eqn:Eb.
  - apply byte_eqb_eq in Eb as ->. destruct l as [|e l]; [discriminate|]. cbn [length] in Hn.
    destruct (simple_escape e) as [c|] eqn:Ee.
    { intros H. apply IH in H as (t & -> & Ht); [|lia].
      exists ("\" :: e :: t). split; [reflexivity|]. apply (loose_escape e c); [now apply simple_escape_iff|exact Ht]. }
    destruct (byte_eqb e "u") eqn:Eu; [|discriminate]. apply byte_eqb_eq in Eu as ->. cbn [negb].
    destruct l as [|h1 [|h2 [|h3 [|h4 l]]]]; try discriminate. cbn [length] in Hn.
    destruct (hex4 h1 h2 h3 h4) as [m|] eqn:Eh; [|discriminate]. apply hex4_iff in Eh.
    intros H. apply IH in H as (t & -> & Ht); [|lia].
    exists ("\" :: "u" :: [h1; h2; h3; h4] ++ t). split; [reflexivity|]. apply (loose_unit m [h1; h2; h3; h4]); auto.
  - destruct (N.ltb (b2n b) 32) eqn:E32; [discriminate|].
    intros H. apply IH in H as (t & -> & Ht); [|lia].
    exists (b :: t). split; [reflexivity|]. apply loose_plain; [now apply plain_iff|exact Ht].
Qed.
Lemma ign_str_complete t r : loose_chars t -> ign_str (t ++ x22 :: r) = Some r.
Proof.
  induction 1 as [|b t Hb _ IH|e c t He _ IH|n u t Hu _ IH].
  - reflexivity.
  - apply plain_iff in Hb as (H1 & H2 & H3). cbn [app ign_str]. rewrite H1, H2, H3. exact IH.
  - apply simple_escape_iff in He. cbn [app ign_str]. change (byte_eqb x5c """") with false. change (byte_eqb x5c "\") with true.
    cbv iota. rewrite He. exact IH.
  - apply code_unit_cons in Hu as (h1 & h2 & h3 & h4 & -> & Hu).
    change ((blit _ ++ [h1; h2; h3; h4] ++ t) ++ x22 :: r) with ("\" :: "u" :: h1 :: h2 :: h3 :: h4 :: t ++ x22 :: r).
    cbn [ign_str]. change (byte_eqb "\" """") with false. change (byte_eqb "\" "\") with true.
    change (simple_escape "u") with (@None byte). change (byte_eqb "u" "u") with true. cbv iota. cbn [negb]. rewrite Hu. exact IH.
Qed.

Definition no_digit (r : bytes) : Prop := match r with b :: _ => is_digit b = false | [] => True end.
Lemma skip_digits_sound l : exists ds, Forall digit ds /\ l = ds ++ skip_digits l.
Proof.
  induction l as [|b l (ds & F & E)]; cbn [skip_digits]; [exists []; auto|].
  destruct (is_digit b) eqn:Eb; [|exists []; auto]. exists (b :: ds). split; [constructor; [now apply is_digit_iff|exact F]|].
  cbn [app]. now f_equal.
Qed.
Lemma skip_digits_complete ds r : Forall digit ds -> no_digit r -> skip_digits (ds ++ r) = r.
Proof.
  induction 1 as [|b ds Hb _ IH]; intros Hr; cbn [app skip_digits].
  - destruct r as [|b r]; [reflexivity|]. cbn [no_digit skip_digits] in *. now rewrite Hr.
  - apply is_digit_iff in Hb as ->. auto.
Qed.
Lemma some_digits_sound l r : some_digits l = Some r -> exists ds, digits_text ds /\ l = ds ++ r.
Proof.
  destruct l as [|b l]; [discriminate|]. cbn [some_digits]. destruct (is_digit b) eqn:Eb; [|discriminate].
  intros H. injection H as <-. destruct (skip_digits_sound l) as (ds & F & E). exists (b :: ds).
  split; [|cbn [app]; now f_equal]. split; [discriminate|]. constructor; [now apply is_digit_iff|exact F].
Qed.
Lemma some_digits_complete ds r : digits_text ds -> no_digit r -> some_digits (ds ++ r) = Some r.
Proof.
  intros [Hn F] Hr. destruct F as [|b ds Hb F]; [congruence|]. cbn [app some_digits]. apply is_digit_iff in Hb as ->.
  now rewrite skip_digits_complete.
Qed.
Definition exp_text (exp : bytes) : Prop :=
  exp = [] \/ exists e s ds, exp = e ++ s ++ ds /\ (e = ["e"] \/ e = ["E"]) /\
       (s = [] \/ s = ["+"] \/ s = ["-"]) /\ digits_text ds.
Definition frac_text (frac : bytes) : Prop := frac = [] \/ exists ds, frac = "." :: ds /\ digits_text ds.
Lemma eqb_byte_neq a b : a <> b -> byte_eqb a b = false.
Proof. intros H. destruct (byte_eqb a b) eqn:E; [|reflexivity]. apply byte_eqb_eq in E. contradiction. Qed.
Lemma digit_eqb b c : digit b -> is_digit c = false -> byte_eqb b c = false.
Proof. intros H Hc. apply is_digit_iff in H. apply eqb_byte_neq. intros ->. congruence. Qed.
Lemma ign_exponent_sound l r : ign_exponent l = Some r ->
  exists s ds, l = s ++ ds ++ r /\ (s = [] \/ s = ["+"] \/ s = ["-"]) /\ digits_text ds.
Proof.
  destruct l as [|b l]; [discriminate|]. cbn [ign_exponent].
  destruct (byte_eqb b "+") eqn:E1; [|destruct (byte_eqb b "-") eqn:E2]; cbn [orb]; intros H; apply some_digits_sound in H as (ds & Hd & E).
  - apply byte_eqb_eq in E1 as ->. subst. exists ["+"], ds. auto.
  - apply byte_eqb_eq in E2 as ->. subst. exists ["-"], ds. auto.
  - exists [], ds. auto.
Qed.
Lemma ign_exponent_complete s ds r : s = [] \/ s = ["+"] \/ s = ["-"] -> digits_text ds -> no_digit r ->
  ign_exponent (s ++ ds ++ r) = Some r.
Proof.
  intros [->|[->| ->]] Hd Hr; cbn [app].
  - pose proof (some_digits_complete ds r Hd Hr) as H. destruct Hd as [Hn F]. destruct F as [|b ds Hb F]; [congruence|].
    cbn [app ign_exponent] in *. rewrite (digit_eqb b "+" Hb eq_refl), (digit_eqb b "-" Hb eq_refl). exact H.
  - exact (some_digits_complete ds r Hd Hr).
  - exact (some_digits_complete ds r Hd Hr).
Qed.
Lemma ign_tail_sound l r : ign_tail l = Some r -> exists exp, l = exp ++ r /\ exp_text exp.
Proof.
  destruct l as [|b l]; cbn [ign_tail]; [intros H; injection H as <-; exists []; split; [reflexivity|now left]|].
  destruct (byte_eqb b "e" || byte_eqb b "E")%bool eqn:E.
  - intros H. apply ign_exponent_sound in H as (s & ds & -> & Hs & Hd).
    exists (b :: s ++ ds). split; [cbn [app]; now rewrite app_assoc|]. right. exists [b], s, ds. split; [reflexivity|]. split; [|auto].
    apply orb_true_iff in E as [E|E]; apply byte_eqb_eq in E as ->; auto.
  - intros H. injection H as <-. exists []. split; [reflexivity|now left].
Qed.
Lemma ign_tail_complete exp r : exp_text exp -> stop r -> ign_tail (exp ++ r) = Some r.
Proof.
  intros [->|(e & s & ds & -> & He & Hs & Hd)] Hr; apply stop_num in Hr as [Hf Hn]; cbn [app].
  - destruct r as [|b r]; [reflexivity|]. cbn [ign_tail no_float] in *. apply negb_true_iff, orb_false_iff in Hf as [Hf ->].
    apply orb_false_iff in Hf as [_ ->]. reflexivity.
  - assert (ign_exponent (s ++ ds ++ r) = Some r) as H by (apply ign_exponent_complete; [exact Hs|exact Hd|exact Hn]).
    rewrite <- !app_assoc. destruct He as [->| ->]; exact H.
Qed.
Lemma ign_fraction_sound l r : ign_fraction l = Some r -> exists frac exp, l = frac ++ exp ++ r /\ frac_text frac /\ exp_text exp.
Proof.
  destruct l as [|b l].
  { intros H. injection H as <-. exists [], []. repeat split; now left. }
  cbn [ign_fraction]. destruct (byte_eqb b ".") eqn:E.
  - apply byte_eqb_eq in E as ->. destruct (some_digits l) as [r'|] eqn:Es; [|discriminate].
    apply some_digits_sound in Es as (ds & Hd & ->). intros H. apply ign_tail_sound in H as (exp & -> & He).
    exists ("." :: ds), exp. split; [reflexivity|]. split; [|exact He]. right. eauto.
  - intros H. apply ign_tail_sound in H as (exp & -> & He). exists [], exp. split; [reflexivity|]. split; [now left|exact He].
Qed.
Lemma exp_no_digit exp r : exp_text exp -> stop r -> no_digit (exp ++ r) /\ match exp ++ r with b :: _ => byte_eqb b "." = false | [] => True end.
Proof.
  intros [->|(e & s & ds & -> & [->| ->] & _)] Hr; cbn [app]; [|split; reflexivity|split; reflexivity].
  destruct (stop_num r Hr) as [Hf Hn]. split; [exact Hn|]. destruct r as [|b r]; [exact I|]. cbn [no_float] in Hf.
  apply negb_true_iff, orb_false_iff in Hf as [Hf _]. now apply orb_false_iff in Hf as [Hf _].
Qed.
Lemma ign_fraction_complete frac exp r : frac_text frac -> exp_text exp -> stop r -> ign_fraction (frac ++ exp ++ r) = Some r.
Proof.
  intros Hf He Hr. pose proof (exp_no_digit exp r He Hr) as [Hn Hd]. pose proof (ign_tail_complete exp r He Hr) as Ht.
  destruct Hf as [->|(ds & -> & Hds)]; cbn [app].
  - unfold ign_fraction. destruct (exp ++ r) as [|b l]; [exact Ht|]. rewrite Hd. exact Ht.
  - cbn [ign_fraction]. change (byte_eqb "." ".") with true. cbv iota. rewrite some_digits_complete by assumption. exact Ht.
Qed.
Lemma ign_number_sound l r : ign_number l = Some r ->
  exists int frac exp, l = int ++ frac ++ exp ++ r /\ int_text int /\ frac_text frac /\ exp_text exp.
Proof.
  destruct l as [|b l]; [discriminate|]. cbn [ign_number]. destruct (byte_eqb b "0") eqn:E0.
  - apply byte_eqb_eq in E0 as ->. intros H.
    assert (ign_fraction l = Some r) as H'. { destruct l as [|d l]; [exact H|]. destruct (is_digit d); [discriminate|exact H]. }
    apply ign_fraction_sound in H' as (frac & exp & -> & Hf & He). exists ["0"], frac, exp. split; [reflexivity|].
    split; [now left|auto].
  - destruct (is_digit b) eqn:Ed; [|discriminate]. intros H. destruct (skip_digits_sound l) as (ds & F & E).
    apply ign_fraction_sound in H as (frac & exp & E' & Hf & He). exists (b :: ds), frac, exp.
    split; [cbn [app]; now rewrite <- E', <- E|]. split; [|auto]. right. split; [split; [discriminate|]|].
    + constructor; [now apply is_digit_iff|exact F].
    + cbn [hd]. intros ->. discriminate.
Qed.
Lemma ign_number_complete int frac exp r : int_text int -> frac_text frac -> exp_text exp -> stop r ->
  ign_number (int ++ frac ++ exp ++ r) = Some r.
Proof.
  intros Hi Hf He Hr. pose proof (ign_fraction_complete frac exp r Hf He Hr) as H.
  assert (no_digit (frac ++ exp ++ r)) as Hn.
  { destruct Hf as [->|(ds & -> & _)]; [exact (proj1 (exp_no_digit exp r He Hr))|reflexivity]. }
  destruct Hi as [->|[[Hne F] Hh]].
  - change (ign_number ("0" :: frac ++ exp ++ r) = Some r). cbn [ign_number]. change (byte_eqb "0" "0") with true. cbv iota.
    destruct (frac ++ exp ++ r) as [|b l] eqn:E; [exact H|]. cbn [no_digit] in Hn. rewrite Hn. exact H.
  - destruct F as [|b ds Hb F]; [congruence|]. cbn [app ign_number hd] in *.
    rewrite (eqb_byte_neq b "0" Hh). rewrite (proj2 (is_digit_iff b) Hb). now rewrite skip_digits_complete.
Qed.
Lemma int_digit int : int_text int -> exists b l, int = b :: l /\ digit b.
Proof.
  intros [->|[[Hn F] _]]; [exists "0", []; split; [reflexivity|split; discriminate]|].
  destruct F as [|b ds Hb F]; [congruence|]. eauto.
Qed.
Lemma digit_starts b l : digit b -> starts (b :: l).
Proof.
  intros H. exists b, l. split; [reflexivity|]. unfold is_ws.
  rewrite !(fun c => digit_eqb b c H) by reflexivity. auto.
Qed.
Lemma starts_cons b l : is_ws b = false -> byte_eqb b "]" = false -> byte_eqb b "," = false -> starts (b :: l).
Proof. intros. exists b, l. auto. Qed.
Lemma any_starts d v : any_value d v -> starts v.
Proof.
  intros H. inversion H as [? t Hw|? t Hn|? t Hs|? ? ? ? ? ?|? ? ? ? ? ?]; subst.
  - cbn [In] in Hw. repeat destruct Hw as [<-|Hw]; try contradiction; now apply starts_cons.
  - destruct Hn as (sign & int & frac & exp & -> & Hs & Hi & _). apply int_digit in Hi as (b & l & -> & Hb).
    destruct Hs as [->| ->]; [now apply digit_starts|now apply starts_cons].
  - destruct Hs as (body & -> & _). now apply starts_cons.
  - now apply starts_cons.
  - now apply starts_cons.
Qed.
Lemma descend_iff d d' : descend d = Some d' <-> deeper d d'.
Proof.
  destruct d as [[|n]|]; cbn [descend].
  - split; [discriminate|]. destruct d'; cbn; [discriminate|contradiction].
  - split; [intros H; injection H as <-; reflexivity|]. destruct d'; cbn; [|contradiction]. intros H. now injection H as ->.
  - split; [intros H; injection H as <-; exact I|]. destruct d'; cbn; [contradiction|reflexivity].
Qed.
Lemma skipped_ok o r : skipped o = Ok r -> o = Some r.
Proof. destruct o; cbn; [intros H; now injection H as ->|discriminate]. Qed.
Lemma rmap_snd_ok (o : res data_error (unit * bytes)) r : rmap snd o = Ok r -> exists x, o = Ok (x, r).
Proof. destruct o as [[x r']| | |]; cbn; try discriminate. intros H. injection H as <-. eauto. Qed.

Lemma ign_sound : forall fuel,
  (forall d l r, ign_value fuel d l = Ok r -> exists w v, ws w /\ l = w ++ v ++ r /\ any_value d v) /\
  (forall d first l r, ign_seq fuel d first l = Ok r ->
     exists vs body, l = body ++ "]" :: r /\ Forall (any_value d) vs /\ body_of first vs body) /\
  (forall d first l r, ign_map fuel d first l = Ok r ->
     exists vs body, l = body ++ "}" :: r /\ Forall (any_member d) vs /\ body_of first vs body).
Proof.
  induction fuel as [|fuel (IHv & IHs & IHm)]; [split; [|split]; discriminate|]. split; [|split].
  - intros d l r. cbn [ign_value]. destruct (skip_ws l) as [|b l1] eqn:E; [discriminate|]. apply skip_ws_head in E as (w & Hw & ->).
    intros H. exists w. cut (exists v, b :: l1 = v ++ r /\ any_value d v). { intros (v & -> & Hv). eauto. }
    destruct (byte_eqb b "n") eqn:E1.
    { apply byte_eqb_eq in E1 as ->. apply rmap_snd_ok in H as (x & H). apply expect_text_sound in H as ->.
      exists ["n"; "u"; "l"; "l"]. split; [reflexivity|]. apply any_word. now left. }
    destruct (byte_eqb b "t") eqn:E2.
    { apply byte_eqb_eq in E2 as ->. apply rmap_snd_ok in H as (x & H). apply expect_text_sound in H as ->.
      exists ["t"; "r"; "u"; "e"]. split; [reflexivity|]. apply any_word. right. now left. }
    destruct (byte_eqb b "f") eqn:E3.
    { apply byte_eqb_eq in E3 as ->. apply rmap_snd_ok in H as (x & H). apply expect_text_sound in H as ->.
      exists ["f"; "a"; "l"; "s"; "e"]. split; [reflexivity|]. apply any_word. do 2 right. now left. }
    destruct (byte_eqb b "-") eqn:E4.
    { apply byte_eqb_eq in E4 as ->. apply skipped_ok, ign_number_sound in H as (int & frac & exp & -> & Hi & Hf & He).
      exists (["-"] ++ int ++ frac ++ exp). split; [cbn [app]; now rewrite <- !app_assoc|]. apply any_number.
      exists ["-"], int, frac, exp. split; [reflexivity|]. split; [now right|]. auto. }
    destruct (is_digit b) eqn:E5.
    { apply skipped_ok, ign_number_sound in H as (int & frac & exp & -> & Hi & Hf & He).
      exists ([] ++ int ++ frac ++ exp). split; [cbn [app]; now rewrite <- !app_assoc|]. apply any_number.
      exists [], int, frac, exp. split; [reflexivity|]. split; [now left|]. auto. }
    destruct (byte_eqb b """") eqn:E6.
    { apply byte_eqb_eq in E6 as ->. apply skipped_ok in H. apply (ign_str_sound (length l1)) in H as (t & -> & Ht); [|lia].
      exists ("""" :: t ++ [x22]). split; [cbn [app]; now rewrite <- app_assoc|]. apply any_string. exists t. auto. }
    destruct (byte_eqb b "[") eqn:E7.
    { apply byte_eqb_eq in E7 as ->. destruct (descend d) as [d'|] eqn:Ed; [|discriminate]. apply descend_iff in Ed.
      apply IHs in H as (vs & body & -> & F & Hb). exists ("[" :: body ++ ["]"]). split; [cbn [app]; now rewrite <- app_assoc|].
      exact (any_array d d' vs body Ed F Hb). }
    destruct (byte_eqb b "{") eqn:E8; [|discriminate].
    apply byte_eqb_eq in E8 as ->. destruct (descend d) as [d'|] eqn:Ed; [|discriminate]. apply descend_iff in Ed.
    apply IHm in H as (vs & body & -> & F & Hb). exists ("{" :: body ++ ["}"]). split; [cbn [app]; now rewrite <- app_assoc|].
    exact (any_object d d' vs body Ed F Hb).
  - intros d first l r. cbn [ign_seq]. destruct (seq_next first l) as [[more l1]| | |] eqn:E; try discriminate. cbn [bind].
    apply seq_next_sound in E as [(-> & (r' & ->) & w & Hw & ->)|(-> & E)].
    + rewrite expect_hit by reflexivity. intros H. injection H as <-. exists [], w. split; [reflexivity|]. split; [constructor|]. now apply body_nil.
    + destruct (ign_value fuel d l1) as [l2| | |] eqn:Ev; try discriminate. cbn [bind]. intros H.
      apply IHv in Ev as (w1 & v & Hw1 & -> & Hv). apply IHs in H as (vs & body & -> & F & Hb). exists (v :: vs). destruct first.
      * destruct E as (w & Hw & ->). exists ((w ++ w1) ++ v ++ body). split; [assoc; reflexivity|]. split; [now constructor|].
        apply (body_cons true (w ++ w1) [] v vs body); [now apply ws_app|apply ws_nil|exact Hb].
      * destruct E as (w & w' & Hw & Hw' & ->). exists (w ++ "," :: (w' ++ w1) ++ v ++ body). split; [assoc; reflexivity|].
        split; [now constructor|]. apply (body_cons false w (w' ++ w1) v vs body); [exact Hw|now apply ws_app|exact Hb].
  - intros d first l r. cbn [ign_map]. destruct (map_next first l) as [[more l1]| | |] eqn:E; try discriminate. cbn [bind].
    apply map_next_sound in E as [(-> & (r' & ->) & w & Hw & ->)|(-> & (r' & ->) & E)].
    + rewrite expect_hit by reflexivity. intros H. injection H as <-. exists [], w. split; [reflexivity|]. split; [constructor|]. now apply body_nil.
    + rewrite skip_ws_hit by reflexivity. destruct (skipped (ign_str r')) as [l2| | |] eqn:Es; try discriminate. cbn [bind].
      destruct (expect ":" l2) as [[x l3]| | |] eqn:Ec; try discriminate. cbn [bind].
      destruct (ign_value fuel d l3) as [l4| | |] eqn:Ev; try discriminate. cbn [bind]. intros H.
      apply skipped_ok in Es. apply (ign_str_sound (length r')) in Es as (t & -> & Ht); [|lia]. apply expect_sound in Ec as (w2 & Hw2 & ->).
      apply IHv in Ev as (w3 & v & Hw3 & -> & Hv). apply IHm in H as (vs & body & -> & F & Hb).
      set (mt := ("""" :: t ++ [x22]) ++ w2 ++ [":"] ++ w3 ++ v).
      assert (any_member d mt) as Hm by (apply any_pair; [exists t; auto|auto|auto|auto]).
      exists (mt :: vs). destruct first.
      * destruct E as (w & Hw & ->). exists (w ++ mt ++ body). split; [unfold mt; assoc; reflexivity|]. split; [now constructor|].
        apply (body_cons true w [] mt vs body); [exact Hw|apply ws_nil|exact Hb].
      * destruct E as (w & w' & Hw & Hw' & ->). exists (w ++ "," :: w' ++ mt ++ body). split; [unfold mt; assoc; reflexivity|].
        split; [now constructor|]. apply (body_cons false w w' mt vs body); [exact Hw|exact Hw'|exact Hb].
Qed.

Lemma ign_complete : forall fuel,
  (forall d w v r, any_value d v -> ws w -> stop r -> ign_value fuel d (w ++ v ++ r) = Undef \/ ign_value fuel d (w ++ v ++ r) = Ok r) /\
  (forall d first vs body r, Forall (any_value d) vs -> body_of first vs body ->
     ign_seq fuel d first (body ++ "]" :: r) = Undef \/ ign_seq fuel d first (body ++ "]" :: r) = Ok r) /\
  (forall d first vs body r, Forall (any_member d) vs -> body_of first vs body ->
     ign_map fuel d first (body ++ "}" :: r) = Undef \/ ign_map fuel d first (body ++ "}" :: r) = Ok r).
Proof.
  induction fuel as [|fuel (IHv & IHs & IHm)]; [split; [|split]; now left|]. split; [|split].
  - intros d w v r Hv Hw Hr. cbn [ign_value]. rewrite skip_ws_app by exact Hw.
    inversion Hv as [? t Ht|? t Hn|? t Hs|? d' vs body Hd F Hb|? d' vs body Hd F Hb]; subst.
    + right. cbn [In] in Ht. repeat destruct Ht as [<-|Ht]; try contradiction; reflexivity.
    + right. destruct Hn as (sign & int & frac & exp & -> & Hs & Hi & Hf & He).
      pose proof (ign_number_complete int frac exp r Hi Hf He Hr) as H. apply int_digit in Hi as (b & l & -> & Hb).
      rewrite <- !app_assoc. destruct Hs as [->| ->].
      * cbn [app] in *. destruct (digit_starts b (l ++ frac ++ exp ++ r) Hb) as (b' & l' & E & Hws & _). injection E as <- _.
        rewrite skip_ws_hit by exact Hws. rewrite !(fun c => digit_eqb b c Hb) by reflexivity.
        rewrite (proj2 (is_digit_iff b) Hb), H. reflexivity.
      * change (blit _ ++ (b :: l) ++ frac ++ exp ++ r) with ("-" :: (b :: l) ++ frac ++ exp ++ r). rewrite skip_ws_hit by reflexivity.
        change (byte_eqb "-" "-") with true. change (byte_eqb "-" "n") with false. change (byte_eqb "-" "t") with false. change (byte_eqb "-" "f") with false.
        cbv iota. rewrite H. reflexivity.
    + right. destruct Hs as (body & -> & Hc). rewrite <- !app_assoc. cbn [app]. rewrite skip_ws_hit by reflexivity.
      pose proof (ign_str_complete body r Hc) as H.
      change (skipped (ign_str (body ++ x22 :: r)) = Ok r). now rewrite H.
    + change ((blit _ ++ body ++ blit _) ++ r) with ("[" :: (body ++ ["]"]) ++ r). rewrite skip_ws_hit by reflexivity.
      rewrite <- app_assoc. cbn [app].
      apply descend_iff in Hd.
      change (match descend d with None => bad | Some d => ign_seq fuel d true (body ++ "]" :: r) end = Undef \/
              match descend d with None => bad | Some d => ign_seq fuel d true (body ++ "]" :: r) end = Ok r).
      rewrite Hd. exact (IHs d' true vs body r F Hb).
    + change ((blit _ ++ body ++ blit _) ++ r) with ("{" :: (body ++ ["}"]) ++ r). rewrite skip_ws_hit by reflexivity.
      rewrite <- app_assoc. cbn [app].
      apply descend_iff in Hd.
      change (match descend d with None => bad | Some d => ign_map fuel d true (body ++ "}" :: r) end = Undef \/
              match descend d with None => bad | Some d => ign_map fuel d true (body ++ "}" :: r) end = Ok r).
      rewrite Hd. exact (IHm d' true vs body r F Hb).
  - intros d first vs body r F Hb. cbn [ign_seq]. destruct F as [|v vs Hv F].
    + apply body_nil in Hb. rewrite seq_next_done by exact Hb. cbn [bind]. rewrite expect_hit by reflexivity. now right.
    + pose proof (any_starts _ _ Hv) as Hst. apply body_cons_inv in Hb as (w & w' & t & Hw & Hw' & -> & Ht).
      assert (seq_next first ((if first then w ++ v ++ t else w ++ "," :: w' ++ v ++ t) ++ "]" :: r) = Ok (true, v ++ t ++ "]" :: r)) as ->.
      { destruct first; assoc; [now apply seq_next_more_first|now apply seq_next_more]. }
      cbn [bind]. pose proof (IHv d [] v (t ++ "]" :: r) Hv ws_nil) as H. cbn [app] in H.
      destruct H as [->| ->]; [eapply more_stop; [cbn; tauto|exact Ht]|now left|]. cbn [bind].
      exact (IHs d false vs t r F Ht).
  - intros d first vs body r F Hb. cbn [ign_map]. destruct F as [|v vs Hv F].
    + apply body_nil in Hb. rewrite map_next_done by exact Hb. cbn [bind]. rewrite expect_hit by reflexivity. now right.
    + apply body_cons_inv in Hb as (w & w' & t & Hw & Hw' & -> & Ht).
      inversion Hv as [? q w2 w3 v' (qb & -> & Hq) Hw2 Hw3 Hv']; subst.
      change (blit _ ++ w3 ++ v') with (":" :: w3 ++ v') in *.
      set (m := ([x22] ++ qb ++ [x22]) ++ w2 ++ ":" :: w3 ++ v') in *.
      assert (m = """" :: qb ++ x22 :: w2 ++ ":" :: w3 ++ v') as Em by (unfold m; assoc; reflexivity).
      assert (map_next first ((if first then w ++ m ++ t else w ++ "," :: w' ++ m ++ t) ++ "}" :: r) = Ok (true, m ++ t ++ "}" :: r)) as ->.
      { rewrite Em. destruct first; assoc; [now apply map_next_more_first|now apply (map_next_more w w')]. }
      cbn [bind]. rewrite Em. cbn [app]. rewrite skip_ws_hit by reflexivity. assoc.
      rewrite ign_str_complete by exact Hq. cbn [skipped ok_or bind]. rewrite expect_complete by auto. cbn [bind].
      pose proof (IHv d w3 v' (t ++ "}" :: r) Hv' Hw3) as H.
      destruct H as [->| ->]; [eapply more_stop; [cbn; tauto|exact Ht]|now left|]. cbn [bind].
      exact (IHm d false vs t r F Ht).
Qed.

Lemma ignore_sound C l r : ignore_value C l = Ok r -> exists w v, ws w /\ l = w ++ v ++ r /\ any_value (max_ignored_depth C) v.
Proof. apply ign_sound. Qed.
Lemma ignore_complete C w v r : any_value (max_ignored_depth C) v -> ws w -> stop r -> ignore_value C (w ++ v ++ r) = Ok r.
Proof.
  intros Hv Hw Hr. pose proof (ignore_value_total C (w ++ v ++ r)) as Ht.
  destruct (proj1 (ign_complete (2 * length (w ++ v ++ r) + 1)) _ w v r Hv Hw Hr) as [H|H]; [|exact H].
  unfold ignore_value in Ht. rewrite H in Ht. contradiction.
Qed.
