(** The parsers of Data.v read exactly the documents of DocumentSpec.v. *)
From Coq Require Import Strings.String.
From Verif Require Import Base BaseFacts Str Bip39 Dict KeyPath Errors FMap FMapFacts Base64 Json JsonFacts Data
  CodingSpec CodingFacts JsonSpec DocumentSpec JsonReadFacts.
Local Open Scope list_scope.
Local Open Scope byte_scope.

Definition not_n (v : bytes) : Prop := match v with b :: _ => byte_eqb b "n" = false | [] => True end.

Lemma reads_option {A} (p : parser A) Q : reads p Q -> (forall a v, Q a v -> not_n v) -> reads (parse_option p) (option_text Q).
Proof.
  intros (Hs & Hc & Hst) Hn. split; [|split].
  - intros l o r. unfold parse_option. destruct (skip_ws l) as [|b l1] eqn:E; [discriminate|].
    destruct (byte_eqb b "n") eqn:Eb.
    + apply skip_ws_head in E as (w & Hw & ->). apply byte_eqb_eq in Eb as ->.
      destruct (expect_text ["u"; "l"; "l"] l1) as [[x r']| | |] eqn:Ex; try discriminate. cbn [bind]. intros H. injection H as <- <-.
      apply expect_text_sound in Ex as ->. exists w, ["n"; "u"; "l"; "l"]. split; [exact Hw|]. split; reflexivity.
    + destruct (p l) as [[a r']| | |] eqn:Ep; try discriminate. cbn [bind]. intros H. injection H as <- <-.
      apply Hs in Ep as (w & v & Hw & -> & Hq). exists w, v. auto.
  - intros w v r o Hw Hq Hr. unfold parse_option. destruct o as [a|]; cbn [option_text] in Hq.
    + rewrite (Hc w v r a Hw Hq Hr). cbn [bind]. rewrite skip_ws_app by exact Hw.
      destruct (Hst a v Hq) as (b & l & -> & Hb & _). cbn [app]. rewrite skip_ws_hit by exact Hb.
      pose proof (Hn _ _ Hq) as H. cbn [not_n] in H. now rewrite H.
    + subst v. rewrite skip_ws_app by exact Hw. reflexivity.
  - intros [a|] v Hq; cbn [option_text] in Hq; [now apply Hst in Hq|]. subst v. exists "n", ["u"; "l"; "l"]. repeat split.
Qed.
Lemma string_not_n s v : string_text s v -> not_n v.
Proof. intros (body & bs & -> & _). reflexivity. Qed.
Lemma from_slice_iff {A} (p : parser A) Q l a : reads p Q -> (from_slice p l = Ok a <-> whole (Q a) l).
Proof.
  intros (Hs & Hc & _). unfold from_slice. split.
  - destruct (p l) as [[a' r]| | |] eqn:E; try discriminate. cbn [bind]. destruct (skip_ws r) eqn:Er; [|discriminate].
    intros H. injection H as <-. apply skip_ws_ws in Er. apply Hs in E as (w & v & Hw & -> & Hq). exists w, v, r. auto.
  - intros (w & v & w' & -> & Hw & Hw' & Hq). rewrite (Hc w v w' a Hw Hq).
    + cbn [bind]. apply skip_ws_ws in Hw'. now rewrite Hw'.
    + rewrite <- (app_nil_r w'). now apply stop_ws.
Qed.

Section Config.
Variable C : data_config.

Lemma reads_uint max : reads (parse_uint (json_cfg C) max) (uint_text C max).
Proof.
  split; [|split].
  - intros l n r. unfold parse_uint. destruct (skip_ws l) as [|b l1] eqn:E; [discriminate|]. apply skip_ws_head in E as (w & Hw & ->).
    destruct (byte_eqb b "-") eqn:Eb.
    + apply byte_eqb_eq in Eb as ->. destruct (integer l1) as [[m r']| | |] eqn:Ei; try discriminate. cbn [bind].
      destruct (minus_zero (json_cfg C)) eqn:Em; [|discriminate]. cbn [andb]. destruct (N.eqb_spec m 0) as [->|]; [|discriminate].
      intros H. injection H as <- <-. apply integer_sound in Ei as (s & Hs & ->).
      assert (s = [48%N]) as ->. { eapply numeral_unique; [exact Hs|]. exists [0%N]. repeat split; [repeat constructor|now left]. }
      exists w, ["-"; "0"]. split; [exact Hw|]. split; [reflexivity|]. split; [lia|]. right. auto.
    + destruct (integer (b :: l1)) as [[m r']| | |] eqn:Ei; try discriminate. cbn [bind].
      destruct (N.leb_spec m max); [|discriminate]. intros H'. injection H' as <- <-.
      apply integer_sound in Ei as (s & Hs & E). exists w, (List.map n2b s). split; [exact Hw|]. split; [now rewrite E|].
      split; [exact H|]. left. exists s. split; [exact Hs|]. now apply (numeral_bytes m).
  - intros w v r n Hw [Hn [(s & Hs & Hu)|(Hm & -> & ->)]] Hr; unfold parse_uint; rewrite skip_ws_app by exact Hw.
    + apply (numeral_bytes n) in Hu as ->; [|exact Hs]. pose proof (integer_complete n s r Hs (stop_num r Hr)) as Hi.
      assert (exists b l, List.map n2b s = b :: l /\ digit b) as (b & l & E & Hb).
      { destruct Hs as (ds & -> & F & _ & Hd).
        destruct Hd as [->|(d & ds' & -> & _)]; [exists "0", []; split; [reflexivity|split; discriminate]|].
        inversion_clear F as [|? ? Hd _]. eexists _, _. split; [reflexivity|]. apply is_digit_iff. apply is_digit_n2b. lia. }
      rewrite E in *. cbn [app] in *. destruct (digit_starts b (l ++ r) Hb) as (b' & l' & E' & Hws & _). injection E' as <- _.
      rewrite skip_ws_hit by exact Hws. rewrite (digit_eqb b "-" Hb eq_refl), Hi. cbn [bind].
      destruct (N.leb_spec n max); [reflexivity|lia].
    + change (blit "-0" ++ r) with ("-" :: "0" :: r). rewrite skip_ws_hit by reflexivity. change (byte_eqb "-" "-") with true. cbv iota.
      pose proof (integer_complete 0 [48%N] r) as Hi. cbn [List.map app] in Hi. change (n2b 48) with "0" in Hi.
      rewrite Hi; [|exists [0%N]; repeat split; [repeat constructor|now left]|exact (stop_num r Hr)].
      cbn [bind]. rewrite Hm. reflexivity.
  - intros n v [Hn [(s & Hs & Hu)|(_ & _ & ->)]].
    + apply (numeral_bytes n) in Hu as ->; [|exact Hs]. destruct Hs as (ds & -> & F & _ & Hd).
      destruct Hd as [->|(d & ds' & -> & _)]; [apply digit_starts; split; discriminate|].
      inversion_clear F as [|? ? Hd _]. cbn [List.map]. apply digit_starts. apply is_digit_iff. apply is_digit_n2b. lia.
    + now apply starts_cons.
Qed.

Lemma reads_b64 : reads (parse_b64 C) (bytes_text C).
Proof.
  split; [|split].
  - intros l b r. unfold parse_b64. destruct (parse_str l) as [[s l1]| | |] eqn:E; try discriminate. cbn [bind].
    destruct (b64_decode (b64_cfg C) (utf8 s)) as [b'|] eqn:Eb; [|discriminate]. intros H. injection H as <- <-.
    apply parse_str_sound in E as (w & v & Hw & -> & Hs). exists w, v. split; [exact Hw|]. split; [reflexivity|].
    exists s, (utf8 s). split; [exact Hs|]. split; [|now apply b64_exact].
    destruct Hs as (body & bs & _ & _ & Hu). apply utf8_text_iff. apply utf8_text_iff in Hu as [Hu _]. auto.
  - intros w v r b Hw (s & q & Hs & Hu & Hb) _. unfold parse_b64. rewrite (parse_str_complete w v r s Hw Hs). cbn [bind].
    apply utf8_text_iff in Hu as [_ ->]. apply b64_exact in Hb. now rewrite Hb.
  - intros b v (s & q & Hs & _). now apply string_starts in Hs.
Qed.
Lemma bytes_not_n b v : bytes_text C b v -> not_n v.
Proof. intros (s & q & Hs & _). now apply string_not_n in Hs. Qed.

Lemma language_names l s : language_of_name s = Some l <-> In (l, s) names.
Proof.
  unfold language_of_name. split.
  - intros H. apply find_some in H as [_ H]. apply str_eqb_eq in H. subst s. unfold names, language_name.
    destruct l; cbn [In]; intuition.
  - intros H. cbn [names In] in H. repeat destruct H as [H|H]; try contradiction; injection H as <- <-; reflexivity.
Qed.
Lemma variant_sound l a r : parse_variant l = Ok (a, r) -> exists w v name, ws w /\ l = w ++ v ++ r /\ In (a, name) names /\ string_text name v.
Proof.
  unfold parse_variant. destruct (parse_str l) as [[s l1]| | |] eqn:E; try discriminate. cbn [bind].
  destruct (language_of_name s) as [a'|] eqn:En; [|discriminate]. intros H. injection H as <- <-.
  apply parse_str_sound in E as (w & v & Hw & -> & Hs). apply language_names in En. exists w, v, s. auto.
Qed.
Lemma variant_complete w v r a name : ws w -> In (a, name) names -> string_text name v -> parse_variant (w ++ v ++ r) = Ok (a, r).
Proof.
  intros Hw Hn Hs. unfold parse_variant. rewrite (parse_str_complete w v r name Hw Hs). cbn [bind].
  apply language_names in Hn. now rewrite Hn.
Qed.
Lemma null_sound l x r : parse_null l = Ok (x, r) -> exists w, ws w /\ l = w ++ blit "null" ++ r.
Proof.
  unfold parse_null. destruct (skip_ws l) as [|b l1] eqn:E; [discriminate|]. apply skip_ws_head in E as (w & Hw & ->).
  destruct (byte_eqb b "n") eqn:Eb; [|discriminate]. apply byte_eqb_eq in Eb as ->. intros H. apply expect_text_sound in H as ->.
  exists w. auto.
Qed.
Lemma null_complete w r : ws w -> parse_null (w ++ blit "null" ++ r) = Ok (tt, r).
Proof. intros Hw. unfold parse_null. rewrite skip_ws_app by exact Hw. reflexivity. Qed.
Lemma reads_language : reads parse_language language_text.
Proof.
  split; [|split].
  - intros l a r. unfold parse_language. destruct (skip_ws l) as [|b l1] eqn:E; [discriminate|].
    destruct (byte_eqb b "{") eqn:Eb.
    + apply skip_ws_head in E as (w & Hw & ->). apply byte_eqb_eq in Eb as ->.
      destruct (parse_variant l1) as [[a' l2]| | |] eqn:E1; try discriminate. cbn [bind].
      destruct (expect ":" l2) as [[x l3]| | |] eqn:E2; try discriminate. cbn [bind].
      destruct (parse_null l3) as [[x' l4]| | |] eqn:E3; try discriminate. cbn [bind].
      destruct (expect "}" l4) as [[x'' l5]| | |] eqn:E4; try discriminate. cbn [bind].
      intros H. injection H as <- <-. apply variant_sound in E1 as (w1 & v & name & Hw1 & -> & Hn & Hs).
      apply expect_sound in E2 as (w2 & Hw2 & ->). apply null_sound in E3 as (w3 & Hw3 & ->). apply expect_sound in E4 as (w4 & Hw4 & ->).
      set (m := v ++ w2 ++ blit ":" ++ w3 ++ blit "null").
      exists w, ("{" :: (w1 ++ m ++ w4) ++ ["}"]). split; [exact Hw|].
      split; [unfold m; change (blit ":") with [":"]; change (blit "null") with ["n"; "u"; "l"; "l"]; assoc; reflexivity|].
      exists name. split; [exact Hn|]. right. exists [m], (w1 ++ m ++ w4). split; [|split; [|reflexivity]].
      * constructor; [|constructor]. exists v, w2, w3. auto.
      * exists w1, w4. auto.
    + destruct (byte_eqb b """"); [|discriminate]. intros H. apply variant_sound in H as (w & v & name & Hw & -> & Hn & Hs).
      exists w, v. split; [exact Hw|]. split; [reflexivity|]. exists name. auto.
  - intros w v r a Hw (name & Hn & [Hs|Ho]) Hr; unfold parse_language.
    + rewrite (variant_complete w v r a name Hw Hn Hs). rewrite skip_ws_app by exact Hw.
      destruct Hs as (body & bs & -> & _). reflexivity.
    + destruct Ho as (ts & body & F & He & ->). inversion F as [|? m ? ? Hm F']; subst. inversion F'; subst.
      destruct He as (w1 & w4 & Hw1 & -> & Hw4). destruct Hm as (q & w2 & w3 & Hq & Hw2 & Hw3 & ->). cbn [fst snd] in *.
      cbn [more_elements] in Hw4.
      rewrite skip_ws_app by exact Hw. change ((blit "{" ++ ?x ++ blit "}") ++ r) with ("{" :: (x ++ ["}"]) ++ r).
      rewrite skip_ws_hit by reflexivity. change (byte_eqb "{" "{") with true. cbv iota.
      rewrite <- !app_assoc. rewrite (variant_complete w1 q _ a name Hw1 Hn Hq). cbn [bind].
      change (blit ":" ++ ?x) with (":" :: x). rewrite expect_complete by auto. cbn [bind].
      rewrite null_complete by auto. cbn [bind app]. rewrite expect_complete by auto. reflexivity.
  - intros a v (name & _ & [H|H]); [now apply string_starts in H|now apply object_starts in H].
Qed.
Lemma language_not_n l v : language_text l v -> not_n v.
Proof. intros (name & _ & [H|(ts & body & _ & _ & ->)]); [now apply string_not_n in H|reflexivity]. Qed.

Lemma reads_entry : reads (parse_entry C) (entry_doc C).
Proof.
  split; [|split].
  - intros l e r. unfold parse_entry. destruct (expect "[" l) as [[x l1]| | |] eqn:E1; try discriminate. cbn [bind].
    destruct (seq_elem true (parse_uint (json_cfg C) u32_max) l1) as [[n l2]| | |] eqn:E2; try discriminate. cbn [bind].
    destruct (seq_elem false (parse_b64 C) l2) as [[k l3]| | |] eqn:E3; try discriminate. cbn [bind].
    destruct (expect "]" l3) as [[x' l4]| | |] eqn:E4; try discriminate. cbn [bind]. intros H. injection H as <- <-.
    apply expect_sound in E1 as (w & Hw & ->). apply (seq_elem_sound _ _ _ (reads_uint u32_max)) in E2 as (w1 & _ & a & Hw1 & _ & Ha & ->).
    apply (seq_elem_sound _ _ _ reads_b64) in E3 as (w2 & w2' & b & Hw2 & Hw2' & Hb & ->). apply expect_sound in E4 as (w3 & Hw3 & ->).
    exists w, ("[" :: (w1 ++ a ++ w2 ++ "," :: w2' ++ b ++ w3) ++ ["]"]). split; [exact Hw|]. split; [assoc; reflexivity|].
    exists a, b. split; [|auto]. exists (w1 ++ a ++ w2 ++ "," :: w2' ++ b ++ w3). split; [|reflexivity].
    exists w1, (w2 ++ "," :: w2' ++ b ++ w3). split; [exact Hw1|]. split; [reflexivity|]. exists w2, w2', w3. auto.
  - intros w v r [n k] Hw (a & b & (body & (w1 & t & Hw1 & -> & w2 & w2' & w3 & Hw2 & Hw2' & -> & Hw3) & ->) & Ha & Hb) _.
    cbn [fst snd more_elements] in *. unfold parse_entry.
    change ((blit "[" ++ ?x ++ blit "]") ++ r) with ("[" :: (x ++ ["]"]) ++ r). rewrite expect_complete by auto. cbn [bind].
    rewrite <- !app_assoc. change (blit "," ++ ?x) with ("," :: x).
    rewrite (seq_elem_complete _ _ _ (reads_uint u32_max) true w1 [] a n _ Hw1 ws_nil Ha) by (apply stop_ws; [exact Hw2|cbn; tauto]).
    cbn [bind]. rewrite (seq_elem_complete _ _ _ reads_b64 false w2 w2' b k _ Hw2 Hw2' Hb) by (apply stop_ws; [exact Hw3|cbn; tauto]).
    cbn [bind app]. rewrite expect_complete by auto. reflexivity.
  - intros e v (a & b & H & _). now apply array_starts in H.
Qed.

Lemma get_last (n : N) (b : bytes) es : get n (of_list es) = Some b <->
  exists pre post, es = pre ++ (n, b) :: post /\ ~ In n (List.map fst post).
Proof.
  induction es as [|[k v] es IH] using rev_ind.
  - cbn. split; [discriminate|]. intros (pre & post & E & _). now apply app_cons_not_nil in E.
  - rewrite of_list_snoc, get_ins by apply of_list_wf. destruct (N.eqb_spec n k) as [->|Hn].
    + split.
      * intros H. injection H as ->. exists es, []. cbn. auto.
      * intros (pre & post & E & Hp). destruct post as [|e post] using rev_ind.
        { apply app_inj_tail in E as [_ E]. now injection E as ->. }
        exfalso. apply Hp. rewrite app_comm_cons, app_assoc in E. apply app_inj_tail in E as [_ <-].
        rewrite map_app, in_app_iff. right. now left.
    + rewrite IH. split.
      * intros (pre & post & -> & Hp). exists pre, (post ++ [(k, v)]). split; [now rewrite <- app_assoc|].
        rewrite map_app, in_app_iff. cbn. intuition.
      * intros (pre & post & E & Hp). destruct post as [|e post _] using rev_ind.
        { apply app_inj_tail in E as [_ E]. injection E as <- _. congruence. }
        rewrite app_comm_cons, app_assoc in E. apply app_inj_tail in E as [-> <-]. exists pre, post. split; [reflexivity|].
        rewrite map_app, in_app_iff in Hp. tauto.
Qed.
Lemma reads_key_map : reads (parse_key_map C) (keys_text C).
Proof.
  destruct (reads_vec _ _ _ reads_entry) as (Hs & Hc & Hst). split; [|split].
  - intros l m r. unfold parse_key_map. destruct (parse_vec (parse_entry C) l) as [[es l1]| | |] eqn:E; try discriminate. cbn [bind].
    intros H. injection H as <- <-. apply Hs in E as (w & v & Hw & -> & ts & Ha & F). exists w, v. split; [exact Hw|].
    split; [reflexivity|]. exists es, ts. split; [exact Ha|]. split; [exact F|]. split; [apply of_list_wf|]. intros. apply get_last.
  - intros w v r m Hw (es & ts & Ha & F & Hm & Hg) Hr. unfold parse_key_map. rewrite (Hc w v r es Hw) by eauto. cbn [bind].
    do 2 f_equal. apply map_ext_get; [apply of_list_wf|exact Hm|]. intros n.
    destruct (get n m) as [b|] eqn:E1.
    + apply Hg in E1. now apply get_last.
    + destruct (get n (of_list es)) as [b|] eqn:E2; [|reflexivity]. apply get_last, Hg in E2. congruence.
  - intros m v (es & ts & Ha & _). now apply array_starts in Ha.
Qed.

(** ** Structs *)
Definition progress {A} (name : str) (Q : A -> bytes -> Prop) (o : option A) (ms : list (str * bytes)) (o' : option A) : Prop :=
  match o with
  | Some a => o' = Some a /\ ~ In name (List.map fst ms)
  | None => field ms name Q o'
  end.
Lemma progress_nil {A} name (Q : A -> bytes -> Prop) o o' : progress name Q o [] o' <-> o' = o.
Proof.
  destruct o as [a|]; cbn; [tauto|]. destruct o' as [a|]; cbn; [|tauto]. split; [|discriminate].
  intros (pre & v & post & E & _). now apply app_cons_not_nil in E.
Qed.
Lemma progress_hit {A} name (Q : A -> bytes -> Prop) o v ms o' :
  progress name Q o ((name, v) :: ms) o' <-> o = None /\ exists a, Q a v /\ progress name Q (Some a) ms o'.
Proof.
  destruct o as [a|]; cbn [progress].
  - cbn. split; [tauto|]. intros [H _]. discriminate.
  - split.
    + intros H. split; [reflexivity|]. destruct o' as [a|]; cbn [field] in H; [|cbn in H; tauto].
      destruct H as (pre & v' & post & E & H1 & H2 & Hq). destruct pre as [|m pre].
      * injection E as <- <-. exists a. auto.
      * injection E as <- _. cbn in H1. tauto.
    + intros (_ & a & Hq & -> & Hn). cbn [field]. exists [], v, ms. auto.
Qed.
Lemma progress_miss {A} name (Q : A -> bytes -> Prop) o k v ms o' : k <> name ->
  (progress name Q o ((k, v) :: ms) o' <-> progress name Q o ms o').
Proof.
  intros Hk. destruct o as [a|]; cbn [progress].
  - cbn. intuition.
  - destruct o' as [a|]; cbn [field].
    + split.
      * intros (pre & v' & post & E & H1 & H2 & Hq). destruct pre as [|m pre]; [injection E; congruence|].
        injection E as <- ->. exists pre, v', post. cbn in H1. intuition.
      * intros (pre & v' & post & -> & H1 & H2 & Hq). exists ((k, v) :: pre), v', post. cbn. intuition.
    + cbn. intuition.
Qed.
Lemma others_nil known : others_ignored C known [].
Proof. intros k v []. Qed.
Lemma others_known known k v ms : In k known -> (others_ignored C known ((k, v) :: ms) <-> others_ignored C known ms).
Proof.
  intros Hk. unfold others_ignored. cbn [In]. split; intros H k' v' Hi Hn; [eauto|].
  destruct Hi as [E|Hi]; [injection E as <- <-; contradiction|eauto].
Qed.
Lemma others_unknown known k v ms : ~ In k known ->
  (others_ignored C known ((k, v) :: ms) <-> any_value (max_ignored_depth (json_cfg C)) v /\ others_ignored C known ms).
Proof.
  intros Hk. unfold others_ignored. cbn [In]. split.
  - intros H. split; [now apply (H k v); [left|]|]. intros k' v' Hi. apply H. now right.
  - intros [Hv H] k' v' Hi Hn. destruct Hi as [E|Hi]; [injection E as <- <-; exact Hv|eauto].
Qed.
Lemma ignored_sound {S} (s : S) l s' r : ignored C s l = Ok (s', r) ->
  exists w v, ws w /\ l = w ++ v ++ r /\ s' = s /\ any_value (max_ignored_depth (json_cfg C)) v.
Proof.
  unfold ignored. destruct (ignore_value (json_cfg C) l) as [l1| | |] eqn:E; try discriminate. cbn [bind].
  intros H. injection H as <- <-. apply ignore_sound in E as (w & v & Hw & -> & Hv). exists w, v. auto.
Qed.
Lemma ignored_complete {S} (s : S) w v r : ws w -> any_value (max_ignored_depth (json_cfg C)) v -> stop r ->
  ignored C s (w ++ v ++ r) = Ok (s, r).
Proof. intros Hw Hv Hr. unfold ignored. now rewrite ignore_complete. Qed.
Lemma once_sound {A} (o : option A) p Q l a r : reads p Q -> once o p l = Ok (a, r) ->
  exists w v, ws w /\ l = w ++ v ++ r /\ o = None /\ Q a v.
Proof.
  intros (Hs & _). unfold once. destruct o; [discriminate|]. intros H. apply Hs in H as (w & v & Hw & -> & Hq). exists w, v. auto.
Qed.
Lemma once_complete {A} p (Q : A -> bytes -> Prop) w v r a : reads p Q -> ws w -> Q a v -> stop r -> once None p (w ++ v ++ r) = Ok (a, r).
Proof. intros (_ & Hc & _) Hw Hq Hr. unfold once. now apply Hc. Qed.

(** [WalletDataV1] *)
Definition v1_step (s : option (fmap bytes)) (m : str * bytes) (s' : option (fmap bytes)) : Prop :=
  if str_eqb (fst m) (lit "keys") then s = None /\ exists x, keys_text C x (snd m) /\ s' = Some x
  else s' = s /\ any_value (max_ignored_depth (json_cfg C)) (snd m).
Lemma v1_steps : forall ms s s', steps _ v1_step s ms s' <->
  others_ignored C [lit "keys"] ms /\ progress (lit "keys") (keys_text C) s ms s'.
Proof.
  induction ms as [|[k v] ms IH]; intros s s'.
  - rewrite progress_nil. split; [intros H; inversion H; subst; split; [apply others_nil|reflexivity]|]. intros [_ ->]. constructor.
  - assert (steps _ v1_step s ((k, v) :: ms) s' <-> exists s1, v1_step s (k, v) s1 /\ steps _ v1_step s1 ms s') as ->.
    { split; [intros H; inversion H; subst; eauto|intros (s1 & H1 & H2); econstructor; eauto]. }
    unfold v1_step at 1. cbn [fst snd]. destruct (str_eqb k (lit "keys")) eqn:E.
    + apply str_eqb_eq in E as ->. rewrite others_known by now left. rewrite progress_hit. split.
      * intros (s1 & (-> & x & Hx & ->) & H). apply IH in H as [Ho Hp]. eauto.
      * intros (Ho & -> & x & Hx & Hp). exists (Some x). split; [eauto|]. now apply IH.
    + assert (k <> lit "keys") as Hk by (intros ->; rewrite str_eqb_refl in E; discriminate).
      rewrite others_unknown by (cbn [In]; intuition). rewrite progress_miss by exact Hk. split.
      * intros (s1 & (-> & Hv) & H). apply IH in H as [Ho Hp]. auto.
      * intros ((Hv & Ho) & Hp). exists s. split; [auto|]. now apply IH.
Qed.
Lemma reads_v1 : reads (parse_v1 C) (v1_doc_text C).
Proof.
  pose proof reads_key_map as Hk.
  assert (reads (parse_v1 C) (fun m t =>
    (exists ms s, object_text ms t /\ steps _ v1_step None ms s /\ ok_or s DMalformed = Ok m) \/
    (exists vs, array_text vs t /\ exists v, vs = [v] /\ keys_text C m v))) as (Hs & Hc & Hst).
  { apply (reads_struct _ _ (v1_field C) v1_step) with (positional := fun l => seq_elem true (parse_key_map C) l)
      (init := None) (finish := fun s => ok_or s DMalformed) (R := fun m vs => exists v, vs = [v] /\ keys_text C m v).
    - intros s k l s' r. unfold v1_field, v1_step. cbn [fst snd]. destruct (str_eqb k (lit "keys")).
      + destruct (once s (parse_key_map C) l) as [[m l1]| | |] eqn:E; try discriminate. cbn [bind]. intros H. injection H as <- <-.
        apply (once_sound _ _ _ _ _ _ Hk) in E as (w & v & Hw & -> & -> & Hq). exists w, v. eauto 6.
      + intros H. apply ignored_sound in H as (w & v & Hw & -> & -> & Hv). exists w, v. auto.
    - intros s k w v r s' Hw. unfold v1_field, v1_step. cbn [fst snd]. destruct (str_eqb k (lit "keys")).
      + intros (-> & x & Hx & ->) Hr. rewrite (once_complete _ _ w v r x Hk Hw Hx Hr). reflexivity.
      + intros (-> & Hv) Hr. now apply ignored_complete.
    - intros l m w r Hw H. apply (seq_elem_sound _ _ _ Hk) in H as (w1 & _ & v & Hw1 & _ & Hq & ->).
      exists [v], (w1 ++ v ++ w). split; [assoc; reflexivity|]. split; [exists w1, w; auto|]. eauto.
    - intros vs body m r He (v & -> & Hq). destruct He as (w1 & w & Hw1 & -> & Hw). exists w. split; [exact Hw|].
      rewrite <- !app_assoc. apply (seq_elem_complete _ _ _ Hk true w1 [] v m _ Hw1 ws_nil Hq). apply stop_ws; [exact Hw|cbn; tauto]. }
  assert (forall m t, v1_doc_text C m t <-> (exists ms s, object_text ms t /\ steps _ v1_step None ms s /\ ok_or s DMalformed = Ok m) \/
    (exists vs, array_text vs t /\ exists v, vs = [v] /\ keys_text C m v)) as Hiff.
  { intros m t. unfold v1_doc_text. split; (intros [H|H]; [left|right]).
    - destruct H as (ms & Ho & Hi & Hf). exists ms, (Some m). split; [exact Ho|]. split; [|reflexivity]. apply v1_steps. split; [exact Hi|exact Hf].
    - destruct H as (v & Ha & Hq). exists [v]. eauto.
    - destruct H as (ms & s & Ho & Hst' & E). destruct s as [m'|]; [|discriminate]. injection E as ->. apply v1_steps in Hst' as [Hi Hf]. eauto.
    - destruct H as (vs & Ha & v & -> & Hq). eauto. }
  split; [|split].
  - intros l a r H. apply Hs in H as (w & v & Hw & E & Hq). exists w, v. split; [exact Hw|]. split; [exact E|]. now apply Hiff.
  - intros w v r a Hw Hq Hr. apply Hc; [exact Hw|now apply Hiff|exact Hr].
  - intros a v Hq. apply (Hst a). now apply Hiff.
Qed.

(** [VersionedData] *)
Definition version_text (v : version) (t : bytes) : Prop := uint_text C u16_max (version_num v) t.
Lemma reads_version : reads (parse_version C) version_text.
Proof.
  destruct (reads_uint u16_max) as (Hs & Hc & Hst). split; [|split].
  - intros l v r. unfold parse_version. destruct (parse_uint (json_cfg C) u16_max l) as [[n l1]| | |] eqn:E; try discriminate. cbn [bind].
    apply Hs in E as (w & t & Hw & -> & Hq). intros H. exists w, t. split; [exact Hw|].
    destruct (N.eqb_spec n 1) as [->|]; [|destruct (N.eqb_spec n 2) as [->|]; [|discriminate]]; injection H as <- <-; auto.
  - intros w t r v Hw Hq Hr. unfold parse_version. rewrite (Hc w t r _ Hw Hq Hr). cbn [bind]. destruct v; reflexivity.
  - intros v t Hq. exact (Hst _ _ Hq).
Qed.
Definition vd_step (s : option version * option bytes) (m : str * bytes) (s' : option version * option bytes) : Prop :=
  if str_eqb (fst m) (lit "version") then fst s = None /\ exists x, version_text x (snd m) /\ s' = (Some x, snd s)
  else if str_eqb (fst m) (lit "data") then snd s = None /\ exists x, bytes_text C x (snd m) /\ s' = (fst s, Some x)
  else s' = s /\ any_value (max_ignored_depth (json_cfg C)) (snd m).
Lemma steps_cons_iff {S} (st : S -> str * bytes -> S -> Prop) s m ms s' :
  steps _ st s (m :: ms) s' <-> exists s1, st s m s1 /\ steps _ st s1 ms s'.
Proof. split; [intros H; inversion H; subst; eauto|intros (s1 & H1 & H2); econstructor; eauto]. Qed.
Lemma eqb_neq k name : str_eqb k name = false -> k <> name.
Proof. intros H ->. rewrite str_eqb_refl in H. discriminate. Qed.
Lemma vd_steps : forall ms s s', steps _ vd_step s ms s' <->
  others_ignored C [lit "version"; lit "data"] ms /\ progress (lit "version") version_text (fst s) ms (fst s') /\
  progress (lit "data") (bytes_text C) (snd s) ms (snd s').
Proof.
  induction ms as [|[k v] ms IH]; intros s s'.
  - rewrite !progress_nil. split; [intros H; inversion H; subst; split; [apply others_nil|auto]|].
    intros (_ & E1 & E2). destruct s, s'; cbn in *; subst. constructor.
  - rewrite steps_cons_iff. unfold vd_step at 1. cbn [fst snd]. destruct (str_eqb k (lit "version")) eqn:E1; [|destruct (str_eqb k (lit "data")) eqn:E2].
    + apply str_eqb_eq in E1 as ->. rewrite others_known by (cbn; tauto). rewrite progress_hit, progress_miss by discriminate. split.
      * intros (s1 & (E & x & Hx & ->) & H). apply IH in H as (Ho & Hp & Hd). cbn [fst snd] in *. eauto 7.
      * intros (Ho & (E & x & Hx & Hp) & Hd). eexists. split; [eauto|]. apply IH. auto.
    + apply str_eqb_eq in E2 as ->. rewrite others_known by (cbn; tauto). rewrite progress_hit, progress_miss by discriminate. split.
      * intros (s1 & (E & x & Hx & ->) & H). apply IH in H as (Ho & Hp & Hd). cbn [fst snd] in *. eauto 7.
      * intros (Ho & Hp & (E & x & Hx & Hd)). eexists. split; [eauto|]. apply IH. auto.
    + apply eqb_neq in E1, E2. rewrite others_unknown by (cbn [In]; intuition). rewrite !progress_miss by assumption. split.
      * intros (s1 & (-> & Hv) & H). apply IH in H as (Ho & Hp & Hd). auto.
      * intros ((Hv & Ho) & Hp & Hd). exists s. split; [auto|]. apply IH. auto.
Qed.
Lemma reads_versioned : reads (parse_versioned C) (fun v => envelope_text C (version_num (v_version v)) (v_data v)).
Proof.
  pose proof reads_version as Hv. pose proof reads_b64 as Hb.
  pose (R := fun (v : versioned) (vs : list bytes) => exists a b, vs = [a; b] /\ version_text (v_version v) a /\ bytes_text C (v_data v) b).
  assert (reads (parse_versioned C) (fun v t =>
    (exists ms s, object_text ms t /\ steps _ vd_step (None, None) ms s /\ vd_finish s = Ok v) \/
    (exists vs, array_text vs t /\ R v vs))) as (Hs & Hc & Hst).
  { apply (reads_struct _ _ (vd_field C) vd_step).
    - intros s k l s' r. unfold vd_field, vd_step. cbn [fst snd]. destruct (str_eqb k (lit "version")); [|destruct (str_eqb k (lit "data"))].
      + destruct (once (fst s) (parse_version C) l) as [[m l1]| | |] eqn:E; try discriminate. cbn [bind]. intros H. injection H as <- <-.
        apply (once_sound _ _ _ _ _ _ Hv) in E as (w & v & Hw & -> & E & Hq). exists w, v. eauto 6.
      + destruct (once (snd s) (parse_b64 C) l) as [[m l1]| | |] eqn:E; try discriminate. cbn [bind]. intros H. injection H as <- <-.
        apply (once_sound _ _ _ _ _ _ Hb) in E as (w & v & Hw & -> & E & Hq). exists w, v. eauto 6.
      + intros H. apply ignored_sound in H as (w & v & Hw & -> & -> & Hx). exists w, v. auto.
    - intros s k w v r s' Hw. unfold vd_field, vd_step. cbn [fst snd]. destruct (str_eqb k (lit "version")); [|destruct (str_eqb k (lit "data"))].
      + intros (E & x & Hx & ->) Hr. rewrite E, (once_complete _ _ w v r x Hv Hw Hx Hr). reflexivity.
      + intros (E & x & Hx & ->) Hr. rewrite E, (once_complete _ _ w v r x Hb Hw Hx Hr). reflexivity.
      + intros (-> & Hx) Hr. now apply ignored_complete.
    - intros l m w r Hw. unfold vd_positional.
      destruct (seq_elem true (parse_version C) l) as [[x l1]| | |] eqn:E1; try discriminate. cbn [bind].
      destruct (seq_elem false (parse_b64 C) l1) as [[y l2]| | |] eqn:E2; try discriminate. cbn [bind]. intros H. injection H as <- ->.
      apply (seq_elem_sound _ _ _ Hv) in E1 as (w1 & _ & a & Hw1 & _ & Ha & ->).
      apply (seq_elem_sound _ _ _ Hb) in E2 as (w2 & w2' & b & Hw2 & Hw2' & Hy & ->).
      exists [a; b], (w1 ++ a ++ w2 ++ "," :: w2' ++ b ++ w). split; [assoc; reflexivity|]. split; [|exists a, b; auto].
      exists w1, (w2 ++ "," :: w2' ++ b ++ w). split; [exact Hw1|]. split; [reflexivity|]. exists w2, w2', w. auto.
    - intros vs body m r He (a & b & -> & Ha & Hy). destruct He as (w1 & t & Hw1 & -> & w2 & w2' & w & Hw2 & Hw2' & -> & Hw).
      exists w. split; [exact Hw|]. unfold vd_positional. rewrite <- !app_assoc. change (blit "," ++ ?x) with ("," :: x).
      rewrite (seq_elem_complete _ _ _ Hv true w1 [] a _ _ Hw1 ws_nil Ha) by (apply stop_ws; [exact Hw2|cbn; tauto]). cbn [bind].
      rewrite (seq_elem_complete _ _ _ Hb false w2 w2' b _ _ Hw2 Hw2' Hy) by (apply stop_ws; [exact Hw|cbn; tauto]). cbn [bind].
      destruct m; reflexivity. }
  assert (forall v t, envelope_text C (version_num (v_version v)) (v_data v) t <->
    (exists ms s, object_text ms t /\ steps _ vd_step (None, None) ms s /\ vd_finish s = Ok v) \/ (exists vs, array_text vs t /\ R v vs)) as Hiff.
  { intros v t. unfold envelope_text, R. split; (intros [H|H]; [left|right]).
    - destruct H as (ms & Ho & Hi & Hf & Hd). exists ms, (Some (v_version v), Some (v_data v)). split; [exact Ho|]. split; [|destruct v; reflexivity].
      apply vd_steps. auto.
    - destruct H as (a & b & Ha & H1 & H2). exists [a; b]. split; [exact Ha|]. exists a, b. auto.
    - destruct H as (ms & [sv sd] & Ho & Hst' & E). destruct sv as [x|]; [|discriminate]. destruct sd as [y|]; [|discriminate].
      injection E as <-. apply vd_steps in Hst' as (Hi & Hf & Hd). exists ms. auto.
    - destruct H as (vs & Ha & a & b & -> & H1 & H2). exists a, b. auto. }
  split; [|split].
  - intros l a r H. apply Hs in H as (w & v & Hw & E & Hq). exists w, v. split; [exact Hw|]. split; [exact E|]. now apply Hiff.
  - intros w v r a Hw Hq Hr. apply Hc; [exact Hw|now apply Hiff|exact Hr].
  - intros a v Hq. apply (Hst a). now apply Hiff.
Qed.

(** [WalletDataV2] *)
Definition v2_step (s : v2_state) (m : str * bytes) (s' : v2_state) : Prop :=
  if str_eqb (fst m) (lit "seed") then s_seed s = None /\ exists x, option_text (bytes_text C) x (snd m) /\
    s' = {| s_seed := Some x; s_mnemonic := s_mnemonic s; s_dictionary := s_dictionary s; s_keys := s_keys s |}
  else if str_eqb (fst m) (lit "mnemonic") then s_mnemonic s = None /\ exists x, option_text string_text x (snd m) /\
    s' = {| s_seed := s_seed s; s_mnemonic := Some x; s_dictionary := s_dictionary s; s_keys := s_keys s |}
  else if str_eqb (fst m) (lit "dictionary") then s_dictionary s = None /\ exists x, option_text language_text x (snd m) /\
    s' = {| s_seed := s_seed s; s_mnemonic := s_mnemonic s; s_dictionary := Some x; s_keys := s_keys s |}
  else if str_eqb (fst m) (lit "keys") then s_keys s = None /\ exists x, keys_text C x (snd m) /\
    s' = {| s_seed := s_seed s; s_mnemonic := s_mnemonic s; s_dictionary := s_dictionary s; s_keys := Some x |}
  else s' = s /\ any_value (max_ignored_depth (json_cfg C)) (snd m).
Lemma v2_steps : forall ms s s', steps _ v2_step s ms s' <->
  others_ignored C [lit "seed"; lit "mnemonic"; lit "dictionary"; lit "keys"] ms /\
  progress (lit "seed") (option_text (bytes_text C)) (s_seed s) ms (s_seed s') /\
  progress (lit "mnemonic") (option_text string_text) (s_mnemonic s) ms (s_mnemonic s') /\
  progress (lit "dictionary") (option_text language_text) (s_dictionary s) ms (s_dictionary s') /\
  progress (lit "keys") (keys_text C) (s_keys s) ms (s_keys s').
Proof.
  induction ms as [|[k v] ms IH]; intros s s'.
  - rewrite !progress_nil. split; [intros H; inversion H; subst; split; [apply others_nil|auto]|].
    intros (_ & E1 & E2 & E3 & E4). destruct s, s'; cbn in *; subst. constructor.
  - rewrite steps_cons_iff. unfold v2_step at 1. cbn [fst snd].
    destruct (str_eqb k (lit "seed")) eqn:E1; [|destruct (str_eqb k (lit "mnemonic")) eqn:E2;
      [|destruct (str_eqb k (lit "dictionary")) eqn:E3; [|destruct (str_eqb k (lit "keys")) eqn:E4]]].
    + apply str_eqb_eq in E1 as ->. rewrite others_known by (cbn; tauto). rewrite progress_hit, !progress_miss by discriminate. split.
      * intros (s1 & (E & x & Hx & ->) & H). apply IH in H as (Ho & H1 & H2 & H3 & H4). cbn in H1, H2, H3, H4. eauto 9.
      * intros (Ho & (E & x & Hx & H1) & H2 & H3 & H4). eexists. split; [eauto|]. apply IH. auto.
    + apply str_eqb_eq in E2 as ->. rewrite others_known by (cbn; tauto). rewrite progress_hit, !progress_miss by discriminate. split.
      * intros (s1 & (E & x & Hx & ->) & H). apply IH in H as (Ho & H1 & H2 & H3 & H4). cbn in H1, H2, H3, H4. eauto 9.
      * intros (Ho & H1 & (E & x & Hx & H2) & H3 & H4). eexists. split; [eauto|]. apply IH. auto.
    + apply str_eqb_eq in E3 as ->. rewrite others_known by (cbn; tauto). rewrite progress_hit, !progress_miss by discriminate. split.
      * intros (s1 & (E & x & Hx & ->) & H). apply IH in H as (Ho & H1 & H2 & H3 & H4). cbn in H1, H2, H3, H4. eauto 9.
      * intros (Ho & H1 & H2 & (E & x & Hx & H3) & H4). eexists. split; [eauto|]. apply IH. auto.
    + apply str_eqb_eq in E4 as ->. rewrite others_known by (cbn; tauto). rewrite progress_hit, !progress_miss by discriminate. split.
      * intros (s1 & (E & x & Hx & ->) & H). apply IH in H as (Ho & H1 & H2 & H3 & H4). cbn in H1, H2, H3, H4. eauto 9.
      * intros (Ho & H1 & H2 & H3 & (E & x & Hx & H4)). eexists. split; [eauto|]. apply IH. auto.
    + apply eqb_neq in E1, E2, E3, E4. rewrite others_unknown by (cbn [In]; intuition). rewrite !progress_miss by assumption. split.
      * intros (s1 & (-> & Hv) & H). apply IH in H as (Ho & H1 & H2 & H3 & H4). auto 7.
      * intros ((Hv & Ho) & H1 & H2 & H3 & H4). exists s. split; [auto|]. apply IH. auto.
Qed.
Definition v2_positions (w : wallet) (vs : list bytes) : Prop :=
  exists a b c d, vs = [a; b; c; d] /\ option_text (bytes_text C) (w_seed w) a /\ option_text string_text (w_mnemonic w) b /\
    option_text language_text (w_dictionary w) c /\ keys_text C (w_keys w) d.
Lemma reads_v2_raw : reads (parse_v2 C) (fun w t =>
    (exists ms s, object_text ms t /\ steps _ v2_step v2_init ms s /\ v2_finish s = Ok w) \/
    (exists vs, array_text vs t /\ v2_positions w vs)).
Proof.
  pose proof (reads_option _ _ reads_b64 bytes_not_n) as Hb. pose proof (reads_option _ _ reads_str string_not_n) as Hm.
  pose proof (reads_option _ _ reads_language language_not_n) as Hl. pose proof reads_key_map as Hk.
  apply (reads_struct _ _ (v2_field C) v2_step) with (positional := v2_positional C)
      (init := v2_init) (finish := v2_finish) (R := v2_positions).
  - intros s k l s' r. unfold v2_field, v2_step. cbn [fst snd].
    destruct (str_eqb k (lit "seed")); [|destruct (str_eqb k (lit "mnemonic")); [|destruct (str_eqb k (lit "dictionary"));
      [|destruct (str_eqb k (lit "keys"))]]].
    + destruct (once _ _ l) as [[m l1]| | |] eqn:E; try discriminate. cbn [bind]. intros H. injection H as <- <-.
      apply (once_sound _ _ _ _ _ _ Hb) in E as (w & v & Hw & -> & E & Hq). exists w, v. eauto 6.
    + destruct (once _ _ l) as [[m l1]| | |] eqn:E; try discriminate. cbn [bind]. intros H. injection H as <- <-.
      apply (once_sound _ _ _ _ _ _ Hm) in E as (w & v & Hw & -> & E & Hq). exists w, v. eauto 6.
    + destruct (once _ _ l) as [[m l1]| | |] eqn:E; try discriminate. cbn [bind]. intros H. injection H as <- <-.
      apply (once_sound _ _ _ _ _ _ Hl) in E as (w & v & Hw & -> & E & Hq). exists w, v. eauto 6.
    + destruct (once _ _ l) as [[m l1]| | |] eqn:E; try discriminate. cbn [bind]. intros H. injection H as <- <-.
      apply (once_sound _ _ _ _ _ _ Hk) in E as (w & v & Hw & -> & E & Hq). exists w, v. eauto 6.
    + intros H. apply ignored_sound in H as (w & v & Hw & -> & -> & Hx). exists w, v. auto.
  - intros s k w v r s' Hw. unfold v2_field, v2_step. cbn [fst snd].
    destruct (str_eqb k (lit "seed")); [|destruct (str_eqb k (lit "mnemonic")); [|destruct (str_eqb k (lit "dictionary"));
      [|destruct (str_eqb k (lit "keys"))]]].
    + intros (E & x & Hx & ->) Hr. rewrite E, (once_complete _ _ w v r x Hb Hw Hx Hr). reflexivity.
    + intros (E & x & Hx & ->) Hr. rewrite E, (once_complete _ _ w v r x Hm Hw Hx Hr). reflexivity.
    + intros (E & x & Hx & ->) Hr. rewrite E, (once_complete _ _ w v r x Hl Hw Hx Hr). reflexivity.
    + intros (E & x & Hx & ->) Hr. rewrite E, (once_complete _ _ w v r x Hk Hw Hx Hr). reflexivity.
    + intros (-> & Hx) Hr. now apply ignored_complete.
  - intros l m w r Hw. unfold v2_positional.
    destruct (seq_elem true (parse_option (parse_b64 C)) l) as [[x l1]| | |] eqn:E1; try discriminate. cbn [bind].
    destruct (seq_elem false (parse_option parse_str) l1) as [[y l2]| | |] eqn:E2; try discriminate. cbn [bind].
    destruct (seq_elem false (parse_option parse_language) l2) as [[z l3]| | |] eqn:E3; try discriminate. cbn [bind].
    destruct (seq_elem false (parse_key_map C) l3) as [[u l4]| | |] eqn:E4; try discriminate. cbn [bind]. intros H. injection H as <- ->.
    apply (seq_elem_sound _ _ _ Hb) in E1 as (w1 & _ & a & Hw1 & _ & Ha & ->).
    apply (seq_elem_sound _ _ _ Hm) in E2 as (w2 & w2' & b & Hw2 & Hw2' & Hy & ->).
    apply (seq_elem_sound _ _ _ Hl) in E3 as (w3 & w3' & c & Hw3 & Hw3' & Hz & ->).
    apply (seq_elem_sound _ _ _ Hk) in E4 as (w4 & w4' & d & Hw4 & Hw4' & Hu & ->).
    exists [a; b; c; d], (w1 ++ a ++ w2 ++ "," :: w2' ++ b ++ w3 ++ "," :: w3' ++ c ++ w4 ++ "," :: w4' ++ d ++ w).
    split; [assoc; reflexivity|]. split; [|exists a, b, c, d; auto].
    exists w1. eexists. split; [exact Hw1|]. split; [reflexivity|]. exists w2, w2'. eexists. split; [exact Hw2|]. split; [exact Hw2'|]. split; [reflexivity|].
    exists w3, w3'. eexists. split; [exact Hw3|]. split; [exact Hw3'|]. split; [reflexivity|].
    exists w4, w4', w. auto.
  - intros vs body m r He (a & b & c & d & -> & Ha & Hy & Hz & Hu).
    destruct He as (w1 & t & Hw1 & -> & w2 & w2' & t2 & Hw2 & Hw2' & -> & w3 & w3' & t3 & Hw3 & Hw3' & -> & w4 & w4' & w & Hw4 & Hw4' & -> & Hw).
    exists w. split; [exact Hw|]. unfold v2_positional. change (blit ",") with [","]. assoc.
    assert (forall w r, ws w -> stop (w ++ "," :: r)) as Hst by (intros; apply stop_ws; [assumption|cbn; tauto]).
    rewrite (seq_elem_complete _ _ _ Hb true w1 [] a _ _ Hw1 ws_nil Ha) by auto. cbn [bind].
    rewrite (seq_elem_complete _ _ _ Hm false w2 w2' b _ _ Hw2 Hw2' Hy) by auto. cbn [bind].
    rewrite (seq_elem_complete _ _ _ Hl false w3 w3' c _ _ Hw3 Hw3' Hz) by auto. cbn [bind].
    rewrite (seq_elem_complete _ _ _ Hk false w4 w4' d _ _ Hw4 Hw4' Hu) by (apply stop_ws; [exact Hw|cbn; tauto]). cbn [bind].
    destruct m; reflexivity.
Qed.
Lemma nullable_iff {A} ms name (Q : A -> bytes -> Prop) o : nullable ms name Q o <->
  exists oo, field ms name (option_text Q) oo /\ or_none oo = o.
Proof.
  unfold nullable. split.
  - intros [H|[-> H]]; [exists (Some o)|exists None]; auto.
  - intros ([o'|] & H & <-); auto.
Qed.
Lemma v2_doc_iff w t : v2_doc_text C w t <->
    (exists ms s, object_text ms t /\ steps _ v2_step v2_init ms s /\ v2_finish s = Ok w) \/
    (exists vs, array_text vs t /\ v2_positions w vs).
Proof.
  unfold v2_doc_text, v2_positions. split; (intros [H|H]; [left|right]).
  - destruct H as (ms & Ho & Hi & H1 & H2 & H3 & H4). apply nullable_iff in H2 as (om & H2 & E2). apply nullable_iff in H3 as (od & H3 & E3).
    exists ms, {| s_seed := Some (w_seed w); s_mnemonic := om; s_dictionary := od; s_keys := Some (w_keys w) |}.
    split; [exact Ho|]. split; [apply v2_steps; auto|]. cbn. rewrite E2, E3. destruct w; reflexivity.
  - destruct H as (a & b & c & d & Ha & H). exists [a; b; c; d]. split; [exact Ha|]. exists a, b, c, d. auto.
  - destruct H as (ms & s & Ho & Hs & E). apply v2_steps in Hs as (Hi & H1 & H2 & H3 & H4). destruct s as [ss sm sd sk]. cbn in *.
    destruct ss as [x|]; [|discriminate]. destruct sk as [y|]; [|discriminate]. injection E as <-. exists ms. cbn.
    split; [exact Ho|]. split; [exact Hi|]. split; [exact H1|]. split; [apply nullable_iff; eauto|]. split; [apply nullable_iff; eauto|exact H4].
  - destruct H as (vs & Ha & a & b & c & d & -> & H). exists a, b, c, d. auto.
Qed.
Lemma reads_v2 : reads (parse_v2 C) (v2_doc_text C).
Proof.
  destruct reads_v2_raw as (Hs & Hc & Hst). split; [|split].
  - intros l a r H. apply Hs in H as (w & v & Hw & E & Hq). exists w, v. split; [exact Hw|]. split; [exact E|]. now apply v2_doc_iff.
  - intros w v r a Hw Hq Hr. apply Hc; [exact Hw|now apply v2_doc_iff|exact Hr].
  - intros a v Hq. apply (Hst a). now apply v2_doc_iff.
Qed.

(** ** The functions *)
Theorem envelope_exact b v :
  versioned_from_bytes C b = Ok v <-> whole (envelope_text C (version_num (v_version v)) (v_data v)) b.
Proof. apply (from_slice_iff _ _ b v reads_versioned). Qed.
Theorem document_exact v w : get_data C v = Ok w <->
  match v_version v with
  | V1 => whole (v1_doc_text C (w_keys w)) (v_data v) /\ w_seed w = None /\ w_mnemonic w = None /\ w_dictionary w = None
  | V2 => whole (v2_doc_text C w) (v_data v)
  end.
Proof.
  unfold get_data. destruct (v_version v).
  - split.
    + destruct (from_slice (parse_v1 C) (v_data v)) as [m| | |] eqn:E; try discriminate. cbn [bind]. intros H. injection H as <-.
      apply (from_slice_iff _ _ _ _ reads_v1) in E. auto.
    + intros (H & E1 & E2 & E3). apply (from_slice_iff _ _ _ _ reads_v1) in H. rewrite H. cbn [bind]. unfold from_v1.
      destruct w as [ws wm wd wk]. cbn in *. now subst.
  - apply (from_slice_iff _ _ _ _ reads_v2).
Qed.

End Config.
