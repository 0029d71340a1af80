From Coq Require Import Strings.String.
From Verif Require Import Base BaseFacts Str Bip39 Dict KeyPath Errors FMap FMapFacts Base64 Json JsonFacts Data DataSpec.
Open Scope list_scope.

(** * Texts *)

Lemma escape_json_char b : escape b = json_char b.
Proof. destruct b; reflexivity. Qed.

Lemma flat_escape l : flat_map escape l = flat_map json_char l.
Proof. induction l as [|b l IH]; cbn [flat_map]; [reflexivity|]. now rewrite IH, escape_json_char. Qed.

Lemma escape_plain b : (b64_val b <> None \/ b = b64_pad) -> escape b = [b].
Proof.
  destruct b; try (intros _; reflexivity); intros [H|H]; try discriminate H; now destruct H.
Qed.

Lemma b64_plain l : flat_map escape (b64_encode l) = b64_encode l.
Proof.
  assert (Forall (fun b => escape b = [b]) (b64_encode l)) as H.
  { induction l as [|a|a b|a b c l IH] using list_ind3; cbn [b64_encode];
      repeat first [assumption | constructor]; apply escape_plain; auto;
      left; rewrite b64_val_sym; try discriminate;
      auto using b64_r1, b64_r2, b64_r2', b64_r3, b64_r3', b64_r4. }
  induction H as [|b t Hb _ IH]; [reflexivity|]. cbn [flat_map]. now rewrite Hb, IH.
Qed.

Lemma print_b64_text b : print_b64 b = quoted (b64_encode b).
Proof. unfold print_b64, print_str, quoted. rewrite b64_plain. reflexivity. Qed.

Lemma print_entry_text e :
  (let '(n, k) := e in print_seq [print_num n; print_b64 k]) = entry_text e.
Proof.
  destruct e as [n k]. unfold print_seq, entry_text. cbn [commas fst snd].
  rewrite print_b64_text. unfold print_num. cbn [blit list_byte_of_string list_ascii_of_string]. 
  change (blit "[") with ["["%byte]. change (blit ",") with [","%byte]. change (blit "]") with ["]"%byte].
  cbn [app]. now rewrite <- app_assoc.
Qed.

Lemma entries_text_commas l :
  commas (List.map (fun '(n, k) => print_seq [print_num n; print_b64 k]) l) = entries_text l.
Proof.
  induction l as [|e l IH]; [reflexivity|].
  cbn [List.map entries_text]. rewrite print_entry_text.
  destruct l as [|e' l]; [reflexivity|].
  rewrite <- IH. reflexivity.
Qed.

(** The documents with their entries listed in any order. *)
Definition v1_doc (l : list (N * bytes)) : bytes :=
  print_struct [print_field (blit "keys") (print_key_map l)].
Definition v2_doc (w : wallet) (l : list (N * bytes)) : bytes :=
  print_struct
    [print_field (blit "seed") (print_opt print_b64 (w_seed w));
     print_field (blit "mnemonic") (print_opt (fun s => print_str (utf8 s)) (w_mnemonic w));
     print_field (blit "dictionary")
       (print_opt (fun l => print_str (utf8 (language_name l))) (w_dictionary w));
     print_field (blit "keys") (print_key_map l)].

Lemma v1_doc_text l : v1_doc l = v1_text l.
Proof.
  unfold v1_doc, v1_text, print_struct, print_key_map. cbn [commas].
  unfold print_field, print_seq. rewrite entries_text_commas. cbn -[entries_text].
  now rewrite <- app_assoc.
Qed.

Lemma v2_doc_text w l : v2_doc w l = wallet_text w l.
Proof.
  unfold v2_doc, wallet_text, print_struct, print_key_map. cbn [commas].
  unfold print_field, print_seq. rewrite entries_text_commas.
  assert (print_opt print_b64 (w_seed w) = seed_text (w_seed w)) as ->.
  { destruct (w_seed w); cbn [print_opt seed_text]; [apply print_b64_text|reflexivity]. }
  assert (print_opt (fun s => print_str (utf8 s)) (w_mnemonic w) = mnemonic_text (w_mnemonic w)) as ->.
  { destruct (w_mnemonic w); cbn [print_opt mnemonic_text]; [|reflexivity].
    unfold print_str. now rewrite flat_escape. }
  assert (print_opt (fun l => print_str (utf8 (language_name l))) (w_dictionary w)
    = dictionary_text (w_dictionary w)) as ->.
  { destruct (w_dictionary w) as [[]|]; reflexivity. }
  cbn -[entries_text seed_text mnemonic_text dictionary_text]. f_equal.
  repeat (rewrite <- ?app_assoc, <- ?app_comm_cons; cbn [app]). reflexivity.
Qed.

Lemma to_bytes_envelope v : versioned_to_bytes v = envelope (version_num (v_version v)) (v_data v).
Proof.
  unfold versioned_to_bytes, envelope, print_struct. cbn [commas]. unfold print_field.
  rewrite print_b64_text. cbn -[quoted utf8 dec b64_encode print_num version_num]. unfold print_num.
  repeat (rewrite <- ?app_assoc, <- ?app_comm_cons; cbn [app]). reflexivity.
Qed.

(** * Reading back *)
Section P.
Variable C : data_config.

Lemma parse_b64_print b t : parse_b64 C (print_b64 b ++ t) = Ok (b, t).
Proof.
  unfold parse_b64, print_b64.
  rewrite (parse_str_print _ _ _ (of_utf8_ascii _ (b64_encode_ascii b))). cbn [bind].
  rewrite (utf8_ascii _ (b64_encode_ascii b)), b64_round_trip. reflexivity.
Qed.

Lemma u32_small n : is_u32 n -> (n < 10 ^ 20)%N.
Proof. unfold is_u32. intros H. eapply N.le_lt_trans; [exact H|reflexivity]. Qed.

Lemma after_num_head b t : byte_eqb b "." = false -> byte_eqb b "e" = false -> byte_eqb b "E" = false ->
  is_digit b = false -> after_num (b :: t).
Proof. intros H1 H2 H3 H4. split; [|exact H4]. cbn. now rewrite H1, H2, H3. Qed.

Lemma after_num_comma t : after_num (","%byte :: t).
Proof. now apply after_num_head. Qed.

Definition print_entry (e : N * bytes) : bytes :=
  let '(n, k) := e in print_seq [print_num n; print_b64 k].

Lemma parse_entry_print e t : is_u32 (fst e) -> parse_entry C (print_entry e ++ t) = Ok (e, t).
Proof.
  destruct e as [n k]. cbn [fst]. intros Hn. unfold print_entry, print_seq. cbn [commas app].
  unfold parse_entry. rewrite expect_hit by reflexivity. cbn [bind].
  destruct (print_num_head n) as (b & l & E & Hd). specialize (Hd (u32_small n Hn)).
  destruct (is_digit_facts b Hd) as (Hw & _ & Hb & Hc).
  unfold seq_elem at 1. rewrite <- !app_assoc.
  rewrite (seq_next_first _ _ _ _ E Hw Hb). cbn [bind].
  rewrite parse_uint_print; [|exact (u32_small n Hn)|exact Hn|apply after_num_comma]. cbn [bind].
  cbn [app]. unfold seq_elem.
  erewrite (seq_next_comma (print_b64 k)) by reflexivity. cbn [bind].
  rewrite parse_b64_print. cbn [bind app]. rewrite expect_hit by reflexivity. reflexivity.
Qed.

Lemma parse_key_map_print l m t : wf_map m -> Forall (fun e => is_u32 (fst e)) m -> Permutation l m ->
  parse_key_map C (print_key_map l ++ t) = Ok (m, t).
Proof.
  intros Hm Hu Hp. unfold parse_key_map, print_key_map.
  change (fun '(n, k) => print_seq [print_num n; print_b64 k]) with print_entry.
  rewrite (parse_vec_print (parse_entry C) print_entry).
  - cbn [bind]. now rewrite (of_list_perm l m Hm Hp).
  - intros [n k]. eexists _, _. split; [reflexivity|split; reflexivity].
  - intros e t' Hin. apply parse_entry_print. rewrite Forall_forall in Hu. apply Hu.
    exact (Permutation_in _ Hp Hin).
Qed.

Lemma parse_language_print l t : parse_language (print_str (utf8 (language_name l)) ++ t) = Ok (l, t).
Proof. destruct l; reflexivity. Qed.

Lemma parse_opt_print {A} (p : parser A) (pr : A -> bytes) (o : option A) t :
  (forall a, o = Some a -> value_head (pr a) /\ forall t, p (pr a ++ t) = Ok (a, t)) ->
  parse_option p (print_opt pr o ++ t) = Ok (o, t).
Proof.
  destruct o as [a|]; cbn [print_opt].
  - intros H. destruct (H a eq_refl) as [Hh Hp]. apply parse_option_some; [exact Hh|apply Hp].
  - intros _. apply (parse_option_null p t).
Qed.

Lemma parse_v1_doc m l t : Permutation l m -> wf_map m -> Forall (fun e => is_u32 (fst e)) m ->
  parse_v1 C (v1_doc l ++ t) = Ok (m, t).
Proof.
  intros Ho Hm Hu. unfold parse_v1, v1_doc, parse_struct, print_struct. cbn [app commas].
  rewrite skip_ws_hit by reflexivity. change (byte_eqb "{" "{") with true. cbv iota.
  rewrite <- app_assoc. cbn [app].
  pose proof (map_loop_step (List.length (print_field (blit "keys") (print_key_map l) ++ "}"%byte :: t))
    (v1_field C) true None (blit "keys") (lit "keys") (print_key_map l) ("}"%byte :: t) eq_refl) as E.
  cbn [sep] in E. cbn [app] in E. rewrite E. clear E.
  unfold v1_field at 1. change (str_eqb (lit "keys") (lit "keys")) with true. cbv iota. cbn [once].
  rewrite (parse_key_map_print _ m _ Hm Hu (Ho)). cbn [bind].
  unfold print_field, print_str. cbn [app List.length].
  rewrite map_loop_end. cbn [bind ok_or]. rewrite expect_hit by reflexivity. reflexivity.
Qed.

Lemma parse_v2_doc w l t : Permutation l (w_keys w) -> wallet_ok w -> parse_v2 C (v2_doc w l ++ t) = Ok (w, t).
Proof.
  intros Ho (Hm & Hu & Hs). unfold parse_v2, v2_doc, parse_struct, print_struct. cbn [app].
  rewrite skip_ws_hit by reflexivity. change (byte_eqb "{" "{") with true. cbv iota.
  rewrite commas_tail. unfold comma_tail. cbn [flat_map]. rewrite app_nil_r.
  set (fs := print_field (blit "seed") _). set (fm := print_field (blit "mnemonic") _).
  set (fd := print_field (blit "dictionary") _). set (fk := print_field (blit "keys") _).
  match goal with |- context [map_loop (S (List.length ?x))] => set (all := x) end.
  assert (exists f, S (List.length all) = S (S (S (S (S f))))) as [f Ef].
  { exists (List.length all - 4)%nat. subst all. rewrite <- !app_assoc, !app_length.
    cbn [app List.length]. rewrite ?app_length. cbn [List.length]. lia. }
  rewrite Ef. subst all. clear Ef.
  replace (((fs ++ (","%byte :: fm) ++ (","%byte :: fd) ++ ","%byte :: fk) ++ ["}"%byte]) ++ t) with
    (sep true ++ fs ++ (sep false ++ fm ++ (sep false ++ fd ++ (sep false ++ fk ++ "}"%byte :: t)))).
  2:{ cbn [sep]. repeat (rewrite <- ?app_assoc, <- ?app_comm_cons; cbn [app]). reflexivity. }
  unfold fs. rewrite (map_loop_step _ _ _ _ (blit "seed") (lit "seed") _ _ eq_refl).
  unfold v2_field at 1.
  change (str_eqb (lit "seed") (lit "seed")) with true. cbv iota. cbn [once v2_init s_seed].
  rewrite parse_opt_print.
  2:{ intros b _. split; [apply value_head_str|]. intros. apply parse_b64_print. }
  cbn [bind].
  unfold fm. rewrite (map_loop_step _ _ _ _ (blit "mnemonic") (lit "mnemonic") _ _ eq_refl).
  unfold v2_field at 1.
  change (str_eqb (lit "mnemonic") (lit "seed")) with false.
  change (str_eqb (lit "mnemonic") (lit "mnemonic")) with true. cbv iota. cbn [once v2_init s_mnemonic].
  rewrite parse_opt_print.
  2:{ intros s E. split; [apply value_head_str|]. intros. apply parse_str_print.
      apply of_utf8_utf8. rewrite E in Hs. exact Hs. }
  cbn [bind].
  unfold fd. rewrite (map_loop_step _ _ _ _ (blit "dictionary") (lit "dictionary") _ _ eq_refl).
  unfold v2_field at 1.
  change (str_eqb (lit "dictionary") (lit "seed")) with false.
  change (str_eqb (lit "dictionary") (lit "mnemonic")) with false.
  change (str_eqb (lit "dictionary") (lit "dictionary")) with true. cbv iota. cbn [once v2_init s_dictionary].
  rewrite parse_opt_print.
  2:{ intros l0 E. split; [apply value_head_str|]. intros. apply parse_language_print. }
  cbn [bind].
  unfold fk. rewrite (map_loop_step _ _ _ _ (blit "keys") (lit "keys") _ _ eq_refl).
  unfold v2_field at 1.
  change (str_eqb (lit "keys") (lit "seed")) with false.
  change (str_eqb (lit "keys") (lit "mnemonic")) with false.
  change (str_eqb (lit "keys") (lit "dictionary")) with false.
  change (str_eqb (lit "keys") (lit "keys")) with true. cbv iota. cbn [once v2_init s_keys].
  rewrite (parse_key_map_print _ _ _ Hm Hu Ho). cbn [bind].
  rewrite map_loop_end. cbn [bind v2_finish s_seed s_keys ok_or s_mnemonic s_dictionary or_none].
  rewrite expect_hit by reflexivity. cbn [bind]. destruct w; reflexivity.
Qed.

(** The envelope with any number in it. *)
Lemma parse_envelope n d : (n < 10 ^ 20)%N ->
  versioned_from_bytes C (envelope n d) =
  if n =? 1 then Ok {| v_version := V1; v_data := d |}
  else if n =? 2 then Ok {| v_version := V2; v_data := d |}
  else Err DMalformed.
Proof.
  intros Hn. unfold envelope. rewrite <- print_b64_text. fold (print_num n).
  unfold versioned_from_bytes, from_slice, parse_versioned, parse_struct.
  set (fv := print_field (blit "version") (print_num n)).
  set (fd := print_field (blit "data") (print_b64 d)).
  replace (blit "{""version"":" ++ _) with ("{"%byte :: sep true ++ fv ++ (sep false ++ fd ++ ["}"%byte])).
  2:{ unfold fv, fd, print_field. cbn -[print_num print_b64].
      repeat (rewrite <- ?app_assoc, <- ?app_comm_cons; cbn [app]). reflexivity. }
  rewrite skip_ws_hit by reflexivity. change (byte_eqb "{" "{") with true. cbv iota.
  match goal with |- context [map_loop (S (List.length ?x))] => set (all := x) end.
  assert (exists f, S (List.length all) = S (S (S f))) as [f Ef].
  { exists (List.length all - 2)%nat. subst all. rewrite !app_length. cbn [sep app List.length].
    rewrite ?app_length. cbn [List.length]. unfold fv, print_field, print_str. cbn [app List.length]. lia. }
  rewrite Ef. subst all. clear Ef.
  unfold fv. rewrite (map_loop_step _ _ _ _ (blit "version") (lit "version") _ _ eq_refl).
  unfold vd_field at 1. change (str_eqb (lit "version") (lit "version")) with true. cbv iota.
  cbn [once fst]. unfold parse_version.
  destruct (N.leb_spec n u16_max) as [Hle|Hgt].
  - rewrite parse_uint_print; [|exact Hn|exact Hle|apply after_num_comma]. cbn [bind].
    assert (forall v, (let* '(s, r) :=
       (let* '(s', l0) := Ok (Some v, @None bytes, sep false ++ fd ++ ["}"%byte]) in
         map_loop (S (S f)) (vd_field C) false s' l0) in
       let* a := vd_finish s in let* '(_, r) := expect "}" r in Ok (a, r)) =
       Ok ({| v_version := v; v_data := d |}, [])) as Hv.
    { intros v. cbn [bind]. unfold fd.
      rewrite (map_loop_step _ _ _ _ (blit "data") (lit "data") _ _ eq_refl).
      unfold vd_field at 1. change (str_eqb (lit "data") (lit "version")) with false.
      change (str_eqb (lit "data") (lit "data")) with true. cbv iota. cbn [once snd fst].
      rewrite parse_b64_print. cbn [bind]. rewrite map_loop_end. cbn [bind vd_finish fst snd ok_or].
      rewrite expect_hit by reflexivity. reflexivity. }
    destruct (n =? 1) eqn:E1; [|destruct (n =? 2) eqn:E2].
    + cbn [bind snd] in *. rewrite Hv. reflexivity.
    + cbn [bind snd] in *. rewrite Hv. reflexivity.
    + reflexivity.
  - pose proof (integer_print n ((sep false ++ fd ++ ["}"%byte])) Hn (after_num_comma _)) as Hi.
    destruct (print_num_head n) as (b & l & E & Hd). specialize (Hd Hn).
    destruct (is_digit_facts b Hd) as (Hw & Hmi & _). unfold parse_uint.
    rewrite E in *. cbn [app] in *. rewrite skip_ws_hit by exact Hw. rewrite Hmi, Hi. cbn [bind].
    assert ((n <=? u16_max)%N = false) as -> by (apply N.leb_gt; exact Hgt).
    cbn [bind bad]. unfold u16_max in Hgt.
    destruct (N.eqb_spec n 1); [lia|]. destruct (N.eqb_spec n 2); [lia|]. reflexivity.
Qed.

Lemma from_slice_exact {A} (p : parser A) b a : (forall t, p (b ++ t) = Ok (a, t)) -> from_slice p b = Ok a.
Proof. intros H. unfold from_slice. specialize (H []). rewrite app_nil_r in H. rewrite H. reflexivity. Qed.

Lemma versioned_round_trip v : versioned_from_bytes C (versioned_to_bytes v) = Ok v.
Proof.
  rewrite to_bytes_envelope, parse_envelope by (destruct (v_version v); reflexivity).
  destruct v as [[] d]; reflexivity.
Qed.

Lemma wallet_read w l : Permutation l (w_keys w) -> wallet_ok w ->
  bind (versioned_from_bytes C (envelope 2 (wallet_text w l))) (get_data C) = Ok w.
Proof.
  intros Hl Hw. rewrite parse_envelope by reflexivity. cbn [N.eqb Pos.eqb bind].
  unfold get_data. cbn [v_version v_data]. rewrite <- v2_doc_text.
  apply from_slice_exact. intros t. now apply parse_v2_doc.
Qed.

Lemma versioned_text o w :
  versioned_to_bytes (versioned_new o w) = envelope 2 (wallet_text w (o _ (w_keys w))).
Proof.
  rewrite to_bytes_envelope. unfold versioned_new. cbn [v_version version_num v_data].
  now rewrite <- v2_doc_text.
Qed.

Lemma wallet_round_trip o w : order_ok o -> wallet_ok w ->
  bind (versioned_from_bytes C (versioned_to_bytes (versioned_new o w))) (get_data C) = Ok w.
Proof. intros Ho Hw. rewrite versioned_text. apply wallet_read; [apply Ho|exact Hw]. Qed.

(** * Every input gets an answer *)

Lemma yields_ok {A B} (p : parser A) (f : A -> B) (Q : A -> Prop) (R : B -> Prop) : yields p Q -> (forall a, Q a -> R (f a)) ->
  yields (fun l => let* '(a, l) := p l in Ok (f a, l)) R.
Proof.
  intros Hp H. apply (yields_map p (fun a l => Ok (f a, l)) Q R Hp).
  intros a Ha l. cbn. split; [lia|auto].
Qed.

Lemma yields_b64 : yields (parse_b64 C) (fun _ => True).
Proof.
  apply (yields_map parse_str (fun s l => match b64_decode (b64_cfg C) (utf8 s) with
    | Some b => Ok (b, l) | None => bad end) valid_str); [apply yields_str|].
  intros s _ l. destruct (b64_decode _ _); cbn; [split; [lia|trivial]|trivial].
Qed.

Lemma yields_ignored {A} (a : A) (Q : A -> Prop) : Q a -> yields (ignored C a) Q.
Proof.
  intros Ha l. unfold ignored. pose proof (ignore_value_total (json_cfg C) l) as H.
  destruct (ignore_value _ l); cbn [bind] in *; try assumption. split; assumption.
Qed.

Lemma yields_once {A} (o : option A) p (Q : A -> Prop) : yields p Q -> yields (once o p) Q.
Proof. intros H. unfold once. destruct o; [apply yields_bad|exact H]. Qed.

Lemma yields_variant : yields parse_variant (fun _ => True).
Proof.
  apply (yields_map parse_str (fun s l => match language_of_name s with
    | Some lang => Ok (lang, l) | None => Err (DUnknownVariant s) end) valid_str); [apply yields_str|].
  intros s _ l. destruct (language_of_name s); cbn; [split; [lia|trivial]|trivial].
Qed.

Lemma yields_language : yields parse_language (fun _ => True).
Proof.
  intros l. unfold parse_language. pose proof (skip_ws_length l) as Hw.
  destruct (skip_ws l) as [|b r]; [exact I|]. cbn [List.length] in Hw.
  destruct (byte_eqb b "{").
  - pose proof (yields_variant r) as H1. destruct (parse_variant r) as [[a r1]| | |]; cbn [bind]; try assumption.
    pose proof (yields_expect ":" r1) as H2. destruct (expect ":" r1) as [[x r2]| | |]; cbn [bind]; try assumption.
    pose proof (yields_null r2) as H3. destruct (parse_null r2) as [[y r3]| | |]; cbn [bind]; try assumption.
    pose proof (yields_expect "}" r3) as H4. destruct (expect "}" r3) as [[z r4]| | |]; cbn [bind]; try assumption.
    split; [lia|trivial].
  - destruct (byte_eqb b """"); [|exact I]. apply yields_variant.
Qed.

Lemma yields_entry : yields (parse_entry C) (fun e => is_u32 (fst e)).
Proof.
  unfold parse_entry.
  apply (yields_bind _ (fun _ l => let* '(n, l) := seq_elem true (parse_uint (json_cfg C) u32_max) l in
    let* '(k, l) := seq_elem false (parse_b64 C) l in
    let* '(_, l) := expect "]"%byte l in Ok ((n, k), l)) (fun _ => True)); [apply yields_expect|].
  intros _ _.
  apply (yields_bind _ (fun n l => let* '(k, l) := seq_elem false (parse_b64 C) l in
    let* '(_, l) := expect "]"%byte l in Ok ((n, k), l)) (fun n => n <= u32_max)).
  { apply yields_seq_elem, yields_uint. }
  intros n Hn.
  apply (yields_bind _ (fun k l => let* '(_, l) := expect "]"%byte l in Ok ((n, k), l)) (fun _ => True)).
  { apply yields_seq_elem, yields_b64. }
  intros k _.
  apply (yields_ok _ (fun _ => (n, k)) (fun _ => True)); [apply yields_expect|].
  intros _ _. exact Hn.
Qed.

Definition keys_ok (m : fmap bytes) : Prop := wf_map m /\ Forall (fun e => is_u32 (fst e)) m.

Lemma of_list_keys_ok l : Forall (fun e => is_u32 (fst e)) l -> keys_ok (of_list l).
Proof.
  intros H. split; [apply of_list_wf|].
  apply Forall_forall. intros [n k] Hin. apply (In_get _ (of_list_wf l)) in Hin.
  rewrite get_of_list in Hin. apply get_In, in_rev in Hin.
  rewrite Forall_forall in H. exact (H _ Hin).
Qed.

Lemma yields_key_map : yields (parse_key_map C) keys_ok.
Proof.
  apply (yields_ok (parse_vec (parse_entry C)) of_list (Forall (fun e => is_u32 (fst e)))).
  - apply yields_vec, yields_entry.
  - apply of_list_keys_ok.
Qed.

Lemma yields_v1 : yields (parse_v1 C) keys_ok.
Proof.
  apply (yields_struct _ _ _ _ (fun s => match s with Some m => keys_ok m | None => True end)).
  - intros s k Hs. unfold v1_field. destruct (str_eqb k (lit "keys")).
    + apply (yields_ok _ Some keys_ok); [|auto]. apply yields_once, yields_key_map.
    + now apply yields_ignored.
  - exact I.
  - intros [m|] Hm; cbn; auto.
  - apply yields_seq_elem, yields_key_map.
Qed.

Definition opt_str_ok (o : option str) : Prop := match o with Some s => valid_str s | None => True end.

Lemma yields_v2 : yields (parse_v2 C) wallet_ok.
Proof.
  apply (yields_struct _ _ _ _ (fun s =>
    match s_keys s with Some m => keys_ok m | None => True end /\
    match s_mnemonic s with Some o => opt_str_ok o | None => True end)).
  - intros s k [Hk Hs]. unfold v2_field.
    destruct (str_eqb k (lit "seed")); [|destruct (str_eqb k (lit "mnemonic"));
      [|destruct (str_eqb k (lit "dictionary")); [|destruct (str_eqb k (lit "keys"))]]].
    + apply (yields_map _ _ _ _ (yields_once _ _ _ (yields_option _ _ yields_b64))).
      intros o _ l. cbn. split; [lia|auto].
    + apply (yields_map _ _ _ _ (yields_once _ _ _ (yields_option _ _ yields_str))).
      intros o Ho l. cbn. split; [lia|auto].
    + apply (yields_map _ _ _ _ (yields_once _ _ _ (yields_option _ _ yields_language))).
      intros o _ l. cbn. split; [lia|auto].
    + apply (yields_map _ _ _ _ (yields_once _ _ _ yields_key_map)).
      intros m Hm l. cbn. split; [lia|auto].
    + apply yields_ignored. split; assumption.
  - split; exact I.
  - intros s [Hk Hs]. unfold v2_finish. destruct (s_seed s); cbn [ok_or bind]; [|exact I].
    destruct (s_keys s) as [m|]; cbn [ok_or bind]; [|exact I].
    destruct Hk as [Hm Hu]. split; [exact Hm|]. split; [exact Hu|]. cbn [w_mnemonic].
    destruct (s_mnemonic s) as [[t|]|]; cbn; auto.
  - unfold v2_positional.
    apply (yields_bind _ (fun seed l =>
      let* '(mnemonic, l) := seq_elem false (parse_option parse_str) l in
      let* '(dictionary, l) := seq_elem false (parse_option parse_language) l in
      let* '(keys, l) := seq_elem false (parse_key_map C) l in
      Ok ({| w_seed := seed; w_mnemonic := mnemonic;
             w_dictionary := dictionary; w_keys := keys |}, l)) _ _
      (yields_seq_elem true _ _ (yields_option _ _ yields_b64))). intros seed _.
    apply (yields_bind _ (fun mnemonic l =>
      let* '(dictionary, l) := seq_elem false (parse_option parse_language) l in
      let* '(keys, l) := seq_elem false (parse_key_map C) l in
      Ok ({| w_seed := seed; w_mnemonic := mnemonic;
             w_dictionary := dictionary; w_keys := keys |}, l)) _ _
      (yields_seq_elem false _ _ (yields_option _ _ yields_str))). intros mnemonic Hmn.
    apply (yields_bind _ (fun dictionary l =>
      let* '(keys, l) := seq_elem false (parse_key_map C) l in
      Ok ({| w_seed := seed; w_mnemonic := mnemonic;
             w_dictionary := dictionary; w_keys := keys |}, l)) _ _
      (yields_seq_elem false _ _ (yields_option _ _ yields_language))). intros dictionary _.
    apply (yields_ok _ (fun keys => {| w_seed := seed; w_mnemonic := mnemonic;
             w_dictionary := dictionary; w_keys := keys |}) _ _
      (yields_seq_elem false _ _ yields_key_map)).
    intros m [Hm Hu]. split; [exact Hm|]. split; [exact Hu|exact Hmn].
Qed.

Lemma yields_version : yields (parse_version C) (fun _ => True).
Proof.
  apply (yields_map _ _ _ _ (yields_uint (json_cfg C) u16_max)).
  intros n _ l. destruct (n =? 1); [|destruct (n =? 2)]; cbn; try (split; [lia|]); trivial.
Qed.

Lemma yields_versioned : yields (parse_versioned C) (fun _ => True).
Proof.
  apply (yields_struct _ _ _ _ (fun _ => True)).
  - intros s k _. unfold vd_field.
    destruct (str_eqb k (lit "version")); [|destruct (str_eqb k (lit "data"))].
    + apply (yields_map _ _ _ _ (yields_once _ _ _ yields_version)).
      intros o _ l. cbn. split; [lia|auto].
    + apply (yields_map _ _ _ _ (yields_once _ _ _ yields_b64)).
      intros o _ l. cbn. split; [lia|auto].
    + now apply yields_ignored.
  - exact I.
  - intros [[v|] [d|]] _; cbn; exact I.
  - unfold vd_positional.
    apply (yields_bind _ (fun v l => let* '(d, l) := seq_elem false (parse_b64 C) l in
      Ok ({| v_version := v; v_data := d |}, l)) _ _ (yields_seq_elem true _ _ yields_version)). intros v _.
    apply (yields_ok _ (fun d => {| v_version := v; v_data := d |}) _ _ (yields_seq_elem false _ _ yields_b64)).
    trivial.
Qed.

Lemma versioned_from_bytes_total b :
  match versioned_from_bytes C b with Ok _ | Err _ => True | _ => False end.
Proof. exact (from_slice_total _ _ b yields_versioned). Qed.

Lemma get_data_total v : match get_data C v with Ok w => wallet_ok w | Err _ => True | _ => False end.
Proof.
  unfold get_data. destruct (v_version v).
  - pose proof (from_slice_total _ _ (v_data v) yields_v1) as H.
    destruct (from_slice (parse_v1 C) (v_data v)) as [m| | |]; cbn [bind]; try assumption.
    destruct H as [Hm Hu]. split; [exact Hm|]. split; [exact Hu|exact I].
  - exact (from_slice_total _ _ (v_data v) yields_v2).
Qed.

Lemma v1_read l m : Permutation l m -> keys_ok m ->
  bind (versioned_from_bytes C (envelope 1 (v1_text l))) (get_data C) =
  Ok {| w_seed := None; w_mnemonic := None; w_dictionary := None; w_keys := m |}.
Proof.
  intros Hl [Hm Hu]. rewrite parse_envelope by reflexivity. cbn [N.eqb Pos.eqb bind].
  unfold get_data. cbn [v_version v_data]. rewrite <- v1_doc_text.
  rewrite (from_slice_exact _ _ m); [reflexivity|].
  intros t. now apply parse_v1_doc.
Qed.

Lemma other_version n d : n <= usize_max -> n <> 1 -> n <> 2 ->
  versioned_from_bytes C (envelope n d) = Err DMalformed.
Proof.
  intros H H1 H2. rewrite parse_envelope.
  - destruct (N.eqb_spec n 1); [congruence|]. destruct (N.eqb_spec n 2); [congruence|]. reflexivity.
  - eapply N.le_lt_trans; [exact H|reflexivity].
Qed.

End P.


