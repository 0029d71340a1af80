(** Theorems about raw arguments. *)
From Coq Require Import Lia.
From Verif Require Import Base Str Prims Dict KeyPath Errors FMap Data Keys Keychain Manager Features Display Ffi FfiSpec FfiCallSpec
  FfiFacts FfiTheorems Raw RawSpec RawFacts.

(** ** Valid arguments *)
Theorem slice_exact E h c p len :
  (exists b, (readable h c p len b /\ forall b', readable h c p len b' -> b' = b) /\ slice (E := E) h c p len = Ok b) \/
  ((forall b, ~ readable h c p len b) /\ slice (E := E) h c p len = Undef).
Proof.
  destruct (slice_spec h c (E := E) p len) as [(b & Hb & Es)|H]; [left|now right].
  exists b. split; [split; [exact Hb|]|exact Es]. intros b' Hb'. now apply (readable_unique h c p len).
Qed.

Theorem string_exact E h c p :
  (exists b, (terminated h c p b /\ forall b', terminated h c p b' -> b' = b) /\ c_string (E := E) h c p = Ok b) \/
  ((forall b, ~ terminated h c p b) /\ c_string (E := E) h c p = Undef).
Proof.
  destruct (string_spec h c (E := E) p) as [(b & Hb & Es)|H]; [left|now right].
  exists b. split; [split; [exact Hb|]|exact Es]. intros b' Hb'. now apply (terminated_unique h c p).
Qed.

Theorem leads_strings h c t (a : raw_api t) (a' : api t) : leads h c a a' -> c_strings a'.
Proof.
  intros H. destruct H; cbn [c_strings]; unfold no_nul; auto;
    repeat match goal with H : terminated _ _ _ _ |- _ => destruct H as [H _] end; auto.
Qed.

Section P.
Variable P : prims.
Hypothesis HP : prims_ok P.
Variable C : data_config.
Variable T : texts.
Variable bd : build.

Theorem raw_null t (a : raw_api t) out err e s h c : out = None \/ err = None ->
  raw_entry P C T bd a out err e s h c = Undef.
Proof. intros [->| ->]; unfold raw_entry; cbn [reference bind]; [reflexivity|now destruct out]. Qed.

Lemma first_bad_unique s h c l x y : first_bad s h c l x -> first_bad s h c l y -> x = y.
Proof.
  induction l as [|z l IH]; intros (pre & post & E & Hp & Hx) (pre' & post' & E' & Hp' & Hy).
  - destruct pre; discriminate.
  - destruct pre as [|p pre], pre' as [|p' pre']; cbn in E, E'; injection E as -> E; injection E' as E1 E'; subst.
    + congruence.
    + inversion_clear Hp'. contradiction.
    + inversion_clear Hp. contradiction.
    + inversion_clear Hp. inversion_clear Hp'. apply IH; [exists pre, post|exists pre', post']; auto.
Qed.

Lemma bad_one_way s h c x : look_undefined s h c x -> look_panics s h c x -> False.
Proof.
  destruct x; cbn; try tauto.
  - intros (m & -> & Hn & _) (m' & [= <-] & E). contradiction.
  - intros (m & -> & Hn & _) (m' & [= <-] & E). contradiction.
  - intros H (b & Hb & _). exact (H b Hb).
Qed.

Lemma bad_body t (a : raw_api t) e s h c x : first_bad s h c (looks a) x ->
  (look_undefined s h c x -> raw_body P C bd a s e h c = Undef) /\
  (look_panics s h c x -> raw_body P C bd a s e h c = Panic).
Proof.
  intros Hx. destruct (raw_cases P C bd s h c a e) as [(y & Hy & Hu & E)|[(y & Hy & Hu & E)|(Hf & _)]].
  - rewrite (first_bad_unique _ _ _ _ _ _ Hx Hy). split; [auto|]. intros Hp. destruct (bad_one_way _ _ _ _ Hu Hp).
  - rewrite (first_bad_unique _ _ _ _ _ _ Hx Hy). split; [|auto]. intros Hp. destruct (bad_one_way _ _ _ _ Hp Hu).
  - exfalso. destruct Hx as (pre & post & E & _ & Hn). rewrite E in Hf. apply Forall_app in Hf as [_ Hf].
    inversion_clear Hf. contradiction.
Qed.

Theorem raw_undefined t (a : raw_api t) out err e s h c : reached P C T bd (s, h) -> env_ok e ->
  (forall a', leads h c a a' -> api_ok a') ->
  (raw_entry P C T bd a out err e s h c = Undef <->
   out = None \/ err = None \/ exists x, first_bad s h c (looks a) x /\ look_undefined s h c x).
Proof.
  intros Hr He Ha. apply (reached_inv P HP) in Hr. split.
  - destruct out as [out|]; [|auto]. destruct err as [err|]; [|auto]. intros E. right. right.
    destruct (raw_cases P C bd s h c a e) as [(y & Hy & Hu & _)|[(y & Hy & Hu & Eb)|(Hf & a' & Hl & _)]]; [eauto|exfalso..].
    + unfold raw_entry in E. cbn [reference bind] in E. rewrite Eb in E. cbn [handle] in E. unfold error_panic in E.
      destruct (error_made (env_panic e) EPanic h) as [[_ H]|(_ & p & h' & H & _)]; cbv zeta in H; rewrite H in E; discriminate.
    + rewrite (leads_entry P C T bd h c t a a' out err s e Hl) in E.
      pose proof (entry_cases P HP C T bd t a' out err e s h Hr (Ha a' Hl) He) as H.
      destruct (body P C bd a' s e h) as [[x h']|ke| |].
      * destruct H. congruence.
      * destruct H as [[_ H]|(_ & p & h' & H & _)]; congruence.
      * destruct H as [[_ H]|(_ & p & h' & H & _)]; congruence.
      * exact H.
  - intros [H|[H|(x & Hx & Hu)]]; [apply raw_null; auto..|].
    unfold raw_entry. destruct out as [out|]; [|reflexivity]. destruct err as [err|]; [|reflexivity]. cbn [reference bind].
    now rewrite (proj1 (bad_body t a e s h c x Hx) Hu).
Qed.

Theorem raw_refused t (a : raw_api t) out err e s h c x : first_bad s h c (looks a) x -> look_panics s h c x ->
  ~ In x00 (utf8 (env_panic e)) ->
  exists p s' h', raw_entry P C T bd a (Some out) (Some err) e s h c = Ok (false, s', h') /\
    assigned s TError err p s' /\ error_code (e_type p) = (-1)%Z /\ points_to_text h' (e_message p) (utf8 (env_panic e)).
Proof.
  intros Hx Hp Hn. unfold raw_entry. cbn [reference bind]. rewrite (proj2 (bad_body t a e s h c x Hx) Hp).
  cbn [handle]. unfold error_panic.
  destruct (error_made (env_panic e) EPanic h) as [[H _]|(_ & p & h' & E & Et & Ht)]; [contradiction|]. cbv zeta in E. rewrite E.
  cbn [bind response]. exists p, (upd s TError err p), h'. split; [reflexivity|]. split; [apply upd_assigned|].
  split; [now rewrite Et|exact Ht].
Qed.

Lemma raw_step_plain x s h c : raw_permitted x (s, h, c) ->
  (exists x', permitted x' (s, h) /\ (raw_careful x (s, h, c) -> careful x' (s, h)) /\
     rmap fst (raw_run_step P C T bd x (s, h, c)) = run_step P C T bd x' (s, h)) \/
  (exists c', raw_run_step P C T bd x (s, h, c) = Ok (s, h, c')).
Proof.
  destruct x as [e [t a out err|t v|i b|i]]; cbn [raw_permitted raw_careful raw_run_step snd fst]; intros [He H].
  - destruct H as (Ho & Hr & a' & Hl & Ha). left. destruct out as [out|]; [|congruence]. destruct err as [err|]; [|congruence].
    exists (e, Call a' out err). split; [split; [exact He|exact Ha]|]. split; [exact (fun H => H)|].
    rewrite (leads_entry P C T bd h c t a a' out err s e Hl). cbn [run_step snd fst].
    destruct (entry P C T bd a' out err e s h) as [[[b s'] h']| | |]; reflexivity.
  - destruct H as (v' & -> & H). left. exists (e, Delete t v'). split; [split; [exact He|]; cbn [snd fst]; now destruct t|].
    split; [exact (fun H => H)|]. cbn [run_step snd fst reference bind].
    destruct (delete t v' s h) as [[s' h']| | |]; reflexivity.
  - right. eauto.
  - right. eauto.
Qed.

Theorem raw_plain l : forall st, raw_along P C T bd raw_permitted l st ->
  exists l', along P C T bd permitted l' (fst st) /\
    (raw_along P C T bd raw_careful l st -> along P C T bd careful l' (fst st)) /\
    rmap fst (raw_run P C T bd l st) = run P C T bd l' (fst st).
Proof.
  induction l as [|x l IH]; intros [[s h] c] H.
  - exists []. repeat split.
  - destruct H as [Hx Hl]. cbn [raw_run raw_along fst].
    destruct (raw_step_plain x s h c Hx) as [(x' & Hp & Hc & E)|(c' & E)].
    + destruct (raw_run_step P C T bd x (s, h, c)) as [st'|[]| |] eqn:Er; cbn [bind rmap] in *.
      * destruct (IH st' (Hl st' eq_refl)) as (l' & Hp' & Hc' & E'). exists (x' :: l'). cbn [along run]. rewrite <- E.
        split; [split; [exact Hp|intros st'' [= <-]; exact Hp']|]. split; [|cbn [bind]; exact E'].
        intros [H1 H2]. split; [now apply Hc|]. intros st'' [= <-]. apply Hc'. now apply H2.
      * exists [x']. cbn [along run]. rewrite <- E. split; [split; [exact Hp|discriminate]|]. split; [|reflexivity].
        intros [H1 _]. split; [now apply Hc|discriminate].
      * exists [x']. cbn [along run]. rewrite <- E. split; [split; [exact Hp|discriminate]|]. split; [|reflexivity].
        intros [H1 _]. split; [now apply Hc|discriminate].
    + rewrite E in Hl |- *. cbn [bind]. destruct (IH (s, h, c') (Hl _ eq_refl)) as (l' & Hp' & Hc' & E').
      exists l'. split; [exact Hp'|]. split; [|exact E']. intros [_ H2]. apply Hc'. now apply H2.
Qed.

Theorem raw_program l : raw_along P C T bd raw_permitted l raw_start ->
  raw_run P C T bd l raw_start <> Undef /\
  forall s h c, raw_run P C T bd l raw_start = Ok (s, h, c) -> reached P C T bd (s, h).
Proof.
  intros H. destruct (raw_plain l raw_start H) as (l' & Hp & _ & E). cbn [raw_start fst] in *.
  destruct (program_safe P HP C T bd l' Hp) as [Hu _]. split.
  - intros Eu. rewrite Eu in E. cbn in E. congruence.
  - intros s h c Er. rewrite Er in E. exists l'. split; [exact Hp|]. now rewrite <- E.
Qed.

Theorem raw_no_leak l s h c : raw_along P C T bd raw_permitted l raw_start -> raw_along P C T bd raw_careful l raw_start ->
  raw_run P C T bd l raw_start = Ok (s, h, c) ->
  (forall t v, refs h t (s t v) = []) -> live h = [].
Proof.
  intros H Hc Er. destruct (raw_plain l raw_start H) as (l' & Hp & Hc' & E). rewrite Er in E. cbn [rmap fst raw_start] in *.
  exact (proj2 (no_leak P HP C T bd l' (s, h) Hp (Hc' Hc) (eq_sym E))).
Qed.

(** ** What the library handed out *)
Lemma readable_whole h c i b : get i (live h) = Some (BBytes b) -> readable h c (RLib i 0) (N.of_nat (length b)) b.
Proof.
  intros E. split; [reflexivity|right]. exists b, 0, [], []. split; [now apply pl_bytes|].
  split; [now rewrite app_nil_r|reflexivity].
Qed.

Lemma terminated_whole h c i b : ~ In x00 b -> get i (live h) = Some (BText b) -> terminated h c (RLib i 0) b.
Proof.
  intros Hn E. split; [exact Hn|]. exists (b ++ [x00]), 0, [], []. split; [now apply pl_text|]. split; reflexivity.
Qed.

Theorem data_readable h c d b : holds_data h d b -> readable h c (raw_of (d_ptr d)) (d_len d) b.
Proof.
  intros [-> H]. destruct (d_ptr d) as [| |i]; [destruct H|..].
  - subst b. split; [reflexivity|now left].
  - now apply readable_whole.
Qed.

Lemma data_ok_readable h c d : data_ok h d -> d_ptr d <> Null -> exists b, readable h c (raw_of (d_ptr d)) (d_len d) b.
Proof.
  unfold data_ok. intros H Hn. destruct (d_ptr d) as [| |i] eqn:E; [congruence|..].
  - exists []. rewrite H. split; [reflexivity|now left].
  - destruct H as (b & Hb & ->). exists b. now apply readable_whole.
Qed.

Theorem handed_back s h c : reached P C T bd (s, h) ->
  (forall v, d_ptr (s TData v) = Null \/ exists b, readable h c (raw_of (d_ptr (s TData v))) (d_len (s TData v)) b) /\
  (forall v i es n d, k_ptr (s TBackup v) = At i -> get i (live h) = Some (BBackup es) -> In (n, d) es ->
     d_ptr d = Null \/ exists b, readable h c (raw_of (d_ptr d)) (d_len d) b) /\
  (forall v, refs h TString (s TString v) <> [] -> exists b, terminated h c (raw_of (s TString v)) b) /\
  (forall v, i_mnemonic (s TInfo v) = Null \/ exists b, terminated h c (raw_of (i_mnemonic (s TInfo v))) b) /\
  (forall v, e_message (s TError v) = Null \/ exists b, terminated h c (raw_of (e_message (s TError v))) b) /\
  (forall p b, points_to_text h p b -> terminated h c (raw_of p) b).
Proof.
  intros Hr. apply (reached_inv P HP) in Hr. destruct Hr as [Hh Hv _]. cbn [fst snd] in *.
  assert (forall i b, get i (live h) = Some (BText b) -> terminated h c (RLib i 0) b) as Ht.
  { intros i b E. apply terminated_whole; [|exact E]. exact (proj2 (proj2 (Hh i _ E))). }
  assert (forall p, text_ok h p -> p = Null \/ exists b, terminated h c (raw_of p) b) as Ht'.
  { intros p H. unfold text_ok in H. destruct p as [| |i]; [now left|destruct H|]. destruct H as (b & E). right. exists b. now apply Ht. }
  split; [|split; [|split; [|split; [|split]]]].
  - intros v. specialize (Hv TData v). cbn [val_ok] in Hv.
    destruct (d_ptr (s TData v)) as [| |i] eqn:E; [now left|right; rewrite <- E..];
      apply data_ok_readable; auto; rewrite E; discriminate.
  - intros v i es n d Ek Ei Hin. specialize (Hv TBackup v). cbn [val_ok] in Hv. rewrite Ek in Hv.
    destruct Hv as (es' & Ei' & _ & Hf). assert (es' = es) as -> by congruence.
    rewrite Forall_forall in Hf. specialize (Hf _ Hin). cbn [snd] in Hf.
    destruct (d_ptr d) as [| |j] eqn:E; [now left|right; rewrite <- E..];
      apply data_ok_readable; auto; rewrite E; discriminate.
  - intros v Hne. specialize (Hv TString v). cbn [val_ok refs] in *.
    destruct (s TString v) as [| |i]; [now cbn in Hne|now cbn in Hne|]. cbn [read] in Hne. destruct Hv as [_ [Hv|(b & E)]].
    + rewrite Hv in Hne. congruence.
    + exists b. now apply Ht.
  - intros v. apply Ht'. exact (Hv TInfo v).
  - intros v. apply Ht'. exact (Hv TError v).
  - intros p b (i & -> & E). now apply Ht.
Qed.

(** ** Pointers to nothing *)
Lemma no_place_dead h c i off all o : get i (live h) = None -> ~ place h c (RLib i off) all o.
Proof. intros E H. inversion H; congruence. Qed.

Theorem null_unreadable h c len b : ~ readable h c RNull len b /\ ~ terminated h c RNull b.
Proof.
  split.
  - intros (_ & [[H _]|(all & off & pre & post & H & _)]); [discriminate|inversion H].
  - intros (_ & all & off & pre & post & H & _). inversion H.
Qed.

Lemma dead_unreadable h c i off len b : get i (live h) = None ->
  ~ readable h c (RLib i off) len b /\ ~ terminated h c (RLib i off) b.
Proof.
  intros E. split.
  - intros (_ & [[H _]|(all & o & pre & post & H & _)]); [discriminate|now apply no_place_dead in H].
  - intros (_ & all & o & pre & post & H & _). now apply no_place_dead in H.
Qed.

Theorem released t v s h s' h' i off len b c : reached P C T bd (s, h) ->
  (t = TString -> refs h t (s t v) <> []) -> (t = TNetworks -> refs h t (s t v) = []) ->
  delete t v s h = Ok (s', h') -> In i (refs h t (s t v)) ->
  ~ readable h' c (RLib i off) len b /\ ~ terminated h' c (RLib i off) b.
Proof.
  intros Hr Hs Hn E Hi. destruct (delete_exact P HP C T bd t v s h Hr Hs Hn) as (s1 & h1 & E1 & Hg & _).
  rewrite E in E1. injection E1 as <- <-. apply dead_unreadable. rewrite Hg.
  destruct (in_dec N.eq_dec i (refs h t (s t v))); [reflexivity|contradiction].
Qed.

(** What others hold stays as it is. *)
Theorem kept t v s h s' h' i off len b c : reached P C T bd (s, h) ->
  (t = TString -> refs h t (s t v) <> []) -> (t = TNetworks -> refs h t (s t v) = []) ->
  delete t v s h = Ok (s', h') -> ~ In i (refs h t (s t v)) ->
  (readable h c (RLib i off) len b <-> readable h' c (RLib i off) len b) /\
  (terminated h c (RLib i off) b <-> terminated h' c (RLib i off) b).
Proof.
  intros Hr Hs Hn E Hi. destruct (delete_exact P HP C T bd t v s h Hr Hs Hn) as (s1 & h1 & E1 & Hg & _).
  rewrite E in E1. injection E1 as <- <-. specialize (Hg i).
  destruct (in_dec N.eq_dec i (refs h t (s t v))) as [|_]; [contradiction|].
  assert (forall all o, place h c (RLib i off) all o <-> place h' c (RLib i off) all o) as Hp.
  { intros all o. split; intros H; inversion H; subst; (apply pl_bytes + apply pl_text); congruence. }
  unfold readable, terminated. split.
  - split; intros (Hl & [Ha|(all & o & pre & post & H & Hb)]); split; auto; right;
      exists all, o, pre, post; (split; [now apply Hp|exact Hb]).
  - split; intros (Hl & all & o & pre & post & H & Hb); split; auto;
      exists all, o, pre, post; (split; [now apply Hp|exact Hb]).
Qed.
End P.

(** ** The program's own memory *)
Lemma get_filter_out {V} i j (c : fmap V) :
  get j (filter (fun x => negb (fst x =? i)) c) = if j =? i then None else get j c.
Proof.
  induction c as [|[k v] c IH]; [now destruct (j =? i)|]. cbn [filter fst].
  destruct (N.eqb_spec k i) as [->|Nk]; cbn [negb].
  - rewrite IH. cbn [get]. now destruct (j =? i).
  - cbn [get]. rewrite IH. destruct (N.eqb_spec j k) as [->|_]; [|reflexivity].
    destruct (N.eqb_spec k i) as [E|_]; [contradiction|reflexivity].
Qed.
Theorem raw_own P C T bd e x s h c s' h' c' : raw_run_step P C T bd (e, x) (s, h, c) = Ok (s', h', c') ->
  match x with
  | RWrite i b => s' = s /\ h' = h /\ get i c' = Some b /\ forall j, j <> i -> get j c' = get j c
  | RRelease i => s' = s /\ h' = h /\ get i c' = None /\ forall j, j <> i -> get j c' = get j c
  | _ => c' = c
  end.
Proof.
  destruct x as [t a out err|t v|i b|i]; unfold raw_run_step; cbn [fst snd]; intros H.
  - destruct (raw_entry P C T bd a out err e s h c) as [[[? ?] ?]| | |]; cbn [bind] in H; congruence.
  - destruct (reference v) as [?| | |]; cbn [bind] in H; try discriminate.
    destruct (delete _ _ _ _) as [[? ?]| | |]; cbn [bind] in H; congruence.
  - injection H as <- <- <-. split; [reflexivity|]. split; [reflexivity|]. cbn [get]. rewrite N.eqb_refl.
    split; [reflexivity|]. intros j Hj. rewrite get_filter_out. destruct (N.eqb_spec j i); [contradiction|reflexivity].
  - injection H as <- <- <-. split; [reflexivity|]. split; [reflexivity|]. rewrite get_filter_out, N.eqb_refl.
    split; [reflexivity|]. intros j Hj. rewrite get_filter_out. destruct (N.eqb_spec j i); [contradiction|reflexivity].
Qed.
