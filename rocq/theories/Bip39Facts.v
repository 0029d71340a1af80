From Coq Require Import Strings.String.
From Verif Require Import Base BaseFacts Str StrFacts Prims Bits BitsSpec BitsFacts.
From Verif Require Import Bip39 Bip39Spec.

(** ** Size tables *)
Definition all_types : list Type_ :=
  [Type9Words; Type12Words; Type15Words; Type18Words; Type21Words; Type24Words].

Lemma in_all_types t : In t all_types.
Proof. destruct t; cbn; tauto. Qed.

Lemma from_word_count_ok n t :
  from_word_count n = Ok t <-> n = N.of_nat (mnemonic_count t).
Proof.
  split.
  - intros H. unfold from_word_count in H.
    repeat match type of H with
    | match ?x with _ => _ end = _ => destruct x; try discriminate
    end; injection H as <-; reflexivity.
  - intros ->. destruct t; reflexivity.
Qed.

Lemma from_word_count_total n :
  (exists t, from_word_count n = Ok t) \/ from_word_count n = Err (WrongNumberOfWords n).
Proof.
  destruct (from_word_count n) as [t|e| |] eqn:E; [left; eauto| | |];
  right; unfold from_word_count in *;
    repeat match goal with
    | H : context [match ?x with _ => _ end] |- _ => destruct x; try discriminate
    end; try congruence.
Qed.

Lemma from_entropy_size_ok n t :
  from_entropy_size n = Ok t <-> n = N.of_nat (to_key_size t).
Proof.
  split.
  - intros H. unfold from_entropy_size in H.
    repeat match type of H with
    | match ?x with _ => _ end = _ => destruct x; try discriminate
    end; injection H as <-; reflexivity.
  - intros ->. destruct t; reflexivity.
Qed.

Lemma from_entropy_size_total n :
  (exists t, from_entropy_size n = Ok t) \/ from_entropy_size n = Err (WrongKeySize n).
Proof.
  destruct (from_entropy_size n) as [t|e| |] eqn:E; [left; eauto| | |];
  right; unfold from_entropy_size in *;
    repeat match goal with
    | H : context [match ?x with _ => _ end] |- _ => destruct x; try discriminate
    end; try congruence.
Qed.

Lemma word_count_type n :
  word_count n <-> exists t, n = mnemonic_count t.
Proof.
  unfold word_count. split.
  - intros H. cbn in H.
    repeat destruct H as [<-|H]; [exists Type9Words|exists Type12Words|exists Type15Words
      |exists Type18Words|exists Type21Words|exists Type24Words|destruct H]; reflexivity.
  - intros [t ->]. destruct t; cbn; tauto.
Qed.

Lemma entropy_length_type n :
  entropy_length n <-> exists t, n = (to_key_size t / 8)%nat.
Proof.
  unfold entropy_length. split.
  - intros H. cbn in H.
    repeat destruct H as [<-|H]; [exists Type9Words|exists Type12Words|exists Type15Words
      |exists Type18Words|exists Type21Words|exists Type24Words|destruct H]; reflexivity.
  - intros [t ->]. destruct t; vm_compute; tauto.
Qed.

Lemma type_sizes t :
  (to_key_size t = 32 * checksum_size_bits t)%nat /\
  (to_key_size t + checksum_size_bits t = 11 * mnemonic_count t)%nat.
Proof. destruct t; split; reflexivity. Qed.

Lemma type_from_str_display t : type_from_str (type_display t) = Ok t.
Proof. destruct t; reflexivity. Qed.

Lemma type_from_str_ok s t : type_from_str s = Ok t <-> s = type_display t.
Proof.
  split; [|intros ->; apply type_from_str_display].
  unfold type_from_str.
  repeat match goal with
  | |- context [str_eqb ?a ?b] => destruct (str_eqb a b) eqn:?
  end; intros H; try discriminate; injection H as <-;
  match goal with H : str_eqb s ?x = true |- _ => apply str_eqb_eq in H; exact H end.
Qed.

(** ** Entropy *)
Lemma type_bytes t : (8 * (to_key_size t / 8) = to_key_size t)%nat.
Proof. destruct t; reflexivity. Qed.

Lemma type_cs t : (8 * (to_key_size t / 8) / 32 = checksum_size_bits t)%nat.
Proof. destruct t; reflexivity. Qed.

Lemma entropy_from_slice_ok e :
  entropy_wf e -> entropy_from_slice (e_bytes e) = Ok e.
Proof.
  destruct e as [t bs]. unfold entropy_wf. cbn [e_type e_bytes]. intros H.
  unfold entropy_from_slice.
  assert (from_entropy_size (N.of_nat (List.length bs) * 8) = Ok t) as ->.
  { apply from_entropy_size_ok. rewrite H.
    rewrite <- (type_bytes t) at 2. lia. }
  cbn [bind]. unfold entropy_new. rewrite H, Nat.ltb_irrefl.
  f_equal. f_equal. apply firstn_all2. lia.
Qed.

Lemma hash_long P m : prims_ok P -> (256 = List.length (bytes_bits (sha256 P m)))%nat.
Proof. intros HP. now rewrite bytes_bits_length, (sha256_len P HP). Qed.

Lemma index_new_ok ns :
  Forall (fun v => v < 2048) ns -> mapM index_new ns = Ok ns.
Proof.
  intros H. replace (Ok ns) with (@Ok bip39_error _ (List.map (fun x => x) ns))
    by now rewrite map_id.
  apply mapM_ok. intros a Ha. rewrite Forall_forall in H.
  unfold index_new, MAX_MNEMONIC_VALUE.
  specialize (H a Ha). destruct (N.leb_spec a 2047); [reflexivity|lia].
Qed.

Lemma to_mnemonics_ok P e :
  prims_ok P -> entropy_wf e ->
  exists ms, to_mnemonics P e = Ok ms /\
    List.length ms = mnemonic_count (e_type e) /\
    sentence_of (e_bytes e) (sha256 P (e_bytes e)) ms.
Proof.
  intros HP Hwf. unfold to_mnemonics.
  set (combined := e_bytes e ++ sha256 P (e_bytes e)).
  destruct (read_n_ok (mnemonic_count (e_type e)) (reader_new combined))
    as (ns & r & Hr & Hl & Hb & Hlt & _).
  { apply reader_new_inv. }
  { rewrite reader_new_remaining, bytes_bits_length. subst combined.
    rewrite app_length, (sha256_len P HP). unfold entropy_wf in Hwf. rewrite Hwf.
    destruct (e_type e); vm_compute; lia. }
  rewrite Hr. cbn [unwrap bind]. rewrite index_new_ok by exact Hlt.
  cbn [unwrap bind]. unfold from_mnemonics. rewrite Hl.
  rewrite (proj2 (from_word_count_ok _ (e_type e)) eq_refl). cbn [bind unwrap].
  exists ns. split; [reflexivity|]. split; [exact Hl|].
  split; [exact Hlt|]. rewrite Hb, reader_new_remaining. subst combined.
  rewrite bytes_bits_app, firstn_app, bytes_bits_length.
  unfold entropy_wf in Hwf. rewrite Hwf, type_cs, type_bytes.
  destruct (type_sizes (e_type e)) as [_ <-].
  rewrite firstn_all2.
  2:{ rewrite bytes_bits_length, Hwf, type_bytes. lia. }
  do 2 f_equal. lia.
Qed.

(** ** Checksums *)
Lemma checksum_value P e :
  prims_ok P ->
  checksum P e
  = value (firstn (checksum_size_bits (e_type e)) (bytes_bits (sha256 P (e_bytes e)))).
Proof.
  intros HP. unfold checksum. pose proof (sha256_len P HP (e_bytes e)) as Hl.
  destruct (sha256 P (e_bytes e)) as [|h rest]; [discriminate|]. cbn [hd]. clear Hl.
  cbn [bytes_bits flat_map].
  destruct (e_type e); cbn [checksum_size_bits];
    rewrite firstn_app, bits_length; cbn [Nat.sub firstn]; rewrite app_nil_r;
    apply N.eqb_eq; revert h; apply byte_forall; vm_compute; reflexivity.
Qed.

Lemma value_inj a b : List.length a = List.length b -> value a = value b -> a = b.
Proof.
  intros Hl H. rewrite <- (bits_value a), <- (bits_value b), Hl, H. reflexivity.
Qed.

(** The number in the high bits of a byte. *)
Lemma shiftr_value b k : (k <= 8)%nat ->
  N.shiftr (b2n b) (8 - N.of_nat k) = value (firstn k (bits 8 (b2n b))).
Proof.
  intros Hk. do 9 (destruct k as [|k]; [
    apply N.eqb_eq; revert b; apply byte_forall; vm_compute; reflexivity|]).
  lia.
Qed.

Lemma bytes_of_bits n : forall l : list bool,
  List.length l = (8 * n)%nat -> exists bs, List.length bs = n /\ bytes_bits bs = l.
Proof.
  induction n as [|n IH]; intros l Hl.
  - destruct l; [|discriminate]. exists []. split; reflexivity.
  - destruct (IH (skipn 8 l)) as (bs & Hn & Hb).
    { rewrite skipn_length. lia. }
    exists (n2b (value (firstn 8 l)) :: bs). split; [cbn; congruence|].
    cbn [bytes_bits flat_map]. fold (bytes_bits bs). rewrite Hb.
    rewrite b2n_n2b_small.
    2:{ pose proof (value_bound (firstn 8 l)) as H.
        rewrite firstn_length, Nat.min_l in H by lia. exact H. }
    replace 8%nat with (List.length (firstn 8 l)) at 1
      by (rewrite firstn_length; lia).
    rewrite bits_value. apply firstn_skipn.
Qed.

Lemma entropy_from_mnemonics_spec P ms t :
  prims_ok P -> List.length ms = mnemonic_count t ->
  exists e, entropy_wf e /\ e_type e = t /\
    bytes_bits (e_bytes e) = firstn (to_key_size t) (groups_bits ms) /\
    entropy_from_mnemonics P ms =
      let computed := firstn (checksum_size_bits t) (bytes_bits (sha256 P (e_bytes e))) in
      let found := skipn (to_key_size t) (groups_bits ms) in
      if value computed =? value found then Ok e
      else Err (InvalidChecksum (value computed) (value found)).
Proof.
  intros HP Hlen.
  destruct (type_sizes t) as [Hks Hsum].
  destruct (write_all_ok ms writer_new [] writer_new_inv) as (w & Hw & Hb & _).
  cbn [app] in Hb.
  remember (w_buffer w) as r eqn:Hrw.
  set (pd := pad (w_state w)) in *.
  assert (Hpd : (pd < 8)%nat) by apply pad_lt.
  assert (Hg : List.length (groups_bits ms) = (to_key_size t + checksum_size_bits t)%nat)
    by (rewrite groups_bits_length, Hlen; lia).
  assert (Hr8 : (8 * List.length r = to_key_size t + checksum_size_bits t + pd)%nat).
  { rewrite <- bytes_bits_length, Hb, app_length, repeat_length, Hg. reflexivity. }
  set (size := (to_key_size t / 8)%nat) in *.
  assert (Hsz : (8 * size = to_key_size t)%nat) by apply type_bytes.
  assert (Hcs : (1 <= checksum_size_bits t <= 8)%nat) by (destruct t; cbn; lia).
  assert (Hrl : (List.length r = size + 1)%nat) by lia.
  destruct r as [|hl r' _] using rev_ind; [cbn [List.length] in Hrl; lia|].
  rename r' into r0.
  assert (Hr0 : List.length r0 = size) by (rewrite app_length in Hrl; cbn [List.length] in Hrl; lia).
  exists {| e_type := t; e_bytes := r0 |}.
  unfold entropy_wf. cbn [e_type e_bytes]. split; [exact Hr0|]. split; [reflexivity|].
  assert (Hbits0 : bytes_bits r0 = firstn (to_key_size t) (groups_bits ms)).
  { rewrite bytes_bits_app in Hb.
    apply (f_equal (firstn (to_key_size t))) in Hb.
    rewrite !firstn_app in Hb. rewrite bytes_bits_length, Hr0, Hg in Hb.
    rewrite Hsz, Nat.sub_diag in Hb.
    replace (to_key_size t - (to_key_size t + checksum_size_bits t))%nat with O in Hb by lia.
    rewrite !firstn_O, !app_nil_r in Hb.
    rewrite firstn_all2 in Hb by (rewrite bytes_bits_length; lia). exact Hb. }
  split; [exact Hbits0|].
  assert (Hfound : firstn (checksum_size_bits t) (bits 8 (b2n hl))
                   = skipn (to_key_size t) (groups_bits ms)).
  { rewrite bytes_bits_app in Hb.
    apply (f_equal (skipn (to_key_size t))) in Hb.
    rewrite !skipn_app in Hb. rewrite bytes_bits_length, Hr0, Hg in Hb.
    rewrite Hsz, Nat.sub_diag in Hb.
    replace (to_key_size t - (to_key_size t + checksum_size_bits t))%nat with O in Hb by lia.
    rewrite !skipn_O in Hb.
    rewrite (skipn_all2 (bytes_bits r0)) in Hb by (rewrite bytes_bits_length; lia).
    cbn [app] in Hb. unfold bytes_bits in Hb. cbn [flat_map] in Hb.
    rewrite app_nil_r in Hb. rewrite Hb.
    assert (List.length (skipn (to_key_size t) (groups_bits ms)) = checksum_size_bits t)
      by (rewrite skipn_length; lia).
    rewrite firstn_app. rewrite H, Nat.sub_diag, firstn_O, app_nil_r.
    apply firstn_all2. lia. }
  unfold entropy_from_mnemonics, get_type. rewrite Hlen.
  rewrite (proj2 (from_word_count_ok _ t) eq_refl). cbn [bind unwrap].
  rewrite Hw. cbn [bind unwrap]. fold size. unfold to_bytes. rewrite <- Hrw.
  destruct (Nat.ltb_spec (List.length (r0 ++ [hl])) size) as [Hlt|_].
  { rewrite app_length in Hlt. lia. }
  rewrite firstn_app, Hr0, Nat.sub_diag, firstn_O, app_nil_r.
  rewrite firstn_all2 by lia.
  unfold entropy_new. fold size. rewrite Hr0, Nat.ltb_irrefl. cbn [bind].
  rewrite firstn_all2 by lia.
  rewrite rev_app_distr. cbn [rev app].
  rewrite shiftr_value by lia. rewrite Hfound.
  rewrite (checksum_value P _ HP). cbn [e_type e_bytes].
  cbv zeta. destruct (_ =? _); reflexivity.
Qed.

Lemma type_count_inj t t' : mnemonic_count t = mnemonic_count t' -> t = t'.
Proof. destruct t, t'; cbn; intros H; congruence. Qed.

Lemma sentence_from_mnemonics P e ms :
  prims_ok P -> entropy_wf e ->
  List.length ms = mnemonic_count (e_type e) ->
  (entropy_from_mnemonics P ms = Ok e <->
   groups_bits ms
   = bytes_bits (e_bytes e)
     ++ firstn (8 * List.length (e_bytes e) / 32) (bytes_bits (sha256 P (e_bytes e)))).
Proof.
  intros HP Hwf Hlen.
  destruct (entropy_from_mnemonics_spec P ms (e_type e) HP Hlen)
    as (e' & Hwf' & Ht & Hbits & Heq).
  rewrite Heq. cbv zeta. clear Heq.
  unfold entropy_wf in *. rewrite Hwf, type_cs.
  destruct (type_sizes (e_type e)) as [_ Hsum].
  assert (Hg : List.length (groups_bits ms)
               = (to_key_size (e_type e) + checksum_size_bits (e_type e))%nat)
    by (rewrite groups_bits_length, Hlen; lia).
  split.
  - destruct (N.eqb_spec
      (value (firstn (checksum_size_bits (e_type e)) (bytes_bits (sha256 P (e_bytes e')))))
      (value (skipn (to_key_size (e_type e)) (groups_bits ms)))) as [E|E];
      [|discriminate].
    intros H. injection H as ->.
    apply value_inj in E.
    2:{ rewrite firstn_length, skipn_length, bytes_bits_length, (sha256_len P HP), Hg.
        destruct (e_type e); cbn; lia. }
    rewrite E, Hbits. symmetry. apply firstn_skipn.
  - intros H.
    assert (bytes_bits (e_bytes e') = bytes_bits (e_bytes e)) as He.
    { rewrite Hbits, H, firstn_app, bytes_bits_length, Hwf, type_bytes, Nat.sub_diag.
      rewrite firstn_O, app_nil_r. apply firstn_all2.
      rewrite bytes_bits_length, Hwf, type_bytes. lia. }
    apply bytes_bits_inj in He.
    assert (e' = e) as ->.
    { destruct e as [t bs], e' as [t' bs']. cbn in *. congruence. }
    rewrite H at 1. rewrite skipn_app, bytes_bits_length, Hwf, type_bytes, Nat.sub_diag.
    rewrite skipn_all2 by (rewrite bytes_bits_length, Hwf, type_bytes; lia).
    cbn [app]. rewrite skipn_O, N.eqb_refl. reflexivity.
Qed.

Lemma round_trip P e :
  prims_ok P -> entropy_wf e ->
  exists ms, to_mnemonics P e = Ok ms /\ entropy_from_mnemonics P ms = Ok e.
Proof.
  intros HP Hwf. destruct (to_mnemonics_ok P e HP Hwf) as (ms & H1 & H2 & _ & H3).
  exists ms. split; [exact H1|]. now apply sentence_from_mnemonics.
Qed.

Lemma from_to P e ms :
  prims_ok P -> entropy_wf e -> Forall (fun m => m < 2048) ms ->
  List.length ms = mnemonic_count (e_type e) ->
  entropy_from_mnemonics P ms = Ok e -> to_mnemonics P e = Ok ms.
Proof.
  intros HP Hwf Hlt Hlen H. apply (sentence_from_mnemonics P e ms HP Hwf Hlen) in H.
  destruct (to_mnemonics_ok P e HP Hwf) as (ms' & H1 & H2 & Hlt' & H3).
  rewrite H1. f_equal. apply groups_bits_inj; auto. congruence.
Qed.

(** ** Dictionaries *)
Fixpoint memb (w : str) (l : list str) : bool :=
  match l with [] => false | x :: l => str_eqb x w || memb w l end.
Fixpoint nodupb (l : list str) : bool :=
  match l with [] => true | x :: l => negb (memb x l) && nodupb l end.

Lemma memb_in w l : memb w l = true <-> In w l.
Proof.
  induction l as [|x l IH]; cbn; [split; [discriminate|tauto]|].
  rewrite orb_true_iff, IH, str_eqb_eq. tauto.
Qed.

Lemma nodupb_ok l : nodupb l = true -> NoDup l.
Proof.
  induction l as [|x l IH]; cbn; intros H; [constructor|].
  apply andb_true_iff in H as [H1 H2]. constructor; [|auto].
  intros Hin. apply memb_in in Hin. now rewrite Hin in H1.
Qed.

Definition word_okb (w : str) : bool :=
  match w with [] => false | _ => negb (existsb (N.eqb 0x20) w) end.

Lemma word_okb_ok w : word_okb w = true -> w <> [] /\ ~ In 0x20 w.
Proof.
  destruct w as [|c w]; [discriminate|]. unfold word_okb. intros H.
  split; [discriminate|]. intros Hin. apply negb_true_iff in H.
  assert (existsb (N.eqb 0x20) (c :: w) = true) as H1.
  { apply existsb_exists. exists 0x20. split; [exact Hin|reflexivity]. }
  congruence.
Qed.

Definition dict_okb (d : dict) : bool :=
  (List.length d =? 2048)%nat && nodupb d && forallb word_okb d.

Lemma dict_okb_ok d : dict_okb d = true -> dict_ok d.
Proof.
  unfold dict_okb. intros H. apply andb_true_iff in H as [H H3].
  apply andb_true_iff in H as [H1 H2]. split; [now apply Nat.eqb_eq|].
  split; [now apply nodupb_ok|]. rewrite forallb_forall in H3.
  apply Forall_forall. intros w Hw. now apply word_okb_ok, H3.
Qed.

Section Dictionary.
  Context (d : dict) (Hd : dict_ok d).

  Lemma from_word_in w : In w d ->
    exists i, i < 2048 /\ from_word d w = Ok i /\ to_word d i = Ok w.
  Proof.
    intros Hin. destruct Hd as (Hlen & Hnd & _).
    unfold from_word, lookup_mnemonic, to_word, lookup_word.
    destruct (position w d) as [i|] eqn:E.
    - apply position_some in E. exists i.
      assert (Hi : i < 2048).
      { assert (N.to_nat i < List.length d)%nat by (apply nth_error_Some; congruence). lia. }
      split; [exact Hi|]. rewrite N.mod_small by lia.
      unfold index_new, MAX_MNEMONIC_VALUE.
      destruct (N.leb_spec i 2047); [|lia]. split; [reflexivity|].
      now rewrite E.
    - apply position_none in E. contradiction.
  Qed.

  Lemma from_word_notin w : ~ In w d -> from_word d w = Err (LanguageError w).
  Proof.
    intros H. unfold from_word, lookup_mnemonic.
    apply position_none in H. now rewrite H.
  Qed.

  Lemma from_word_inv w i : from_word d w = Ok i ->
    i < 2048 /\ In w d /\ to_word d i = Ok w.
  Proof.
    intros H. destruct (in_dec str_eq_dec w d) as [Hin|Hn].
    - destruct (from_word_in w Hin) as (j & Hj & H1 & H2).
      assert (i = j) as -> by congruence. auto.
    - rewrite from_word_notin in H by assumption. discriminate.
  Qed.

  Lemma to_word_ok i : i < 2048 ->
    exists w, to_word d i = Ok w /\ In w d /\ from_word d w = Ok i.
  Proof.
    intros Hi. destruct Hd as (Hlen & Hnd & _).
    destruct (nth_error d (N.to_nat i)) as [w|] eqn:E.
    - exists w. unfold to_word, lookup_word. rewrite E. split; [reflexivity|].
      apply nth_error_In in E as Hin. split; [exact Hin|].
      unfold from_word, lookup_mnemonic.
      rewrite (position_nth w d _ Hnd E), N2Nat.id.
      rewrite N.mod_small by lia. unfold index_new, MAX_MNEMONIC_VALUE.
      destruct (N.leb_spec i 2047); [reflexivity|lia].
    - apply nth_error_None in E. lia.
  Qed.

  Lemma to_word_undef i : 2048 <= i -> to_word d i = Undef.
  Proof.
    intros Hi. destruct Hd as (Hlen & _).
    unfold to_word, lookup_word.
    destruct (nth_error d (N.to_nat i)) as [w|] eqn:E; [|reflexivity].
    assert (N.to_nat i < List.length d)%nat by (apply nth_error_Some; congruence). lia.
  Qed.

  Lemma word_shape w : In w d -> w <> [] /\ ~ In 0x20 w.
  Proof.
    intros Hin. destruct Hd as (_ & _ & H). rewrite Forall_forall in H. now apply H.
  Qed.

  (** ** Phrases *)
  Lemma phrase_to_string ms :
    Forall (fun m => m < 2048) ms ->
    exists ws, mapM (to_word d) ms = Ok ws /\ Forall (fun w => In w d) ws /\
      mapM (from_word d) ws = Ok ms /\ List.length ws = List.length ms.
  Proof.
    intros H. induction H as [|m ms Hm H IH].
    - exists []. repeat split; constructor.
    - destruct (to_word_ok m Hm) as (w & H1 & H2 & H3).
      destruct IH as (ws & I1 & I2 & I3 & I4).
      exists (w :: ws). cbn [mapM]. rewrite H1, H3. cbn [bind]. rewrite I1, I3.
      cbn [bind List.length]. repeat split; auto.
  Qed.

  Lemma words_no_space ws :
    Forall (fun w => In w d) ws -> Forall (fun w => ~ In separator w) ws.
  Proof.
    intros H. eapply Forall_impl; [|exact H]. intros w Hw. now apply word_shape.
  Qed.

  Lemma from_to_string ms :
    Forall (fun m => m < 2048) ms -> word_count (List.length ms) ->
    exists s, mnemonics_to_string d ms = Ok s /\ mnemonics_from_string d s = Ok ms.
  Proof.
    intros Hms Hc. destruct (phrase_to_string ms Hms) as (ws & H1 & H2 & H3 & H4).
    exists (join [separator] ws). unfold mnemonics_to_string, mnemonics_from_string.
    rewrite H1. split; [reflexivity|].
    rewrite split_join.
    - rewrite H3. cbn [bind]. unfold from_mnemonics.
      apply word_count_type in Hc as [t Ht]. rewrite Ht.
      now rewrite (proj2 (from_word_count_ok _ t) eq_refl).
    - intros ->. cbn in H4. rewrite <- H4 in Hc. cbn in Hc. intuition congruence.
    - now apply words_no_space.
  Qed.

  Lemma from_string_words s ms :
    mnemonics_from_string d s = Ok ms ->
    Forall (fun m => m < 2048) ms /\ word_count (List.length ms) /\
    mnemonics_to_string d ms = Ok s.
  Proof.
    intros H. unfold mnemonics_from_string in H.
    destruct (mapM (from_word d) (split separator s)) as [ms'| | |] eqn:E; try discriminate.
    cbn [bind] in H. unfold from_mnemonics in H.
    destruct (from_word_count (N.of_nat (List.length ms'))) as [t| | |] eqn:Ec; try discriminate.
    cbn [bind] in H. injection H as ->.
    apply from_word_count_ok in Ec.
    apply mapM_inv in E.
    split; [|split].
    - clear - E Hd. induction E as [|w m ws ms Hw E IH]; constructor; auto.
      now apply from_word_inv in Hw.
    - apply word_count_type. exists t. lia.
    - unfold mnemonics_to_string.
      assert (mapM (to_word d) ms = Ok (split separator s)) as ->.
      { apply mapM_Forall2. clear - E Hd. induction E as [|w m ws ms Hw E IH]; constructor; auto.
        now apply from_word_inv in Hw. }
      cbn [bind]. now rewrite join_split.
  Qed.

  Lemma from_string_cases s :
    let ws := split separator s in
    (exists pre w post, ws = pre ++ w :: post /\ Forall (fun w => In w d) pre /\
       ~ In w d /\ mnemonics_from_string d s = Err (LanguageError w)) \/
    (Forall (fun w => In w d) ws /\ ~ word_count (List.length ws) /\
       mnemonics_from_string d s = Err (WrongNumberOfWords (N.of_nat (List.length ws)))) \/
    (Forall (fun w => In w d) ws /\ word_count (List.length ws) /\
       exists ms, mnemonics_from_string d s = Ok ms).
  Proof.
    cbv zeta. unfold mnemonics_from_string.
    destruct (Forall_first_not (fun w => In w d) (fun w => in_dec str_eq_dec w d)
                (split separator s)) as [Hall|(pre & w & post & Hs & Hpre & Hw)].
    - right.
      destruct (mapM (from_word d) (split separator s)) as [ms|e| |] eqn:E.
      + pose proof (mapM_length _ _ _ E) as Hl. cbn [bind]. unfold from_mnemonics.
        rewrite Hl.
        destruct (from_word_count_total (N.of_nat (List.length (split separator s))))
          as [[t Ht]|Ht]; rewrite Ht; cbn [bind].
        * right. apply from_word_count_ok in Ht. split; [exact Hall|].
          split; [|eauto]. apply word_count_type. exists t. lia.
        * left. split; [exact Hall|]. split; [|reflexivity].
          intros Hc. apply word_count_type in Hc as [t Hc]. rewrite Hc in Ht.
          rewrite (proj2 (from_word_count_ok _ t) eq_refl) in Ht. discriminate.
      + exfalso. clear - E Hall Hd. revert E. induction Hall as [|w ws Hw H IH]; cbn; [discriminate|].
        destruct (from_word_in w Hw) as (i & _ & -> & _). cbn [bind].
        destruct (mapM (from_word d) ws); cbn [bind]; try discriminate. exact IH.
      + exfalso. clear - E Hall Hd. revert E. induction Hall as [|w ws Hw H IH]; cbn; [discriminate|].
        destruct (from_word_in w Hw) as (i & _ & -> & _). cbn [bind].
        destruct (mapM (from_word d) ws); cbn [bind]; try discriminate. exact IH.
      + exfalso. clear - E Hall Hd. revert E. induction Hall as [|w ws Hw H IH]; cbn; [discriminate|].
        destruct (from_word_in w Hw) as (i & _ & -> & _). cbn [bind].
        destruct (mapM (from_word d) ws); cbn [bind]; try discriminate. exact IH.
    - left. exists pre, w, post. repeat split; try assumption.
      rewrite Hs. rewrite (mapM_first_err _ pre w post (LanguageError w)); [reflexivity| |].
      + intros x Hx. rewrite Forall_forall in Hpre.
        destruct (from_word_in x (Hpre x Hx)) as (i & _ & H & _). eauto.
      + now apply from_word_notin.
  Qed.
End Dictionary.

Lemma phrase_of_split s : phrase_of (split separator s) s.
Proof.
  split; [apply split_nonempty|]. split; [apply split_no_sep|].
  rewrite <- (join_split separator s) at 1.
  pose proof (split_nonempty separator s) as Hne.
  induction (split separator s) as [|p ps IH]; [congruence|].
  destruct ps as [|q ps]; [cbn; now rewrite ?app_nil_r|].
  rewrite join_cons, IH by discriminate.
  change (removelast (p :: q :: ps)) with (p :: removelast (q :: ps)).
  change (last (p :: q :: ps) []) with (last (q :: ps) []).
  cbn [List.map concat]. rewrite <- !app_assoc. reflexivity.
Qed.

(** ** Public statements *)
Lemma mnemonic_checksum_exact P ms :
  prims_ok P -> word_count (List.length ms) ->
  exists ent,
    (4 * List.length ms = 3 * List.length ent)%nat /\
    bytes_bits ent = firstn (8 * List.length ent) (groups_bits ms) /\
    let found := skipn (8 * List.length ent) (groups_bits ms) in
    let computed := firstn (8 * List.length ent / 32) (bytes_bits (sha256 P ent)) in
    (found = computed ->
       exists e, e_bytes e = ent /\ entropy_wf e /\
         entropy_from_mnemonics P ms = Ok e /\
         (Forall (fun m => m < 2048) ms -> to_mnemonics P e = Ok ms)) /\
    (found <> computed ->
       entropy_from_mnemonics P ms
       = Err (InvalidChecksum (value computed) (value found))).
Proof.
  intros HP Hc. apply word_count_type in Hc as [t Ht].
  destruct (entropy_from_mnemonics_spec P ms t HP Ht) as (e & Hwf & Het & Hb & Heq).
  exists (e_bytes e). pose proof Hwf as Hlen. unfold entropy_wf in Hlen.
  rewrite Het in Hlen.
  split. { rewrite Ht, Hlen. destruct t; reflexivity. }
  rewrite Hlen, type_cs, type_bytes. split; [exact Hb|]. cbv zeta in *.
  set (found := skipn (to_key_size t) (groups_bits ms)) in *.
  set (computed := firstn (checksum_size_bits t) (bytes_bits (sha256 P (e_bytes e)))) in *.
  split; intros H.
  - exists e. split; [reflexivity|]. split; [exact Hwf|].
    rewrite H, N.eqb_refl in Heq. split; [exact Heq|].
    intros Hlt. apply from_to; auto. now rewrite Het.
  - rewrite Heq. destruct (N.eqb_spec (value computed) (value found)) as [E|E]; [|reflexivity].
    exfalso. apply H. apply value_inj; [|now symmetry].
    subst found computed. rewrite firstn_length, skipn_length, bytes_bits_length.
    rewrite (sha256_len P HP), groups_bits_length, Ht. destruct t; vm_compute; lia.
Qed.

Lemma bad_count_unbuildable ms :
  ~ word_count (List.length ms) ->
  from_mnemonics ms = Err (WrongNumberOfWords (N.of_nat (List.length ms))).
Proof.
  intros H. unfold from_mnemonics.
  destruct (from_word_count_total (N.of_nat (List.length ms))) as [[t Ht]|Ht].
  - apply from_word_count_ok in Ht. exfalso. apply H, word_count_type. exists t. lia.
  - now rewrite Ht.
Qed.

Lemma size_tables :
  (forall t, (to_key_size t = 32 * checksum_size_bits t)%nat /\
     (to_key_size t + checksum_size_bits t = 11 * mnemonic_count t)%nat) /\
  (forall n t, from_word_count n = Ok t <-> n = N.of_nat (mnemonic_count t)) /\
  (forall n, (forall t, n <> N.of_nat (mnemonic_count t)) ->
     from_word_count n = Err (WrongNumberOfWords n)) /\
  (forall n t, from_entropy_size n = Ok t <-> n = N.of_nat (to_key_size t)) /\
  (forall n, (forall t, n <> N.of_nat (to_key_size t)) ->
     from_entropy_size n = Err (WrongKeySize n)) /\
  (forall s t, type_from_str s = Ok t <-> s = type_display t) /\
  (forall s, (forall t, s <> type_display t) -> type_from_str s = Err tt) /\
  (forall n, word_count n <-> exists t, n = mnemonic_count t) /\
  (forall n, entropy_length n <-> exists t, (8 * n = to_key_size t)%nat).
Proof.
  split; [exact type_sizes|]. split; [exact from_word_count_ok|]. split.
  { intros n H. destruct (from_word_count_total n) as [[t Ht]|Ht]; [|exact Ht].
    apply from_word_count_ok in Ht. now destruct (H t). }
  split; [exact from_entropy_size_ok|]. split.
  { intros n H. destruct (from_entropy_size_total n) as [[t Ht]|Ht]; [|exact Ht].
    apply from_entropy_size_ok in Ht. now destruct (H t). }
  split; [exact type_from_str_ok|]. split.
  { intros s H. destruct (type_from_str s) as [t|e| |] eqn:E.
    - apply type_from_str_ok in E. now destruct (H t).
    - now destruct e.
    - unfold type_from_str in E.
      repeat destruct (str_eqb _ _); discriminate.
    - unfold type_from_str in E.
      repeat destruct (str_eqb _ _); discriminate. }
  split; [exact word_count_type|].
  intros n. rewrite entropy_length_type. split; intros [t Ht]; exists t.
  - rewrite Ht. apply type_bytes.
  - rewrite <- Ht, Nat.mul_comm. symmetry. now apply Nat.div_mul.
Qed.

Lemma type_texts : forall t : Type_,
  In (mnemonic_count t, type_display t)
     [(9, lit "9"); (12, lit "12"); (15, lit "15"); (18, lit "18"); (21, lit "21"); (24, lit "24")]%nat.
Proof. intros []; cbn; tauto. Qed.
