From Coq Require Import Strings.String.
From Verif Require Import Base BaseFacts Str StrFacts KeyPath KeyPathSpec.

(** ** Byte lengths and slices *)
Lemma len_utf8_pos c : (1 <= len_utf8 c)%nat.
Proof.
  unfold len_utf8. destruct (c <? 128); [lia|]. destruct (c <? 2048); [lia|].
  destruct (c <? 65536); lia.
Qed.

Lemma str_len_cons c s : str_len (c :: s) = (len_utf8 c + str_len s)%nat.
Proof. unfold str_len. cbn [utf8 flat_map]. now rewrite app_length, utf8_char_length. Qed.

Lemma str_len_app a b : str_len (a ++ b) = (str_len a + str_len b)%nat.
Proof. unfold str_len. now rewrite utf8_app, app_length. Qed.

Lemma str_len_nil s : str_len s = 0%nat <-> s = [].
Proof.
  destruct s as [|c s]; [easy|]. rewrite str_len_cons.
  pose proof (len_utf8_pos c). split; [lia|discriminate].
Qed.

Lemma str_len_one c : str_len [c] = len_utf8 c.
Proof. rewrite str_len_cons. unfold str_len. cbn [utf8 flat_map List.length]. lia. Qed.

Lemma split_at_app a b : split_at (str_len a) (a ++ b) = Some (a, b).
Proof.
  induction a as [|c a IH]; [now destruct b|].
  rewrite str_len_cons. pose proof (len_utf8_pos c).
  destruct (len_utf8 c + str_len a)%nat eqn:E; [lia|]. cbn [split_at app].
  rewrite <- E. destruct (Nat.ltb_spec (len_utf8 c + str_len a) (len_utf8 c)); [lia|].
  replace (len_utf8 c + str_len a - len_utf8 c)%nat with (str_len a) by lia.
  now rewrite IH.
Qed.

Lemma split_at_some n s a b : split_at n s = Some (a, b) -> s = a ++ b /\ n = str_len a.
Proof.
  revert n a b; induction s as [|c s IH]; intros n a b H; destruct n as [|n]; cbn [split_at] in H.
  - injection H as <- <-. now split.
  - discriminate.
  - injection H as <- <-. now split.
  - destruct (Nat.ltb_spec (S n) (len_utf8 c)); [discriminate|].
    destruct (split_at (S n - len_utf8 c) s) as [[a' b']|] eqn:E; [|discriminate].
    cbn in H. injection H as <- <-. apply IH in E as [-> E].
    split; [reflexivity|]. rewrite str_len_cons. lia.
Qed.

Lemma len_utf8_one c : len_utf8 c = 1%nat <-> c < 0x80.
Proof.
  unfold len_utf8. destruct (N.ltb_spec c 128); [easy|].
  destruct (c <? 2048), (c <? 65536); split; intros; lia.
Qed.

Lemma split_last_byte s c :
  split_at (str_len (s ++ [c]) - 1) (s ++ [c])
  = if c <? 0x80 then Some (s, [c]) else None.
Proof.
  rewrite str_len_app, str_len_one.
  destruct (N.ltb_spec c 128) as [H|H].
  - apply len_utf8_one in H. rewrite H, Nat.add_sub. apply split_at_app.
  - destruct (split_at _ _) as [[a b]|] eqn:E; [|reflexivity].
    apply split_at_some in E as [E1 E2]. exfalso.
    assert (len_utf8 c <> 1%nat) as Hc by (rewrite len_utf8_one; lia).
    pose proof (len_utf8_pos c).
    assert (str_len b = 1%nat) as Hb.
    { apply (f_equal str_len) in E1. rewrite !str_len_app, str_len_one in E1. lia. }
    destruct b as [|d b] using rev_ind; [discriminate|].
    rewrite app_assoc in E1. apply app_inj_tail in E1 as [_ <-].
    rewrite str_len_app, str_len_one in Hb. lia.
Qed.

(** ** Decimal numbers *)
Lemma digits_value_app a b :
  digits_value (a ++ b) = digits_value a * 10 ^ N.of_nat (List.length b) + digits_value b.
Proof.
  induction a as [|d a IH]; cbn [digits_value app]; [lia|].
  rewrite IH, app_length, Nat2N.inj_add, N.pow_add_r. lia.
Qed.

Lemma digits_value_mono ds : forall acc,
  acc <= acc * 10 ^ N.of_nat (List.length ds) + digits_value ds.
Proof. intros acc. pose proof (N.pow_nonzero 10 (N.of_nat (List.length ds))). nia. Qed.

Lemma parse_digits_spec max s : forall acc n, acc <= max ->
  parse_digits max acc s = Ok n <->
  Forall digit s /\ n = acc * 10 ^ N.of_nat (List.length s) + digits_value s /\ n <= max.
Proof.
  induction s as [|c s IH]; intros acc n Hacc; cbn [parse_digits digits_value List.length].
  - cbn. split.
    + intros H; injection H as <-. split; [constructor|]. lia.
    + intros (_ & -> & _). f_equal. lia.
  - assert ((48 <=? c) && (c <=? 57) = true <-> digit c) as Hd
      by (unfold digit; rewrite andb_true_iff, !N.leb_le; reflexivity).
    destruct ((48 <=? c) && (c <=? 57)).
    2:{ split; [discriminate|]. intros (H & _). inversion_clear H.
        apply Hd in H0. discriminate. }
    rewrite Nat2N.inj_succ, N.pow_succ_r'.
    destruct (N.leb_spec (acc * 10 + (c - 48)) max) as [Hm|Hm].
    + rewrite IH by lia. split.
      * intros (H1 & H2 & H3). split; [constructor; [now apply Hd|exact H1]|]. lia.
      * intros (H1 & H2 & H3). inversion_clear H1. split; [assumption|]. lia.
    + split; [discriminate|]. intros (H1 & -> & H3). exfalso.
      pose proof (digits_value_mono s (acc * 10 + (c - 48))). lia.
Qed.

Lemma parse_digits_kinds max s : forall acc,
  (exists n, parse_digits max acc s = Ok n) \/ parse_digits max acc s = Err IntInvalidDigit \/
  parse_digits max acc s = Err IntPosOverflow.
Proof.
  induction s as [|c s IH]; intros acc; cbn [parse_digits]; [eauto|].
  destruct (_ && _); [|auto]. cbv zeta. destruct (_ <=? max); auto.
Qed.

Lemma parse_digits_overflow max s : forall acc, acc <= max ->
  parse_digits max acc s = Err IntPosOverflow <->
  exists ds rest, s = ds ++ rest /\ Forall digit ds /\
    max < acc * 10 ^ N.of_nat (List.length ds) + digits_value ds.
Proof.
  induction s as [|c s IH]; intros acc Hacc; cbn [parse_digits].
  - split; [discriminate|]. intros (ds & rest & E & _ & H). symmetry in E.
    apply app_eq_nil in E as [-> ->]. cbn in H. lia.
  - assert ((48 <=? c) && (c <=? 57) = true <-> digit c) as Hd
      by (unfold digit; rewrite andb_true_iff, !N.leb_le; reflexivity).
    destruct ((48 <=? c) && (c <=? 57)).
    2:{ split; [discriminate|]. intros ([|d ds] & rest & E & Hf & H); [cbn in H; lia|].
        injection E as -> ->. inversion_clear Hf. apply Hd in H0. discriminate. }
    cbv zeta. destruct (N.leb_spec (acc * 10 + (c - 48)) max) as [Hm|Hm].
    + rewrite IH by lia. split.
      * intros (ds & rest & -> & Hf & H). exists (c :: ds), rest.
        split; [reflexivity|]. split; [constructor; [now apply Hd|exact Hf]|].
        cbn [List.length digits_value]. rewrite Nat2N.inj_succ, N.pow_succ_r'. lia.
      * intros ([|d ds] & rest & E & Hf & H); [cbn in H; lia|]. injection E as -> ->.
        inversion_clear Hf. exists ds, rest. split; [reflexivity|]. split; [assumption|].
        cbn [List.length digits_value] in H. rewrite Nat2N.inj_succ, N.pow_succ_r' in H. lia.
    + split; [|reflexivity]. intros _. exists [c], s. split; [reflexivity|].
      split; [constructor; [now apply Hd|constructor]|]. cbn. lia.
Qed.

Lemma parse_u32_spec s n : parse_u32 s = Ok n <-> number s n.
Proof.
  unfold parse_u32, number. destruct s as [|c s].
  - split; [discriminate|]. intros (ds & [H|H] & Hne & _); [congruence|discriminate].
  - destruct (N.eqb_spec c 43) as [->|Hc].
    + destruct s as [|c' s].
      * split; [discriminate|]. intros (ds & [H|H] & Hne & Hd & _).
        -- subst ds. inversion_clear Hd. unfold digit in *. lia.
        -- cbn in H. congruence.
      * rewrite parse_digits_spec by (cbv; discriminate). split.
        -- intros (Hd & -> & Hm). exists (c' :: s). unfold u32_max in Hm.
           split; [right; reflexivity|]. split; [discriminate|].
           split; [exact Hd|]. lia.
        -- intros (ds & [H|H] & Hne & Hd & -> & Hm).
           ++ subst ds. inversion_clear Hd. unfold digit in *. lia.
           ++ cbn in H. injection H as <-. split; [exact Hd|]. unfold u32_max. lia.
    + rewrite parse_digits_spec by (cbv; discriminate). split.
      * intros (Hd & -> & Hm). exists (c :: s). unfold u32_max in Hm.
        split; [left; reflexivity|]. split; [discriminate|]. split; [exact Hd|]. lia.
      * intros (ds & [H|H] & Hne & Hd & -> & Hm).
        -- subst ds. split; [exact Hd|]. unfold u32_max. lia.
        -- cbn in H. congruence.
Qed.

Lemma number_inj s n m : number s n -> number s m -> n = m.
Proof. rewrite <- !parse_u32_spec. congruence. Qed.

Lemma parse_u32_kinds s : s <> [] ->
  (exists n, parse_u32 s = Ok n) \/ parse_u32 s = Err IntInvalidDigit \/ parse_u32 s = Err IntPosOverflow.
Proof.
  intros H. unfold parse_u32. destruct s as [|c s]; [congruence|].
  destruct (c =? 43); [destruct s; [auto|]|]; apply parse_digits_kinds.
Qed.

Lemma parse_u32_overflow s : parse_u32 s = Err IntPosOverflow <-> too_big s.
Proof.
  unfold parse_u32, too_big. destruct s as [|c s].
  - split; [discriminate|]. intros (ds & rest & [E|E] & _ & H); [|discriminate].
    symmetry in E. apply app_eq_nil in E as [-> _]. cbn in H. lia.
  - destruct (N.eqb_spec c 43) as [->|Hc].
    + assert ((exists ds rest, (43 :: s = ds ++ rest \/ 43 :: s = lit "+" ++ ds ++ rest) /\
          Forall digit ds /\ 2 ^ 32 <= digits_value ds) <->
        exists ds rest, s = ds ++ rest /\ Forall digit ds /\
          u32_max < 0 * 10 ^ N.of_nat (List.length ds) + digits_value ds) as Hiff.
      { unfold u32_max. split.
        - intros (ds & rest & [E|E] & Hf & H).
          + destruct ds as [|d ds]; [cbn in H; lia|]. injection E as <- _. inversion_clear Hf.
            unfold digit in *. lia.
          + injection E as ->. exists ds, rest. split; [reflexivity|]. split; [exact Hf|]. lia.
        - intros (ds & rest & -> & Hf & H). exists ds, rest. split; [now right|].
          split; [exact Hf|]. lia. }
      rewrite Hiff, <- parse_digits_overflow by (cbv; discriminate).
      destruct s; [split; discriminate|reflexivity].
    + rewrite parse_digits_overflow by (cbv; discriminate). unfold u32_max. split.
      * intros (ds & rest & E & Hf & H). exists ds, rest. split; [now left|].
        split; [exact Hf|]. lia.
      * intros (ds & rest & [E|E] & Hf & H); [|cbn in E; congruence].
        exists ds, rest. split; [exact E|]. split; [exact Hf|]. lia.
Qed.

Lemma parse_u32_err s e : s <> [] -> parse_u32 s = Err e <-> no_number s e.
Proof.
  intros Hne. pose proof (parse_u32_kinds s Hne) as Hk. destruct e; cbn [no_number].
  - split; [|easy]. intros E. rewrite E in Hk. destruct Hk as [[n H]|[H|H]]; discriminate.
  - rewrite <- parse_u32_overflow. split.
    + intros E. split; [congruence|]. intros n Hn. apply parse_u32_spec in Hn. congruence.
    + intros [H1 H2]. destruct Hk as [[n H]|[H|H]]; [|exact H|congruence].
      apply parse_u32_spec in H. now apply H2 in H.
  - apply parse_u32_overflow.
Qed.

Lemma number_last s c n : number (s ++ [c]) n -> 48 <= c <= 57.
Proof.
  intros (ds & H & Hne & Hd & _).
  destruct ds as [|d ds] using rev_ind; [congruence|].
  rewrite Forall_app in Hd. destruct Hd as [_ Hd]. inversion_clear Hd.
  destruct H as [H|H]; [|rewrite app_assoc in H]; apply app_inj_tail in H as [_ ->];
    assumption.
Qed.

Lemma number_nonempty s n : number s n -> s <> [].
Proof. intros (ds & [->| ->] & Hne & _); [exact Hne|discriminate]. Qed.

(** ** One component *)
Lemma soft_int_eq i s :
  s <> [] -> soft_int i s = map_err (ParseErrorAtIndex i) (parse_u32 s).
Proof.
  intros H. unfold soft_int. destruct (Nat.eqb_spec (str_len s) 0) as [E|E]; [|reflexivity].
  now apply str_len_nil in E.
Qed.

Lemma parse_int_snoc p i s c :
  parse_int p i (s ++ [c])
  = if 0x80 <=? c then Panic
    else if c =? 0x27 then let* v := soft_int i s in add_u32 p v BIP44_SOFT_UPPER_BOUND
    else map_err (ParseErrorAtIndex i) (parse_u32 (s ++ [c])).
Proof.
  assert (s ++ [c] <> []) as Hne by now destruct s.
  assert (Nat.eqb (str_len (s ++ [c])) 0 = false) as H0.
  { apply Nat.eqb_neq. now rewrite str_len_nil. }
  unfold parse_int, hard_int, str_from, str_to.
  rewrite H0, split_last_byte, N.ltb_antisym.
  destruct (128 <=? c); cbn [negb bind]; [reflexivity|].
  replace (str_eqb [c] (lit "'")) with (c =? 39).
  2:{ cbn. now rewrite andb_true_r. }
  destruct (c =? 39); [reflexivity|]. now apply soft_int_eq.
Qed.

Lemma component_exact p i t r : component p i t r <-> parse_int p i t = r.
Proof.
  split.
  - intros H. destruct H.
    + reflexivity.
    + reflexivity.
    + rewrite parse_int_snoc. destruct (N.leb_spec 128 c); [reflexivity|lia].
    + destruct t as [|c t] using rev_ind; [now apply number_nonempty in H|clear IHt].
      rewrite parse_int_snoc. apply number_last in H as Hc.
      destruct (N.leb_spec 128 c); [lia|]. destruct (N.eqb_spec c 39); [lia|].
      apply parse_u32_spec in H. now rewrite H.
    + change (lit "'") with [39]. rewrite parse_int_snoc.
      change (128 <=? 39) with false. change (39 =? 39) with true. cbv iota.
      rewrite soft_int_eq by (eapply number_nonempty; eassumption).
      apply parse_u32_spec in H. rewrite H. cbn [map_err bind].
      unfold add_u32, BIP44_SOFT_UPPER_BOUND, u32_max.
      destruct (N.leb_spec (n + 2147483648) 4294967295); [reflexivity|lia].
    + change (lit "'") with [39]. rewrite parse_int_snoc.
      change (128 <=? 39) with false. change (39 =? 39) with true. cbv iota.
      rewrite soft_int_eq by (eapply number_nonempty; eassumption).
      pose proof H as Hn. destruct Hn as (ds & _ & _ & _ & _ & Hlt).
      apply parse_u32_spec in H. rewrite H. cbn [map_err bind].
      unfold add_u32, BIP44_SOFT_UPPER_BOUND, u32_max.
      destruct (N.leb_spec (n + 2147483648) 4294967295); [lia|].
      destruct p; [reflexivity|]. f_equal.
      replace (n + 2147483648) with (n - 2 ^ 31 + 1 * 2 ^ 32) by lia.
      rewrite N.mod_add by lia. apply N.mod_small. lia.
    + rewrite parse_int_snoc. destruct (N.leb_spec 128 c); [lia|].
      destruct (N.eqb_spec c 39); [congruence|].
      apply parse_u32_err in H1; [|now destruct t]. now rewrite H1.
    + change (lit "'") with [39]. rewrite parse_int_snoc.
      change (128 <=? 39) with false. change (39 =? 39) with true. cbv iota.
      rewrite soft_int_eq by assumption.
      apply parse_u32_err in H0; [|assumption]. now rewrite H0.
  - intros <-. destruct t as [|c t] using rev_ind; [constructor|clear IHt].
    rewrite parse_int_snoc. destruct (N.leb_spec 128 c); [now constructor|].
    destruct (N.eqb_spec c 39) as [->|Hc].
    + destruct t as [|c t]; [constructor|].
      assert (c :: t <> []) as Hne by discriminate. revert Hne.
      generalize (c :: t). clear c t. intros t Hne.
      rewrite soft_int_eq by assumption.
      destruct (parse_u32 t) as [n|e| |] eqn:E; cbn [map_err bind];
        [| |now destruct (parse_u32_kinds t Hne) as [[? ?]|[?|?]]; congruence..].
      * apply parse_u32_spec in E.
        pose proof E as Hn. destruct Hn as (ds & _ & _ & _ & _ & Hlt).
        destruct (N.ltb_spec n (2 ^ 31)) as [Hs|Hs].
        -- replace (add_u32 p n BIP44_SOFT_UPPER_BOUND) with
             (Ok (n + 2 ^ 31) : res kp_error N).
           ++ now apply comp_hard.
           ++ unfold add_u32, BIP44_SOFT_UPPER_BOUND, u32_max.
              destruct (N.leb_spec (n + 2147483648) 4294967295); [reflexivity|lia].
        -- replace (add_u32 p n BIP44_SOFT_UPPER_BOUND) with
             (match p with Debug => Panic | Release => Ok (n - 2 ^ 31) end : res kp_error N).
           ++ now apply comp_hard_overflow.
           ++ unfold add_u32, BIP44_SOFT_UPPER_BOUND, u32_max.
              destruct (N.leb_spec (n + 2147483648) 4294967295); [lia|].
              destruct p; [reflexivity|]. f_equal.
              replace (n + 2147483648) with (n - 2 ^ 31 + 1 * 2 ^ 32) by lia.
              rewrite N.mod_add by lia. symmetry. apply N.mod_small. lia.
      * apply parse_u32_err in E; [|assumption]. now apply comp_bad_hard.
    + assert (t ++ [c] <> []) as Hne by now destruct t.
      destruct (parse_u32 (t ++ [c])) as [n|e| |] eqn:E; cbn [map_err];
        [| |now destruct (parse_u32_kinds _ Hne) as [[n H']|[H'|H']]; congruence..].
      * apply parse_u32_spec in E. now apply comp_soft.
      * apply parse_u32_err in E; [|assumption]. now apply comp_bad_soft.
Qed.

Lemma component_det p i t r r' : component p i t r -> component p i t r' -> r = r'.
Proof. rewrite !component_exact. congruence. Qed.

(** ** Trimming *)
Lemma is_whitespace_spec c : is_whitespace c = true <-> ws c.
Proof.
  unfold is_whitespace, ws, white_space. cbn [In].
  rewrite !orb_true_iff, !andb_true_iff, !N.leb_le, !N.eqb_eq.
  lia.
Qed.

Lemma is_whitespace_false c : is_whitespace c = false <-> ~ ws c.
Proof. rewrite <- is_whitespace_spec. destruct (is_whitespace c); split; congruence. Qed.

Lemma trim_start_app a s : Forall ws a -> trim_start (a ++ s) = trim_start s.
Proof.
  intros H; induction H as [|c a Hc Ha IH]; [reflexivity|].
  cbn [trim_start app]. apply is_whitespace_spec in Hc. now rewrite Hc.
Qed.

Lemma trim_start_id s : (forall c s', s = c :: s' -> ~ ws c) -> trim_start s = s.
Proof.
  destruct s as [|c s]; intros H; [reflexivity|]. cbn [trim_start].
  specialize (H c s eq_refl). apply is_whitespace_false in H. now rewrite H.
Qed.

Lemma trim_start_inv s : exists a, s = a ++ trim_start s /\ Forall ws a /\
  forall c s', trim_start s = c :: s' -> ~ ws c.
Proof.
  induction s as [|c s IH].
  - exists []. repeat split; [constructor|discriminate].
  - cbn [trim_start]. destruct (is_whitespace c) eqn:E.
    + destruct IH as (a & Hs & Ha & Hf). exists (c :: a). cbn [app].
      rewrite <- Hs. apply is_whitespace_spec in E. auto.
    + exists []. split; [reflexivity|]. split; [constructor|].
      intros c' s' H. injection H as -> ->. now apply is_whitespace_false.
Qed.

Lemma trimmed_trim s : trimmed s (trim s).
Proof.
  unfold trimmed, trim.
  destruct (trim_start_inv s) as (a & Hs & Ha & Hf).
  destruct (trim_start_inv (rev (trim_start s))) as (b & Hb & Hbw & Hbf).
  apply (f_equal (@rev N)) in Hb. rewrite rev_involutive, rev_app_distr in Hb.
  exists a, (rev b). split; [congruence|]. split; [exact Ha|].
  split; [now apply Forall_rev|]. split.
  - intros c t' H. rewrite H in Hb. now apply (Hf c (t' ++ rev b)).
  - intros c t' H. apply (Hbf c (rev t')).
    apply (f_equal (@rev N)) in H. now rewrite rev_involutive, rev_app_distr in H.
Qed.

Lemma trim_start_nil s : Forall ws s -> trim_start s = [].
Proof. intros H. rewrite <- (app_nil_r s). now rewrite trim_start_app. Qed.

Lemma trimmed_exact s t : trimmed s t <-> trim s = t.
Proof.
  split; [|intros <-; apply trimmed_trim].
  intros (a & b & -> & Ha & Hb & Hf & Hl). unfold trim.
  rewrite trim_start_app by assumption.
  destruct t as [|c t].
  - cbn [app]. now rewrite (trim_start_nil b Hb).
  - rewrite (trim_start_id ((c :: t) ++ b)).
    2:{ intros c' s' H. injection H as <- _. now apply (Hf c t). }
    rewrite rev_app_distr, trim_start_app by now apply Forall_rev.
    rewrite trim_start_id; [apply rev_involutive|].
    intros c' s' H. apply (Hl c' (rev s')).
    apply (f_equal (@rev N)) in H. now rewrite rev_involutive in H.
Qed.

(** ** Parts *)
Lemma join_concat sep ps : ps <> [] ->
  join sep ps = List.concat (List.map (fun r => r ++ sep) (removelast ps)) ++ last ps [].
Proof.
  induction ps as [|p ps IH]; intros H; [congruence|].
  destruct ps as [|q ps]; [reflexivity|].
  rewrite join_cons, IH by discriminate.
  change (removelast (p :: q :: ps)) with (p :: removelast (q :: ps)).
  cbn [List.map List.concat].
  change (last (p :: q :: ps) []) with (last (q :: ps) []).
  now rewrite <- !app_assoc.
Qed.

Lemma path_parts_exact s ts : path_parts s ts <-> List.map trim (split 0x2F s) = ts.
Proof.
  unfold path_parts. split.
  - intros (raws & Hne & Hf & -> & HF). change (lit "/") with [0x2F].
    rewrite <- join_concat by assumption. rewrite split_join by assumption.
    induction HF as [|r t raws ts Hrt HF IH]; [congruence|].
    cbn [List.map]. apply trimmed_exact in Hrt as ->. f_equal.
    destruct raws as [|r' raws].
    + now inversion HF.
    + apply IH; [discriminate|now inversion Hf].
  - intros <-. exists (split 0x2F s). split; [apply split_nonempty|].
    split; [apply split_no_sep|]. split.
    + change (lit "/") with [0x2F]. rewrite <- join_concat by apply split_nonempty.
      now rewrite join_split.
    + induction (split 0x2F s) as [|r raws IH]; cbn [List.map]; constructor;
        [apply trimmed_trim|exact IH].
Qed.

(** ** Whole paths *)
Fixpoint parse_ints (p : profile) (i : N) (ts : list str) : res kp_error (list N) :=
  match ts with
  | [] => Ok []
  | t :: ts' =>
    let* v := parse_int p i t in
    let* vs := parse_ints p (i + 1) ts' in
    Ok (v :: vs)
  end.

Lemma parse_int_defined p i t : parse_int p i t <> Undef.
Proof.
  intros H. apply component_exact in H. inversion H; destruct p; discriminate.
Qed.

Lemma components_exact p ts : forall i r, components p i ts r <-> parse_ints p i ts = r.
Proof.
  induction ts as [|t ts IH]; intros i r; cbn [parse_ints].
  - split; [now intros H; inversion H|intros <-; constructor].
  - split.
    + intros H; inversion H; subst;
        repeat match goal with
        | H : component _ _ _ _ |- _ => apply component_exact in H; rewrite H; cbn [bind]
        | H : components _ _ ts _ |- _ => apply IH in H; rewrite H; cbn [bind]
        end; reflexivity.
    + intros <-. pose proof (parse_int_defined p i t) as Hu.
      destruct (parse_int p i t) as [v|e| |] eqn:E; cbn [bind]; [| | |congruence];
        apply component_exact in E; try (now constructor).
      destruct (parse_ints p (i + 1) ts) as [vs|e| |] eqn:E'; cbn [bind].
      * apply IH in E'. now constructor.
      * apply IH in E'. eapply comps_later_err; eassumption.
      * apply IH in E'. eapply comps_later_panic; eassumption.
      * exfalso. apply IH in E'. clear -E'.
        remember Undef as u eqn:Hu. induction E'; try discriminate; auto.
Qed.

Definition of_list (vs : list N) : KeyPath :=
  {| purpose := nth 0 vs 0; coin := nth 1 vs 0; account := nth 2 vs 0;
     change := nth 3 vs 0; address := nth 4 vs 0 |}.

Lemma generic_from_eq p s : generic_from p s =
  let ts := List.map trim (split 0x2F s) in
  if negb (Nat.eqb (List.length ts) 6)
  then Err (InvalidPartsCount (N.of_nat (List.length ts)))
  else match ts with
       | t0 :: ts' =>
         if negb (str_eqb t0 (lit "m")) then Err (InvalidPathMarker t0)
         else rmap of_list (parse_ints p 1 ts')
       | [] => Panic
       end.
Proof.
  unfold generic_from, KEY_PATH_PARTS_COUNT.
  generalize (List.map trim (split 0x2F s)) as ts. intros ts. cbv zeta.
  destruct (Nat.eqb_spec (List.length ts) 6) as [E|E]; cbn [negb]; [|reflexivity].
  destruct ts as [|t0 [|t1 [|t2 [|t3 [|t4 [|t5 [|t6 ts]]]]]]]; try discriminate E.
  cbn [nth parse_ints]. destruct (str_eqb t0 (lit "m")); cbn [negb]; [|reflexivity].
  change (1 + 1) with 2. change (2 + 1) with 3. change (3 + 1) with 4. change (4 + 1) with 5.
  repeat match goal with
  | |- context [parse_int p ?i ?t] =>
    destruct (parse_int p i t); cbn [bind rmap]; try reflexivity
  end.
Qed.

Lemma parse_ints_length p ts : forall i vs,
  parse_ints p i ts = Ok vs -> List.length vs = List.length ts.
Proof.
  induction ts as [|t ts IH]; intros i vs H; cbn in H; [now injection H as <-|].
  destruct (parse_int p i t); try discriminate. cbn in H.
  destruct (parse_ints p (i + 1) ts) eqn:E; try discriminate.
  injection H as <-. cbn. now rewrite (IH _ _ E).
Qed.

Theorem path_outcome_exact p s r : path_outcome p s r <-> generic_from p s = r.
Proof.
  rewrite generic_from_eq. cbv zeta. split.
  - intros H; inversion H as [ts Hp Hl|t0 ts Hp Hl Hm|ts e Hp Hl Hc|ts Hp Hl Hc
      |ts pu co ac ch ad Hp Hc]; subst; apply path_parts_exact in Hp; rewrite Hp.
    + apply Nat.eqb_neq in Hl. now rewrite Hl.
    + cbn [List.length]. rewrite Hl. cbn [Nat.eqb negb].
      apply str_eqb_neq in Hm. now rewrite Hm.
    + cbn [List.length]. rewrite Hl. cbn [Nat.eqb negb]. rewrite str_eqb_refl. cbn [negb].
      apply components_exact in Hc. now rewrite Hc.
    + cbn [List.length]. rewrite Hl. cbn [Nat.eqb negb]. rewrite str_eqb_refl. cbn [negb].
      apply components_exact in Hc. now rewrite Hc.
    + apply components_exact in Hc. pose proof (parse_ints_length _ _ _ _ Hc) as Hl.
      cbn [List.length] in Hl |- *. rewrite <- Hl. cbn [Nat.eqb negb].
      rewrite str_eqb_refl. cbn [negb]. now rewrite Hc.
  - intros <-. destruct (List.map trim (split 0x2F s)) as [|t0 ts] eqn:Hp.
    { destruct (split 0x2F s) eqn:E; [now apply split_nonempty in E|discriminate]. }
    apply path_parts_exact in Hp.
    destruct (Nat.eqb_spec (List.length (t0 :: ts)) 6) as [Hl|Hl]; cbn [negb].
    2:{ now apply out_count. }
    cbn [List.length] in Hl. injection Hl as Hl.
    destruct (str_eqb t0 (lit "m")) eqn:Hm; cbn [negb].
    2:{ apply str_eqb_neq in Hm. apply (out_marker p s t0 ts); assumption. }
    apply str_eqb_eq in Hm as ->.
    destruct (parse_ints p 1 ts) as [vs|e| |] eqn:Hc; cbn [rmap bind].
    + pose proof (parse_ints_length _ _ _ _ Hc) as Hv. rewrite Hl in Hv.
      destruct vs as [|v0 [|v1 [|v2 [|v3 [|v4 [|v5 vs]]]]]]; try discriminate Hv.
      apply components_exact in Hc. unfold of_list. cbn [nth]. eapply out_ok; eassumption.
    + apply components_exact in Hc. eapply out_err; eassumption.
    + apply components_exact in Hc. eapply out_panic; eassumption.
    + exfalso. apply components_exact in Hc. clear -Hc.
      remember Undef as u eqn:Hu. induction Hc; try discriminate; auto.
Qed.

(** ** Printing *)
Lemma dec_fuel_digits k n : Forall digit (dec_fuel k n).
Proof.
  revert n; induction k as [|k IH]; intros n; cbn [dec_fuel]; [constructor|].
  destruct (N.ltb_spec n 10).
  - repeat constructor; unfold digit; lia.
  - apply Forall_app. split; [apply IH|]. pose proof (N.mod_lt n 10 ltac:(lia)).
    repeat constructor; unfold digit; lia.
Qed.

Lemma dec_fuel_value k n : n < 10 ^ N.of_nat k -> digits_value (dec_fuel k n) = n.
Proof.
  revert n; induction k as [|k IH]; intros n Hn; cbn [dec_fuel].
  - cbn in *. lia.
  - destruct (N.ltb_spec n 10).
    + cbn [digits_value List.length]. change (10 ^ N.of_nat 0) with 1. lia.
    + rewrite digits_value_app, IH.
      * cbn [List.length digits_value]. change (10 ^ N.of_nat 1) with 10.
        change (10 ^ N.of_nat 0) with 1.
        pose proof (N.div_mod n 10 ltac:(lia)). lia.
      * rewrite Nat2N.inj_succ, N.pow_succ_r' in Hn. apply N.div_lt_upper_bound; lia.
Qed.

Lemma dec_fuel_nonempty k n : dec_fuel (S k) n <> [].
Proof. cbn [dec_fuel]. destruct (n <? 10); [discriminate|]. now destruct (dec_fuel k _). Qed.

Lemma number_dec n : n < 2 ^ 32 -> number (dec n) n.
Proof.
  intros H. exists (dec n). split; [now left|]. split; [apply dec_fuel_nonempty|].
  split; [apply dec_fuel_digits|]. split; [|exact H].
  symmetry. apply dec_fuel_value. eapply N.lt_le_trans; [exact H|]. apply N.leb_le. vm_compute. reflexivity.
Qed.

Lemma print_int_component p i v : v < 2 ^ 32 -> component p i (print_int v) (Ok v).
Proof.
  intros H. unfold print_int, BIP44_SOFT_UPPER_BOUND.
  destruct (N.leb_spec 2147483648 v) as [Hv|Hv].
  - replace (Ok v) with (Ok (v - 2147483648 + 2 ^ 31) : res kp_error N) by (f_equal; lia).
    apply comp_hard; [apply number_dec; lia|lia].
  - apply comp_soft, number_dec. exact H.
Qed.

Lemma print_int_chars v : Forall (fun c => digit c \/ c = 39) (print_int v).
Proof.
  assert (forall n, Forall (fun c => digit c \/ c = 39) (dec n)) as Hd.
  { intros n. eapply Forall_impl; [|apply dec_fuel_digits]. now left. }
  unfold print_int. destruct (_ <=? v); [|apply Hd].
  apply Forall_app. split; [apply Hd|]. constructor; [now right|constructor].
Qed.

Lemma print_int_trim v : trimmed (print_int v) (print_int v).
Proof.
  exists [], []. rewrite app_nil_r. split; [reflexivity|].
  split; [constructor|]. split; [constructor|].
  pose proof (print_int_chars v) as H.
  assert (forall c, In c (print_int v) -> ~ ws c) as Hw.
  { intros c Hc. rewrite Forall_forall in H. specialize (H c Hc). unfold digit in H.
    rewrite <- is_whitespace_spec. unfold is_whitespace.
    rewrite !orb_true_iff, !andb_true_iff, !N.leb_le, !N.eqb_eq. lia. }
  split; intros c t E; apply Hw; rewrite E; [now left|apply in_or_app; right; now left].
Qed.

Lemma generic_round_trip p k : kp_wf k -> generic_from p (generic_to_string k) = Ok k.
Proof.
  destruct k as [pu co ac ch ad]. unfold kp_wf, path_values, is_u32, u32_max.
  cbn [purpose coin account change address]. rewrite !Forall_cons_iff.
  intros (H1 & H2 & H3 & H4 & H5 & _). apply path_outcome_exact.
  apply (out_ok p _ [print_int pu; print_int co; print_int ac; print_int ch; print_int ad]).
  - exists [lit "m"; print_int pu; print_int co; print_int ac; print_int ch; print_int ad].
    split; [discriminate|]. split.
    { assert (forall v, ~ In 0x2F (print_int v)) as Hs.
      { intros v Hv. pose proof (print_int_chars v) as H. rewrite Forall_forall in H.
        apply H in Hv. unfold digit in Hv. lia. }
      repeat (constructor; try apply Hs). cbn. intros [H|[]]. discriminate. }
    split.
    { unfold generic_to_string. cbn [removelast List.map List.concat last purpose coin account change address].
      rewrite <- !app_assoc. cbn [app]. reflexivity. }
    constructor.
    { apply trimmed_exact. reflexivity. }
    repeat (constructor; try apply print_int_trim).
  - repeat (apply comps_ok || apply comps_nil); apply print_int_component; lia.
Qed.

Lemma generic_to_string_inj k k' : kp_wf k -> kp_wf k' ->
  generic_to_string k = generic_to_string k' -> k = k'.
Proof.
  intros H H' E. apply (generic_round_trip Debug) in H, H'. rewrite E in H. congruence.
Qed.

(** ** Panics *)
Lemma accepted_component p i t : accepted p t <-> exists v, component p i t (Ok v).
Proof.
  split.
  - intros (t' & n & Hn & [->|[-> Ho]]); [exists n; now apply comp_soft|].
    destruct (N.ltb_spec n (2 ^ 31)).
    + exists (n + 2 ^ 31). now apply comp_hard.
    + destruct Ho as [Ho| ->]; [lia|]. exists (n - 2 ^ 31).
      now apply (comp_hard_overflow Release).
  - intros (v & H). inversion H as [| | |t0 n Hn|t0 n Hn Hlt|t0 n Hn Hge Hp Heq| |]; subst.
    + exists t, v. auto.
    + exists t0, n. auto 6.
    + exists t0, n. split; [exact Hn|]. right. split; [reflexivity|]. right.
      destruct p; [discriminate|reflexivity].
Qed.

Lemma components_panic p ts : forall i, components p i ts Panic <->
  exists pre t post, ts = pre ++ t :: post /\ Forall (accepted p) pre /\
    exists j, component p j t Panic.
Proof.
  induction ts as [|t ts IH]; intros i.
  - split; [intros H; inversion H|]. intros (pre & t & post & H & _). now destruct pre.
  - split.
    + intros H; inversion H as [| | |i0 t0 ts0 Hc| |i0 t0 ts0 v Hc Hcs]; subst.
      * exists [], t, ts. eauto.
      * apply IH in Hcs as (pre & u & post & -> & Hp & Hj).
        exists (t :: pre), u, post. split; [reflexivity|]. split; [|exact Hj].
        constructor; [|exact Hp]. apply (accepted_component p i). eauto.
    + intros (pre & u & post & E & Hp & j & Hj). destruct pre as [|q pre].
      * injection E as -> ->. apply comps_panic. inversion Hj; subst; [now constructor|].
        destruct p; [|discriminate].
        match goal with H : number _ _ |- _ => apply (comp_hard_overflow Debug i _ _ H) end.
        assumption.
      * injection E as -> ->. inversion_clear Hp as [|? ? Hq Hpre].
        apply (accepted_component p i) in Hq as (v & Hq).
        eapply comps_later_panic; [exact Hq|]. apply IH. eauto 8.
Qed.

Lemma component_panic p t : (exists j, component p j t Panic) <->
  (exists t' c, t = t' ++ [c] /\ 0x80 <= c) \/
  (p = Debug /\ exists t' n, t = t' ++ lit "'" /\ number t' n /\ 2 ^ 31 <= n).
Proof.
  split.
  - intros (j & H). inversion H; subst.
    + left. eauto.
    + right. destruct p; [|discriminate]. eauto 6.
  - intros [(t' & c & -> & Hc)|(-> & t' & n & -> & Hn & Hge)]; exists 1.
    + now constructor.
    + apply (comp_hard_overflow Debug 1 _ _ Hn Hge).
Qed.

Lemma generic_panic p s : generic_from p s = Panic <->
  exists pre t post, path_parts s (lit "m" :: pre ++ t :: post) /\
    List.length (pre ++ t :: post) = 5%nat /\ Forall (accepted p) pre /\
    ((exists t' c, t = t' ++ [c] /\ 0x80 <= c) \/
     (p = Debug /\ exists t' n, t = t' ++ lit "'" /\ number t' n /\ 2 ^ 31 <= n)).
Proof.
  rewrite <- path_outcome_exact. split.
  - intros H; inversion H as [| | |ts Hp Hl Hc|]; subst.
    apply components_panic in Hc as (pre & t & post & -> & Hpre & Ht).
    exists pre, t, post. rewrite <- component_panic. auto.
  - intros (pre & t & post & Hp & Hl & Hpre & Ht). rewrite <- component_panic in Ht.
    apply (out_panic p s _ Hp Hl). apply components_panic. eauto 8.
Qed.

Lemma generic_defined p s : generic_from p s <> Undef.
Proof. intros H. apply path_outcome_exact in H. inversion H. Qed.

Lemma components_nth p ts : forall i vs j t, components p i ts (Ok vs) ->
  nth_error ts j = Some t ->
  exists v k, nth_error vs j = Some v /\ component p k t (Ok v).
Proof.
  induction ts as [|t0 ts IH]; intros i vs j t H Hj; [now destruct j|].
  inversion H; subst. destruct j as [|j].
  - injection Hj as ->. exists v, i. auto.
  - cbn [nth_error] in *. eapply IH; eassumption.
Qed.

Lemma path_parts_det s ts ts' : path_parts s ts -> path_parts s ts' -> ts = ts'.
Proof. rewrite !path_parts_exact. congruence. Qed.

Lemma marked_value p s k ts i t n :
  generic_from p s = Ok k -> path_parts s (lit "m" :: ts) ->
  nth_error ts i = Some (t ++ lit "'") -> number t n ->
  exists v, nth_error (path_values k) i = Some v /\
    (n < 2 ^ 31 -> v = n + 2 ^ 31) /\
    (2 ^ 31 <= n -> v = n - 2 ^ 31 /\ v < 2 ^ 31).
Proof.
  intros H Hp Hi Hn. apply path_outcome_exact in H.
  inversion H as [| | | |ts' pu co ac ch ad Hp' Hc]; subst.
  assert (lit "m" :: ts = lit "m" :: ts') as E by (eapply path_parts_det; eassumption).
  injection E as <-.
  destruct (components_nth _ _ _ _ _ _ Hc Hi) as (v & j & Hv & Hcv).
  exists v. split; [exact Hv|].
  pose proof Hn as (ds & _ & _ & _ & _ & Hlt).
  split; intros Hr.
  - pose proof (component_det _ _ _ _ _ Hcv (comp_hard p j t n Hn Hr)) as E. congruence.
  - pose proof (component_det _ _ _ _ _ Hcv (comp_hard_overflow p j t n Hn Hr)) as E.
    destruct p; [discriminate|]. injection E as ->. split; lia.
Qed.

(** ** Constructors *)
Lemma add_bound p a : a < 2 ^ 31 ->
  add_u32 p a BIP44_SOFT_UPPER_BOUND = (Ok (a + 2 ^ 31) : res kp_error N).
Proof.
  intros H. unfold add_u32, BIP44_SOFT_UPPER_BOUND, u32_max.
  destruct (N.leb_spec (a + 2147483648) 4294967295); [reflexivity|lia].
Qed.

Definition three_args (account change address : N) : option kp_error :=
  if 2 ^ 31 <=? account then Some (InvalidAccount account)
  else if 2 <=? change then Some (InvalidChange change)
  else if 2 ^ 31 <=? address then Some (InvalidAddress change)
  else None.

Lemma change_test c : negb (c =? 0) && negb (c =? 1) = (2 <=? c).
Proof.
  destruct (N.eqb_spec c 0) as [->|]; [reflexivity|].
  destruct (N.eqb_spec c 1) as [->|]; [reflexivity|].
  cbn. symmetry. apply N.leb_le. lia.
Qed.

Lemma btc_path_eq pu p testnet a c d :
  btc_path pu p testnet a c d =
  match three_args a c d with
  | Some e => Err e
  | None => Ok {| purpose := pu; coin := if testnet then 0x80000001 else 0x80000000;
                  account := a + 2 ^ 31; change := c; address := d |}
  end.
Proof.
  unfold btc_path, btc_is_valid, three_args. rewrite change_test.
  change BIP44_SOFT_UPPER_BOUND with (2 ^ 31) at 1 2.
  destruct (N.leb_spec (2 ^ 31) a); [reflexivity|].
  destruct (2 <=? c); [reflexivity|].
  destruct (2 ^ 31 <=? d); [reflexivity|]. cbn [bind].
  now rewrite add_bound.
Qed.

Lemma ada_new_eq p a c d :
  ada_new p a c d =
  match three_args a c d with
  | Some e => Err e
  | None => Ok {| purpose := 0x8000002C; coin := 0x80000717;
                  account := a + 2 ^ 31; change := c; address := d |}
  end.
Proof.
  unfold ada_new, three_args. rewrite change_test.
  change BIP44_SOFT_UPPER_BOUND with (2 ^ 31) at 1 2.
  destruct (N.leb_spec (2 ^ 31) a); [reflexivity|].
  destruct (2 <=? c); [reflexivity|].
  destruct (2 ^ 31 <=? d); [reflexivity|].
  now rewrite add_bound.
Qed.

Lemma three_args_none a c d :
  three_args a c d = None <-> a < 2 ^ 31 /\ (c = 0 \/ c = 1) /\ d < 2 ^ 31.
Proof.
  unfold three_args. destruct (N.leb_spec (2 ^ 31) a); [split; [discriminate|lia]|].
  destruct (N.leb_spec 2 c); [split; [discriminate|lia]|].
  destruct (N.leb_spec (2 ^ 31) d); [split; [discriminate|lia]|].
  split; [lia|reflexivity].
Qed.

Lemma constructors_exact p :
  (forall testnet pu con,
     In (pu, con) [(0x8000002C, btc_bip44); (0x80000031, btc_bip49); (0x80000054, btc_bip84)] ->
     forall a c d k, con p testnet a c d = Ok k <->
       a < 2 ^ 31 /\ (c = 0 \/ c = 1) /\ d < 2 ^ 31 /\
       path_values k = [pu; if testnet then 2 ^ 31 + 1 else 2 ^ 31; a + 2 ^ 31; c; d]) /\
  (forall a c d k, ada_new p a c d = Ok k <->
       a < 2 ^ 31 /\ (c = 0 \/ c = 1) /\ d < 2 ^ 31 /\
       path_values k = [2 ^ 31 + 44; 2 ^ 31 + 1815; a + 2 ^ 31; c; d]) /\
  (forall a k, eth_new p a = Ok k <->
       a < 2 ^ 31 /\ path_values k = [2 ^ 31 + 44; 2 ^ 31 + 60; a + 2 ^ 31; 0; 0]) /\
  (forall a k, eth_new_metamask a = Ok k <->
       a < 2 ^ 31 /\ path_values k = [2 ^ 31 + 44; 2 ^ 31 + 60; 2 ^ 31; 0; a]).
Proof.
  assert (forall (k : KeyPath) a b c d e, path_values k = [a; b; c; d; e] <->
    {| purpose := a; coin := b; account := c; change := d; address := e |} = k) as Hpv.
  { intros [a' b' c' d' e'] a b c d e. unfold path_values. cbn.
    split; intros H; inversion H; reflexivity. }
  split; [|split; [|split]].
  - intros testnet pu con Hin a c d k.
    assert (con = btc_path pu) as ->.
    { cbn [In] in Hin. destruct Hin as [H|[H|[H|[]]]]; injection H as <- <-; reflexivity. }
    rewrite btc_path_eq. destruct (three_args a c d) eqn:E.
    + split; [discriminate|]. intros (H1 & H2 & H3 & _).
      assert (three_args a c d = None) by now apply three_args_none. congruence.
    + apply three_args_none in E. rewrite Hpv. destruct testnet; split.
      * intros H; injection H as <-. tauto.
      * intros (_ & _ & _ & <-). reflexivity.
      * intros H; injection H as <-. tauto.
      * intros (_ & _ & _ & <-). reflexivity.
  - intros a c d k. rewrite ada_new_eq. destruct (three_args a c d) eqn:E.
    + split; [discriminate|]. intros (H1 & H2 & H3 & _).
      assert (three_args a c d = None) by now apply three_args_none. congruence.
    + apply three_args_none in E. rewrite Hpv. split.
      * intros H; injection H as <-. tauto.
      * intros (_ & _ & _ & <-). reflexivity.
  - intros a k. unfold eth_new. change (BIP44_SOFT_UPPER_BOUND <=? a) with (2 ^ 31 <=? a).
    rewrite Hpv. destruct (N.leb_spec (2 ^ 31) a); [split; [discriminate|lia]|].
    rewrite add_bound by assumption. cbn [bind]. split.
    + intros H0; injection H0 as <-. auto.
    + intros (_ & <-). reflexivity.
  - intros a k. unfold eth_new_metamask.
    change (BIP44_SOFT_UPPER_BOUND <=? a) with (2 ^ 31 <=? a).
    rewrite Hpv. destruct (N.leb_spec (2 ^ 31) a); [split; [discriminate|lia]|]. split.
    + intros H0; injection H0 as <-. auto.
    + intros (_ & <-). reflexivity.
Qed.

Lemma constructor_errors p :
  (forall con, In con [btc_bip44 p true; btc_bip49 p true; btc_bip84 p true;
                       btc_bip44 p false; btc_bip49 p false; btc_bip84 p false; ada_new p] ->
   forall a c d,
     (2 ^ 31 <= a -> con a c d = Err (InvalidAccount a)) /\
     (a < 2 ^ 31 -> 2 <= c -> con a c d = Err (InvalidChange c)) /\
     (a < 2 ^ 31 -> c < 2 -> 2 ^ 31 <= d -> con a c d = Err (InvalidAddress c) /\ c <> d)) /\
  (forall con, In con [eth_new p; eth_new_metamask] ->
   forall a, 2 ^ 31 <= a -> con a = Err (InvalidAccount a)).
Proof.
  split.
  - intros con Hin a c d.
    assert (forall e, three_args a c d = Some e -> con a c d = Err e) as H.
    { intros e He. cbn [In] in Hin. unfold btc_bip44, btc_bip49, btc_bip84 in Hin.
      repeat destruct Hin as [<-|Hin]; try destruct Hin;
        rewrite ?btc_path_eq, ?ada_new_eq, He; reflexivity. }
    split; [|split].
    + intros Ha. apply H. unfold three_args. destruct (N.leb_spec (2 ^ 31) a); [reflexivity|lia].
    + intros Ha Hc. apply H. unfold three_args. destruct (N.leb_spec (2 ^ 31) a); [lia|].
      destruct (N.leb_spec 2 c); [reflexivity|lia].
    + intros Ha Hc Hd. split; [|lia]. apply H. unfold three_args.
      destruct (N.leb_spec (2 ^ 31) a); [lia|]. destruct (N.leb_spec 2 c); [lia|].
      destruct (N.leb_spec (2 ^ 31) d); [reflexivity|lia].
  - intros con Hin a Ha. cbn [In] in Hin. destruct Hin as [<-|[<-|[]]];
      unfold eth_new, eth_new_metamask; change (BIP44_SOFT_UPPER_BOUND <=? a) with (2 ^ 31 <=? a);
      destruct (N.leb_spec (2 ^ 31) a); try reflexivity; lia.
Qed.
