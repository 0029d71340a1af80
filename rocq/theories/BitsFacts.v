From Verif Require Import Base BaseFacts Bits BitsSpec.

(** ** Bit strings *)
Lemma bits_length w n : length (bits w n) = w.
Proof. induction w as [|w IH]; cbn; congruence. Qed.

Lemma bytes_bits_length bs : length (bytes_bits bs) = (8 * length bs)%nat.
Proof.
  induction bs as [|b bs IH]; [reflexivity|].
  unfold bytes_bits in *. cbn [flat_map length].
  rewrite app_length, bits_length, IH. lia.
Qed.

Lemma groups_bits_length es : length (groups_bits es) = (11 * length es)%nat.
Proof.
  induction es as [|b bs IH]; [reflexivity|].
  unfold groups_bits in *. cbn [flat_map length].
  rewrite app_length, bits_length, IH. lia.
Qed.

Lemma bytes_bits_app a b : bytes_bits (a ++ b) = bytes_bits a ++ bytes_bits b.
Proof. apply flat_map_app. Qed.

Lemma groups_bits_app a b : groups_bits (a ++ b) = groups_bits a ++ groups_bits b.
Proof. apply flat_map_app. Qed.

Lemma bits_testbit w n m :
  bits w n = bits w m <-> (forall i, i < N.of_nat w -> N.testbit n i = N.testbit m i).
Proof.
  induction w as [|w IH]; cbn [bits].
  - split; [intros _ i Hi; lia|reflexivity].
  - split.
    + intros H. injection H as H1 H2. intros i Hi.
      destruct (N.eq_dec i (N.of_nat w)) as [->|Hne]; [exact H1|].
      apply (proj1 IH H2). lia.
    + intros H. f_equal; [apply H; lia|]. apply IH. intros i Hi. apply H. lia.
Qed.

Lemma bits_inj w n m :
  n < 2 ^ N.of_nat w -> m < 2 ^ N.of_nat w -> bits w n = bits w m -> n = m.
Proof.
  intros Hn Hm H. apply N.bits_inj. intros i.
  destruct (N.lt_ge_cases i (N.of_nat w)) as [Hi|Hi].
  - now apply (proj1 (bits_testbit w n m) H).
  - rewrite <- (N.mod_small n (2 ^ N.of_nat w)) by assumption.
    rewrite <- (N.mod_small m (2 ^ N.of_nat w)) by assumption.
    now rewrite !N.mod_pow2_bits_high.
Qed.

Lemma bits_mod w n : bits w (n mod 2 ^ N.of_nat w) = bits w n.
Proof.
  apply bits_testbit. intros i Hi. now apply N.mod_pow2_bits_low.
Qed.

Lemma bits_zero w : bits w 0 = repeat false w.
Proof. induction w as [|w IH]; cbn; [reflexivity|]. now rewrite IH. Qed.

Lemma value_acc_bits w : forall acc n,
  n < 2 ^ N.of_nat w -> value_acc acc (bits w n) = acc * 2 ^ N.of_nat w + n.
Proof.
  induction w as [|w IH]; intros acc n Hn.
  - cbn in *. lia.
  - cbn [bits value_acc].
    replace (N.of_nat (S w)) with (N.succ (N.of_nat w)) in * by lia.
    rewrite N.pow_succ_r' in *.
    set (p := 2 ^ N.of_nat w) in *.
    assert (Hp : p <> 0) by (apply N.pow_nonzero; lia).
    rewrite <- bits_mod. fold p.
    rewrite IH by (apply N.mod_lt; exact Hp). fold p.
    pose proof (N.div_mod n p Hp) as Hdm.
    assert (Hq : n / p = if N.testbit n (N.of_nat w) then 1 else 0).
    { rewrite N.testbit_eqb. fold p.
      assert (H : n / p < 2) by (apply N.div_lt_upper_bound; lia).
      destruct (N.eqb_spec ((n / p) mod 2) 1) as [E|E];
        rewrite N.mod_small in E by assumption; revert E H; clear;
        generalize (n / p); lia. }
    rewrite <- Hq. lia.
Qed.

Lemma value_bits w n : n < 2 ^ N.of_nat w -> value (bits w n) = n.
Proof. intros H. unfold value. rewrite value_acc_bits by assumption. lia. Qed.

Lemma value_acc_bound l : forall acc k, acc < 2 ^ k ->
  value_acc acc l < 2 ^ (k + N.of_nat (length l)).
Proof.
  induction l as [|b l IH]; intros acc k H; cbn [value_acc length].
  - now rewrite N.add_0_r.
  - replace (k + N.of_nat (S (length l))) with (N.succ k + N.of_nat (length l)) by lia.
    apply IH. rewrite N.pow_succ_r'. destruct b; lia.
Qed.

Lemma value_bound l : value l < 2 ^ N.of_nat (length l).
Proof. apply (value_acc_bound l 0 0). reflexivity. Qed.

Lemma value_acc_testbit_low l : forall acc i, (i < length l)%nat ->
  N.testbit (value_acc acc l) (N.of_nat i) = nth (length l - 1 - i) l false.
Proof.
  induction l as [|b l IH]; intros acc i Hi; cbn [length] in Hi; [lia|].
  cbn [value_acc length].
  destruct (Nat.eq_dec i (length l)) as [->|Hne].
  - replace (S (length l) - 1 - length l)%nat with O by lia. cbn [nth].
    clear. set (v := 2 * acc + (if b then 1 else 0)).
    assert (Hv : N.testbit v 0 = b).
    { subst v. destruct b.
      - apply N.testbit_odd_0.
      - rewrite N.add_0_r. apply N.testbit_even_0. }
    revert Hv. generalize v. clear. induction l as [|c l IH]; intros v Hv; [exact Hv|].
    cbn [value_acc length].
    enough (forall l k v, N.testbit (value_acc v l) (N.of_nat (length l) + k) = N.testbit v k) as H.
    { replace (N.of_nat (S (length l))) with (N.of_nat (length l) + 1) by lia.
      rewrite H. change 1 with (N.succ 0) at 2. destruct c.
      - rewrite N.testbit_odd_succ by lia. exact Hv.
      - rewrite N.add_0_r, N.testbit_even_succ by lia. exact Hv. }
    clear. induction l as [|c l IH]; intros k v; cbn [value_acc length]; [reflexivity|].
    replace (N.of_nat (S (length l)) + k) with (N.of_nat (length l) + N.succ k) by lia.
    rewrite IH. destruct c.
    + apply N.testbit_odd_succ; lia.
    + rewrite N.add_0_r. apply N.testbit_even_succ; lia.
  - rewrite IH by lia.
    replace (S (length l) - 1 - i)%nat with (S (length l - 1 - i)) by lia.
    reflexivity.
Qed.

Lemma bits_value l : bits (length l) (value l) = l.
Proof.
  apply (nth_ext _ _ false false); [apply bits_length|].
  rewrite bits_length. intros i Hi.
  assert (Hn : forall w n i, (i < w)%nat ->
     nth i (bits w n) false = N.testbit n (N.of_nat (w - 1 - i))).
  { clear. induction w as [|w IH]; intros n i Hi; [lia|].
    cbn [bits]. destruct i as [|i].
    - cbn [nth]. f_equal. lia.
    - cbn [nth]. rewrite IH by lia. f_equal. lia. }
  rewrite Hn by assumption. unfold value.
  rewrite value_acc_testbit_low by lia. f_equal. lia.
Qed.

Lemma bytes_bits_inj a b : bytes_bits a = bytes_bits b -> a = b.
Proof.
  revert b; induction a as [|x a IH]; intros [|y b] H; try reflexivity;
    try discriminate.
  cbn [bytes_bits flat_map] in H.
  change (bits 8 (b2n x) ++ bytes_bits a = bits 8 (b2n y) ++ bytes_bits b) in H.
  assert (bits 8 (b2n x) = bits 8 (b2n y) /\ bytes_bits a = bytes_bits b) as [H1 H2].
  { apply (f_equal (firstn 8)) in H as H1.
    apply (f_equal (skipn 8)) in H as H2.
    rewrite !firstn_app, !bits_length, Nat.sub_diag in H1.
    rewrite !skipn_app, !bits_length, Nat.sub_diag in H2.
    rewrite !firstn_all2 in H1 by now rewrite bits_length.
    rewrite !skipn_all2 in H2 by now rewrite bits_length.
    rewrite !firstn_O, !app_nil_r in H1. split; [exact H1|exact H2]. }
  f_equal; [|now apply IH].
  apply b2n_inj, (bits_inj 8); [apply b2n_lt|apply b2n_lt|exact H1].
Qed.

(** ** Symbolic evaluation of single bits *)
Lemma testbit_shl16 x k i :
  N.testbit (shl16 x k) i
  = if i <? k then false else if i <? 16 then N.testbit x (i - k) else false.
Proof.
  unfold shl16. change 65536 with (2 ^ 16).
  destruct (N.ltb_spec i 16) as [H|H].
  - rewrite N.mod_pow2_bits_low by assumption.
    destruct (N.ltb_spec i k).
    + now apply N.shiftl_spec_low.
    + now apply N.shiftl_spec_high'.
  - rewrite N.mod_pow2_bits_high by assumption. now destruct (i <? k).
Qed.

Lemma testbit_n2b n i :
  N.testbit (b2n (n2b n)) i = if i <? 8 then N.testbit n i else false.
Proof.
  rewrite b2n_n2b. change 256 with (2 ^ 8).
  destruct (N.ltb_spec i 8).
  - now apply N.mod_pow2_bits_low.
  - now apply N.mod_pow2_bits_high.
Qed.

Lemma testbit_byte_high b i : 8 <= i -> N.testbit (b2n b) i = false.
Proof.
  intros H. rewrite <- (N.mod_small (b2n b) (2 ^ 8)) by apply b2n_lt.
  now apply N.mod_pow2_bits_high.
Qed.

Ltac norm_closed :=
  repeat match goal with
  | |- context [N.ltb ?a ?b] =>
    let v := eval vm_compute in (N.ltb a b) in
    match v with true => idtac | false => idtac end;
    change (N.ltb a b) with v; cbv iota
  | |- context [N.sub ?a ?b] =>
    let v := eval vm_compute in (N.sub a b) in
    match v with N0 => idtac | Npos _ => idtac end;
    change (N.sub a b) with v
  | |- context [N.add ?a ?b] =>
    let v := eval vm_compute in (N.add a b) in
    match v with N0 => idtac | Npos _ => idtac end;
    change (N.add a b) with v
  | |- context [N.testbit (Npos ?c) ?i] =>
    let v := eval vm_compute in (N.testbit (Npos c) i) in
    match v with true => idtac | false => idtac end;
    change (N.testbit (Npos c) i) with v
  end.

Lemma cons_eq {A} (x y : A) l m : x = y -> l = m -> x :: l = y :: m.
Proof. congruence. Qed.

Ltac tb :=
  repeat (progress (rewrite ?N.lor_spec, ?N.land_spec, ?N.shiftr_spec',
          ?testbit_shl16, ?testbit_n2b; norm_closed));
  repeat match goal with
  | |- context [N.testbit (b2n ?b) ?i] =>
    rewrite (testbit_byte_high b i) by (vm_compute; discriminate)
  end;
  rewrite ?andb_true_r, ?andb_false_r, ?orb_false_r, ?orb_false_l,
          ?andb_true_l, ?andb_false_l;
  try reflexivity.

(** ** Reader *)

(** The bits of the first byte already consumed. *)
Definition sidx (s : State) : nat :=
  match s with
  | S0 => 0 | S1 => 3 | S2 => 6 | S3 => 1 | S4 => 4 | S5 => 7 | S6 => 2 | S7 => 5
  end%nat.

Lemma sidx_index s : N.of_nat (sidx s) = state_index s.
Proof. now destruct s. Qed.

(** The bits not yet consumed. *)
Definition remaining (r : reader) : list bool :=
  skipn (sidx (r_state r)) (bytes_bits (r_buffer r)).

(** The buffer is only empty at a byte boundary. *)
Definition reader_inv (r : reader) : Prop :=
  r_buffer r = [] -> r_state r = S0.

Lemma lor_lt a b k : a < 2 ^ k -> b < 2 ^ k -> N.lor a b < 2 ^ k.
Proof.
  intros Ha Hb.
  assert (N.lor a b mod 2 ^ k = N.lor a b) as <-.
  { apply N.bits_inj. intros i. destruct (N.lt_ge_cases i k).
    - now rewrite N.mod_pow2_bits_low.
    - rewrite N.mod_pow2_bits_high by assumption. rewrite N.lor_spec.
      rewrite <- (N.mod_small a (2 ^ k)), <- (N.mod_small b (2 ^ k)) by assumption.
      now rewrite !N.mod_pow2_bits_high. }
  apply N.mod_lt, N.pow_nonzero. lia.
Qed.

Lemma lor_lt11 a b : a < 2048 -> b < 2048 -> N.lor a b < 2048.
Proof. apply (lor_lt a b 11). Qed.

Definition all_bytes : list byte :=
  List.map (fun i => n2b (N.of_nat i)) (seq 0 256).

Lemma in_all_bytes b : In b all_bytes.
Proof.
  unfold all_bytes. apply in_map_iff. exists (N.to_nat (b2n b)).
  rewrite N2Nat.id, n2b_b2n. split; [reflexivity|].
  apply in_seq. pose proof (b2n_lt b). lia.
Qed.

Lemma byte_forall (P : byte -> bool) :
  forallb P all_bytes = true -> forall b, P b = true.
Proof.
  intros H b. rewrite forallb_forall in H. apply H, in_all_bytes.
Qed.

Ltac byte_bound b :=
  match goal with |- ?f < ?m =>
    pattern b; match goal with |- ?P b =>
      apply N.ltb_lt; revert b; apply byte_forall; vm_compute; reflexivity
    end
  end.

Ltac read_case :=
  eexists _, _; split; [reflexivity|];
  split; [|split];
  [ cbn [bytes_bits flat_map bits app skipn sidx firstn N.of_nat Pos.of_succ_nat Pos.succ];
    repeat (apply cons_eq; [tb|]); reflexivity
  | repeat apply lor_lt11;
    match goal with
    | |- context [b2n ?b] => apply N.ltb_lt; revert b; apply byte_forall;
                             vm_compute; reflexivity
    end
  | split; [reflexivity|] ].

Lemma read_ok r :
  reader_inv r ->
  (11 <= length (remaining r))%nat ->
  exists v r', read r = Ok (v, r') /\
    bits 11 v = firstn 11 (remaining r) /\
    v < 2048 /\
    remaining r' = skipn 11 (remaining r) /\
    reader_inv r'.
Proof.
  destruct r as [buf st]. unfold remaining, reader_inv, read, read2, read3.
  cbn [r_buffer r_state]. intros Hinv.
  rewrite skipn_length, bytes_bits_length. intros Hlen.
  destruct st; cbn in Hlen;
  destruct buf as [|b0 [|b1 [|b2 rest]]]; cbn [length] in Hlen; try lia;
  clear Hinv Hlen; read_case.
  all: unfold reader_inv; cbn; try discriminate; try reflexivity.
Qed.

Lemma read_panic r :
  reader_inv r ->
  (length (remaining r) < 11)%nat -> read r = Panic.
Proof.
  destruct r as [buf st]. unfold remaining, reader_inv, read, read2, read3.
  cbn [r_buffer r_state]. intros Hinv.
  rewrite skipn_length, bytes_bits_length. intros Hlen.
  destruct st; cbn in Hlen;
  destruct buf as [|b0 [|b1 [|b2 rest]]]; cbn [length] in Hlen; try lia;
  reflexivity.
Qed.

Lemma size_ok r :
  reader_inv r -> size r = Ok (N.of_nat (length (remaining r)) / 11).
Proof.
  destruct r as [buf st]. unfold remaining, reader_inv, size.
  cbn [r_buffer r_state]. intros Hinv.
  rewrite skipn_length, bytes_bits_length.
  assert (state_index st <= N.of_nat (length buf) * 8) as H.
  { destruct buf as [|b buf]; [now rewrite Hinv|].
    cbn [length]. destruct st; cbn [state_index]; lia. }
  destruct (N.ltb_spec (N.of_nat (length buf) * 8) (state_index st)); [lia|].
  unfold NUM_BITS_PER_BLOCK. f_equal. f_equal. rewrite <- sidx_index in *. lia.
Qed.

Lemma reader_new_inv bs : reader_inv (reader_new bs).
Proof. intros _. reflexivity. Qed.

Lemma reader_new_remaining bs : remaining (reader_new bs) = bytes_bits bs.
Proof. reflexivity. Qed.

Lemma read_n_ok k : forall r,
  reader_inv r ->
  (11 * k <= length (remaining r))%nat ->
  exists vs r', read_n k r = Ok (vs, r') /\
    length vs = k /\
    groups_bits vs = firstn (11 * k) (remaining r) /\
    Forall (fun v => v < 2048) vs /\
    remaining r' = skipn (11 * k) (remaining r) /\
    reader_inv r'.
Proof.
  induction k as [|k IH]; intros r Hinv Hlen.
  - exists [], r. repeat split; auto.
  - destruct (read_ok r Hinv) as (v & r1 & Hr & Hb & Hv & Hrem & Hinv1); [lia|].
    destruct (IH r1 Hinv1) as (vs & r2 & Hrs & Hl & Hbs & Hvs & Hrem2 & Hinv2).
    { rewrite Hrem, skipn_length. lia. }
    exists (v :: vs), r2. cbn [read_n]. rewrite Hr. cbn [bind].
    rewrite Hrs. cbn [bind]. split; [reflexivity|].
    split; [cbn; congruence|].
    split.
    { cbn [groups_bits flat_map]. fold (groups_bits vs). rewrite Hb, Hbs, Hrem.
      replace (11 * S k)%nat with (11 + 11 * k)%nat by lia.
      rewrite <- (firstn_skipn 11 (remaining r)) at 3.
      rewrite firstn_app, firstn_length.
      rewrite Nat.min_l by lia.
      rewrite firstn_firstn, Nat.min_r by lia.
      f_equal. f_equal. lia. }
    split; [now constructor|].
    split; [|exact Hinv2].
    rewrite Hrem2, Hrem, skipn_skipn. f_equal. lia.
Qed.

Lemma read_n_panic k : forall r,
  reader_inv r ->
  (length (remaining r) < 11 * k)%nat -> read_n k r = Panic.
Proof.
  induction k as [|k IH]; intros r Hinv Hlen; [lia|].
  cbn [read_n].
  destruct (Nat.lt_ge_cases (length (remaining r)) 11) as [H|H].
  - now rewrite (read_panic r Hinv H).
  - destruct (read_ok r Hinv H) as (v & r1 & Hr & _ & _ & Hrem & Hinv1).
    rewrite Hr. cbn [bind]. rewrite (IH r1 Hinv1); [reflexivity|].
    rewrite Hrem, skipn_length. lia.
Qed.

(** ** Writer *)

(** Number of unused low bits of the last byte. *)
Definition pad (s : State) : nat :=
  match s with
  | S0 => 0 | S1 => 5 | S2 => 2 | S3 => 7 | S4 => 4 | S5 => 1 | S6 => 6 | S7 => 3
  end%nat.

Lemma or_last_app buf last x :
  or_last (buf ++ [last]) x
  = Ok (buf ++ [n2b (N.lor (b2n last) (b2n (n2b x)))]).
Proof.
  unfold or_last. rewrite rev_app_distr. cbn [rev app].
  now rewrite rev_involutive.
Qed.

Definition writer_inv (w : writer) (l : list bool) : Prop :=
  bytes_bits (w_buffer w) = l ++ repeat false (pad (w_state w)) /\
  (w_buffer w = [] -> w_state w = S0).

(** Splitting off the unused bits of the last byte. *)
Lemma last_pad buf b l p :
  (p <= 8)%nat ->
  bytes_bits (buf ++ [b]) = l ++ repeat false p ->
  l = bytes_bits buf ++ firstn (8 - p) (bits 8 (b2n b)) /\
  skipn (8 - p) (bits 8 (b2n b)) = repeat false p.
Proof.
  intros Hp H. rewrite bytes_bits_app in H.
  unfold bytes_bits in H at 2. cbn [flat_map] in H. rewrite app_nil_r in H.
  rewrite <- (firstn_skipn (8 - p) (bits 8 (b2n b))) in H.
  rewrite app_assoc in H.
  assert (length (skipn (8 - p) (bits 8 (b2n b))) = length (repeat false p)) as Hl.
  { rewrite skipn_length, bits_length, repeat_length. lia. }
  apply app_inj_tail_len in H; [|exact Hl]. destruct H as [H1 H2]. split; [now rewrite H1|exact H2].
Qed.

Ltac write_norm :=
  cbn [bytes_bits flat_map bits app skipn firstn Nat.sub repeat pad w_state w_buffer
         N.of_nat Pos.of_succ_nat Pos.succ] in *.

Lemma write_ok w l e :
  writer_inv w l ->
  exists w', write w e = Ok w' /\ writer_inv w' (l ++ bits 11 e).
Proof.
  destruct w as [buf st]. unfold writer_inv. cbn [w_buffer w_state].
  intros [Hbits Hemp].
  destruct st.
  { (* S0 *)
    cbn [pad repeat] in Hbits. rewrite app_nil_r in Hbits.
    eexists. split; [reflexivity|]. cbn [w_buffer w_state]. split.
    - rewrite bytes_bits_app, Hbits, <- app_assoc. f_equal.
      write_norm. repeat (apply cons_eq; [tb|]). reflexivity.
    - intros H. now apply app_eq_nil in H as [_ H]. }
  all: destruct buf as [|b buf _] using rev_ind;
         [discriminate (Hemp eq_refl)|];
       cbn [pad] in Hbits; apply last_pad in Hbits; [|lia];
       destruct Hbits as [-> Hz];
       unfold write; cbn [w_state w_buffer]; rewrite or_last_app; cbn [bind];
       eexists; (split; [reflexivity|]); cbn [w_buffer w_state];
       (split; [|intros H; now apply app_eq_nil in H as [_ H]]);
       rewrite <- !app_assoc, !bytes_bits_app; f_equal;
       write_norm; injection Hz; intros;
       repeat (apply cons_eq; [tb|]); try reflexivity.
  all: match goal with H : ?x = false |- ?x || _ = _ => rewrite H; reflexivity end.
Qed.

Lemma writer_new_inv : writer_inv writer_new [].
Proof. split; reflexivity. Qed.

Lemma write_all_ok es : forall w l,
  writer_inv w l ->
  exists w', write_all w es = Ok w' /\ writer_inv w' (l ++ groups_bits es).
Proof.
  induction es as [|e es IH]; intros w l H.
  - exists w. cbn. now rewrite app_nil_r.
  - destruct (write_ok w l e H) as (w1 & Hw & H1).
    destruct (IH w1 _ H1) as (w2 & Hws & H2).
    exists w2. cbn [write_all]. rewrite Hw. cbn [bind]. split; [exact Hws|].
    cbn [groups_bits flat_map]. now rewrite app_assoc.
Qed.

Lemma pad_lt s : (pad s < 8)%nat.
Proof. destruct s; cbn; lia. Qed.

Lemma write_all_new es :
  exists w k, write_all writer_new es = Ok w /\ (k < 8)%nat /\
    bytes_bits (to_bytes w) = groups_bits es ++ repeat false k.
Proof.
  destruct (write_all_ok es writer_new [] writer_new_inv) as (w & Hw & Hb & _).
  exists w, (pad (w_state w)). split; [exact Hw|]. split; [apply pad_lt|].
  exact Hb.
Qed.

Lemma groups_bits_inj a b :
  Forall (fun v => v < 2048) a -> Forall (fun v => v < 2048) b ->
  groups_bits a = groups_bits b -> a = b.
Proof.
  intros Ha; revert b; induction Ha as [|x a Hx Ha IH]; intros b Hb H;
    destruct Hb as [|y b Hy Hb]; try reflexivity; try discriminate.
  cbn [groups_bits flat_map] in H.
  change (bits 11 x ++ groups_bits a = bits 11 y ++ groups_bits b) in H.
  assert (bits 11 x = bits 11 y /\ groups_bits a = groups_bits b) as [H1 H2].
  { apply (f_equal (firstn 11)) in H as H1.
    apply (f_equal (skipn 11)) in H as H2.
    rewrite !firstn_app, !bits_length, Nat.sub_diag in H1.
    rewrite !skipn_app, !bits_length, Nat.sub_diag in H2.
    rewrite !firstn_all2 in H1 by now rewrite bits_length.
    rewrite !skipn_all2 in H2 by now rewrite bits_length.
    rewrite !firstn_O, !app_nil_r in H1. split; [exact H1|exact H2]. }
  f_equal; [|now apply IH]. now apply (bits_inj 11).
Qed.

Lemma groups_bits_mod es :
  groups_bits (List.map (fun e => e mod 2048) es) = groups_bits es.
Proof.
  induction es as [|e es IH]; [reflexivity|].
  cbn [groups_bits flat_map List.map]. fold (groups_bits es).
  change (flat_map (bits 11) (List.map (fun e0 : N => e0 mod 2048) es))
    with (groups_bits (List.map (fun e0 : N => e0 mod 2048) es)).
  rewrite IH. f_equal. apply (bits_mod 11).
Qed.

(** ** The public statements *)
Lemma reader_spec bs k :
  ((11 * k <= 8 * length bs)%nat ->
   exists vs r, read_n k (reader_new bs) = Ok (vs, r) /\
     length vs = k /\
     groups_bits vs = firstn (11 * k) (bytes_bits bs) /\
     Forall (fun v => v < 2048) vs /\
     size r = Ok ((8 * N.of_nat (length bs) - 11 * N.of_nat k) / 11)) /\
  ((8 * length bs < 11 * k)%nat -> read_n k (reader_new bs) = Panic).
Proof.
  pose proof (reader_new_inv bs) as Hinv.
  split; intros Hlen.
  - destruct (read_n_ok k (reader_new bs) Hinv) as (vs & r & H1 & H2 & H3 & H4 & H5 & H6).
    { now rewrite reader_new_remaining, bytes_bits_length. }
    exists vs, r. repeat split; try assumption.
    rewrite size_ok by assumption. rewrite H5, reader_new_remaining.
    rewrite skipn_length, bytes_bits_length. do 2 f_equal. lia.
  - apply read_n_panic; [exact Hinv|].
    now rewrite reader_new_remaining, bytes_bits_length.
Qed.

Lemma read_back es :
  exists w r, write_all writer_new es = Ok w /\
    read_n (length es) (reader_new (to_bytes w))
    = Ok (List.map (fun e => e mod 2048) es, r).
Proof.
  destruct (write_all_new es) as (w & k & Hw & Hk & Hb).
  assert (Hlen : (11 * length es <= length (bytes_bits (to_bytes w)))%nat).
  { rewrite Hb, app_length, groups_bits_length. lia. }
  destruct (read_n_ok (length es) (reader_new (to_bytes w)))
    as (vs & r & H1 & H2 & H3 & H4 & _).
  { apply reader_new_inv. }
  { now rewrite reader_new_remaining. }
  exists w, r. split; [exact Hw|]. rewrite H1. do 2 f_equal.
  apply groups_bits_inj; [exact H4| |].
  { apply Forall_forall. intros v Hv. apply in_map_iff in Hv as (e & <- & _).
    apply N.mod_lt. lia. }
  rewrite H3, groups_bits_mod, reader_new_remaining, Hb.
  rewrite firstn_app, groups_bits_length, Nat.sub_diag, firstn_O, app_nil_r.
  apply firstn_all2. rewrite groups_bits_length. lia.
Qed.
