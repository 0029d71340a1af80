From Coq Require Import Strings.String.
From Verif Require Import Base BaseFacts Hex HexSpec.

Lemma encode_byte_ok b :
  alphabet_at (N.shiftr (b2n b) 4) = Ok (lower_digit (b2n b / 16)) /\
  alphabet_at (N.land (b2n b) 0xf) = Ok (lower_digit (b2n b mod 16)).
Proof. destruct b; split; reflexivity. Qed.

Lemma encode_ok bs : encode bs = Ok (hex_of bs).
Proof.
  induction bs as [|b bs IH]; [reflexivity|].
  cbn [encode]. destruct (encode_byte_ok b) as [-> ->]. cbn [bind].
  rewrite IH. reflexivity.
Qed.

(** The two symbols of a byte are digits with the right values. *)
Lemma digit_value_lower b :
  digit_value (lower_digit (b2n b / 16)) = Some (b2n b / 16) /\
  digit_value (lower_digit (b2n b mod 16)) = Some (b2n b mod 16).
Proof. destruct b; split; reflexivity. Qed.

Lemma digits_hex_of b bs :
  digits (hex_of (b :: bs)) = b2n b / 16 :: b2n b mod 16 :: digits (hex_of bs).
Proof.
  unfold digits, hex_of. cbn [flat_map app].
  destruct (digit_value_lower b) as [-> ->]. reflexivity.
Qed.

Lemma pair_up_hex_of bs : pair_up (digits (hex_of bs)) = bs.
Proof.
  induction bs as [|b bs IH]; [reflexivity|].
  rewrite digits_hex_of. cbn [pair_up]. rewrite IH. f_equal.
  rewrite <- N.div_mod by lia. apply n2b_b2n.
Qed.

Lemma hex_of_allowed bs : Forall allowed (hex_of bs).
Proof.
  induction bs as [|b bs IH]; [constructor|].
  unfold hex_of. cbn [flat_map app]. fold (hex_of bs).
  destruct (digit_value_lower b) as [H1 H2].
  constructor; [left; unfold is_digit; rewrite H1; discriminate|].
  constructor; [left; unfold is_digit; rewrite H2; discriminate|]. exact IH.
Qed.

(** One step, by inspection of the 256 symbols.  Only the low nibble of
    [buf] matters. *)
Lemma decode_step_digit idx buf b v :
  digit_value b = Some v ->
  decode_step idx buf b = Ok (n2b (16 * (b2n buf mod 16) + v), true).
Proof.
  intros Hv. unfold decode_step.
  replace (N.shiftl (b2n buf) 4 mod 256) with (16 * (b2n buf mod 16))
    by (destruct buf; reflexivity).
  pose proof (N.mod_lt (b2n buf) 16 ltac:(lia)) as Hm.
  assert (Hlor : forall w, w < 16 ->
     N.lor (16 * (b2n buf mod 16)) w = 16 * (b2n buf mod 16) + w).
  { clear. intros w Hw.
    assert (forallb (fun x => forallb (fun w =>
       N.eqb (N.lor (16 * x) w) (16 * x + w))
         (map N.of_nat (seq 0 16))) (map N.of_nat (seq 0 16)) = true) as Hall
      by (vm_compute; reflexivity).
    rewrite forallb_forall in Hall.
    pose proof (N.mod_lt (b2n buf) 16 ltac:(lia)) as Hm.
    specialize (Hall (b2n buf mod 16)).
    rewrite forallb_forall in Hall. apply N.eqb_eq, Hall.
    - apply in_map_iff. exists (N.to_nat (b2n buf mod 16)).
      rewrite in_seq. split; lia.
    - apply in_map_iff. exists (N.to_nat w). rewrite in_seq. split; lia. }
  destruct b; cbn in Hv; try discriminate; injection Hv as <-;
    cbn -[n2b N.lor N.mul N.modulo N.add]; rewrite Hlor by reflexivity;
    reflexivity.
Qed.

Lemma decode_step_space idx buf b :
  is_space b -> decode_step idx buf b = Ok (n2b (b2n buf mod 16), false).
Proof.
  intros [->|[->|[->| ->]]]; destruct buf; reflexivity.
Qed.

Lemma decode_step_bad idx buf b :
  ~ allowed b -> decode_step idx buf b = Err (UnknownSymbol idx).
Proof.
  intros Hb. unfold allowed, is_digit, is_space in Hb.
  destruct b;
    first [ reflexivity
          | exfalso; apply Hb; left; cbn; discriminate
          | exfalso; apply Hb; right; tauto ].
Qed.

Lemma digit_value_lt b v : digit_value b = Some v -> v < 16.
Proof. destruct b; cbn; intros H; try discriminate; injection H as <-; lia. Qed.

Lemma is_space_no_digit b : is_space b -> digit_value b = None.
Proof. intros [->|[->|[->| ->]]]; reflexivity. Qed.

(** The digits still pending in [buf] when [half] is set. *)
Definition pending (half : bool) (buf : byte) : list N :=
  if half then [b2n buf mod 16] else [].

Lemma n2b_mod_16 h v : v < 16 -> b2n (n2b (16 * (h mod 16) + v)) mod 16 = v.
Proof.
  intros Hv. rewrite b2n_n2b.
  pose proof (N.mod_lt h 16 ltac:(lia)).
  rewrite (N.mod_small (16 * (h mod 16) + v) 256) by lia.
  rewrite N.add_comm, N.mul_comm, N.mod_add by lia. now apply N.mod_small.
Qed.

Lemma decode_loop_ok s : forall idx half buf acc,
  Forall allowed s ->
  decode_loop idx half buf acc s
  = Ok (acc ++ pair_up (pending half buf ++ digits s)).
Proof.
  induction s as [|b s IH]; intros idx half buf acc Hs.
  - cbn [decode_loop digits flat_map]. rewrite app_nil_r.
    destruct half; cbn; now rewrite app_nil_r.
  - inversion Hs as [|? ? Hb Hs']; subst. cbn [decode_loop].
    destruct (digit_value b) as [v|] eqn:Ev.
    + rewrite (decode_step_digit _ _ _ _ Ev). cbn [bind].
      pose proof (digit_value_lt _ _ Ev) as Hv.
      assert (digits (b :: s) = v :: digits s) as ->
        by (unfold digits; cbn [flat_map]; now rewrite Ev).
      destruct half.
      * rewrite IH by assumption. cbn [pending app pair_up].
        now rewrite <- app_assoc.
      * rewrite IH by assumption. cbn [pending app].
        now rewrite n2b_mod_16.
    + destruct Hb as [Hd|Hsp]; [now unfold is_digit in Hd|].
      rewrite (decode_step_space _ _ _ Hsp). cbn [bind].
      assert (digits (b :: s) = digits s) as ->
        by (unfold digits; cbn [flat_map]; now rewrite Ev).
      rewrite IH by assumption. destruct half; [|reflexivity].
      cbn [pending]. rewrite b2n_n2b.
      pose proof (N.mod_lt (b2n buf) 16 ltac:(lia)).
      rewrite (N.mod_small (b2n buf mod 16) 256) by lia.
      now rewrite N.mod_mod by lia.
Qed.

Lemma decode_loop_err pre b post : forall idx half buf acc,
  Forall allowed pre -> ~ allowed b ->
  decode_loop idx half buf acc (pre ++ b :: post)
  = Err (UnknownSymbol (idx + N.of_nat (length pre))).
Proof.
  induction pre as [|c pre IH]; intros idx half buf acc Hp Hb.
  - cbn [app decode_loop length]. rewrite decode_step_bad by assumption.
    cbn [bind N.of_nat]. now rewrite N.add_0_r.
  - inversion Hp as [|? ? Hc Hp']; subst. cbn [app decode_loop].
    replace (idx + N.of_nat (length (c :: pre)))
      with (idx + 1 + N.of_nat (length pre)) by (cbn [length]; lia).
    destruct (digit_value c) as [v|] eqn:Ev.
    + rewrite (decode_step_digit _ _ _ _ Ev). cbn [bind].
      destruct half; now apply IH.
    + destruct Hc as [Hd|Hsp]; [now unfold is_digit in Hd|].
      rewrite (decode_step_space _ _ _ Hsp). cbn [bind]. now apply IH.
Qed.

Lemma decode_ok s : Forall allowed s -> decode s = Ok (pair_up (digits s)).
Proof. intros H. unfold decode. now rewrite decode_loop_ok. Qed.

Lemma decode_err pre b post :
  Forall allowed pre -> ~ allowed b ->
  decode (pre ++ b :: post) = Err (UnknownSymbol (N.of_nat (length pre))).
Proof. intros Hp Hb. unfold decode. now rewrite decode_loop_err. Qed.

Lemma allowed_dec b : {allowed b} + {~ allowed b}.
Proof.
  destruct (digit_value b) eqn:E.
  - left; left. unfold is_digit. now rewrite E.
  - destruct (Byte.byte_eq_dec b x20) as [H|H1];
      [left; right; unfold is_space; tauto|].
    destruct (Byte.byte_eq_dec b x0d) as [H|H2];
      [left; right; unfold is_space; tauto|].
    destruct (Byte.byte_eq_dec b x0a) as [H|H3];
      [left; right; unfold is_space; tauto|].
    destruct (Byte.byte_eq_dec b x09) as [H|H4];
      [left; right; unfold is_space; tauto|].
    right. unfold allowed, is_digit, is_space. rewrite E. tauto.
Qed.

Lemma allowed_split s :
  Forall allowed s \/
  exists pre b post, s = pre ++ b :: post /\ Forall allowed pre /\ ~ allowed b.
Proof.
  induction s as [|c s IH]; [left; constructor|].
  destruct (allowed_dec c) as [Hc|Hc].
  - destruct IH as [IH|(pre & b & post & -> & Hp & Hb)].
    + left; now constructor.
    + right. exists (c :: pre), b, post. auto.
  - right. exists [], c, s. auto.
Qed.

(** ** The public statements *)
Lemma hex_round_trip bs :
  encode bs = Ok (hex_of bs) /\ decode (hex_of bs) = Ok bs /\
  length (hex_of bs) = (2 * length bs)%nat.
Proof.
  split; [apply encode_ok|]. split.
  - rewrite decode_ok by apply hex_of_allowed. now rewrite pair_up_hex_of.
  - induction bs as [|b bs IH]; [reflexivity|].
    unfold hex_of. cbn [flat_map app length]. fold (hex_of bs). rewrite IH. lia.
Qed.

Lemma decode_exact s :
  (Forall allowed s /\ decode s = Ok (pair_up (digits s))) \/
  (exists pre b post, s = pre ++ b :: post /\ Forall allowed pre /\ ~ allowed b /\
     decode s = Err (UnknownSymbol (N.of_nat (length pre)))).
Proof.
  destruct (allowed_split s) as [H|(pre & b & post & -> & Hp & Hb)].
  - left. split; [exact H|]. now apply decode_ok.
  - right. exists pre, b, post. split; [reflexivity|]. split; [exact Hp|].
    split; [exact Hb|]. now apply decode_err.
Qed.
