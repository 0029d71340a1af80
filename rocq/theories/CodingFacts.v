From Coq Require Import Strings.String.
From Verif Require Import Base BaseFacts Str BitsSpec BitsFacts Base64 JsonFacts CodingSpec.
From Coq Require Import ZifyBool ZifyNat ZifyN.
Open Scope list_scope.

(** ** Bits *)
Lemma value_acc_app a : forall acc, value_acc acc a = acc * 2 ^ N.of_nat (List.length a) + value a.
Proof.
  unfold value. induction a as [|b a IH]; intros acc; cbn [value_acc List.length].
  - cbn. lia.
  - rewrite (IH (2 * acc + _)), (IH (2 * 0 + _)). rewrite Nat2N.inj_succ, N.pow_succ_r'. destruct b; lia.
Qed.
Lemma value_app a b : value (a ++ b) = value a * 2 ^ N.of_nat (List.length b) + value b.
Proof.
  unfold value at 1. assert (forall acc, value_acc acc (a ++ b) = value_acc (value_acc acc a) b) as H.
  { induction a as [|c a IH]; intros acc; [reflexivity|]. cbn [app value_acc]. apply IH. }
  rewrite H, value_acc_app. reflexivity.
Qed.
Lemma value_inj a b : List.length a = List.length b -> value a = value b -> a = b.
Proof. intros Hl Hv. rewrite <- (bits_value a), <- (bits_value b). congruence. Qed.

Lemma byte_is_value b m x : byte_is b m x ->
  b2n b = value m * 2 ^ N.of_nat (List.length x) + value x /\ (List.length m + List.length x = 8)%nat /\
  value x < 2 ^ N.of_nat (List.length x).
Proof.
  unfold byte_is. intros H. split; [|split].
  - rewrite <- value_app, <- H. symmetry. apply value_bits. apply b2n_lt.
  - rewrite <- app_length, <- H. apply bits_length.
  - apply value_bound.
Qed.
Lemma byte_is_make b m x : (List.length m + List.length x = 8)%nat ->
  b2n b = value m * 2 ^ N.of_nat (List.length x) + value x -> byte_is b m x.
Proof.
  intros Hl Hv. unfold byte_is. apply value_inj.
  - rewrite bits_length, app_length. lia.
  - rewrite value_app, <- Hv. apply value_bits. apply b2n_lt.
Qed.

(** ** UTF-8 *)
Section Utf8.
Ltac Zify.zify_post_hook ::= Z.div_mod_to_equations.

Ltac consts :=
  try change (2 ^ N.of_nat 3) with 8 in *; try change (2 ^ N.of_nat 4) with 16 in *; try change (2 ^ N.of_nat 5) with 32 in *;
  try change (2 ^ N.of_nat 6) with 64 in *; try change (2 ^ N.of_nat 7) with 128 in *; try change (2 ^ N.of_nat (6 + 6)) with 4096 in *;
  try change (2 ^ N.of_nat (6 + (6 + 6))) with 262144 in *;
  try change (value [false]) with 0 in *; try change (value [true; false]) with 2 in *;
  try change (value [true; true; false]) with 6 in *; try change (value [true; true; true; false]) with 14 in *;
  try change (value [true; true; true; true; false]) with 30 in *.
Lemma n2b_eq b n : b2n b = n -> b = n2b n.
Proof. intros <-. symmetry. apply n2b_b2n. Qed.

Lemma rep_char c bs : utf8_rep c bs -> is_scalar c = true /\ bs = utf8_char c.
Proof.
  rewrite is_scalar_spec. unfold utf8_char.
  destruct 1 as [b x Hb | b c x y Hb Hc H | b c d x y z Hb Hc Hd H Hs | b c d e x y z w Hb Hc Hd He H].
  - apply byte_is_value in Hb as (Eb & Lb & Bb). cbn [List.length] in Lb. assert (List.length x = 7)%nat as L by lia.
    rewrite L in *. consts. split; [lia|]. destruct (N.ltb_spec (value x) 128); [|lia].
    f_equal. now apply n2b_eq.
  - apply byte_is_value in Hb as (Eb & Lb & Bb), Hc as (Ec & Lc & Bc). cbn [List.length] in Lb, Lc.
    assert (List.length x = 5)%nat as L by lia. assert (List.length y = 6)%nat as L' by lia.
    rewrite value_app in *. rewrite L, L' in *. consts.
    revert Eb Bb Ec Bc H. generalize (value x) (value y). intros p q Eb Bb Ec Bc H.
    split; [lia|]. destruct (N.ltb_spec (p * 64 + q) 128); [lia|]. destruct (N.ltb_spec (p * 64 + q) 2048); [|lia].
    f_equal; [|f_equal]; apply n2b_eq; lia.
  - apply byte_is_value in Hb as (Eb & Lb & Bb), Hc as (Ec & Lc & Bc), Hd as (Ed & Ld & Bd).
    cbn [List.length] in Lb, Lc, Ld.
    assert (List.length x = 4)%nat as L by lia. assert (List.length y = 6)%nat as L' by lia. assert (List.length z = 6)%nat as L'' by lia.
    rewrite !value_app, app_length in *. rewrite L, L', L'' in *. unfold surrogate in Hs. consts.
    revert Eb Bb Ec Bc Ed Bd H Hs. generalize (value x) (value y) (value z). intros p q r Eb Bb Ec Bc Ed Bd H Hs.
    replace (p * 4096 + (q * 64 + r)) with (p * 4096 + q * 64 + r) in * by lia.
    split; [lia|]. destruct (N.ltb_spec (p * 4096 + q * 64 + r) 128); [lia|].
    destruct (N.ltb_spec (p * 4096 + q * 64 + r) 2048); [lia|].
    destruct (N.ltb_spec (p * 4096 + q * 64 + r) 65536); [|lia].
    f_equal; [|f_equal; [|f_equal]]; apply n2b_eq; lia.
  - apply byte_is_value in Hb as (Eb & Lb & Bb), Hc as (Ec & Lc & Bc), Hd as (Ed & Ld & Bd), He as (Ee & Le & Be).
    cbn [List.length] in Lb, Lc, Ld, Le.
    assert (List.length x = 3)%nat as L by lia. assert (List.length y = 6)%nat as L' by lia.
    assert (List.length z = 6)%nat as L'' by lia. assert (List.length w = 6)%nat as L3 by lia.
    rewrite !value_app, !app_length in *. rewrite L, L', L'', L3 in *. consts.
    revert Eb Bb Ec Bc Ed Bd Ee Be H. generalize (value x) (value y) (value z) (value w).
    intros p q r s Eb Bb Ec Bc Ed Bd Ee Be H.
    replace (p * 262144 + (q * 4096 + (r * 64 + s))) with (p * 262144 + q * 4096 + r * 64 + s) in * by lia.
    split; [lia|]. destruct (N.ltb_spec (p * 262144 + q * 4096 + r * 64 + s) 128); [lia|].
    destruct (N.ltb_spec (p * 262144 + q * 4096 + r * 64 + s) 2048); [lia|].
    destruct (N.ltb_spec (p * 262144 + q * 4096 + r * 64 + s) 65536); [lia|].
    f_equal; [|f_equal; [|f_equal; [|f_equal]]]; apply n2b_eq; lia.
Qed.

Lemma bits_split w v n : n < 2 ^ N.of_nat (w + v) -> bits (w + v) n = bits w (n / 2 ^ N.of_nat v) ++ bits v (n mod 2 ^ N.of_nat v).
Proof.
  intros Hn. apply value_inj.
  - rewrite app_length, !bits_length. reflexivity.
  - rewrite value_app, bits_length, !value_bits; try assumption.
    + pose proof (N.div_mod' n (2 ^ N.of_nat v)). lia.
    + apply N.mod_lt. apply N.pow_nonzero. discriminate.
    + apply N.div_lt_upper_bound; [apply N.pow_nonzero; discriminate|]. rewrite <- N.pow_add_r. replace (N.of_nat v + N.of_nat w) with (N.of_nat (w + v)) by lia. exact Hn.
Qed.

Lemma mk_byte m k x : value m * 2 ^ N.of_nat k + x < 256 -> (List.length m + k = 8)%nat -> x < 2 ^ N.of_nat k ->
  byte_is (n2b (value m * 2 ^ N.of_nat k + x)) m (bits k x).
Proof.
  intros Hs Hl Hx. apply byte_is_make; rewrite bits_length; [exact Hl|]. rewrite b2n_n2b_small by exact Hs.
  rewrite value_bits by exact Hx. reflexivity.
Qed.

Lemma char_rep c : is_scalar c = true -> utf8_rep c (utf8_char c).
Proof.
  rewrite is_scalar_spec. intros Hs. unfold utf8_char.
  destruct (N.ltb_spec c 128).
  { rewrite <- (value_bits 7 c) at 1 by exact H. apply rep1. apply (mk_byte [false] 7 c); [consts; lia|reflexivity|consts; lia]. }
  destruct (N.ltb_spec c 2048).
  { rewrite <- (value_bits 11 c) at 1 by exact H0. rewrite (bits_split 5 6) by exact H0. cbn [N.of_nat Pos.of_succ_nat Pos.succ N.pow Pos.pow Pos.iter Pos.mul].
    apply rep2.
    - apply (mk_byte [true; true; false] 5); [consts; lia|reflexivity|consts; lia].
    - apply (mk_byte [true; false] 6); [consts; lia|reflexivity|consts; lia].
    - change 64 with (2 ^ N.of_nat 6). rewrite <- bits_split by exact H0. rewrite value_bits by exact H0. exact H. }
  destruct (N.ltb_spec c 65536).
  { assert (c mod 4096 < 2 ^ N.of_nat 12) as Hm by (cbn; lia).
    assert (c = value (bits 4 (c / 4096) ++ bits 6 (c mod 4096 / 64) ++ bits 6 (c mod 4096 mod 64))) as E.
    { change 64 with (2 ^ N.of_nat 6). rewrite <- (bits_split 6 6) by exact Hm. change 4096 with (2 ^ N.of_nat 12).
      rewrite <- (bits_split 4 12) by exact H1. symmetry. apply value_bits. exact H1. }
    replace ((c / 64) mod 64) with (c mod 4096 / 64) by lia. replace (c mod 64) with (c mod 4096 mod 64) by lia.
    rewrite E at 1. apply rep3; rewrite <- ?E.
    - apply (mk_byte [true; true; true; false] 4); [consts; lia|reflexivity|consts; lia].
    - apply (mk_byte [true; false] 6); [consts; lia|reflexivity|consts; lia].
    - apply (mk_byte [true; false] 6); [consts; lia|reflexivity|consts; lia].
    - exact H0.
    - unfold surrogate. lia. }
  { assert (c mod 262144 < 2 ^ N.of_nat 18) as Hm by (cbn; lia).
    assert (c mod 262144 mod 4096 < 2 ^ N.of_nat 12) as Hm2 by (cbn; lia).
    assert (c = value (bits 3 (c / 262144) ++ bits 6 (c mod 262144 / 4096) ++ bits 6 (c mod 262144 mod 4096 / 64) ++ bits 6 (c mod 262144 mod 4096 mod 64))) as E.
    { change 64 with (2 ^ N.of_nat 6). rewrite <- (bits_split 6 6) by exact Hm2. change 4096 with (2 ^ N.of_nat 12).
      rewrite <- (bits_split 6 12) by exact Hm. change 262144 with (2 ^ N.of_nat 18).
      rewrite <- (bits_split 3 18) by (cbn; lia). symmetry. apply value_bits. cbn. lia. }
    replace ((c / 4096) mod 64) with (c mod 262144 / 4096) by lia.
    replace ((c / 64) mod 64) with (c mod 262144 mod 4096 / 64) by lia.
    replace (c mod 64) with (c mod 262144 mod 4096 mod 64) by lia.
    rewrite E at 1. apply rep4; rewrite <- ?E.
    - apply (mk_byte [true; true; true; true; false] 3); [consts; lia|reflexivity|consts; lia].
    - apply (mk_byte [true; false] 6); [consts; lia|reflexivity|consts; lia].
    - apply (mk_byte [true; false] 6); [consts; lia|reflexivity|consts; lia].
    - apply (mk_byte [true; false] 6); [consts; lia|reflexivity|consts; lia].
    - lia. }
Qed.

Lemma is_cont_spec b : is_cont b = true -> 128 <= b2n b < 192 /\ cont b = b2n b - 128.
Proof. unfold is_cont, cont. lia. Qed.

(** What [of_utf8] accepts is the encoding of what it returns. *)
Lemma of_utf8_inv k : forall bs s, (List.length bs <= k)%nat -> of_utf8 bs = Some s -> valid_str s /\ bs = utf8 s.
Proof.
  induction k as [|k IH]; intros bs s Hk; destruct bs as [|b0 r0]; cbn [List.length] in Hk; try lia; cbn [of_utf8].
  1, 2: intros [= <-]; split; [constructor|reflexivity].
  assert (forall c r s', (List.length r <= k)%nat -> is_scalar c = true -> option_map (cons c) (of_utf8 r) = Some s' ->
    valid_str s' /\ utf8_char c ++ r = utf8 s') as Hstep.
  { intros c r s' Hr Hc E. destruct (of_utf8 r) as [s0|] eqn:E0; [|discriminate]. injection E as <-.
    destruct (IH r s0 Hr E0) as [Hv Hu]. split; [now constructor|]. cbn [utf8 flat_map]. fold (utf8 s0). now rewrite <- Hu. }
  pose proof (b2n_lt b0) as B0.
  destruct (N.ltb_spec (b2n b0) 128).
  { intros E. apply Hstep in E as [Hv Hu]; [|lia|apply is_scalar_spec; lia]. split; [exact Hv|]. rewrite <- Hu.
    unfold utf8_char. destruct (N.ltb_spec (b2n b0) 128); [|lia]. now rewrite n2b_b2n. }
  destruct r0 as [|b1 r1]; [discriminate|]. destruct (is_cont b1) eqn:C1; [|discriminate]. apply is_cont_spec in C1 as [C1 ->].
  cbn [negb]. destruct (N.ltb_spec (b2n b0) 194); [discriminate|]. cbn [List.length] in Hk.
  destruct (N.ltb_spec (b2n b0) 224).
  { intros E. apply Hstep in E as [Hv Hu]; [|lia|apply is_scalar_spec; lia]. split; [exact Hv|]. rewrite <- Hu.
    set (c := (b2n b0 - 192) * 64 + (b2n b1 - 128)). unfold utf8_char.
    destruct (N.ltb_spec c 128); [lia|]. destruct (N.ltb_spec c 2048); [|lia]. cbn [app].
    f_equal; [|f_equal]; apply n2b_eq; lia. }
  destruct r1 as [|b2 r2]; [discriminate|]. destruct (is_cont b2) eqn:C2; [|discriminate]. apply is_cont_spec in C2 as [C2 ->].
  cbn [negb]. cbn [List.length] in Hk.
  destruct (N.ltb_spec (b2n b0) 240).
  { set (c := (b2n b0 - 224) * 4096 + (b2n b1 - 128) * 64 + (b2n b2 - 128)). cbv zeta.
    destruct (N.leb_spec 2048 c); [|discriminate]. destruct (is_scalar c) eqn:Hsc; [|discriminate]. cbn [andb].
    intros E. apply Hstep in E as [Hv Hu]; [|lia|exact Hsc]. split; [exact Hv|]. rewrite <- Hu. unfold utf8_char.
    destruct (N.ltb_spec c 128); [lia|]. destruct (N.ltb_spec c 2048); [lia|]. destruct (N.ltb_spec c 65536); [|lia]. cbn [app].
    f_equal; [|f_equal; [|f_equal]]; apply n2b_eq; lia. }
  destruct r2 as [|b3 r3]; [discriminate|]. destruct (is_cont b3) eqn:C3; [|discriminate]. apply is_cont_spec in C3 as [C3 ->].
  cbn [negb]. cbn [List.length] in Hk.
  set (c := (b2n b0 - 240) * 262144 + (b2n b1 - 128) * 4096 + (b2n b2 - 128) * 64 + (b2n b3 - 128)). cbv zeta.
  destruct (N.leb_spec 65536 c); [|discriminate]. destruct (is_scalar c) eqn:Hsc; [|discriminate]. cbn [andb].
  intros E. apply Hstep in E as [Hv Hu]; [|lia|exact Hsc]. split; [exact Hv|]. rewrite <- Hu. unfold utf8_char.
  apply is_scalar_spec in Hsc.
  destruct (N.ltb_spec c 128); [lia|]. destruct (N.ltb_spec c 2048); [lia|]. destruct (N.ltb_spec c 65536); [lia|]. cbn [app].
  f_equal; [|f_equal; [|f_equal; [|f_equal]]]; apply n2b_eq; lia.
Qed.
End Utf8.

Lemma utf8_text_iff s bs : utf8_text s bs <-> valid_str s /\ bs = utf8 s.
Proof.
  split.
  - intros (parts & H & ->). induction H as [|c p s ps Hc _ [IH1 IH2]]; [split; [constructor|reflexivity]|].
    apply rep_char in Hc as [Hs ->]. split; [now constructor|]. cbn [concat utf8 flat_map]. now rewrite IH2.
  - intros [Hv ->]. exists (List.map utf8_char s). split; [|unfold utf8; now rewrite flat_map_concat_map].
    induction Hv as [|c s Hc _ IH]; cbn; constructor; [now apply char_rep|exact IH].
Qed.

Theorem utf8_exact :
  (forall s, Forall scalar s -> utf8_text s (utf8 s)) /\
  (forall bs s, of_utf8 bs = Some s <-> utf8_text s bs) /\
  (forall s bs, utf8_text s bs -> Forall scalar s /\ forall bs', utf8_text s bs' -> bs' = bs).
Proof.
  assert (forall s, Forall scalar s <-> valid_str s) as Hs.
  { intros s. split; intros H; eapply Forall_impl; try exact H; intros c; rewrite is_scalar_spec; unfold scalar, surrogate; lia. }
  split; [|split].
  - intros s H. apply utf8_text_iff. split; [now apply Hs|reflexivity].
  - intros bs s. rewrite utf8_text_iff. split.
    + apply (of_utf8_inv (List.length bs)). lia.
    + intros [Hv ->]. now apply of_utf8_utf8.
  - intros s bs H. rewrite utf8_text_iff in H. destruct H as [Hv ->]. split; [now apply Hs|].
    intros bs' H'. rewrite utf8_text_iff in H'. apply H'.
Qed.

(** ** Base64 *)
Lemma symbol_sym g : List.length g = 6%nat -> symbol g = b64_sym (value g) /\ value g < 64.
Proof.
  intros Hl. pose proof (value_bound g) as Hb. rewrite Hl in Hb. change (2 ^ N.of_nat 6) with 64 in Hb. split; [|exact Hb].
  unfold symbol. assert (forallb (fun k => byte_eqb (nth k b64_alphabet x00) (b64_sym (N.of_nat k))) (seq 0 64) = true) as H
    by (vm_compute; reflexivity).
  rewrite forallb_forall in H. specialize (H (N.to_nat (value g))).
  assert (In (N.to_nat (value g)) (seq 0 64)) as Hin by (apply in_seq; lia).
  specialize (H Hin). apply byte_eqb_eq in H. rewrite H, N2Nat.id. reflexivity.
Qed.
Lemma val_symbol g : List.length g = 6%nat -> b64_val (symbol g) = Some (value g) /\ is_pad (symbol g) = false /\ value g < 64.
Proof.
  intros Hl. destruct (symbol_sym g Hl) as [-> Hb]. split; [now apply b64_val_sym|]. split; [now apply b64_sym_pad|exact Hb].
Qed.
Lemma val_some a x : b64_val a = Some x -> x < 64 /\ a = symbol (bits 6 x).
Proof.
  intros H. assert (forallb (fun a => match b64_val a with Some x => (x <? 64) && byte_eqb a (b64_sym x) | None => true end) all_bytes = true) as Ha
    by (vm_compute; reflexivity).
  pose proof (byte_forall _ Ha a) as E. cbv beta in E. rewrite H in E. apply andb_true_iff in E as [E1 E2].
  apply N.ltb_lt in E1. apply byte_eqb_eq in E2. split; [exact E1|].
  destruct (symbol_sym (bits 6 x) (bits_length 6 x)) as [-> _]. rewrite value_bits by exact E1. exact E2.
Qed.
Lemma pad_eq a : is_pad a = true <-> a = x3d.
Proof. unfold is_pad. apply byte_eqb_eq. Qed.
Lemma pad_val : b64_val x3d = None.
Proof. reflexivity. Qed.

Lemma list_ind4 {A} (P : list A -> Prop) :
  P [] -> (forall a, P [a]) -> (forall a b, P [a; b]) -> (forall a b c, P [a; b; c]) ->
  (forall a b c d l, P l -> P (a :: b :: c :: d :: l)) -> forall l, P l.
Proof.
  intros H0 H1 H2 H3 H4.
  fix IH 1. intros [|a [|b [|c [|d l]]]]; [exact H0|apply H1|apply H2|apply H3|apply H4, IH].
Qed.

Section B64.
Ltac Zify.zify_post_hook ::= Z.div_mod_to_equations.

Lemma four_groups x y z w : x < 64 -> y < 64 -> z < 64 -> w < 64 ->
  bits 6 x ++ bits 6 y ++ bits 6 z ++ bits 6 w =
  bytes_bits [n2b (x * 4 + y / 16); n2b (y mod 16 * 16 + z / 4); n2b (z mod 4 * 64 + w)].
Proof.
  intros Hx Hy Hz Hw. apply value_inj.
  - rewrite !app_length, !bits_length, bytes_bits_length. reflexivity.
  - unfold bytes_bits. cbn [flat_map]. rewrite !value_app, !app_length, !bits_length. cbn [List.length].
    rewrite !value_bits; try exact Hx; try exact Hy; try exact Hz; try exact Hw;
      try (change (2 ^ N.of_nat 8) with 256; apply b2n_lt).
    rewrite !b2n_n2b_small by lia.
    change (2 ^ N.of_nat (6 + (6 + 6))) with 262144. change (2 ^ N.of_nat (6 + 6)) with 4096. change (2 ^ N.of_nat 6) with 64.
    change (2 ^ N.of_nat (8 + (8 + 0))) with 65536. change (2 ^ N.of_nat (8 + 0)) with 256. change (2 ^ N.of_nat 0) with 1.
    change (value []) with 0. lia.
Qed.
Lemma two_groups x y : x < 64 -> y < 64 ->
  bits 6 x ++ bits 6 y = bytes_bits [n2b (x * 4 + y / 16)] ++ bits 4 (y mod 16).
Proof.
  intros Hx Hy. apply value_inj.
  - rewrite !app_length, !bits_length, bytes_bits_length. reflexivity.
  - unfold bytes_bits. cbn [flat_map]. rewrite !value_app, ?app_length, !bits_length. cbn [List.length].
    rewrite !value_bits; try exact Hx; try exact Hy; try (change (2 ^ N.of_nat 4) with 16; lia);
      try (change (2 ^ N.of_nat 8) with 256; apply b2n_lt).
    rewrite !b2n_n2b_small by lia.
    change (2 ^ N.of_nat 6) with 64. change (2 ^ N.of_nat 4) with 16. change (2 ^ N.of_nat 0) with 1. change (value []) with 0. lia.
Qed.
Lemma three_groups x y z : x < 64 -> y < 64 -> z < 64 ->
  bits 6 x ++ bits 6 y ++ bits 6 z = bytes_bits [n2b (x * 4 + y / 16); n2b (y mod 16 * 16 + z / 4)] ++ bits 2 (z mod 4).
Proof.
  intros Hx Hy Hz. apply value_inj.
  - rewrite !app_length, !bits_length, bytes_bits_length. reflexivity.
  - unfold bytes_bits. cbn [flat_map]. rewrite !value_app, ?app_length, !bits_length. cbn [List.length].
    rewrite !value_bits; try exact Hx; try exact Hy; try exact Hz; try (change (2 ^ N.of_nat 2) with 4; lia);
      try (change (2 ^ N.of_nat 8) with 256; apply b2n_lt).
    rewrite !b2n_n2b_small by lia.
    change (2 ^ N.of_nat (6 + 6)) with 4096. change (2 ^ N.of_nat 6) with 64. change (2 ^ N.of_nat (8 + 0)) with 256.
    change (2 ^ N.of_nat 2) with 4. change (2 ^ N.of_nat 0) with 1. change (value []) with 0. lia.
Qed.
End B64.

Lemma zero_bits k n : n < 2 ^ N.of_nat k -> (Forall (eq false) (bits k n) <-> n = 0).
Proof.
  intros Hn. split.
  - intros H. apply (bits_inj k); [exact Hn|lia|]. rewrite bits_zero.
    assert (forall l, Forall (eq false) l -> l = repeat false (List.length l)) as Hr.
    { induction 1 as [|b l <- _ IH]; [reflexivity|]. cbn. now rewrite <- IH. }
    rewrite (Hr _ H), bits_length. reflexivity.
  - intros ->. rewrite bits_zero. apply Forall_forall. intros b Hb. apply repeat_spec in Hb. now subst.
Qed.

(** The short last groups. *)
Lemma two_ok C a b bs : b64_two C a b = Some bs -> exists g h rest,
  List.length g = 6%nat /\ List.length h = 6%nat /\ a = symbol g /\ b = symbol h /\
  g ++ h = bytes_bits bs ++ rest /\ List.length rest = 4%nat /\
  (b64_any_trailing_bits C = false -> Forall (eq false) rest).
Proof.
  unfold b64_two. destruct (b64_val a) as [x|] eqn:Ea; [|discriminate]. destruct (b64_val b) as [y|] eqn:Eb; [|discriminate].
  apply val_some in Ea as [Hx ->], Eb as [Hy ->].
  destruct (_ || _) eqn:Eo; [|discriminate]. intros [= <-].
  exists (bits 6 x), (bits 6 y), (bits 4 (y mod 16)).
  rewrite !bits_length. do 4 (split; [reflexivity|]). split; [now apply two_groups|]. split; [reflexivity|].
  intros Ha. rewrite Ha in Eo. cbn [orb] in Eo. apply N.eqb_eq in Eo. rewrite Eo.
  apply zero_bits; reflexivity.
Qed.
Lemma three_ok C a b c bs : b64_three C a b c = Some bs -> exists g h k rest,
  List.length g = 6%nat /\ List.length h = 6%nat /\ List.length k = 6%nat /\ a = symbol g /\ b = symbol h /\ c = symbol k /\
  g ++ h ++ k = bytes_bits bs ++ rest /\ List.length rest = 2%nat /\
  (b64_any_trailing_bits C = false -> Forall (eq false) rest).
Proof.
  unfold b64_three. destruct (b64_val a) as [x|] eqn:Ea; [|discriminate]. destruct (b64_val b) as [y|] eqn:Eb; [|discriminate].
  destruct (b64_val c) as [z|] eqn:Ec; [|discriminate].
  apply val_some in Ea as [Hx ->], Eb as [Hy ->], Ec as [Hz ->].
  destruct (_ || _) eqn:Eo; [|discriminate]. intros [= <-].
  exists (bits 6 x), (bits 6 y), (bits 6 z), (bits 2 (z mod 4)).
  rewrite !bits_length. do 6 (split; [reflexivity|]). split; [now apply three_groups|]. split; [reflexivity|].
  intros Ha. rewrite Ha in Eo. cbn [orb] in Eo. apply N.eqb_eq in Eo. rewrite Eo.
  apply zero_bits; reflexivity.
Qed.

Lemma app_inv_len {A} (a b c d : list A) : List.length a = List.length c -> a ++ b = c ++ d -> a = c /\ b = d.
Proof.
  revert c. induction a as [|x a IH]; intros [|y c]; cbn; try discriminate; [auto|].
  intros [= Hl] [= -> E]. apply IH in E as [-> ->]; auto.
Qed.
Lemma two_make C g h bs rest : List.length g = 6%nat -> List.length h = 6%nat ->
  g ++ h = bytes_bits bs ++ rest -> (List.length rest < 6)%nat ->
  (b64_any_trailing_bits C = false -> Forall (eq false) rest) -> b64_two C (symbol g) (symbol h) = Some bs.
Proof.
  intros Hg Hh E Hr Hz. destruct (val_symbol g Hg) as (Vg & _ & Bg). destruct (val_symbol h Hh) as (Vh & _ & Bh).
  assert (List.length bs = 1%nat /\ List.length rest = 4%nat) as [L1 L2].
  { apply (f_equal (@List.length bool)) in E. rewrite !app_length, bytes_bits_length in E. lia. }
  assert (value h mod 16 < 16) as Hm by (apply N.mod_lt; discriminate).
  pose proof (two_groups (value g) (value h) Bg Bh) as E2.
  rewrite <- Hg in E2 at 1. rewrite <- Hh in E2. rewrite !bits_value in E2. rewrite E2 in E.
  apply app_inv_len in E as [E3 E4]; [|rewrite !bytes_bits_length, L1; reflexivity].
  apply bytes_bits_inj in E3. unfold b64_two. rewrite Vg, Vh.
  destruct (b64_any_trailing_bits C); cbn [orb]; [now rewrite E3|].
  rewrite <- E4 in Hz. apply zero_bits in Hz; [|exact Hm|reflexivity]. rewrite Hz. cbn [N.eqb]. now rewrite E3.
Qed.
Lemma three_make C g h k bs rest : List.length g = 6%nat -> List.length h = 6%nat -> List.length k = 6%nat ->
  g ++ h ++ k = bytes_bits bs ++ rest -> (List.length rest < 6)%nat ->
  (b64_any_trailing_bits C = false -> Forall (eq false) rest) -> b64_three C (symbol g) (symbol h) (symbol k) = Some bs.
Proof.
  intros Hg Hh Hk E Hr Hz. destruct (val_symbol g Hg) as (Vg & _ & Bg). destruct (val_symbol h Hh) as (Vh & _ & Bh).
  destruct (val_symbol k Hk) as (Vk & _ & Bk).
  assert (List.length bs = 2%nat /\ List.length rest = 2%nat) as [L1 L2].
  { apply (f_equal (@List.length bool)) in E. rewrite !app_length, bytes_bits_length in E. lia. }
  assert (value k mod 4 < 4) as Hm by (apply N.mod_lt; discriminate).
  pose proof (three_groups (value g) (value h) (value k) Bg Bh Bk) as E2.
  rewrite <- Hg in E2 at 1. rewrite <- Hh in E2 at 1. rewrite <- Hk in E2. rewrite !bits_value in E2. rewrite E2 in E.
  apply app_inv_len in E as [E3 E4]; [|rewrite !bytes_bits_length, L1; reflexivity].
  apply bytes_bits_inj in E3. unfold b64_three. rewrite Vg, Vh, Vk.
  destruct (b64_any_trailing_bits C); cbn [orb]; [now rewrite E3|].
  rewrite <- E4 in Hz. apply zero_bits in Hz; [|exact Hm|reflexivity]. rewrite Hz. cbn [N.eqb]. now rewrite E3.
Qed.

Lemma decode_text C : forall t bs, b64_decode C t = Some bs ->
  b64_text (b64_any_trailing_bits C) (b64_short_padding C) bs t.
Proof.
  assert (forall a b bs p, b64_two C a b = Some bs ->
    (if b64_short_padding C then p <= 2 else p = 2)%nat ->
    b64_text (b64_any_trailing_bits C) (b64_short_padding C) bs ([a; b] ++ repeat x3d p)) as Two.
  { intros a b bs p H Hp. apply two_ok in H as (g & h & rest & L1 & L2 & -> & -> & E & Lr & Hz).
    exists [g; h], rest, p. split; [auto|]. cbn [concat]. rewrite app_nil_r. split; [exact E|]. split; [lia|].
    split; [exact Hz|]. split; [reflexivity|]. destruct (b64_short_padding C); [exact Hp|subst p; split; [reflexivity|lia]]. }
  assert (forall a b c bs p, b64_three C a b c = Some bs ->
    (if b64_short_padding C then p <= 1 else p = 1)%nat ->
    b64_text (b64_any_trailing_bits C) (b64_short_padding C) bs ([a; b; c] ++ repeat x3d p)) as Three.
  { intros a b c bs p H Hp. apply three_ok in H as (g & h & k & rest & L1 & L2 & L3 & -> & -> & -> & E & Lr & Hz).
    exists [g; h; k], rest, p. split; [auto|]. cbn [concat]. rewrite app_nil_r. split; [exact E|]. split; [lia|].
    split; [exact Hz|]. split; [reflexivity|]. destruct (b64_short_padding C); [exact Hp|subst p; split; [reflexivity|lia]]. }
  intros t. induction t as [|a|a b|a b c|a b c d l IH] using list_ind4; intros bs H.
  - injection H as <-. exists [], [], 0%nat. split; [constructor|]. split; [reflexivity|]. cbn [List.length].
    split; [lia|]. split; [constructor|]. split; [reflexivity|]. destruct (b64_short_padding C); [lia|split; [reflexivity|lia]].
  - discriminate.
  - cbn [b64_decode b64_last] in H. destruct (b64_short_padding C) eqn:Es; [|discriminate].
    apply (Two a b bs 0%nat H). lia.
  - cbn [b64_decode b64_last] in H. destruct (b64_short_padding C) eqn:Es; [|discriminate].
    destruct (is_pad c) eqn:Ep; [apply pad_eq in Ep; subst c; apply (Two a b bs 1%nat H); lia|].
    apply (Three a b c bs 0%nat H). lia.
  - cbn [b64_decode] in H.
    destruct (b64_val a) as [x|] eqn:Ea; [destruct (b64_val b) as [y|] eqn:Eb; [destruct (b64_val c) as [z|] eqn:Ec;
      [destruct (b64_val d) as [w|] eqn:Ed|]|]|].
    1: { apply val_some in Ea as [Hx Ea], Eb as [Hy Eb], Ec as [Hz Ec], Ed as [Hw Ed].
      destruct (b64_decode C l) as [bs'|]; [|discriminate]. injection H as <-.
      destruct (IH bs' eq_refl) as (gs & rest & p & F & E & Lr & Z & -> & Hp).
      exists (bits 6 x :: bits 6 y :: bits 6 z :: bits 6 w :: gs), rest, p.
      split; [repeat (constructor; [apply bits_length|]); exact F|].
      split.
      { cbn [concat]. rewrite E. pose proof (four_groups x y z w Hx Hy Hz Hw) as G.
        match goal with |- _ = bytes_bits (?u :: ?v :: ?r :: ?q) ++ _ => change (u :: v :: r :: q) with ([u; v; r] ++ q) end.
        rewrite bytes_bits_app, <- G. now rewrite <- !app_assoc. }
      split; [exact Lr|]. split; [exact Z|]. split; [cbn [List.map app]; now rewrite Ea, Eb, Ec, Ed at 1|].
      cbn [List.length]. destruct (b64_short_padding C).
      - replace (S (S (S (S (List.length gs)))) mod 4)%nat with (List.length gs mod 4)%nat; [exact Hp|].
        change (S (S (S (S (List.length gs))))) with (4 + List.length gs)%nat. rewrite Nat.add_comm.
        rewrite <- (Nat.mod_add (List.length gs) 1 4) by discriminate. f_equal; lia.
      - split; [|apply Hp]. destruct Hp as [Hp _].
        change (S (S (S (S (List.length gs)))) + p)%nat with (4 + (List.length gs + p))%nat. rewrite Nat.add_comm.
        rewrite <- (Nat.mul_1_l 4) at 1. rewrite Nat.mod_add by discriminate. exact Hp. }
    all: cbn [b64_last] in H; destruct l; [|discriminate];
      destruct (is_pad d) eqn:Epd; [|discriminate]; apply pad_eq in Epd; subst d;
      destruct (is_pad c) eqn:Epc;
      [apply pad_eq in Epc; subst c; apply (Two a b bs 2%nat H); destruct (b64_short_padding C); lia
      |apply (Three a b c bs 1%nat H); destruct (b64_short_padding C); lia].
Qed.

Lemma text_decode C : forall gs bs rest p,
  Forall (fun g => List.length g = 6%nat) gs ->
  concat gs = bytes_bits bs ++ rest -> (List.length rest < 6)%nat ->
  (b64_any_trailing_bits C = false -> Forall (eq false) rest) ->
  (if b64_short_padding C then (p <= (4 - List.length gs mod 4) mod 4)%nat
     else ((List.length gs + p) mod 4 = 0 /\ p < 4)%nat) ->
  b64_decode C (List.map symbol gs ++ repeat x3d p) = Some bs.
Proof.
  intros gs. induction gs as [|g|g h|g h k|g h k m gs IH] using list_ind4; intros bs rest p F E Lr Z Hp.
  - assert (p = 0)%nat as ->.
    { destruct (b64_short_padding C); [cbn in Hp; lia|]. cbn [List.length Nat.add] in Hp. destruct Hp as [Hp1 Hp2].
      rewrite Nat.mod_small in Hp1 by exact Hp2. exact Hp1. }
    symmetry in E. apply app_eq_nil in E as [E _]. change [] with (bytes_bits []) in E. apply bytes_bits_inj in E. now subst.
  - exfalso. apply (f_equal (@List.length bool)) in E. cbn [concat] in E. rewrite app_nil_r, app_length, bytes_bits_length in E.
    apply Forall_inv in F. lia.
  - inversion_clear F as [|? ? Lg F']. inversion_clear F' as [|? ? Lh _]. cbn [concat] in E. rewrite app_nil_r in E.
    pose proof (two_make C g h bs rest Lg Lh E Lr Z) as T.
    destruct (val_symbol g Lg) as (Vg & Pg & _). destruct (val_symbol h Lh) as (Vh & Ph & _).
    assert ((if b64_short_padding C then p <= 2 else p = 2)%nat) as Hp'.
    { destruct (b64_short_padding C); [exact Hp|]. cbn [List.length Nat.add] in Hp. destruct Hp as [Hp1 Hp2].
      destruct p as [|[|[|[|]]]]; try lia; discriminate. }
    destruct p as [|[|[|p]]]; cbn [List.map app repeat b64_decode b64_last].
    + destruct (b64_short_padding C); [exact T|lia].
    + destruct (b64_short_padding C); [exact T|lia].
    + rewrite Vg, Vh, pad_val. exact T.
    + destruct (b64_short_padding C); lia.
  - inversion_clear F as [|? ? Lg F']. inversion_clear F' as [|? ? Lh F'']. inversion_clear F'' as [|? ? Lk _].
    cbn [concat] in E. rewrite app_nil_r in E.
    pose proof (three_make C g h k bs rest Lg Lh Lk E Lr Z) as T.
    destruct (val_symbol g Lg) as (Vg & Pg & _). destruct (val_symbol h Lh) as (Vh & Ph & _). destruct (val_symbol k Lk) as (Vk & Pk & _).
    assert ((if b64_short_padding C then p <= 1 else p = 1)%nat) as Hp'.
    { destruct (b64_short_padding C); [exact Hp|]. cbn [List.length Nat.add] in Hp. destruct Hp as [Hp1 Hp2].
      destruct p as [|[|[|[|]]]]; try lia; discriminate. }
    destruct p as [|[|p]]; cbn [List.map app repeat b64_decode b64_last].
    + rewrite Pk. destruct (b64_short_padding C); [exact T|lia].
    + rewrite Vg, Vh, Vk, pad_val, Pk. exact T.
    + destruct (b64_short_padding C); lia.
  - inversion_clear F as [|? ? Lg F1]. inversion_clear F1 as [|? ? Lh F2]. inversion_clear F2 as [|? ? Lk F3].
    inversion_clear F3 as [|? ? Lm F4].
    destruct (val_symbol g Lg) as (Vg & _ & Bg). destruct (val_symbol h Lh) as (Vh & _ & Bh).
    destruct (val_symbol k Lk) as (Vk & _ & Bk). destruct (val_symbol m Lm) as (Vm & _ & Bm).
    assert (3 <= List.length bs)%nat as Lb.
    { apply (f_equal (@List.length bool)) in E. cbn [concat] in E. rewrite !app_length, bytes_bits_length in E. lia. }
    destruct bs as [|b1 [|b2 [|b3 bs]]]; cbn [List.length] in Lb; try lia.
    pose proof (four_groups _ _ _ _ Bg Bh Bk Bm) as G.
    rewrite <- Lg in G at 1. rewrite <- Lh in G at 1. rewrite <- Lk in G at 1. rewrite <- Lm in G. rewrite !bits_value in G.
    cbn [concat] in E. change (b1 :: b2 :: b3 :: bs) with ([b1; b2; b3] ++ bs) in E. rewrite bytes_bits_app in E.
    replace (g ++ h ++ k ++ m ++ concat gs) with ((g ++ h ++ k ++ m) ++ concat gs) in E by (now rewrite <- !app_assoc).
    rewrite G, <- app_assoc in E. apply app_inv_len in E as [E1 E2]; [|now rewrite !bytes_bits_length].
    apply bytes_bits_inj in E1. cbn [List.map app b64_decode]. rewrite Vg, Vh, Vk, Vm.
    rewrite (IH bs rest p F4 E2 Lr Z).
    + cbn [option_map]. injection E1 as -> -> ->. reflexivity.
    + cbn [List.length] in Hp. destruct (b64_short_padding C).
      * replace (S (S (S (S (List.length gs)))) mod 4)%nat with (List.length gs mod 4)%nat in Hp; [exact Hp|].
        change (S (S (S (S (List.length gs))))) with (4 + List.length gs)%nat. rewrite Nat.add_comm.
        rewrite <- (Nat.mod_add (List.length gs) 1 4) by discriminate. f_equal; lia.
      * split; [|apply Hp]. destruct Hp as [Hp _].
        change (S (S (S (S (List.length gs)))) + p)%nat with (4 + (List.length gs + p))%nat in Hp. rewrite Nat.add_comm in Hp.
        rewrite <- (Nat.mul_1_l 4) in Hp at 1. rewrite Nat.mod_add in Hp by discriminate. exact Hp.
Qed.

Theorem b64_exact C :
  (forall t bs, b64_decode C t = Some bs <-> b64_text (b64_any_trailing_bits C) (b64_short_padding C) bs t) /\
  (forall bs t, b64_text false false bs t <-> t = b64_encode bs).
Proof.
  assert (forall C t bs, b64_decode C t = Some bs <-> b64_text (b64_any_trailing_bits C) (b64_short_padding C) bs t) as H.
  { clear C. intros C t bs. split; [apply decode_text|]. intros (gs & rest & p & F & E & Lr & Z & -> & Hp). eapply text_decode; eauto. }
  split; [apply H|]. intros bs t. split.
  - intros (gs & rest & p & F & E & Lr & Z & -> & Hp).
    destruct (proj1 (H {| b64_any_trailing_bits := false; b64_short_padding := false |} _ _) (b64_round_trip _ bs)) as
      (gs' & rest' & p' & F' & E' & Lr' & Z' & -> & Hp'). cbn [b64_any_trailing_bits b64_short_padding] in Z', Hp'.
    assert (List.length gs = List.length gs') as Lg.
    { assert (forall l : list (list bool), Forall (fun g => List.length g = 6%nat) l -> List.length (concat l) = (6 * List.length l)%nat) as Hc.
      { induction 1 as [|g l Hg _ IH]; [reflexivity|]. cbn [concat List.length]. rewrite app_length. lia. }
      pose proof (Hc _ F) as A. pose proof (Hc _ F') as B. rewrite E, app_length, bytes_bits_length in A.
      rewrite E', app_length, bytes_bits_length in B. lia. }
    assert (p = p') as <-.
    { rewrite <- Lg in Hp'. destruct Hp as [P1 P2], Hp' as [P1' P2']. revert P1 P1'. generalize (List.length gs). intros n P1 P1'.
      pose proof (Nat.div_mod (n + p) 4 ltac:(discriminate)) as D. pose proof (Nat.div_mod (n + p') 4 ltac:(discriminate)) as D'.
      rewrite P1 in D. rewrite P1' in D'. revert D D'. generalize ((n + p) / 4)%nat ((n + p') / 4)%nat. intros. lia. }
    assert (rest = rest') as <-.
    { assert (List.length rest = List.length rest') as Lrr.
      { assert (forall l : list (list bool), Forall (fun g => List.length g = 6%nat) l -> List.length (concat l) = (6 * List.length l)%nat) as Hc.
        { induction 1 as [|g l Hg _ IH]; [reflexivity|]. cbn [concat List.length]. rewrite app_length. lia. }
        pose proof (Hc _ F) as A. pose proof (Hc _ F') as B. rewrite E, app_length in A. rewrite E', app_length in B. lia. }
      specialize (Z eq_refl). specialize (Z' eq_refl). clear -Z Z' Lrr. revert rest' Z' Lrr.
      induction Z as [|x r <- _ IH]; intros [|y r'] Z'; cbn; try discriminate; [reflexivity|]. intros [= L].
      inversion_clear Z'. subst y. f_equal. auto. }
    f_equal. f_equal. assert (concat gs = concat gs') as Ec by congruence. clear -F F' Lg Ec. revert gs' F' Lg Ec.
    induction F as [|g gs Hg _ IH]; intros [|g' gs'] F'; cbn; try discriminate; [reflexivity|]. intros [= L] E.
    inversion_clear F'. apply app_inv_len in E as [-> E]; [|congruence]. f_equal. auto.
  - intros ->. apply (H {| b64_any_trailing_bits := false; b64_short_padding := false |}). apply b64_round_trip.
Qed.

(** ** Numbers *)
Theorem be_exact : forall k n,
  big_endian k n (be k n) /\
  (forall bs, big_endian k n bs -> bs = be k n) /\
  (n < 256 ^ N.of_nat k -> of_be (be k n) = n) /\
  (forall bs, List.length bs = k -> of_be bs < 256 ^ N.of_nat k /\ be k (of_be bs) = bs).
Proof.
  assert (forall k n, big_endian k n (be k n)) as H.
  { intros k. induction k as [|k IH]; intros n; split.
    - reflexivity.
    - intros i b Hb. destruct i; discriminate.
    - apply be_length.
    - intros i b Hb. cbn [be] in Hb. destruct (Nat.lt_ge_cases i k) as [Hi|Hi].
      + rewrite nth_error_app1 in Hb by (rewrite be_length; exact Hi). destruct (IH (n / 256)) as [_ IH2].
        rewrite (IH2 i b Hb). rewrite N.div_div by (try discriminate; apply N.pow_nonzero; discriminate).
        do 2 f_equal. replace (S k - 1 - i)%nat with (S (k - 1 - i)) by lia. rewrite Nat2N.inj_succ, N.pow_succ_r'. reflexivity.
      + rewrite nth_error_app2 in Hb by (rewrite be_length; exact Hi). rewrite be_length in Hb.
        destruct (i - k)%nat as [|j] eqn:Ej; [|destruct j; discriminate]. cbn in Hb. injection Hb as <-.
        assert (i = k) as -> by lia. replace (S k - 1 - k)%nat with 0%nat by lia. cbn [N.of_nat]. rewrite N.pow_0_r, N.div_1_r.
        apply b2n_n2b. }
  intros k n. split; [apply H|]. split; [|split].
  - intros bs [L E]. destruct (H k n) as [L' E']. apply (nth_ext _ _ x00 x00); [congruence|]. intros i Hi.
    assert (exists a, nth_error bs i = Some a) as [a Ha].
    { destruct (nth_error bs i) eqn:X; [eauto|]. apply nth_error_None in X. lia. }
    assert (exists a, nth_error (be k n) i = Some a) as [a' Ha'].
    { destruct (nth_error (be k n) i) eqn:X; [eauto|]. apply nth_error_None in X. lia. }
    rewrite (nth_error_nth _ _ x00 Ha), (nth_error_nth _ _ x00 Ha'). apply b2n_inj. rewrite (E _ _ Ha), (E' _ _ Ha'). reflexivity.
  - apply of_be_be.
  - intros bs <-. split; [apply of_be_bound|apply be_of_be].
Qed.

Lemma fold_horner ds : forall acc, fold_left (fun a c => a * 10 + (c - 48)) (List.map (N.add 48) ds) acc = horner acc ds.
Proof.
  induction ds as [|d ds IH]; intros acc; [reflexivity|]. cbn [List.map fold_left horner]. rewrite IH. f_equal. lia.
Qed.
Lemma digits_of s : digit_str s -> exists ds, s = List.map (N.add 48) ds /\ Forall (fun d => d < 10) ds.
Proof.
  induction 1 as [|c s Hc _ (ds & -> & F)]; [now exists []|]. exists (c - 48 :: ds). split; [|constructor; [lia|exact F]].
  cbn [List.map]. f_equal. lia.
Qed.
Lemma horner_bound ds : Forall (fun d => d < 10) ds -> forall acc,
  acc * 10 ^ N.of_nat (List.length ds) <= horner acc ds < (acc + 1) * 10 ^ N.of_nat (List.length ds).
Proof.
  induction 1 as [|d ds Hd _ IH]; intros acc; cbn [horner List.length].
  - change (10 ^ N.of_nat 0) with 1. lia.
  - rewrite Nat2N.inj_succ, N.pow_succ_r'. specialize (IH (10 * acc + d)). revert IH.
    generalize (10 ^ N.of_nat (List.length ds)) (horner (10 * acc + d) ds). intros p h. nia.
Qed.
Lemma horner_inj a b : List.length a = List.length b -> Forall (fun d => d < 10) a -> Forall (fun d => d < 10) b ->
  forall acc acc', horner acc a = horner acc' b -> acc = acc' /\ a = b.
Proof.
  intros Hl Ha. revert b Hl. induction Ha as [|x a Hx _ IH]; intros [|y b] Hl Hb acc acc' E; try discriminate; [auto|].
  inversion_clear Hb. injection Hl as Hl. cbn [horner] in E. destruct (IH b Hl H0 _ _ E) as [E1 ->].
  assert (acc = acc' /\ x = y) as [-> ->] by lia. auto.
Qed.
Lemma numeral_unique n s s' : numeral n s -> numeral n s' -> s = s'.
Proof.
  intros (ds & -> & F & E & Hd) (ds' & -> & F' & E' & Hd'). f_equal.
  assert (forall ds ds', Forall (fun d => d < 10) ds -> Forall (fun d => d < 10) ds' -> horner 0 ds = horner 0 ds' ->
    (ds = [0] \/ exists d r, ds = d :: r /\ d <> 0) -> (ds' = [0] \/ exists d r, ds' = d :: r /\ d <> 0) ->
    ~ (List.length ds < List.length ds')%nat) as Hlen.
  { clear. intros ds ds' F F' E Hd Hd' Hl.
    destruct Hd' as [->|(d & r & -> & Hn)].
    - destruct Hd as [->|(d & r & -> & _)]; cbn in Hl; lia.
    - cbn [List.length] in Hl. inversion_clear F' as [|? ? Hb F'']. cbn [horner] in E.
      pose proof (horner_bound r F'' (10 * 0 + d)) as [B1 _]. pose proof (horner_bound ds F 0) as [_ B2].
      assert (10 ^ N.of_nat (List.length ds) <= 10 ^ N.of_nat (List.length r)) by (apply N.pow_le_mono_r; lia).
      revert B1 B2 H. rewrite E. generalize (10 ^ N.of_nat (List.length ds)) (10 ^ N.of_nat (List.length r)). intros. nia. }
  pose proof (Hlen ds ds' F F' ltac:(congruence) Hd Hd'). pose proof (Hlen ds' ds F' F ltac:(congruence) Hd' Hd).
  apply (horner_inj ds ds' ltac:(lia) F F' 0 0). congruence.
Qed.
Theorem dec_exact : forall n, n <= usize_max -> forall s, s = dec n <-> numeral n s.
Proof.
  intros n Hn. assert (n < 10 ^ N.of_nat 20) as Hb.
  { eapply N.le_lt_trans; [exact Hn|]. apply N.ltb_lt. vm_compute. reflexivity. }
  assert (numeral n (dec n)) as H.
  { unfold dec. pose proof (dec_fuel_digits 20 n Hb) as Hd. pose proof (dec_fuel_value 20 n Hb) as Hv.
    apply digits_of in Hd as (ds & Ed & F). rewrite Ed in *. rewrite fold_horner in Hv. exists ds. split; [reflexivity|].
    split; [exact F|]. split; [exact Hv|]. destruct (N.eq_dec n 0) as [->|Hz].
    - left. destruct ds as [|d [|? ?]]; try discriminate. change (10 * 0 + d = 0) in Hv. f_equal. lia.
    - right. destruct (dec_fuel_head 20 n) as (c & r & E & Hc); [lia|exact Hb|]. rewrite E in Ed.
      destruct ds as [|d ds]; [discriminate|]. cbn [List.map] in Ed. apply (f_equal (hd 0)) in Ed. unfold hd in Ed.
      exists d, ds. split; [reflexivity|]. clear - Ed Hc. lia. }
  intros s. split; [now intros ->|]. intros Hs. eapply numeral_unique; eauto.
Qed.
