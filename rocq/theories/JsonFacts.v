(** Facts about Base64.v and Json.v. *)
From Verif Require Import Base BaseFacts Str Bip39 KeyPath Errors Base64 Json.
Local Open Scope byte_scope.

(** * Base64 *)

Lemma b64_val_sym n : (n < 64)%N -> b64_val (b64_sym n) = Some n.
Proof.
  intros H.
  assert (forall k : nat, (k < 64)%nat -> b64_val (b64_sym (N.of_nat k)) = Some (N.of_nat k)) as A.
  { assert (forallb (fun k => match b64_val (b64_sym (N.of_nat k)) with
                              | Some m => N.eqb m (N.of_nat k) | None => false end)
                    (seq 0 64) = true) as B by (vm_compute; reflexivity).
    rewrite forallb_forall in B. intros k Hk. specialize (B k (proj2 (in_seq _ _ _) (conj (Nat.le_0_l _) Hk))).
    destruct (b64_val _); [|discriminate]. apply N.eqb_eq in B. now subst. }
  specialize (A (N.to_nat n)). rewrite N2Nat.id in A. apply A. lia.
Qed.

Lemma b64_sym_pad n : (n < 64)%N -> is_pad (b64_sym n) = false.
Proof.
  intros H. unfold is_pad. destruct (byte_eqb _ _) eqn:E; [|reflexivity].
  apply byte_eqb_eq in E. pose proof (b64_val_sym n H) as V. rewrite E in V. discriminate.
Qed.

Lemma list_ind3 {A} (P : list A -> Prop) :
  P [] -> (forall a, P [a]) -> (forall a b, P [a; b]) ->
  (forall a b c l, P l -> P (a :: b :: c :: l)) -> forall l, P l.
Proof.
  intros H0 H1 H2 H3.
  fix IH 1. intros [|a [|b [|c l]]]; [exact H0|apply H1|apply H2|apply H3, IH].
Qed.

Section Arith.
Local Open Scope N_scope.
Lemma split4 a : a = a / 4 * 4 + a mod 4.
Proof. rewrite N.mul_comm. apply N.div_mod'. Qed.
Lemma b64_1 a b : b < 256 -> n2b (b2n a / 4 * 4 + (b2n a mod 4 * 16 + b / 16) / 16) = a.
Proof.
  intros Hb. rewrite (N.div_add_l (b2n a mod 4) 16) by discriminate.
  rewrite N.div_small with (a := b / 16).
  2:{ apply N.div_lt_upper_bound; [discriminate|exact Hb]. }
  rewrite N.add_0_r, N.mul_comm, <- N.div_mod', n2b_b2n. reflexivity.
Qed.
Lemma b64_2 a b c : c < 256 ->
  n2b ((b2n a mod 4 * 16 + b2n b / 16) mod 16 * 16 + (b2n b mod 16 * 4 + c / 64) / 4) = b.
Proof.
  intros Hc. rewrite (N.div_add_l (b2n b mod 16) 4) by discriminate.
  rewrite N.div_small with (a := c / 64).
  2:{ apply N.div_lt_upper_bound; [discriminate|exact Hc]. }
  rewrite (N.add_comm (b2n a mod 4 * 16)), N.mod_add by discriminate.
  rewrite N.mod_small with (a := b2n b / 16).
  2:{ apply N.div_lt_upper_bound; [discriminate|apply b2n_lt]. }
  rewrite N.add_0_r, N.mul_comm, <- N.div_mod', n2b_b2n. reflexivity.
Qed.
Lemma b64_3 b c :
  n2b ((b2n b mod 16 * 4 + b2n c / 64) mod 4 * 64 + b2n c mod 64) = c.
Proof.
  rewrite (N.add_comm (b2n b mod 16 * 4)), N.mod_add by discriminate.
  rewrite N.mod_small with (a := b2n c / 64).
  2:{ apply N.div_lt_upper_bound; [discriminate|apply b2n_lt]. }
  rewrite N.mul_comm, <- N.div_mod', n2b_b2n. reflexivity.
Qed.
Lemma b64_r1 a : b2n a / 4 < 64.
Proof. apply N.div_lt_upper_bound; [discriminate|apply b2n_lt]. Qed.
Lemma b64_r2 a b : a mod 4 * 16 + b2n b / 16 < 64.
Proof.
  pose proof (N.mod_lt a 4). assert (b2n b / 16 < 16).
  { apply N.div_lt_upper_bound; [discriminate|apply b2n_lt]. }
  assert (a mod 4 < 4) by (apply N.mod_lt; discriminate).
  revert H0 H1. generalize (a mod 4) (b2n b / 16). intros. lia.
Qed.
Lemma b64_r2' a : a mod 4 * 16 < 64.
Proof. assert (a mod 4 < 4) by (apply N.mod_lt; discriminate). lia. Qed.
Lemma b64_r3 b c : b mod 16 * 4 + b2n c / 64 < 64.
Proof.
  assert (b2n c / 64 < 4) as H0.
  { apply N.div_lt_upper_bound; [discriminate|apply b2n_lt]. }
  assert (b mod 16 < 16) as H1 by (apply N.mod_lt; discriminate).
  revert H0 H1. generalize (b mod 16) (b2n c / 64). intros. lia.
Qed.
Lemma b64_r3' b : b mod 16 * 4 < 64.
Proof. assert (b mod 16 < 16) by (apply N.mod_lt; discriminate). lia. Qed.
Lemma b64_r4 c : c mod 64 < 64.
Proof. apply N.mod_lt. discriminate. Qed.
End Arith.

Lemma b64_round_trip C l : b64_decode C (b64_encode l) = Some l.
Proof.
  induction l as [|a|a b|a b c l IH] using list_ind3.
  - reflexivity.
  - cbn [b64_encode b64_decode].
    rewrite (b64_val_sym _ (b64_r1 a)), (b64_val_sym _ (b64_r2' _)).
    change (b64_val b64_pad) with (@None N). cbn [b64_last].
    change (is_pad b64_pad) with true. cbv iota. unfold b64_two.
    rewrite (b64_val_sym _ (b64_r1 a)), (b64_val_sym _ (b64_r2' _)).
    rewrite N.mod_mul by discriminate. rewrite N.eqb_refl, orb_true_r.
    f_equal. f_equal. pose proof (b64_1 a 0 eq_refl) as E. rewrite N.div_0_l, N.add_0_r in E by discriminate.
    exact E.
  - cbn [b64_encode b64_decode].
    rewrite (b64_val_sym _ (b64_r1 a)), (b64_val_sym _ (b64_r2 _ b)), (b64_val_sym _ (b64_r3' _)).
    change (b64_val b64_pad) with (@None N). cbn [b64_last].
    change (is_pad b64_pad) with true. cbv iota.
    rewrite (b64_sym_pad _ (b64_r3' _)). unfold b64_three.
    rewrite (b64_val_sym _ (b64_r1 a)), (b64_val_sym _ (b64_r2 _ b)), (b64_val_sym _ (b64_r3' _)).
    rewrite N.mod_mul by discriminate. rewrite N.eqb_refl, orb_true_r.
    f_equal. f_equal; [apply b64_1, b2n_lt|]. f_equal.
    pose proof (b64_2 a b 0 eq_refl) as E. rewrite N.div_0_l, N.add_0_r in E by discriminate.
    exact E.
  - cbn [b64_encode b64_decode].
    rewrite (b64_val_sym _ (b64_r1 a)), (b64_val_sym _ (b64_r2 _ b)), (b64_val_sym _ (b64_r3 _ c)),
      (b64_val_sym _ (b64_r4 _)), IH.
    cbn [option_map]. rewrite (b64_1 a _ (b2n_lt b)), (b64_2 a b _ (b2n_lt c)), b64_3. reflexivity.
Qed.

(** Only ASCII symbols. *)
Definition ascii (b : byte) : Prop := (b2n b < 128)%N.

Lemma b64_sym_ascii n : ascii (b64_sym n).
Proof.
  unfold b64_sym, ascii.
  destruct (N.ltb_spec n 26); [rewrite b2n_n2b_small; lia|].
  destruct (N.ltb_spec n 52); [rewrite b2n_n2b_small; lia|].
  destruct (N.ltb_spec n 62); [rewrite b2n_n2b_small; lia|].
  destruct (N.eqb_spec n 62); reflexivity.
Qed.

Lemma b64_encode_ascii l : Forall ascii (b64_encode l).
Proof.
  induction l as [|a|a b|a b c l IH] using list_ind3; cbn [b64_encode];
    repeat (constructor; [first [apply b64_sym_ascii|reflexivity]|]); try constructor; assumption.
Qed.

Lemma of_utf8_ascii l : Forall ascii l -> of_utf8 l = Some (List.map b2n l).
Proof.
  induction 1 as [|b l Hb _ IH]; cbn [of_utf8 List.map]; [reflexivity|].
  apply N.ltb_lt in Hb. change (0x80)%N with 128%N. rewrite Hb, IH. reflexivity.
Qed.

Lemma utf8_ascii l : Forall ascii l -> utf8 (List.map b2n l) = l.
Proof.
  induction 1 as [|b l Hb _ IH]; [reflexivity|].
  cbn [List.map]. unfold utf8 in *. cbn [flat_map]. rewrite IH. unfold utf8_char.
  apply N.ltb_lt in Hb. change (0x80)%N with 128%N. rewrite Hb, n2b_b2n. reflexivity.
Qed.

(** * Strings *)

Lemma str_body_escape1 b t : str_body (escape b ++ t) = push [b] (str_body t).
Proof. destruct b; reflexivity. Qed.

Lemma push_app a b o : push a (push b o) = push (a ++ b) o.
Proof. destruct o as [[s r]|]; cbn; [now rewrite app_assoc|reflexivity]. Qed.

Lemma str_body_escape s t : str_body (flat_map escape s ++ """" :: t) = Some (s, t).
Proof.
  induction s as [|b s IH]; cbn [flat_map].
  - reflexivity.
  - rewrite <- app_assoc, str_body_escape1, IH. reflexivity.
Qed.

Lemma expect_hit c t : is_ws c = false -> expect c (c :: t) = Ok (tt, t).
Proof. intros H. unfold expect. cbn [skip_ws]. now rewrite H, byte_eqb_refl. Qed.

Lemma parse_str_print s u t : of_utf8 s = Some u -> parse_str (print_str s ++ t) = Ok (u, t).
Proof.
  intros H. unfold parse_str, print_str. cbn [app]. rewrite expect_hit by reflexivity. cbn [bind].
  rewrite <- app_assoc. cbn [app]. rewrite str_body_escape, H. reflexivity.
Qed.

(** * Numbers *)

Definition digit_str (s : str) : Prop := Forall (fun c => (48 <= c <= 57)%N) s.

Lemma dec_fuel_digits k : forall n, (n < 10 ^ N.of_nat k)%N -> digit_str (dec_fuel k n).
Proof.
  induction k as [|k IH]; intros n H; cbn [dec_fuel]; [constructor|].
  destruct (N.ltb_spec n 10).
  - constructor; [lia|constructor].
  - apply Forall_app. split.
    + apply IH. apply N.div_lt_upper_bound; [discriminate|].
      rewrite Nat2N.inj_succ, N.pow_succ_r' in H. exact H.
    + constructor; [|constructor]. pose proof (N.mod_lt n 10 ltac:(discriminate)). lia.
Qed.

Lemma utf8_digits s : digit_str s -> utf8 s = List.map n2b s.
Proof.
  induction 1 as [|c s Hc _ IH]; [reflexivity|].
  unfold utf8 in *. cbn [flat_map List.map]. rewrite IH. unfold utf8_char.
  destruct (N.ltb_spec c 0x80); [reflexivity|lia].
Qed.

Lemma is_digit_n2b c : (48 <= c <= 57)%N -> is_digit (n2b c) = true.
Proof.
  intros H. unfold is_digit. rewrite b2n_n2b_small by lia.
  apply andb_true_iff. split; apply N.leb_le; lia.
Qed.

Lemma digits_map s : digit_str s -> forall acc t,
  digits acc (List.map n2b s ++ t) = digits (fold_left (fun a c => a * 10 + (c - 48))%N s acc) t.
Proof.
  induction 1 as [|c s Hc _ IH]; intros acc t; [reflexivity|].
  cbn [List.map app digits fold_left]. rewrite is_digit_n2b by exact Hc.
  rewrite b2n_n2b_small by lia. apply IH.
Qed.

Lemma dec_fuel_value k : forall n, (n < 10 ^ N.of_nat k)%N ->
  fold_left (fun a c => a * 10 + (c - 48))%N (dec_fuel k n) 0%N = n.
Proof.
  induction k as [|k IH]; intros n H; cbn [dec_fuel].
  - cbn in H. cbn. lia.
  - destruct (N.ltb_spec n 10).
    + cbn [fold_left]. lia.
    + rewrite fold_left_app. cbn [fold_left]. rewrite IH.
      * pose proof (N.div_mod' n 10) as E. revert E. generalize (n / 10)%N (n mod 10)%N. intros. lia.
      * apply N.div_lt_upper_bound; [discriminate|].
        rewrite Nat2N.inj_succ, N.pow_succ_r' in H. exact H.
Qed.

Lemma dec_fuel_head k : forall n, (0 < n)%N -> (n < 10 ^ N.of_nat k)%N ->
  exists c s, dec_fuel k n = c :: s /\ (49 <= c <= 57)%N.
Proof.
  induction k as [|k IH]; intros n H0 H; cbn [dec_fuel].
  - cbn in H. lia.
  - destruct (N.ltb_spec n 10).
    + eexists _, _. split; [reflexivity|lia].
    + destruct (IH (n / 10)%N) as (c & s & E & Hc).
      * apply N.div_str_pos. lia.
      * apply N.div_lt_upper_bound; [discriminate|].
        rewrite Nat2N.inj_succ, N.pow_succ_r' in H. exact H.
      * rewrite E. eexists _, _. split; [reflexivity|exact Hc].
Qed.

(** What may follow a printed number. *)
Definition after_num (t : bytes) : Prop :=
  no_float t = true /\ match t with b :: _ => is_digit b = false | [] => True end.

Lemma digits_stop n t : after_num t -> digits n t = (n, t).
Proof.
  intros [_ H]. destruct t as [|b t]; [reflexivity|]. cbn [digits]. now rewrite H.
Qed.

Lemma n2b_neq c b : (c < 256)%N -> c <> b2n b -> byte_eqb (n2b c) b = false.
Proof.
  intros Hc H. unfold byte_eqb. rewrite b2n_n2b_small by exact Hc. now apply N.eqb_neq.
Qed.

Lemma integer_print n t : (n < 10 ^ 20)%N -> after_num t -> integer (print_num n ++ t) = Ok (n, t).
Proof.
  intros Hn Ht. unfold print_num, dec. change (10 ^ 20)%N with (10 ^ N.of_nat 20)%N in Hn.
  destruct (N.eq_dec n 0) as [->|Hz].
  - destruct Ht as [H1 H2]. cbn. destruct t as [|b t]; [reflexivity|]. rewrite H2, H1. reflexivity.
  - pose proof (dec_fuel_digits 20 n Hn) as Hd. rewrite (utf8_digits _ Hd).
    pose proof (dec_fuel_value 20 n Hn) as Hv.
    destruct (dec_fuel_head 20 n) as (c & s & E & Hc); [lia|exact Hn|].
    rewrite E in *. pose proof (digits_map _ Hd 0 t) as Hm. rewrite Hv, (digits_stop n t Ht) in Hm.
    cbn [List.map app] in *. unfold integer.
    rewrite n2b_neq by (cbn; lia). rewrite is_digit_n2b by lia.
    rewrite Hm, (proj1 Ht). reflexivity.
Qed.

Lemma print_num_head n : exists b l, print_num n = b :: l /\
  (n < 10 ^ 20 -> is_digit b = true)%N.
Proof.
  unfold print_num, dec. change (10 ^ 20)%N with (10 ^ N.of_nat 20)%N.
  destruct (N.ltb_spec n (10 ^ N.of_nat 20)) as [Hn|Hn].
  - pose proof (dec_fuel_digits 20 n Hn) as Hd. rewrite (utf8_digits _ Hd).
    assert (exists c s, dec_fuel 20 n = c :: s) as (c & s & E).
    { cbn [dec_fuel]. destruct (n <? 10)%N; [eauto|].
      match goal with |- exists c s, ?x ++ _ = _ => destruct x; cbn [app]; eauto end. }
    rewrite E in *. cbn [List.map]. eexists _, _. split; [reflexivity|]. intros _.
    apply is_digit_n2b. inversion Hd; assumption.
  - assert (exists b l, utf8 (dec_fuel 20 n) = b :: l) as (b & l & E).
    { assert (exists c s, dec_fuel 20 n = c :: s) as (c & s & ->).
      { cbn [dec_fuel]. destruct (n <? 10)%N; [eauto|].
        match goal with |- exists c s, ?x ++ _ = _ => destruct x; cbn [app]; eauto end. }
      unfold utf8. cbn [flat_map]. unfold utf8_char.
      destruct (c <? 0x80)%N; [|destruct (c <? 0x800)%N; [|destruct (c <? 0x10000)%N]]; cbn [app]; eauto. }
    exists b, l. split; [exact E|lia].
Qed.

Lemma is_digit_facts b : is_digit b = true ->
  is_ws b = false /\ byte_eqb b "-" = false /\ byte_eqb b "]" = false /\ byte_eqb b "," = false.
Proof. destruct b; cbn; intros H; try discriminate; repeat split. Qed.

Lemma skip_ws_hit b l : is_ws b = false -> skip_ws (b :: l) = b :: l.
Proof. intros H. cbn [skip_ws]. now rewrite H. Qed.

Lemma parse_uint_print C max n t : (n < 10 ^ 20)%N -> (n <= max)%N -> after_num t ->
  parse_uint C max (print_num n ++ t) = Ok (n, t).
Proof.
  intros Hn Hm Ht. pose proof (integer_print n t Hn Ht) as Hi.
  destruct (print_num_head n) as (b & l & E & Hd). specialize (Hd Hn). rewrite E in *. cbn [app] in *.
  destruct (is_digit_facts b Hd) as (Hw & Hmi & _). unfold parse_uint.
  rewrite skip_ws_hit by exact Hw. rewrite Hmi, Hi. cbn [bind].
  apply N.leb_le in Hm. now rewrite Hm.
Qed.

(** * Sequences and structs *)

(** A text starting like a value. *)
Definition value_head (v : bytes) : Prop :=
  exists b l, v = b :: l /\ is_ws b = false /\ byte_eqb b "]" = false /\ byte_eqb b "," = false
    /\ byte_eqb b "n" = false.

Lemma value_head_str s : value_head (print_str s).
Proof. eexists _, _. split; [reflexivity|repeat split]. Qed.
Lemma value_head_seq s : value_head (print_seq s).
Proof. eexists _, _. split; [reflexivity|repeat split]. Qed.

Lemma value_head_app v t : value_head v -> value_head (v ++ t).
Proof. intros (b & l & -> & H). exists b, (l ++ t). split; [reflexivity|exact H]. Qed.

Lemma seq_next_first v t b l : v = b :: l -> is_ws b = false -> byte_eqb b "]" = false ->
  seq_next true (v ++ t) = Ok (true, v ++ t).
Proof.
  intros -> Hw Hb. cbn [app]. unfold seq_next. rewrite skip_ws_hit by exact Hw.
  rewrite Hb. now rewrite andb_false_r.
Qed.

Lemma seq_next_comma v t b l : v = b :: l -> is_ws b = false -> byte_eqb b "]" = false ->
  seq_next false ("," :: v ++ t) = Ok (true, v ++ t).
Proof.
  intros -> Hw Hb. cbn [app]. unfold seq_next. rewrite skip_ws_hit by reflexivity.
  change (byte_eqb "," "]") with false. change (byte_eqb "," "," && negb false) with true. cbv iota.
  rewrite skip_ws_hit by exact Hw. now rewrite Hb.
Qed.

Lemma seq_next_end first t : seq_next first ("]" :: t) = Ok (false, "]" :: t).
Proof. reflexivity. Qed.

Definition comma_tail (l : list bytes) : bytes := flat_map (fun x => "," :: x) l.

Lemma comma_tail_length l : (length l <= length (comma_tail l))%nat.
Proof.
  induction l as [|x l IH]; [apply Nat.le_refl|].
  unfold comma_tail in *. cbn [flat_map app]. cbn [length]. rewrite app_length. lia.
Qed.

Lemma commas_tail x l : commas (x :: l) = x ++ comma_tail l.
Proof.
  revert x. induction l as [|y l IH]; intros x.
  - cbn. now rewrite app_nil_r.
  - cbn [commas comma_tail flat_map]. cbn [commas] in IH. rewrite IH. reflexivity.
Qed.

Section Seq.
Context {A : Type} (p : parser A) (pr : A -> bytes).
Hypothesis Hhead : forall a, exists b l, pr a = b :: l /\ is_ws b = false /\ byte_eqb b "]" = false.

Lemma seq_loop_tail l : (forall a t, In a l -> p (pr a ++ t) = Ok (a, t)) ->
  forall fuel t, (length l < fuel)%nat ->
  seq_loop fuel p false (comma_tail (List.map pr l) ++ "]" :: t) = Ok (l, "]" :: t).
Proof.
  induction l as [|a l IH]; intros Hp fuel t Hf; (destruct fuel as [|fuel]; [cbn in Hf; lia|]).
  - reflexivity.
  - cbn [List.map comma_tail flat_map]. cbn [app seq_loop].
    destruct (Hhead a) as (b & s & E & Hw & Hb). rewrite <- app_assoc.
    rewrite (seq_next_comma _ _ _ _ E Hw Hb). cbn [bind].
    rewrite Hp by now left. cbn [bind].
    fold (comma_tail (List.map pr l)). rewrite IH; [reflexivity| |cbn in Hf; lia].
    intros a' t' Hin. apply Hp. now right.
Qed.

Lemma parse_vec_print l t : (forall a t, In a l -> p (pr a ++ t) = Ok (a, t)) ->
  parse_vec p (print_seq (List.map pr l) ++ t) = Ok (l, t).
Proof.
  intros Hp. unfold parse_vec, print_seq. cbn [app]. rewrite expect_hit by reflexivity. cbn [bind].
  rewrite <- app_assoc. cbn [app].
  destruct l as [|a l].
  - reflexivity.
  - cbn [List.map]. rewrite commas_tail, <- app_assoc.
    destruct (Hhead a) as (b & s & E & Hw & Hb).
    cbn [seq_loop]. rewrite (seq_next_first _ _ _ _ E Hw Hb). cbn [bind].
    rewrite Hp by now left. cbn [bind].
    rewrite seq_loop_tail; [reflexivity| |].
    + intros a' t' Hin. apply Hp. now right.
    + rewrite !app_length, E. cbn [length].
      pose proof (comma_tail_length (List.map pr l)) as Hc. rewrite map_length in Hc. lia.
Qed.
End Seq.

Definition sep (first : bool) : bytes := if first then [] else [","].

Lemma map_next_field first name v t :
  map_next first (sep first ++ print_field name v ++ t) = Ok (true, print_field name v ++ t).
Proof. destruct first; reflexivity. Qed.

Lemma map_loop_step {S} fuel (field : S -> str -> parser S) first s name u v t :
  of_utf8 name = Some u ->
  map_loop (Datatypes.S fuel) field first s (sep first ++ print_field name v ++ t) =
  let* '(s', l) := field s u (v ++ t) in map_loop fuel field false s' l.
Proof.
  intros Hu. cbn [map_loop]. rewrite map_next_field. cbn [bind]. unfold print_field.
  rewrite <- app_assoc. rewrite (parse_str_print _ _ _ Hu). cbn [bind].
  cbn [app]. rewrite expect_hit by reflexivity. reflexivity.
Qed.

Lemma map_loop_end {S} fuel (field : S -> str -> parser S) s first t :
  map_loop (Datatypes.S fuel) field first s ("}" :: t) = Ok (s, "}" :: t).
Proof. reflexivity. Qed.

Lemma parse_option_null {A} (p : parser A) t : parse_option p (["n"; "u"; "l"; "l"] ++ t) = Ok (None, t).
Proof. reflexivity. Qed.

Lemma parse_option_some {A} (p : parser A) v a t : value_head v -> p (v ++ t) = Ok (a, t) ->
  parse_option p (v ++ t) = Ok (Some a, t).
Proof.
  intros (b & l & -> & Hw & _ & _ & Hn) H. unfold parse_option. cbn [app] in *.
  rewrite skip_ws_hit by exact Hw. rewrite Hn, H. reflexivity.
Qed.

(** * Parsers always answer, consume input, and yield good values *)

Definition yields {A} (p : parser A) (Q : A -> Prop) : Prop := forall l,
  match p l with
  | Ok (a, r) => (length r < length l)%nat /\ Q a
  | Err _ => True
  | Panic | Undef => False
  end.

Lemma skip_ws_length l : (length (skip_ws l) <= length l)%nat.
Proof. induction l as [|b l IH]; cbn [skip_ws]; [lia|]. destruct (is_ws b); cbn [length]; lia. Qed.

Lemma yields_weaken {A} (p : parser A) (Q R : A -> Prop) :
  (forall a, Q a -> R a) -> yields p Q -> yields p R.
Proof.
  intros H Hp l. specialize (Hp l). destruct (p l) as [[a r]| | |]; try assumption.
  destruct Hp; split; auto.
Qed.

Lemma yields_bad {A} (Q : A -> Prop) : yields (fun _ => bad) Q.
Proof. intros l. exact I. Qed.

Lemma yields_bind {A B} (p : parser A) (f : A -> parser B) Q R :
  yields p Q -> (forall a, Q a -> yields (f a) R) ->
  yields (fun l => let* '(a, l) := p l in f a l) R.
Proof.
  intros Hp Hf l. specialize (Hp l). destruct (p l) as [[a r]| | |]; cbn [bind]; try assumption.
  destruct Hp as [Hl Ha]. specialize (Hf a Ha r). destruct (f a r) as [[b r']| | |]; try assumption.
  destruct Hf. split; [lia|assumption].
Qed.

(** The continuation need not read anything. *)
Definition returns {A B} (f : A -> bytes -> res data_error (B * bytes)) (a : A) (R : B -> Prop) : Prop :=
  forall l, match f a l with
  | Ok (b, r) => (length r <= length l)%nat /\ R b
  | Err _ => True
  | Panic | Undef => False
  end.

Lemma yields_map {A B} (p : parser A) (f : A -> bytes -> res data_error (B * bytes)) Q R :
  yields p Q -> (forall a, Q a -> returns f a R) ->
  yields (fun l => let* '(a, l) := p l in f a l) R.
Proof.
  intros Hp Hf l. specialize (Hp l). destruct (p l) as [[a r]| | |]; cbn [bind]; try assumption.
  destruct Hp as [Hl Ha]. specialize (Hf a Ha r). destruct (f a r) as [[b r']| | |]; try assumption.
  destruct Hf. split; [lia|assumption].
Qed.

Lemma yields_returns {A B} (f : A -> parser B) a R : yields (f a) R -> returns f a R.
Proof.
  intros H l. specialize (H l). destruct (f a l) as [[b r]| | |]; try assumption.
  destruct H; split; [lia|assumption].
Qed.

Lemma yields_expect c : yields (expect c) (fun _ => True).
Proof.
  intros l. unfold expect. pose proof (skip_ws_length l).
  destruct (skip_ws l) as [|b r]; [exact I|]. destruct (byte_eqb b c); [|exact I].
  cbn in H. split; [lia|trivial].
Qed.

Lemma expect_text_total t : forall l,
  match expect_text t l with Ok (_, r) => (length r <= length l)%nat | Err _ => True | _ => False end.
Proof.
  induction t as [|c t IH]; intros l; cbn [expect_text]; [lia|].
  destruct l as [|b r]; [exact I|]. destruct (byte_eqb b c); [|exact I].
  specialize (IH r). destruct (expect_text t r) as [[x r']| | |]; cbn [length]; try assumption. lia.
Qed.

Lemma push_some pre o s r : push pre o = Some (s, r) -> exists s', o = Some (s', r).
Proof. destruct o as [[s' r']|]; cbn; intros H; [injection H as <- <-; eauto|discriminate]. Qed.

Lemma str_body_length : forall n l s r, (length l <= n)%nat -> str_body l = Some (s, r) ->
  (length r < length l)%nat.
Proof.
  induction n as [|n IH]; intros l s r Hn H; destruct l as [|b l]; cbn [length] in Hn; try lia; try discriminate.
  cbn [str_body] in H. cbn [length].
  destruct (byte_eqb b """"). { injection H as <- <-. lia. }
  destruct (byte_eqb b "\").
  - destruct l as [|e r1]; [discriminate|]. cbn [length] in *.
    destruct (simple_escape e).
    + apply push_some in H as [s' H]. apply IH in H; lia.
    + destruct (negb (byte_eqb e "u")); [discriminate|].
      destruct r1 as [|h1 [|h2 [|h3 [|h4 r5]]]]; try discriminate. cbn [length] in *.
      destruct (hex4 h1 h2 h3 h4) as [m|]; [|discriminate].
      destruct (low_surrogate m); [discriminate|].
      destruct (high_surrogate m).
      * destruct r5 as [|e1 [|e2 [|g1 [|g2 [|g3 [|g4 r11]]]]]]; try discriminate. cbn [length] in *.
        destruct (_ && _); [|discriminate].
        destruct (hex4 g1 g2 g3 g4) as [m2|]; [|discriminate].
        destruct (low_surrogate m2); [|discriminate].
        apply push_some in H as [s' H]. apply IH in H; lia.
      * apply push_some in H as [s' H]. apply IH in H; lia.
  - destruct (b2n b <? 32)%N; [discriminate|].
    apply push_some in H as [s' H]. apply IH in H; lia.
Qed.

Lemma of_utf8_valid_n : forall n l s, (length l <= n)%nat -> of_utf8 l = Some s -> valid_str s.
Proof.
  induction n as [|n IH]; intros l s Hn H; destruct l as [|b0 r0]; cbn [length] in Hn; try lia;
    try (injection H as <-; constructor).
  cbn [of_utf8] in H. cbv zeta in H.
  destruct (b2n b0 <? 0x80)%N eqn:E0.
  { destruct (of_utf8 r0) eqn:Er; [|discriminate]. injection H as <-. constructor; [|eapply IH; [|eassumption]; lia].
    apply N.ltb_lt in E0. unfold is_scalar. apply orb_true_iff. left. apply N.ltb_lt. lia. }
  destruct r0 as [|b1 r1]; [discriminate|]. cbn [length] in Hn.
  destruct (negb (is_cont b1)) eqn:E1; [discriminate|].
  destruct (b2n b0 <? 0xC2)%N; [discriminate|].
  assert (cont b1 < 64)%N as C1.
  { apply negb_false_iff in E1. unfold is_cont in E1. apply andb_true_iff in E1 as [A B].
    apply N.leb_le in A. apply N.ltb_lt in B. unfold cont. lia. }
  destruct (b2n b0 <? 0xE0)%N eqn:E2.
  { destruct (of_utf8 r1) eqn:Er; [|discriminate]. injection H as <-. constructor; [|eapply IH; [|eassumption]; lia].
    apply N.ltb_lt in E2. unfold is_scalar. apply orb_true_iff. left. apply N.ltb_lt. lia. }
  destruct r1 as [|b2 r2]; [discriminate|]. cbn [length] in Hn.
  destruct (negb (is_cont b2)); [discriminate|].
  destruct (b2n b0 <? 0xF0)%N.
  { destruct (_ && _) eqn:Es in H; [|discriminate]. apply andb_true_iff in Es as [_ Es].
    destruct (of_utf8 r2) eqn:Er; [|discriminate]. injection H as <-. constructor; [exact Es|eapply IH; [|eassumption]; lia]. }
  destruct r2 as [|b3 r3]; [discriminate|]. cbn [length] in Hn.
  destruct (negb (is_cont b3)); [discriminate|].
  destruct (_ && _) eqn:Es in H; [|discriminate]. apply andb_true_iff in Es as [_ Es].
  destruct (of_utf8 r3) eqn:Er; [|discriminate]. injection H as <-. constructor; [exact Es|eapply IH; [|eassumption]; lia].
Qed.

Lemma of_utf8_valid l s : of_utf8 l = Some s -> valid_str s.
Proof. apply (of_utf8_valid_n (length l)). lia. Qed.

Lemma yields_str : yields parse_str valid_str.
Proof.
  intros l. unfold parse_str. pose proof (yields_expect """" l) as He.
  destruct (expect """" l) as [[[] r]| | |]; cbn [bind]; try assumption.
  destruct (str_body r) as [[s r']|] eqn:E; [|exact I].
  destruct (of_utf8 s) as [t|] eqn:Eu; [|exact I].
  apply (str_body_length (length r)) in E; [|lia]. apply of_utf8_valid in Eu.
  destruct He. split; [lia|exact Eu].
Qed.

Lemma digits_length l : forall n, (length (snd (digits n l)) <= length l)%nat.
Proof.
  induction l as [|b l IH]; intros n; cbn [digits]; [cbn; lia|].
  destruct (is_digit b); cbn [snd length]; [|lia]. specialize (IH (n * 10 + (b2n b - 48))%N). lia.
Qed.

Lemma yields_integer : yields integer (fun _ => True).
Proof.
  intros l. unfold integer. destruct l as [|b r]; [exact I|].
  destruct (byte_eqb b "0").
  - destruct r as [|d r]; cbn [length]; [split; [lia|trivial]|].
    destruct (is_digit d || _); [exact I|]. cbn [length]. split; [lia|trivial].
  - destruct (is_digit b) eqn:Eb; [|exact I].
    destruct (digits 0 (b :: r)) as [n r'] eqn:E. destruct (no_float r'); [|exact I].
    cbn [digits] in E. rewrite Eb in E.
    pose proof (digits_length r (0 * 10 + (b2n b - 48))%N) as H. rewrite E in H. cbn [snd length] in *.
    split; [lia|trivial].
Qed.

Lemma yields_uint C max : yields (parse_uint C max) (fun n => (n <= max)%N).
Proof.
  intros l. unfold parse_uint. pose proof (skip_ws_length l).
  destruct (skip_ws l) as [|b r]; [exact I|]. cbn [length] in H.
  destruct (byte_eqb b "-").
  - pose proof (yields_integer r) as Hi. destruct (integer r) as [[n r']| | |]; cbn [bind]; try assumption.
    destruct (_ && _); [|exact I]. split; lia.
  - pose proof (yields_integer (b :: r)) as Hi.
    destruct (integer (b :: r)) as [[n r']| | |]; cbn [bind]; try assumption.
    destruct (N.leb_spec n max); [|exact I]. cbn [length] in Hi. split; lia.
Qed.

Lemma yields_option {A} (p : parser A) Q : yields p Q ->
  yields (parse_option p) (fun o => match o with Some a => Q a | None => True end).
Proof.
  intros Hp l. unfold parse_option. pose proof (skip_ws_length l).
  destruct (skip_ws l) as [|b r]; [exact I|]. cbn [length] in H.
  destruct (byte_eqb b "n").
  - pose proof (expect_text_total ["u"; "l"; "l"] r) as Ht.
    destruct (expect_text _ r) as [[x r']| | |]; cbn [bind]; try assumption.
    split; [lia|trivial].
  - specialize (Hp l). destruct (p l) as [[a r']| | |]; cbn [bind]; assumption.
Qed.

Lemma yields_null : yields parse_null (fun _ => True).
Proof.
  intros l. unfold parse_null. pose proof (skip_ws_length l).
  destruct (skip_ws l) as [|b r]; [exact I|]. cbn [length] in H.
  destruct (byte_eqb b "n"); [|exact I].
  pose proof (expect_text_total ["u"; "l"; "l"] r) as Ht.
  destruct (expect_text _ r) as [[x r']| | |]; try assumption. split; [lia|trivial].
Qed.

Lemma seq_next_total first l :
  match seq_next first l with Ok (_, r) => (length r <= length l)%nat | Err _ => True | _ => False end.
Proof.
  unfold seq_next. pose proof (skip_ws_length l).
  destruct (skip_ws l) as [|b r]; [exact I|]. cbn [length] in *.
  destruct (byte_eqb b "]"); [cbn [length]; lia|].
  destruct (byte_eqb b "," && negb first).
  - pose proof (skip_ws_length r). destruct (skip_ws r) as [|b' r']; [exact I|].
    destruct (byte_eqb b' "]"); [exact I|]. lia.
  - destruct first; [cbn [length]; lia|exact I].
Qed.

Lemma map_next_total first l :
  match map_next first l with Ok (_, r) => (length r <= length l)%nat | Err _ => True | _ => False end.
Proof.
  unfold map_next. pose proof (skip_ws_length l).
  destruct (skip_ws l) as [|b r]; [exact I|]. cbn [length] in *.
  destruct (byte_eqb b "}"); [cbn [length]; lia|].
  destruct (byte_eqb b "," && negb first).
  - pose proof (skip_ws_length r). destruct (skip_ws r) as [|b' r']; [exact I|].
    destruct (byte_eqb b' """"); [|exact I]. lia.
  - destruct first; [|exact I]. destruct (byte_eqb b """"); [cbn [length]; lia|exact I].
Qed.

Lemma yields_seq_elem {A} first (p : parser A) Q : yields p Q -> yields (seq_elem first p) Q.
Proof.
  intros Hp l. unfold seq_elem. pose proof (seq_next_total first l) as Hn.
  destruct (seq_next first l) as [[more r]| | |]; cbn [bind]; try assumption.
  destruct more; [|exact I]. specialize (Hp r). destruct (p r) as [[a r']| | |]; try assumption.
  destruct Hp. split; [lia|assumption].
Qed.

Lemma seq_loop_total {A} (p : parser A) Q : yields p Q -> forall fuel first l, (length l < fuel)%nat ->
  match seq_loop fuel p first l with
  | Ok (t, r) => (length r <= length l)%nat /\ Forall Q t
  | Err _ => True | _ => False end.
Proof.
  intros Hp. induction fuel as [|fuel IH]; intros first l Hl; [lia|]. cbn [seq_loop].
  pose proof (seq_next_total first l) as Hn.
  destruct (seq_next first l) as [[more r]| | |]; cbn [bind]; try assumption.
  destruct more; [|split; [lia|constructor]].
  specialize (Hp r). destruct (p r) as [[a r']| | |]; cbn [bind]; try assumption.
  destruct Hp as [Hr Ha]. specialize (IH false r' ltac:(lia)).
  destruct (seq_loop fuel p false r') as [[t r'']| | |]; cbn [bind]; try assumption.
  destruct IH. split; [lia|]. constructor; assumption.
Qed.

Lemma yields_vec {A} (p : parser A) Q : yields p Q -> yields (parse_vec p) (Forall Q).
Proof.
  intros Hp. unfold parse_vec.
  apply (yields_map (expect "[") (fun _ l => let* '(t, l) := seq_loop (S (length l)) p true l in
    let* '(_, l) := expect "]" l in Ok (t, l)) (fun _ => True)); [apply yields_expect|].
  intros _ _ l. pose proof (seq_loop_total p Q Hp (S (length l)) true l ltac:(lia)) as H.
  destruct (seq_loop _ p true l) as [[t r]| | |]; cbn [bind]; try assumption.
  pose proof (yields_expect "]" r) as He. destruct (expect "]" r) as [[x r']| | |]; cbn [bind]; try assumption.
  destruct H, He. split; [lia|assumption].
Qed.

Lemma map_loop_total {S} (field : S -> str -> parser S) (I : S -> Prop) :
  (forall s k, I s -> yields (field s k) I) ->
  forall fuel first s l, (length l < fuel)%nat -> I s ->
  match map_loop fuel field first s l with
  | Ok (s', r) => (length r <= length l)%nat /\ I s'
  | Err _ => True | _ => False end.
Proof.
  intros Hf. induction fuel as [|fuel IH]; intros first s l Hl Hs; [lia|]. cbn [map_loop].
  pose proof (map_next_total first l) as Hn.
  destruct (map_next first l) as [[more r]| | |]; cbn [bind]; try assumption.
  destruct more; [|split; [lia|assumption]].
  pose proof (yields_str r) as Hk. destruct (parse_str r) as [[k r1]| | |]; cbn [bind]; try assumption.
  pose proof (yields_expect ":" r1) as He. destruct (expect ":" r1) as [[x r2]| | |]; cbn [bind]; try assumption.
  specialize (Hf s k Hs r2). destruct (field s k r2) as [[s' r3]| | |]; cbn [bind]; try assumption.
  destruct Hk, He, Hf. specialize (IH false s' r3 ltac:(lia)).
  destruct (map_loop fuel field false s' r3) as [[s'' r4]| | |]; try (apply IH; assumption).
  destruct IH; [assumption|]. split; [lia|assumption].
Qed.

Lemma yields_struct {S A} (field : S -> str -> parser S) init finish (positional : parser A)
    (I : S -> Prop) (Q : A -> Prop) :
  (forall s k, I s -> yields (field s k) I) -> I init ->
  (forall s, I s -> match finish s with Ok a => Q a | Err _ => True | _ => False end) ->
  yields positional Q ->
  yields (parse_struct field init finish positional) Q.
Proof.
  intros Hf Hi Hfin Hp l. unfold parse_struct. pose proof (skip_ws_length l).
  destruct (skip_ws l) as [|b r]; [exact Logic.I|]. cbn [length] in H.
  destruct (byte_eqb b "{").
  - pose proof (map_loop_total field I Hf (Datatypes.S (length r)) true init r ltac:(lia) Hi) as Hm.
    destruct (map_loop _ field true init r) as [[s r1]| | |]; cbn [bind]; try assumption.
    destruct Hm as [Hl Hs]. specialize (Hfin s Hs). destruct (finish s) as [a| | |]; cbn [bind]; try assumption.
    pose proof (yields_expect "}" r1) as He. destruct (expect "}" r1) as [[x r2]| | |]; cbn [bind]; try assumption.
    destruct He. split; [lia|assumption].
  - destruct (byte_eqb b "["); [|exact Logic.I].
    specialize (Hp r). destruct (positional r) as [[a r1]| | |]; cbn [bind]; try assumption.
    pose proof (yields_expect "]" r1) as He. destruct (expect "]" r1) as [[x r2]| | |]; cbn [bind]; try assumption.
    destruct He, Hp. split; [lia|assumption].
Qed.

(** ** Skipping *)

Lemma ign_str_length : forall n l r, (length l <= n)%nat -> ign_str l = Some r -> (length r < length l)%nat.
Proof.
  induction n as [|n IH]; intros l r Hn H; destruct l as [|b l]; cbn [length] in Hn; try lia; try discriminate.
  cbn [ign_str] in H. cbn [length].
  destruct (byte_eqb b """"). { injection H as <-. lia. }
  destruct (byte_eqb b "\").
  - destruct l as [|e r1]; [discriminate|]. cbn [length] in *.
    destruct (simple_escape e).
    + apply IH in H; lia.
    + destruct (negb (byte_eqb e "u")); [discriminate|].
      destruct r1 as [|h1 [|h2 [|h3 [|h4 r5]]]]; try discriminate. cbn [length] in *.
      destruct (hex4 h1 h2 h3 h4) as [m|]; [|discriminate]. apply IH in H; lia.
  - destruct (b2n b <? 32)%N; [discriminate|]. apply IH in H; lia.
Qed.

Lemma skip_digits_length l : (length (skip_digits l) <= length l)%nat.
Proof. induction l as [|b l IH]; cbn [skip_digits]; [lia|]. destruct (is_digit b); cbn [length]; lia. Qed.

Lemma some_digits_length l r : some_digits l = Some r -> (length r < length l)%nat.
Proof.
  destruct l as [|b l]; cbn [some_digits]; [discriminate|]. destruct (is_digit b); [|discriminate].
  intros H; injection H as <-. pose proof (skip_digits_length l). cbn [length]. lia.
Qed.

Lemma ign_tail_length l r : ign_tail l = Some r -> (length r <= length l)%nat.
Proof.
  destruct l as [|b l]; cbn [ign_tail]. { intros H; injection H as <-. lia. }
  destruct (byte_eqb b "e" || byte_eqb b "E").
  - destruct l as [|c l]; cbn [ign_exponent]; [discriminate|]. intros H. apply some_digits_length in H.
    destruct (byte_eqb c "+" || byte_eqb c "-"); cbn [length] in *; lia.
  - intros H; injection H as <-. cbn [length]. lia.
Qed.

Lemma ign_fraction_length l r : ign_fraction l = Some r -> (length r <= length l)%nat.
Proof.
  destruct l as [|b l]; cbn [ign_fraction]. { intros H; injection H as <-. lia. }
  destruct (byte_eqb b ".").
  - destruct (some_digits l) as [r'|] eqn:E; [|discriminate]. intros H.
    apply some_digits_length in E. apply ign_tail_length in H. cbn [length]. lia.
  - apply ign_tail_length.
Qed.

Lemma ign_number_length l r : ign_number l = Some r -> (length r < length l)%nat.
Proof.
  destruct l as [|b l]; cbn [ign_number]; [discriminate|].
  destruct (byte_eqb b "0").
  - destruct l as [|d l]. { intros H; injection H as <-. cbn [length]. lia. }
    destruct (is_digit d); [discriminate|]. intros H. apply ign_fraction_length in H. cbn [length] in *. lia.
  - destruct (is_digit b); [|discriminate]. intros H. apply ign_fraction_length in H.
    pose proof (skip_digits_length l). cbn [length]. lia.
Qed.

Definition shrinks (l : bytes) (o : res data_error bytes) : Prop :=
  match o with Ok r => (length r < length l)%nat | Err _ => True | _ => False end.

Lemma shrinks_le l l' o : (length l <= length l')%nat -> shrinks l o -> shrinks l' o.
Proof. intros H. destruct o; cbn; lia. Qed.

Lemma expect_text_shrinks t b r : shrinks (b :: r) (rmap snd (expect_text t r)).
Proof.
  pose proof (expect_text_total t r) as H. destruct (expect_text t r) as [[x r']| | |]; cbn in *; lia.
Qed.

Lemma expect_shrinks c r : shrinks r (rmap snd (expect c r)).
Proof.
  pose proof (yields_expect c r) as H. destruct (expect c r) as [[x r']| | |]; cbn in *; lia.
Qed.

Lemma ign_total fuel :
  (forall d l, (2 * length l + 1 <= fuel)%nat -> shrinks l (ign_value fuel d l)) /\
  (forall d first l, (2 * length l + 2 <= fuel)%nat -> shrinks l (ign_seq fuel d first l)) /\
  (forall d first l, (2 * length l + 2 <= fuel)%nat -> shrinks l (ign_map fuel d first l)).
Proof.
  induction fuel as [|fuel (IHv & IHs & IHm)]; [repeat split; intros; lia|].
  split; [|split].
  - intros d l Hl. cbn [ign_value]. pose proof (skip_ws_length l) as Hw.
    destruct (skip_ws l) as [|b r]; [exact I|].
    apply (shrinks_le (b :: r)); [exact Hw|]. cbn [length] in Hw.
    destruct (byte_eqb b "n"); [apply expect_text_shrinks|].
    destruct (byte_eqb b "t"); [apply expect_text_shrinks|].
    destruct (byte_eqb b "f"); [apply expect_text_shrinks|].
    destruct (byte_eqb b "-").
    { unfold skipped. destruct (ign_number r) eqn:E; cbn; [|trivial].
      apply ign_number_length in E. lia. }
    destruct (is_digit b).
    { unfold skipped. destruct (ign_number (b :: r)) eqn:E; cbn; [|trivial].
      apply ign_number_length in E. cbn [length] in E. lia. }
    destruct (byte_eqb b """").
    { unfold skipped. destruct (ign_str r) eqn:E; cbn; [|trivial].
      apply (ign_str_length (length r)) in E; lia. }
    destruct (byte_eqb b "[").
    { destruct (descend d); [|exact I].
      apply (shrinks_le r); [cbn; lia|]. apply IHs. lia. }
    destruct (byte_eqb b "{"); [|exact I].
    destruct (descend d); [|exact I].
    apply (shrinks_le r); [cbn; lia|]. apply IHm. lia.
  - intros d first l Hl. cbn [ign_seq]. pose proof (seq_next_total first l) as Hn.
    destruct (seq_next first l) as [[more r]| | |]; cbn [bind]; try assumption.
    destruct more.
    + specialize (IHv d r ltac:(lia)). destruct (ign_value fuel d r) as [r'| | |]; cbn [bind]; try assumption.
      cbn in IHv. specialize (IHs d false r' ltac:(lia)).
      destruct (ign_seq fuel d false r'); cbn in *; try assumption. lia.
    + apply (shrinks_le r); [lia|]. apply expect_shrinks.
  - intros d first l Hl. cbn [ign_map]. pose proof (map_next_total first l) as Hn.
    destruct (map_next first l) as [[more r]| | |]; cbn [bind]; try assumption.
    destruct more.
    + pose proof (skip_ws_length r) as Hw. destruct (skip_ws r) as [|q r0]; [exact I|]. cbn [length] in Hw.
      unfold skipped. destruct (ign_str r0) as [r1|] eqn:E; cbn [ok_or bind]; [|exact I].
      apply (ign_str_length (length r0)) in E; [|lia].
      pose proof (yields_expect ":" r1) as He. destruct (expect ":" r1) as [[x r2]| | |]; cbn [bind]; try assumption.
      specialize (IHv d r2 ltac:(lia)). destruct (ign_value fuel d r2) as [r3| | |]; cbn [bind]; try assumption.
      cbn in IHv. specialize (IHm d false r3 ltac:(lia)).
      destruct (ign_map fuel d false r3); cbn in *; try assumption. lia.
    + apply (shrinks_le r); [lia|]. apply expect_shrinks.
Qed.

Lemma ignore_value_total C l : shrinks l (ignore_value C l).
Proof. apply ign_total. lia. Qed.

Lemma from_slice_total {A} (p : parser A) Q l : yields p Q ->
  match from_slice p l with Ok a => Q a | Err _ => True | _ => False end.
Proof.
  intros Hp. unfold from_slice. specialize (Hp l).
  destruct (p l) as [[a r]| | |]; cbn [bind]; try assumption.
  destruct (skip_ws r); [apply Hp|exact I].
Qed.
