(** Proofs about [Debug] texts. *)
From Coq Require Import Strings.String.
From Coq Require Import Lia.
From Verif Require Import Base BaseFacts Str Hex Bip39 Bip39Facts Dict DictSpec DictWords KeyPath KeyPathFacts Errors Crypt FMap FMapFacts
  Data DataSpec DataFacts Keys TextSpec DisplayFacts Debug DebugSpec.
Open Scope list_scope.

(** * Cutting texts *)

Lemma span_cut (p : N -> bool) d : forall d' r r', Forall (fun c => p c = true) d -> Forall (fun c => p c = true) d' ->
  match r with [] => True | c :: _ => p c = false end -> match r' with [] => True | c :: _ => p c = false end ->
  d ++ r = d' ++ r' -> d = d' /\ r = r'.
Proof.
  induction d as [|x d IH]; intros d' r r' Hd Hd' Hr Hr' E.
  - destruct Hd' as [|y d' Hy Hd']; [auto|]. cbn in E. subst r. congruence.
  - inversion_clear Hd as [|? ? Hx Hd1]. destruct Hd' as [|y d' Hy Hd']; cbn in E.
    + subst r'. congruence.
    + injection E as <- E. destruct (IH d' r r' Hd1 Hd' Hr Hr' E) as [-> ->]. auto.
Qed.

(** ** Hexadecimal digits *)
Definition hexc (c : N) : bool := ((48 <=? c) && (c <=? 57)) || ((97 <=? c) && (c <=? 102)).
Definition hexv (c : N) : N := if c <=? 57 then c - 48 else c - 87.
Definition hexval (t : str) : N := fold_left (fun a c => 16 * a + hexv c) t 0.
Lemma hexc_char n : n < 16 -> hexc (hex_char n) = true /\ hexv (hex_char n) = n.
Proof.
  intros H. unfold hexc, hexv, hex_char. destruct (N.ltb_spec n 10).
  - replace (48 + n <=? 57) with true by lia. split; lia.
  - replace (87 + n <=? 57) with false by lia. split; lia.
Qed.
Lemma hex_digits k : forall n, Forall (fun c => hexc c = true) (hex_fuel k n).
Proof.
  induction k as [|k IH]; intros n; cbn [hex_fuel]; [constructor|]. destruct (N.ltb_spec n 16).
  - constructor; [|constructor]. now apply hexc_char.
  - apply Forall_app. split; [apply IH|]. constructor; [|constructor]. apply hexc_char. apply N.mod_lt. lia.
Qed.
Lemma hex_fuel_value k : forall n, n < 16 ^ N.of_nat k -> hexval (hex_fuel k n) = n.
Proof.
  induction k as [|k IH]; intros n H; cbn [hex_fuel].
  - cbn in H. unfold hexval. cbn. lia.
  - destruct (N.ltb_spec n 16).
    + unfold hexval. cbn [fold_left]. rewrite (proj2 (hexc_char n ltac:(lia))). lia.
    + unfold hexval. rewrite fold_left_app. cbn [fold_left]. fold (hexval (hex_fuel k (n / 16))). rewrite IH.
      * rewrite (proj2 (hexc_char (n mod 16) ltac:(apply N.mod_lt; lia))). pose proof (N.div_mod' n 16). lia.
      * rewrite Nat2N.inj_succ, N.pow_succ_r' in H. apply N.div_lt_upper_bound; lia.
Qed.
Lemma hex_fuel_head k : forall n, 0 < n -> n < 16 ^ N.of_nat k -> exists c r, hex_fuel k n = c :: r /\ c <> 48.
Proof.
  induction k as [|k IH]; intros n H0 H; cbn [hex_fuel].
  - cbn in H. lia.
  - destruct (N.ltb_spec n 16).
    + exists (hex_char n), []. split; [reflexivity|]. unfold hex_char. destruct (n <? 10); lia.
    + destruct (IH (n / 16)) as (c & r & E & Hc).
      * apply N.div_str_pos. lia.
      * rewrite Nat2N.inj_succ, N.pow_succ_r' in H. apply N.div_lt_upper_bound; lia.
      * rewrite E. cbn [app]. eauto.
Qed.
Lemma hex_is_text n : n < 0x110000 -> hex_text n (hex_fuel 6 n).
Proof.
  intros H. assert (n < 16 ^ N.of_nat 6) as H6 by (change (16 ^ N.of_nat 6) with 16777216; lia).
  exists (List.map hexv (hex_fuel 6 n)). split; [|split].
  - pose proof (hex_digits 6 n) as D. induction D as [|c t Hc D IH]; cbn [List.map]; constructor; [|exact IH].
    unfold hex_value, hexv, hexc in *. destruct (N.leb_spec c 57); [left|right]; lia.
  - pose proof (hex_fuel_value 6 n H6) as V. unfold hexval in V. rewrite <- V at 2. generalize 0 as a. generalize (hex_fuel 6 n) as u.
    induction u as [|c t IH]; intros a; cbn [fold_left List.map]; [reflexivity|apply IH].
  - destruct (N.eq_dec n 0) as [->|Hn]; [left; reflexivity|right]. apply hex_fuel_head; lia.
Qed.
Lemma hex_cut a b r r' : a < 0x110000 -> b < 0x110000 ->
  hex_fuel 6 a ++ 125 :: r = hex_fuel 6 b ++ 125 :: r' -> a = b /\ r = r'.
Proof.
  intros Ha Hb E. apply (span_cut hexc) in E as [E1 E2]; auto using hex_digits; try reflexivity.
  injection E2 as ->. split; [|reflexivity].
  assert (forall n, n < 0x110000 -> hexval (hex_fuel 6 n) = n) as V.
  { intros n Hn. apply hex_fuel_value. change (16 ^ N.of_nat 6) with 16777216. lia. }
  rewrite <- (V a Ha), <- (V b Hb). now rewrite E1.
Qed.

Section Config.
Variable T : debug_config.

(** ** Strings *)
Definition short (x : N) : option N :=
  match x with 48 => Some 0 | 116 => Some 9 | 114 => Some 13 | 110 => Some 10 | 34 => Some 34 | 92 => Some 92 | _ => None end.
Lemma escape_cases c :
  (exists x, escape_debug T c = [92; x] /\ short x = Some c) \/
  (escape_debug T c = [c] /\ c <> 34 /\ c <> 92) \/
  escape_debug T c = 92 :: 117 :: 123 :: hex_fuel 6 c ++ [125].
Proof.
  unfold escape_debug. destruct ((c =? 0) && short_nul T) eqn:E0.
  { left. exists 48. split; [reflexivity|]. apply andb_true_iff in E0 as [E0 _]. apply N.eqb_eq in E0. now subst. }
  destruct (N.eqb_spec c 9); [left; exists 116; subst; auto|].
  destruct (N.eqb_spec c 13); [left; exists 114; subst; auto|].
  destruct (N.eqb_spec c 10); [left; exists 110; subst; auto|].
  destruct (N.eqb_spec c 34); [left; exists 34; subst; auto|].
  destruct (N.eqb_spec c 92); [left; exists 92; subst; auto|].
  destruct (plain T c); [right; left; auto|right; right; reflexivity].
Qed.
Lemma short_u x c : short x = Some c -> x <> 117.
Proof. intros H ->. discriminate H. Qed.
Lemma escape_cut c c' r r' : c < 0x110000 -> c' < 0x110000 ->
  escape_debug T c ++ r = escape_debug T c' ++ r' -> c = c' /\ r = r'.
Proof.
  intros Hc Hc' E. destruct (escape_cases c) as [(x & X & Sx)|[(X & X1 & X2)|X]]; rewrite X in E;
    destruct (escape_cases c') as [(y & Y & Sy)|[(Y & Y1 & Y2)|Y]]; rewrite Y in E; cbn [app] in E.
  - injection E as -> ->. split; [congruence|reflexivity].
  - injection E as E _. congruence.
  - injection E as E _. now apply short_u in Sx.
  - injection E as E _. congruence.
  - injection E as -> ->. auto.
  - injection E as E _. congruence.
  - injection E as E _. symmetry in E. now apply short_u in Sy.
  - injection E as E _. congruence.
  - injection E as E. rewrite <- !app_assoc in E. cbn [app] in E. now apply hex_cut in E.
Qed.
Lemma escape_head c : exists x t, escape_debug T c = x :: t /\ x <> 34.
Proof.
  destruct (escape_cases c) as [(x & X & _)|[(X & X1 & _)|X]]; rewrite X; eexists _, _; (split; [reflexivity|]); auto; discriminate.
Qed.
Lemma text_cut s : forall s' r r', Forall (fun c => c < 0x110000) s -> Forall (fun c => c < 0x110000) s' ->
  flat_map (escape_debug T) s ++ 34 :: r = flat_map (escape_debug T) s' ++ 34 :: r' -> s = s' /\ r = r'.
Proof.
  induction s as [|c s IH]; intros s' r r' H H' E.
  - destruct s' as [|c' s']; cbn in E; [injection E as ->; auto|]. destruct (escape_head c') as (x & t & X & Hx).
    rewrite X in E. cbn in E. injection E as E _. congruence.
  - destruct s' as [|c' s']; cbn in E.
    + destruct (escape_head c) as (x & t & X & Hx). rewrite X in E. cbn in E. injection E as E _. congruence.
    + inversion_clear H. inversion_clear H'. rewrite <- !app_assoc in E. apply escape_cut in E as [-> E]; auto.
      apply IH in E as [-> ->]; auto.
Qed.

(** * Views *)

Lemma view_induction (P : view -> Prop) :
  (forall n, P (VNum n)) -> (forall s, P (VText s)) -> (forall l, Forall P l -> P (VList l)) ->
  (forall n, P (VUnit n)) -> (forall n l, Forall P l -> P (VTuple n l)) ->
  (forall n l, Forall (fun x => P (snd x)) l -> P (VStruct n l)) -> (forall t, P (VOther t)) -> forall v, P v.
Proof.
  intros H1 H2 H3 H4 H5 H6 H7. fix IH 1. intros [n|s|l|n|n l|n l|t].
  - apply H1.
  - apply H2.
  - apply H3. induction l as [|x l IHl]; constructor; [apply IH|exact IHl].
  - apply H4.
  - apply H5. induction l as [|x l IHl]; constructor; [apply IH|exact IHl].
  - apply H6. induction l as [|x l IHl]; constructor; [apply IH|exact IHl].
  - apply H7.
Qed.

Definition letter (c : N) : bool :=
  ((48 <=? c) && (c <=? 57)) || ((65 <=? c) && (c <=? 90)) || ((97 <=? c) && (c <=? 122)).
Definition name_ok (n : str) : bool :=
  forallb letter n && match n with c :: _ => (65 <=? c) && (c <=? 90) | [] => false end.
Fixpoint regular (v : view) : Prop :=
  match v with
  | VNum n => word n
  | VText s => Forall (fun c => c < 0x110000) s
  | VList l => fold_right (fun x P => regular x /\ P) True l
  | VUnit n => name_ok n = true
  | VTuple n l => name_ok n = true /\ l <> [] /\ fold_right (fun x P => regular x /\ P) True l
  | VStruct n l => name_ok n = true /\ l <> [] /\
    fold_right (fun '(f, x) P => (forallb letter f = true /\ regular x) /\ P) True l
  | VOther _ => False
  end.
Lemma all_regular l : fold_right (fun x P => regular x /\ P) True l <-> Forall regular l.
Proof.
  induction l as [|x l IH]; cbn; split; intros H; auto.
  - destruct H. constructor; [auto|now apply IH].
  - inversion_clear H. split; [auto|now apply IH].
Qed.
Definition field_ok (p : str * view) : Prop := forallb letter (fst p) = true /\ regular (snd p).
Lemma all_fields l :
  fold_right (fun '(f, x) P => (forallb letter f = true /\ regular x) /\ P) True l <-> Forall field_ok l.
Proof.
  induction l as [|[f x] l IH]; cbn; split; intros H; auto.
  - destruct H. constructor; [auto|now apply IH].
  - inversion_clear H. split; [auto|now apply IH].
Qed.

(** What may follow a value *)
Definition stop (r : str) : Prop :=
  match r with
  | [] => True
  | c :: t => c = 44 \/ c = 41 \/ c = 93 \/ (c = 32 /\ exists u, t = 125 :: u)
  end.
Definition nonletter (r : str) : Prop := match r with [] => True | c :: _ => letter c = false end.
Lemma stop_letter r : stop r -> nonletter r.
Proof. destruct r; cbn; [auto|]. intros [->|[->|[->|[-> _]]]]; reflexivity. Qed.

Definition rest (ps : list str) : str := flat_map (fun q => 44 :: 32 :: q) ps.
Lemma join_rest p ps : join (lit ", ") (p :: ps) = p ++ rest ps.
Proof.
  revert p. induction ps as [|q ps IH]; intros p; [cbn; now rewrite app_nil_r|].
  change (p ++ lit ", " ++ join (lit ", ") (q :: ps) = p ++ rest (q :: ps)). rewrite IH. reflexivity.
Qed.

Section Items.
Variable A : Type.
Variable g : A -> str.
Variable ok : A -> Prop.
Definition cuts (a : A) : Prop := ok a -> forall a' r r', ok a' -> stop r -> stop r' ->
  g a ++ r = g a' ++ r' -> a = a' /\ r = r'.
Variable x : N.
Variable close : str.
Hypothesis Hx : x <> 44.
Hypothesis Hstop : forall r, stop (x :: close ++ r).
Lemma rest_stop l r : stop (rest (List.map g l) ++ x :: close ++ r).
Proof. destruct l; cbn; [apply Hstop|now left]. Qed.
Lemma rest_cut l : Forall cuts l -> Forall ok l -> forall l' r r', Forall ok l' ->
  rest (List.map g l) ++ x :: close ++ r = rest (List.map g l') ++ x :: close ++ r' -> l = l' /\ r = r'.
Proof.
  induction l as [|a l IH]; intros C O l' r r' O' E.
  - destruct l' as [|a' l']; cbn in E; [injection E as E; apply app_inv_head in E; auto|]. injection E as E _. congruence.
  - destruct l' as [|a' l']; cbn in E; [injection E as E _; congruence|]. inversion_clear C. inversion_clear O. inversion_clear O'.
    injection E as E. rewrite <- !app_assoc in E. apply H in E as [-> E]; auto using rest_stop.
    destruct (IH H0 H2 l' r r' H4 E) as [-> ->]. auto.
Qed.
Lemma items_cut l : Forall cuts l -> Forall ok l -> l <> [] -> forall l' r r', Forall ok l' -> l' <> [] ->
  join (lit ", ") (List.map g l) ++ x :: close ++ r = join (lit ", ") (List.map g l') ++ x :: close ++ r' -> l = l' /\ r = r'.
Proof.
  intros C O N l' r r' O' N' E. destruct l as [|a l]; [congruence|]. destruct l' as [|a' l']; [congruence|].
  cbn [List.map] in E. rewrite !join_rest, <- !app_assoc in E. inversion_clear C. inversion_clear O. inversion_clear O'.
  apply H in E as [-> E]; auto using rest_stop. destruct (rest_cut l H0 H2 l' r r' H4 E) as [-> ->]. auto.
Qed.
End Items.

Definition class (v : view) (c : N) : Prop :=
  match v with
  | VNum _ => 48 <= c <= 57
  | VText _ => c = 34
  | VList _ => c = 91
  | _ => 65 <= c <= 90
  end.
Lemma fmt_head v : regular v -> exists c t, fmt T v = c :: t /\ class v c.
Proof.
  destruct v as [n|s|l|n|n l|n l|t]; cbn [regular class fmt]; intros H.
  - pose proof (dec_is_digit n) as D. destruct (dec n) as [|c t] eqn:E.
    + now apply (dec_fuel_nonempty 19) in E.
    + exists c, t. split; [reflexivity|]. inversion_clear D. unfold is_digit in H0. lia.
  - now eexists _, _.
  - now eexists _, _.
  - unfold name_ok in H. destruct n as [|c n]; [now rewrite andb_false_r in H|]. exists c, n. split; [reflexivity|lia].
  - destruct H as [H _]. unfold name_ok in H. destruct n as [|c n]; [now rewrite andb_false_r in H|]. eexists c, _. split; [reflexivity|lia].
  - destruct H as [H _]. unfold name_ok in H. destruct n as [|c n]; [now rewrite andb_false_r in H|]. eexists c, _. split; [reflexivity|lia].
  - easy.
Qed.
Lemma name_letters n : name_ok n = true -> Forall (fun c => letter c = true) n.
Proof. intros H. apply andb_true_iff in H as [H _]. now apply Forall_forall, forallb_forall. Qed.
Lemma name_cut n n' r r' : name_ok n = true -> name_ok n' = true -> nonletter r -> nonletter r' ->
  n ++ r = n' ++ r' -> n = n' /\ r = r'.
Proof. intros H H' R R' E. apply (span_cut letter) in E; auto using name_letters. Qed.

Definition field (p : str * view) : str := let '(f, v) := p in f ++ lit ": " ++ fmt T v.
Lemma fmt_list l : fmt T (VList l) = 91 :: join (lit ", ") (List.map (fmt T) l) ++ [93].
Proof. reflexivity. Qed.
Lemma fmt_tuple n l : fmt T (VTuple n l) = n ++ 40 :: join (lit ", ") (List.map (fmt T) l) ++ [41].
Proof. reflexivity. Qed.
Lemma fmt_struct n l : fmt T (VStruct n l) = n ++ 32 :: 123 :: 32 :: join (lit ", ") (List.map field l) ++ [32; 125].
Proof. reflexivity. Qed.

Lemma stop93 r : stop (93 :: [] ++ r). Proof. cbn. auto. Qed.
Lemma stop41 r : stop (41 :: [] ++ r). Proof. cbn. auto. Qed.
Lemma stop32 r : stop (32 :: [125] ++ r). Proof. cbn. right. right. right. eauto. Qed.

Lemma fmt_cut v : cuts view (fmt T) regular v.
Proof.
  induction v as [n|s|l IH|n|n l IH|n l IH|t] using view_induction; intros R v' r r' R' S S' E.
  1-3: destruct (fmt_head _ R) as (c & t & X & Hc), (fmt_head _ R') as (c' & t' & X' & Hc');
    assert (c = c') as <- by (rewrite X, X' in E; now injection E);
    destruct v' as [n'|s'|l'|n'|n' l'|n' l'|t'']; cbn [class] in Hc, Hc'; try lia; try easy; clear c t X Hc t' X' Hc'.
  - cbn [fmt] in E. apply (span_cut is_digit) in E as [E ->]; auto using dec_is_digit.
    + apply dec_inj in E; auto. now subst.
    + destruct r; [auto|]. destruct S as [->|[->|[->|[-> _]]]]; reflexivity.
    + destruct r'; [auto|]. destruct S' as [->|[->|[->|[-> _]]]]; reflexivity.
  - cbn [fmt] in E. change (lit """") with [34] in E. cbn [app] in E. injection E as E. rewrite <- !app_assoc in E.
    apply text_cut in E as [-> ->]; auto.
  - rewrite !fmt_list in E. cbn [app] in E. injection E as E. rewrite <- !app_assoc in E. cbn [app] in E.
    cbn [regular] in R, R'. apply all_regular in R, R'. destruct l as [|a l], l' as [|a' l'].
    + injection E as ->. auto.
    + exfalso. cbn [List.map] in E. rewrite join_rest in E. inversion_clear R'. destruct (fmt_head _ H) as (c & t & X & Hc).
      rewrite X in E. cbn in E. injection E as <- _. destruct a'; cbn [class] in Hc; lia.
    + exfalso. cbn [List.map] in E. rewrite join_rest in E. inversion_clear R. destruct (fmt_head _ H) as (c & t & X & Hc).
      rewrite X in E. cbn in E. injection E as -> _. destruct a; cbn [class] in Hc; lia.
    + apply (items_cut _ _ regular 93 [] ltac:(discriminate) stop93) in E as [-> ->]; auto; discriminate.
  - destruct (fmt_head _ R) as (c & t & X & Hc), (fmt_head _ R') as (c' & t' & X' & Hc').
    assert (c = c') as <- by (rewrite X, X' in E; now injection E).
    destruct v' as [n'|s'|l'|n'|n' l'|n' l'|t'']; cbn [class] in Hc, Hc'; try lia; try easy; clear c t X Hc t' X' Hc'.
    + cbn [fmt regular] in *. apply name_cut in E as [-> ->]; auto using stop_letter.
    + exfalso. rewrite fmt_tuple in E. cbn [fmt regular] in *. rewrite <- app_assoc in E.
      apply name_cut in E as [_ ->]; [|auto|easy|auto using stop_letter|reflexivity].
      cbn in S. destruct S as [S|[S|[S|[S _]]]]; discriminate S.
    + exfalso. rewrite fmt_struct in E. cbn [fmt regular] in *. rewrite <- app_assoc in E.
      apply name_cut in E as [_ ->]; [|auto|easy|auto using stop_letter|reflexivity].
      cbn in S. destruct S as [S|[S|[S|[_ [u S]]]]]; discriminate S.
  - destruct (fmt_head _ R) as (c & t & X & Hc), (fmt_head _ R') as (c' & t' & X' & Hc').
    assert (c = c') as <- by (rewrite X, X' in E; now injection E).
    destruct v' as [n'|s'|l'|n'|n' l'|n' l'|t'']; cbn [class] in Hc, Hc'; try lia; try easy; clear c t X Hc t' X' Hc';
      rewrite fmt_tuple in E; rewrite <- app_assoc in E.
    + exfalso. cbn [fmt regular] in *. apply name_cut in E as [_ <-]; [|easy|auto|reflexivity|auto using stop_letter].
      cbn in S'. destruct S' as [S'|[S'|[S'|[S' _]]]]; discriminate S'.
    + rewrite fmt_tuple, <- app_assoc in E. cbn [regular] in R, R'. destruct R as (N & L & R), R' as (N' & L' & R').
      apply name_cut in E as [-> E]; auto; try reflexivity. cbn [app] in E. injection E as E. rewrite <- !app_assoc in E.
      apply all_regular in R, R'. apply (items_cut _ _ regular 41 [] ltac:(discriminate) stop41) in E as [-> ->]; auto.
    + exfalso. rewrite fmt_struct, <- app_assoc in E. cbn [regular] in R, R'. apply name_cut in E as [_ E]; try easy.
  - destruct (fmt_head _ R) as (c & t & X & Hc), (fmt_head _ R') as (c' & t' & X' & Hc').
    assert (c = c') as <- by (rewrite X, X' in E; now injection E).
    destruct v' as [n'|s'|l'|n'|n' l'|n' l'|t'']; cbn [class] in Hc, Hc'; try lia; try easy; clear c t X Hc t' X' Hc';
      rewrite fmt_struct in E; rewrite <- app_assoc in E.
    + exfalso. cbn [fmt regular] in *. apply name_cut in E as [_ <-]; [|easy|auto|reflexivity|auto using stop_letter].
      cbn in S'. destruct S' as [S'|[S'|[S'|[_ [u S']]]]]; discriminate S'.
    + exfalso. rewrite fmt_tuple, <- app_assoc in E. cbn [regular] in R, R'. apply name_cut in E as [_ E]; try easy.
    + rewrite fmt_struct, <- app_assoc in E. cbn [regular] in R, R'. destruct R as (N & L & R), R' as (N' & L' & R').
      apply name_cut in E as [-> E]; auto; try reflexivity. cbn [app] in E. injection E as E. rewrite <- !app_assoc in E.
      apply all_fields in R, R'. apply (items_cut _ field field_ok 32 [125] ltac:(discriminate) stop32) in E as [-> ->]; auto.
      eapply Forall_impl; [|exact IH]. intros [f v] Hv [Hf Hr] [f' v'] q q' [Hf' Hr'] Q Q' E1. cbn [fst snd field] in *.
      rewrite <- !app_assoc in E1. apply (span_cut letter) in E1 as [-> E1]; try reflexivity.
      2, 3: now apply Forall_forall, forallb_forall. change (lit ": ") with [58; 32] in E1. cbn [app] in E1. injection E1 as E1.
      apply Hv in E1 as [-> ->]; auto.
  - easy.
Qed.
Theorem fmt_inj v v' : regular v -> regular v' -> fmt T v = fmt T v' -> v = v'.
Proof.
  intros R R' E. apply (fmt_cut v R v' [] []); cbn; auto. now rewrite !app_nil_r.
Qed.
End Config.

(** * The texts *)

Lemma rest_listed l : join (lit ", ") l = listed l.
Proof. destruct l as [|x l]; [reflexivity|]. rewrite join_rest. reflexivity. Qed.

Section Texts.
Variable T : debug_config.

Lemma escape_shown c : c < 0x110000 -> shown T c (escape_debug T c).
Proof.
  intros H. unfold escape_debug. destruct ((c =? 0) && short_nul T) eqn:E0.
  { apply andb_true_iff in E0 as [E0 E1]. apply N.eqb_eq in E0. subst. now constructor. }
  destruct (N.eqb_spec c 9); [subst; constructor|]. destruct (N.eqb_spec c 13); [subst; constructor|].
  destruct (N.eqb_spec c 10); [subst; constructor|]. destruct (N.eqb_spec c 34); [subst; constructor|].
  destruct (N.eqb_spec c 92); [subst; constructor|].
  assert (~ special T c) as S.
  { intros [S|[-> S]]; [cbn in S; intuition congruence|]. rewrite S in E0. discriminate E0. }
  destruct (plain T c) eqn:P; [now constructor|]. constructor; auto. now apply hex_is_text.
Qed.
Lemma valid_chars s : valid_str s -> Forall (fun c => c < 0x110000) s.
Proof. intros H. eapply Forall_impl; [|exact H]. intros c Hc. cbv beta in Hc. apply is_scalar_spec in Hc. lia. Qed.
Lemma text_shown s : valid_str s -> string_debug T s (fmt T (VText s)).
Proof.
  intros H. apply valid_chars in H. exists (List.map (escape_debug T) s). split.
  - induction H as [|c s Hc H IH]; cbn [List.map]; constructor; [now apply escape_shown|exact IH].
  - cbn [fmt]. now rewrite flat_map_concat_map.
Qed.

Ltac text := unfold view_network, view_int; cbn [fmt List.map join fill];
  literals_goal; repeat (cbn [app]; rewrite <- app_assoc); cbn [app]; rewrite ?app_nil_r; reflexivity.

Lemma secp_debug_exact e : fmt T (view_secp e) = secp_debug e.
Proof. destruct e; cbn [view_secp secp_debug]; text. Qed.
Lemma ada_debug_exact e : fmt T (view_ada e) = ada_debug e.
Proof. destruct e; cbn [view_ada ada_debug]; text. Qed.
Lemma box_debug_exact e : fmt T (view_boxed T e) = box_debug T e.
Proof. destruct e; [apply secp_debug_exact|apply ada_debug_exact|reflexivity]. Qed.
Lemma int_debug_exact e : fmt T (view_int T e) = int_debug T e.
Proof. unfold view_int, int_debug. destruct e; [text|text|]. destruct (old_overflow T); text. Qed.

(** one value in a tuple *)
Lemma fmt_one n v : fmt T (VTuple n [v]) = n ++ lit "(" ++ fmt T v ++ lit ")".
Proof. reflexivity. Qed.
Lemma fmt_two n v w : fmt T (VTuple n [v; w]) = n ++ lit "(" ++ fmt T v ++ lit ", " ++ fmt T w ++ lit ")".
Proof. cbn [fmt List.map join]. now rewrite <- !app_assoc. Qed.
Ltac one := rewrite ?fmt_two, ?fmt_one; cbn [fill]; literals_goal; repeat (cbn [app]; rewrite <- app_assoc); cbn [app]; rewrite ?app_nil_r; reflexivity.

Lemma bip39_debug_exact e : valid_bip39 e -> bip39_debug T e (fmt T (view_bip39 e)).
Proof.
  destruct e; cbn [valid_bip39 bip39_debug view_bip39]; intros H; try text.
  exists (fmt T (VText w)). split; [now apply text_shown|]. one.
Qed.
Lemma mnemonic_debug_exact e : valid_mnemonic e -> mnemonic_debug T e (fmt T (view_mnemonic e)).
Proof.
  destruct e; cbn [valid_mnemonic mnemonic_debug view_mnemonic]; intros H; try text.
  - exists (fmt T (VText w)). split; [now apply text_shown|]. one.
  - exists (fmt T (view_bip39 e)). split; [now apply bip39_debug_exact|]. one.
Qed.
Lemma kp_debug_exact e : valid_kp e -> kp_debug T e (fmt T (view_kp T e)).
Proof.
  destruct e; cbn [valid_kp kp_debug view_kp]; intros H; try text.
  - exists (fmt T (VText m)). split; [now apply text_shown|]. one.
  - rewrite <- int_debug_exact. one.
Qed.
Lemma key_debug_exact e : valid_key e -> key_debug T e (fmt T (view_key T e)).
Proof.
  destruct e; cbn [valid_key key_debug view_key]; intros H; try text.
  - exists (fmt T (view_kp T e)). split; [now apply kp_debug_exact|]. one.
  - exists (fmt T (view_mnemonic e)). split; [now apply mnemonic_debug_exact|]. one.
  - rewrite <- box_debug_exact. one.
  - rewrite <- box_debug_exact. one.
Qed.
Theorem error_debug_exact e : valid_error e -> error_debug T e (fmt T (view_error T e)).
Proof.
  destruct e; cbn [valid_error error_debug view_error]; intros H; try text.
  - exists (fmt T (view_key T e)). split; [now apply key_debug_exact|]. unfold view_network. one.
  - exists (fmt T (view_mnemonic e)). split; [now apply mnemonic_debug_exact|]. one.
  - exists (fmt T (view_kp T e)). split; [now apply kp_debug_exact|]. one.
Qed.
Theorem other_errors_exact :
  (forall e, fmt T (view_secp e) = secp_debug e) /\ (forall e, fmt T (view_ada e) = ada_debug e) /\
  (forall e, fmt T (view_hex e) = hex_debug e) /\ (forall e, fmt T (view_decrypt e) = decrypt_debug e) /\
  (forall e, valid_bip39 e -> bip39_debug T e (fmt T (view_bip39 e))).
Proof.
  split; [apply secp_debug_exact|]. split; [apply ada_debug_exact|]. split; [intros []; cbn [view_hex hex_debug]; text|].
  split; [intros []; cbn [view_decrypt decrypt_debug]; text|]. apply bip39_debug_exact.
Qed.

(** ** Values *)
Theorem values_exact :
  (forall n, fmt T (view_network n) = network_debug n) /\
  (forall p, fmt T (view_btc_path p) = btc_path_debug p) /\
  (forall p, fmt T (view_ada_path p) = ada_path_debug p) /\
  (forall p, fmt T (view_eth_path p) = eth_path_debug p) /\
  (forall s, fmt T (view_seed_size s) = seed_size_debug s) /\
  (forall l, fmt T (view_language l) = language_debug l) /\
  (forall t, fmt T (view_type t) = type_debug t).
Proof.
  split; [intros n; unfold view_network, network_debug; text|].
  split; [intros p; unfold view_btc_path, btc_path_debug; text|].
  split; [intros p; unfold view_ada_path, ada_path_debug; text|].
  split; [intros p; unfold view_eth_path, eth_path_debug; text|].
  split; [intros p; unfold view_seed_size, seed_size_debug; text|].
  split; intros []; reflexivity.
Qed.
Theorem versioned_exact v : fmt T (view_versioned v) = versioned_debug v.
Proof.
  unfold view_versioned, versioned_debug, view_bytes, view_version. cbn [fmt List.map join]. rewrite rest_listed, List.map_map.
  change (List.map (fun x => fmt T (VNum (b2n x))) (v_data v)) with (List.map (fun x => dec (b2n x)) (v_data v)).
  destruct (v_version v); one.
Qed.
Theorem mnemonics_exact ms : fmt T (view_mnemonics ms) = mnemonics_debug ms.
Proof.
  unfold view_mnemonics, mnemonics_debug. cbn [fmt List.map join]. rewrite rest_listed, List.map_map.
  assert (List.map (fun x => fmt T (view_index x)) ms = List.map (fun m => fill "MnemonicIndex({})" [dec m]) ms) as ->.
  { apply List.map_ext. intros m. unfold view_index. text. }
  one.
Qed.
Theorem phrase_exact s : valid_str s -> phrase_debug T s (fmt T (view_phrase s)).
Proof. intros H. exists (fmt T (VText s)). split; [now apply text_shown|]. unfold view_phrase. one. Qed.
End Texts.

(** * Telling values apart *)
Section Apart.
Variable T : debug_config.

Ltac reg := cbn [regular fold_right]; repeat split; try assumption; try reflexivity; try discriminate.

Lemma secp_regular e : named_secp e -> regular (view_secp e).
Proof. destruct e; cbn [named_secp view_secp]; intros H; parts; reg. Qed.
Lemma ada_regular e : named_ada e -> regular (view_ada e).
Proof. destruct e; cbn [named_ada view_ada]; intros H; parts; reg. Qed.
Lemma boxed_regular e : named_boxed e -> regular (view_boxed T e).
Proof. destruct e; [apply secp_regular|apply ada_regular|easy]. Qed.
Lemma bip39_regular e : typed_bip39 e -> regular (view_bip39 e).
Proof. destruct e; cbn [typed_bip39 view_bip39]; intros H; parts; reg. now apply valid_chars. Qed.
Lemma mnemonic_regular e : typed_mnemonic e -> regular (view_mnemonic e).
Proof. destruct e; cbn [typed_mnemonic view_mnemonic]; intros H; parts; reg; [now apply valid_chars|now apply bip39_regular]. Qed.
Lemma kp_regular e : typed_kp e -> regular (view_kp T e).
Proof.
  destruct e as [| | | | | | | |i e]; cbn [typed_kp named_kp view_kp]; intros H; parts; reg; [now apply valid_chars|].
  destruct e; try reflexivity. destruct (old_overflow T); reflexivity.
Qed.
Lemma key_regular e : typed_key e -> regular (view_key T e).
Proof.
  destruct e; cbn [typed_key view_key]; intros H; parts; reg;
    [now apply kp_regular|now apply mnemonic_regular|now apply boxed_regular|now apply boxed_regular].
Qed.
Lemma error_regular e : typed_error e -> regular (view_error T e).
Proof.
  destruct e; cbn [typed_error view_error]; intros H; parts; reg; try easy;
    [now apply key_regular|now apply mnemonic_regular|now apply kp_regular].
Qed.

Ltac same H := try (discriminate H); try reflexivity.
Lemma secp_view e e' : view_secp e = view_secp e' -> e = e'.
Proof. destruct e, e'; intros H; same H; now injection H as -> -> + injection H as ->. Qed.
Lemma ada_view e e' : view_ada e = view_ada e' -> e = e'.
Proof. destruct e, e'; intros H; same H; now injection H as ->. Qed.
Lemma boxed_view e e' : named_boxed e -> named_boxed e' -> view_boxed T e = view_boxed T e' -> e = e'.
Proof.
  destruct e as [e|e|], e' as [e'|e'|]; cbn [named_boxed view_boxed]; intros N N' H; try easy.
  - f_equal. now apply secp_view.
  - destruct e, e'; discriminate H.
  - destruct e, e'; discriminate H.
  - f_equal. now apply ada_view.
Qed.
Lemma bip39_view e e' : view_bip39 e = view_bip39 e' -> e = e'.
Proof. destruct e, e'; intros H; same H; now injection H as -> -> + injection H as ->. Qed.
Lemma mnemonic_view e e' : view_mnemonic e = view_mnemonic e' -> e = e'.
Proof.
  destruct e, e'; intros H; same H; try (now injection H as -> -> + injection H as ->).
  injection H as H. f_equal. now apply bip39_view.
Qed.
Lemma int_view e e' : view_int T e = view_int T e' -> e = e'.
Proof. unfold view_int. destruct (old_overflow T), e, e'; intros H; same H. Qed.
Lemma kp_view e e' : view_kp T e = view_kp T e' -> e = e'.
Proof.
  destruct e, e'; cbn [view_kp]; intros H; same H; try (now injection H as -> -> + injection H as ->).
  assert (forall a b n, VTuple n [VNum i; a] = VTuple n [VNum i0; b] -> i = i0 /\ a = b) as K by (intros a b n E; now injection E).
  apply K in H as [-> H]. f_equal. now apply int_view.
Qed.
Lemma key_view e e' : typed_key e -> typed_key e' -> view_key T e = view_key T e' -> e = e'.
Proof.
  destruct e, e'; cbn [view_key typed_key]; intros N N' H; same H; try (now injection H as -> -> + injection H as ->);
    injection H as H; f_equal; auto using kp_view, mnemonic_view, boxed_view.
Qed.
Lemma error_view e e' : typed_error e -> typed_error e' -> view_error T e = view_error T e' -> e = e'.
Proof.
  destruct e, e'; cbn [view_error typed_error]; intros N N' H; same H; try easy; parts;
    try (now injection H as -> -> + injection H as ->).
  - injection H as -> H. f_equal. now apply key_view.
  - injection H as H. f_equal. now apply mnemonic_view.
  - injection H as H. f_equal. now apply kp_view.
Qed.
Theorem error_apart e e' : typed_error e -> typed_error e' ->
  fmt T (view_error T e) = fmt T (view_error T e') -> e = e'.
Proof. intros H H' E. apply error_view; auto. apply (fmt_inj T); auto using error_regular. Qed.

(** ** Values *)
Theorem phrase_apart s s' : valid_str s -> valid_str s' -> fmt T (view_phrase s) = fmt T (view_phrase s') -> s = s'.
Proof.
  intros H H' E. apply (fmt_inj T) in E; [now injection E|..]; unfold view_phrase; reg; now apply valid_chars.
Qed.
Lemma list_view {A} (f : A -> view) (l l' : list A) : (forall a b, f a = f b -> a = b) -> List.map f l = List.map f l' -> l = l'.
Proof.
  intros F. revert l'. induction l as [|a l IH]; intros [|b l'] E; try discriminate; [reflexivity|].
  cbn in E. injection E as E1 E2. f_equal; auto.
Qed.
Theorem mnemonics_apart ms ms' : Forall word ms -> Forall word ms' ->
  fmt T (view_mnemonics ms) = fmt T (view_mnemonics ms') -> ms = ms'.
Proof.
  assert (forall l, Forall word l -> regular (view_mnemonics l)) as R.
  { intros l H. unfold view_mnemonics. reg. apply all_regular, Forall_map. eapply Forall_impl; [|exact H].
    intros n Hn. unfold view_index. reg. }
  intros H H' E. apply (fmt_inj T) in E; auto. injection E as E. apply list_view in E; auto. intros a b F. now injection F.
Qed.
Theorem versioned_apart v v' : fmt T (view_versioned v) = fmt T (view_versioned v') -> v = v'.
Proof.
  assert (forall v, regular (view_versioned v)) as R.
  { intros u. unfold view_versioned. reg.
    - unfold view_version. cbn [regular]. destruct (v_version u); reflexivity.
    - unfold view_bytes. cbn [regular]. apply all_regular, Forall_map, Forall_forall. intros x _. cbn [regular]. unfold word, usize_max.
      pose proof (b2n_lt x). lia. }
  intros E. apply (fmt_inj T) in E; auto. destruct v as [v d], v' as [v' d']. unfold view_versioned in E. cbn [v_version v_data] in E.
  assert (forall a b a' b' n f g, VStruct n [(f, a); (g, b)] = VStruct n [(f, a'); (g, b')] -> a = a' /\ b = b') as K
    by (intros a b a' b' n f g F; now injection F).
  apply K in E as [E1 E2].
  f_equal; [destruct v, v'; auto; discriminate E1|]. injection E2 as E2. apply list_view in E2; auto.
  intros a b F. injection F as F. now apply b2n_inj.
Qed.
Theorem wallet_apart o o' w w' : order_ok o -> order_ok o' -> wallet_ok w -> wallet_ok w' ->
  fmt T (view_versioned (versioned_new o w)) = fmt T (view_versioned (versioned_new o' w')) -> w = w'.
Proof.
  intros O O' W W' E. apply versioned_apart in E.
  pose (C := {| json_cfg := {| Json.max_ignored_depth := None; Json.minus_zero := true |};
                b64_cfg := {| Base64.b64_any_trailing_bits := false; Base64.b64_short_padding := false |} |}).
  pose proof (wallet_round_trip C o w O W) as H. rewrite E, (wallet_round_trip C o' w' O' W') in H. now injection H.
Qed.

(** ** Phrases are shown *)
Lemma split_char sep s c : In c s -> c = sep \/ exists w, In w (split sep s) /\ In c w.
Proof.
  induction s as [|x s IH]; [easy|]. cbn [split In]. intros [->|H].
  - destruct (N.eqb_spec c sep); [auto|]. right. destruct (split sep s) as [|p ps]; eexists; (split; [now left|now left]).
  - destruct (IH H) as [->|(w & Hw & Hc)]; [auto|]. right. destruct (x =? sep).
    + exists w. split; [now right|auto].
    + destruct (split sep s) as [|p ps]; [easy|]. destruct Hw as [->|Hw].
      * exists (x :: w). split; [now left|now right].
      * exists w. split; [now right|auto].
Qed.
Lemma phrase_chars l s ms c : mnemonics_from_string (to_dict l) s = Ok ms -> In c s -> c = 32 \/ in_script l c.
Proof.
  intros H Hc. destruct (split_char separator s c Hc) as [->|(w & Hw & Hcw)]; [now left|]. right.
  unfold mnemonics_from_string in H. destruct (mapM (from_word (to_dict l)) (split separator s)) as [ns| | |] eqn:E; try discriminate.
  apply StrFacts.mapM_inv in E. apply (script_words l w c); [|exact Hcw]. revert Hw. clear - E.
  induction E as [|v n vs ns Hv E IH]; intros Hw; [easy|]. destruct Hw as [->|Hw]; [|auto].
  unfold from_word, lookup_mnemonic in Hv. destruct (position w (to_dict l)) as [i|] eqn:P; [|discriminate].
  destruct (in_dec (list_eq_dec N.eq_dec) w (to_dict l)) as [I|I]; [exact I|]. apply StrFacts.position_none in I. congruence.
Qed.
Theorem phrase_shown l s ms : (forall c, c = 32 \/ in_script l c -> plain T c = true) ->
  mnemonics_from_string (to_dict l) s = Ok ms ->
  fmt T (view_phrase s) = lit "MnemonicString(""" ++ s ++ lit """)".
Proof.
  intros P H. assert (flat_map (escape_debug T) s = s) as E.
  { pose proof (fun c => phrase_chars l s ms c H) as C. clear H. induction s as [|c s IH]; [reflexivity|].
    cbn [flat_map]. rewrite IH by (intros; apply C; now right).
    pose proof (C c (or_introl eq_refl)) as Hc. pose proof (P c Hc) as Pc.
    assert (c = 32 \/ 97 <= c) as Hr by (destruct Hc as [->|Hc]; [now left|right; destruct l; cbn [in_script] in Hc; unfold latin in Hc; lia]).
    unfold escape_debug. rewrite Pc. replace (c =? 0) with false by lia. replace (c =? 9) with false by lia.
    replace (c =? 13) with false by lia. replace (c =? 10) with false by lia. replace (c =? 34) with false by lia.
    replace (c =? 92) with false by lia. reflexivity. }
  unfold view_phrase. rewrite fmt_one. cbn [fmt]. rewrite E. literals_goal. cbn [app]. now rewrite <- app_assoc.
Qed.
End Apart.

(** * Key paths *)
Section Paths.
Variable T : debug_config.

Lemma add_word p a b c : @add_u32 kp_error p a b = Ok c -> word c.
Proof.
  unfold add_u32, word. destruct (N.leb_spec (a + b) u32_max).
  - intros E. injection E as <-. unfold u32_max, usize_max in *. lia.
  - destruct p; [discriminate|]. intros E. injection E as <-. pose proof (N.mod_lt (a + b) (2 ^ 32) ltac:(discriminate)).
    unfold usize_max. lia.
Qed.
Lemma u32_word a : is_u32 a -> word a.
Proof. unfold is_u32, word, u32_max, usize_max. lia. Qed.
Lemma btc_made q : made_btc q -> Forall word [purpose q; coin q; account q; change q; address q].
Proof.
  intros (p & t & a & c & d & U & H). inversion_clear U as [|? ? U1 U']. inversion_clear U' as [|? ? U2 U'']. inversion_clear U'' as [|? ? U3 _].
  assert (exists pu, word pu /\ btc_path pu p t a c d = Ok q) as (pu & Hp & E).
  { destruct H as [H|[H|H]]; eexists; (split; [|exact H]); discriminate. }
  unfold btc_path in E. destruct (btc_is_valid a c d); try discriminate. cbn [bind] in E.
  destruct (add_u32 p a BIP44_SOFT_UPPER_BOUND) as [ac| | |] eqn:Ha; try discriminate. cbn [bind] in E. injection E as <-.
  cbn [purpose coin account change address]. apply add_word in Ha. repeat constructor; auto using u32_word.
  destruct t; discriminate.
Qed.
Lemma ada_made q : made_ada q -> Forall word [account q; change q; address q] /\
  purpose q = BIP44_PURPOSE /\ coin q = ADA_COIN_TYPE.
Proof.
  intros (p & a & c & d & U & E). inversion_clear U as [|? ? U1 U']. inversion_clear U' as [|? ? U2 U'']. inversion_clear U'' as [|? ? U3 _].
  unfold ada_new in E. do 3 (match type of E with (if ?b then _ else _) = _ => destruct b; [discriminate|] end).
  destruct (add_u32 p a BIP44_SOFT_UPPER_BOUND) as [ac| | |] eqn:Ha; try discriminate. cbn [bind] in E. injection E as <-.
  cbn [purpose coin account change address]. apply add_word in Ha. repeat constructor; auto using u32_word.
Qed.
Lemma eth_made q : made_eth q -> Forall word [account q; address q] /\
  purpose q = BIP44_PURPOSE /\ coin q = ETH_COIN_TYPE /\ change q = 0.
Proof.
  intros (p & a & U & [E|E]).
  - unfold eth_new in E. destruct (BIP44_SOFT_UPPER_BOUND <=? a); [discriminate|].
    destruct (add_u32 p a BIP44_SOFT_UPPER_BOUND) as [ac| | |] eqn:Ha; try discriminate. cbn [bind] in E. injection E as <-.
    cbn [purpose coin account change address]. apply add_word in Ha. repeat constructor; auto. discriminate.
  - unfold eth_new_metamask in E. destruct (BIP44_SOFT_UPPER_BOUND <=? a); [discriminate|]. injection E as <-.
    cbn [purpose coin account change address]. repeat constructor; auto using u32_word. discriminate.
Qed.

Ltac fields := repeat match goal with H : Forall _ (_ :: _) |- _ => inversion_clear H end.
Lemma btc_regular q : made_btc q -> regular (view_btc_path q).
Proof. intros H. apply btc_made in H. fields. unfold view_btc_path. cbn [regular fold_right]. repeat split; auto; discriminate. Qed.
Lemma ada_path_regular q : made_ada q -> regular (view_ada_path q).
Proof. intros H. apply ada_made in H as [H _]. fields. unfold view_ada_path. cbn [regular fold_right]. repeat split; auto; discriminate. Qed.
Lemma eth_regular q : made_eth q -> regular (view_eth_path q).
Proof. intros H. apply eth_made in H as [H _]. fields. unfold view_eth_path. cbn [regular fold_right]. repeat split; auto; discriminate. Qed.

Theorem paths_apart :
  (forall q q', made_btc q -> made_btc q' -> fmt T (view_btc_path q) = fmt T (view_btc_path q') -> q = q') /\
  (forall q q', made_ada q -> made_ada q' -> fmt T (view_ada_path q) = fmt T (view_ada_path q') -> q = q') /\
  (forall q q', made_eth q -> made_eth q' -> fmt T (view_eth_path q) = fmt T (view_eth_path q') -> q = q') /\
  (forall q q', made_btc q -> made_ada q' -> fmt T (view_btc_path q) <> fmt T (view_ada_path q')) /\
  (forall q q', made_btc q -> made_eth q' -> fmt T (view_btc_path q) <> fmt T (view_eth_path q')) /\
  (forall q q', made_ada q -> made_eth q' -> fmt T (view_ada_path q) <> fmt T (view_eth_path q')).
Proof.
  split; [|split; [|split; [|split; [|split]]]]; intros q q' H H' E; apply (fmt_inj T) in E;
    auto using btc_regular, ada_path_regular, eth_regular; try discriminate E.
  - destruct q, q'. cbn in E. now injection E as -> -> -> -> ->.
  - apply ada_made in H as (_ & P & C), H' as (_ & P' & C'). destruct q, q'. cbn in *. subst. now injection E as -> -> ->.
  - apply eth_made in H as (_ & P & C & G), H' as (_ & P' & C' & G'). destruct q, q'. cbn in *. subst. now injection E as -> ->.
Qed.
End Paths.

(** * Expectations that fail *)
Lemma custom_mimics_debug : exists T e e', e <> e' /\ valid_error e /\ typed_error e' /\
  fmt T (view_error T e) = fmt T (view_error T e').
Proof.
  exists {| plain := fun _ => true; short_nul := true; old_overflow := false;
            boxed_debug := fun t => t; json_debug := fun _ => [] |},
    (KeyError 7 (SignError (BoxOther (lit "InvalidMessage")))), (KeyError 7 (SignError (BoxSecp SInvalidMessage))).
  split; [discriminate|]. split; [exact I|]. split; [split; [discriminate|exact I]|]. reflexivity.
Qed.
Lemma type_not_shown T n :
  fmt T (view_error T (KInvalidSeedSize n)) = fmt T (view_bip39 (InvalidSeedSize n)) /\
  fmt T (view_error T NotEnoughData) = fmt T (view_decrypt DNotEnoughData).
Proof. split; reflexivity. Qed.
