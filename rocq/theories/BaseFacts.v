From Verif Require Import Base.

Lemma b2n_lt b : b2n b < 256.
Proof. unfold b2n. destruct b; reflexivity. Qed.

Lemma of_N_to_N b : Byte.of_N (b2n b) = Some b.
Proof. unfold b2n. destruct b; reflexivity. Qed.

Lemma n2b_b2n b : n2b (b2n b) = b.
Proof.
  unfold n2b. rewrite N.mod_small by apply b2n_lt. now rewrite of_N_to_N.
Qed.

Lemma b2n_n2b n : b2n (n2b n) = n mod 256.
Proof.
  unfold n2b, b2n.
  destruct (Byte.of_N (n mod 256)) as [b|] eqn:E.
  - now apply Byte.to_of_N.
  - apply Byte.of_N_None_iff in E.
    pose proof (N.mod_lt n 256 ltac:(lia)). lia.
Qed.

Lemma b2n_n2b_small n : n < 256 -> b2n (n2b n) = n.
Proof. intros H. rewrite b2n_n2b. now apply N.mod_small. Qed.

Lemma b2n_inj a b : b2n a = b2n b -> a = b.
Proof. intros H. rewrite <- (n2b_b2n a), <- (n2b_b2n b). now rewrite H. Qed.

Lemma byte_eqb_eq a b : byte_eqb a b = true <-> a = b.
Proof.
  unfold byte_eqb. rewrite N.eqb_eq. split; [apply b2n_inj | now intros ->].
Qed.

Lemma byte_eqb_refl a : byte_eqb a a = true.
Proof. now apply byte_eqb_eq. Qed.

Lemma bytes_eqb_eq a b : bytes_eqb a b = true <-> a = b.
Proof.
  revert b; induction a as [|x a IH]; destruct b as [|y b]; cbn; try easy.
  rewrite andb_true_iff, byte_eqb_eq, IH. split.
  - now intros [-> ->].
  - intros H; inversion H; auto.
Qed.

Lemma bytes_eqb_refl a : bytes_eqb a a = true.
Proof. now apply bytes_eqb_eq. Qed.

Lemma bytes_eqb_neq a b : bytes_eqb a b = false <-> a <> b.
Proof.
  destruct (bytes_eqb a b) eqn:E.
  - apply bytes_eqb_eq in E. split; [discriminate|contradiction].
  - split; [|reflexivity]. intros _ ->. now rewrite bytes_eqb_refl in E.
Qed.

Lemma str_eqb_eq a b : str_eqb a b = true <-> a = b.
Proof.
  revert b; induction a as [|x a IH]; destruct b as [|y b]; cbn; try easy.
  rewrite andb_true_iff, N.eqb_eq, IH. split.
  - now intros [-> ->].
  - intros H; inversion H; auto.
Qed.

Lemma str_eqb_refl a : str_eqb a a = true.
Proof. now apply str_eqb_eq. Qed.

Lemma str_eqb_neq a b : str_eqb a b = false <-> a <> b.
Proof.
  destruct (str_eqb a b) eqn:E.
  - apply str_eqb_eq in E. split; [discriminate|contradiction].
  - split; [|reflexivity]. intros _ ->. now rewrite str_eqb_refl in E.
Qed.

Lemma str_eq_dec (a b : str) : {a = b} + {a <> b}.
Proof. apply list_eq_dec, N.eq_dec. Qed.

(** Big endian *)
Lemma be_length k n : length (be k n) = k.
Proof.
  revert n; induction k as [|k IH]; intros n; cbn [be]; [reflexivity|].
  rewrite app_length, IH. cbn. lia.
Qed.

Lemma of_be_app a b : of_be (a ++ [b]) = of_be a * 256 + b2n b.
Proof. unfold of_be. now rewrite fold_left_app. Qed.

Lemma of_be_bound bs : of_be bs < 256 ^ N.of_nat (length bs).
Proof.
  induction bs as [|b bs IH] using rev_ind; [reflexivity|].
  rewrite of_be_app, app_length. cbn [length].
  replace (N.of_nat (length bs + 1)) with (N.succ (N.of_nat (length bs))) by lia.
  rewrite N.pow_succ_r'. pose proof (b2n_lt b). lia.
Qed.

Lemma of_be_be k n : n < 256 ^ N.of_nat k -> of_be (be k n) = n.
Proof.
  revert n; induction k as [|k IH]; intros n Hn.
  - cbn in *. lia.
  - cbn [be]. rewrite of_be_app, IH, b2n_n2b.
    + pose proof (N.div_mod n 256). lia.
    + replace (N.of_nat (S k)) with (N.succ (N.of_nat k)) in Hn by lia.
      rewrite N.pow_succ_r' in Hn. apply N.div_lt_upper_bound; lia.
Qed.

Lemma be_of_be bs : be (length bs) (of_be bs) = bs.
Proof.
  induction bs as [|b bs IH] using rev_ind; [reflexivity|].
  rewrite app_length. cbn [length].
  replace (length bs + 1)%nat with (S (length bs)) by lia.
  cbn [be]. rewrite of_be_app.
  pose proof (b2n_lt b) as Hb.
  replace ((of_be bs * 256 + b2n b) / 256) with (of_be bs).
  2:{ rewrite N.div_add_l by lia. rewrite N.div_small by lia. lia. }
  rewrite IH. f_equal. f_equal.
  rewrite <- (n2b_b2n b) at 2. unfold n2b.
  rewrite N.add_comm, N.mod_add by lia. reflexivity.
Qed.

(** Slices *)
Lemma slice_app_exact {A} (a b c : list A) n m :
  length a = n -> m = (n + length b)%nat -> slice n m (a ++ b ++ c) = b.
Proof.
  intros <- ->. unfold slice.
  rewrite skipn_app, skipn_all, Nat.sub_diag. cbn [skipn app].
  replace (length a + length b - length a)%nat with (length b) by lia.
  rewrite firstn_app, firstn_all, Nat.sub_diag. cbn. now rewrite app_nil_r.
Qed.

Lemma slice_length {A} n m (l : list A) :
  (m <= length l)%nat -> length (slice n m l) = (m - n)%nat.
Proof.
  intros H. unfold slice. rewrite firstn_length, skipn_length. lia.
Qed.

(** Random streams *)
Lemma fill_length k r : length (fst (fill k r)) = k.
Proof. cbn. now rewrite map_length, seq_length. Qed.

(** Monad *)
Lemma bind_ok {E A B} (m : res E A) (k : A -> res E B) b :
  bind m k = Ok b -> exists a, m = Ok a /\ k a = Ok b.
Proof. destruct m; cbn; try discriminate. eauto. Qed.

Lemma rmap_ok {E A B} (f : A -> B) (m : res E A) b :
  rmap f m = Ok b -> exists a, m = Ok a /\ b = f a.
Proof. destruct m; cbn; try discriminate. intros H; inversion H; eauto. Qed.

Lemma map_err_ok {E F A} (f : E -> F) (m : res E A) a :
  map_err f m = Ok a <-> m = Ok a.
Proof. destruct m; cbn; split; intros H; inversion H; reflexivity. Qed.

(** UTF-8 *)
Lemma is_scalar_spec c :
  is_scalar c = true <-> c < 0xD800 \/ (0xDFFF < c /\ c <= 0x10FFFF).
Proof.
  unfold is_scalar.
  rewrite orb_true_iff, andb_true_iff, !N.ltb_lt, N.leb_le. reflexivity.
Qed.

Lemma utf8_char_length c : length (utf8_char c) = len_utf8 c.
Proof.
  unfold utf8_char, len_utf8.
  destruct (c <? 128); [reflexivity|].
  destruct (c <? 2048); [reflexivity|].
  now destruct (c <? 65536).
Qed.

From Coq Require Import ZifyBool ZifyNat ZifyN.

Section DivMod.
Ltac Zify.zify_post_hook ::= Z.div_mod_to_equations.

Lemma is_cont_mk x : x < 64 -> is_cont (n2b (128 + x)) = true.
Proof.
  intros H. unfold is_cont. rewrite b2n_n2b_small by lia. lia.
Qed.
Lemma cont_mk x : x < 64 -> cont (n2b (128 + x)) = x.
Proof. intros H. unfold cont. rewrite b2n_n2b_small by lia. lia. Qed.

Lemma of_utf8_char c rest :
  is_scalar c = true ->
  of_utf8 (utf8_char c ++ rest) = option_map (cons c) (of_utf8 rest).
Proof.
  intros Hs. pose proof Hs as Hs'. rewrite is_scalar_spec in Hs'.
  unfold utf8_char.
  destruct (N.ltb_spec c 128).
  { cbn [app of_utf8]. rewrite b2n_n2b_small by lia.
    destruct (N.ltb_spec c 128); [reflexivity|lia]. }
  destruct (N.ltb_spec c 2048).
  { cbn [app of_utf8].
    rewrite (b2n_n2b_small (192 + c / 64)) by lia.
    rewrite is_cont_mk, cont_mk by lia. cbn [negb].
    destruct (N.ltb_spec (192 + c / 64) 128); [lia|].
    destruct (N.ltb_spec (192 + c / 64) 194); [lia|].
    destruct (N.ltb_spec (192 + c / 64) 224); [|lia].
    f_equal. f_equal. lia. }
  destruct (N.ltb_spec c 65536).
  { cbn [app of_utf8].
    rewrite (b2n_n2b_small (224 + c / 4096)) by lia.
    rewrite !is_cont_mk, !cont_mk by lia. cbn [negb].
    destruct (N.ltb_spec (224 + c / 4096) 128); [lia|].
    destruct (N.ltb_spec (224 + c / 4096) 194); [lia|].
    destruct (N.ltb_spec (224 + c / 4096) 224); [lia|].
    destruct (N.ltb_spec (224 + c / 4096) 240); [|lia].
    replace ((224 + c / 4096 - 224) * 4096 + c / 64 mod 64 * 64 + c mod 64)
      with c by lia.
    rewrite Hs. destruct (N.leb_spec 2048 c); [reflexivity|lia]. }
  { cbn [app of_utf8].
    rewrite (b2n_n2b_small (240 + c / 262144)) by lia.
    rewrite !is_cont_mk, !cont_mk by lia. cbn [negb].
    destruct (N.ltb_spec (240 + c / 262144) 128); [lia|].
    destruct (N.ltb_spec (240 + c / 262144) 194); [lia|].
    destruct (N.ltb_spec (240 + c / 262144) 224); [lia|].
    destruct (N.ltb_spec (240 + c / 262144) 240); [lia|].
    replace ((240 + c / 262144 - 240) * 262144 + c / 4096 mod 64 * 4096
             + c / 64 mod 64 * 64 + c mod 64)
      with c by lia.
    rewrite Hs. destruct (N.leb_spec 65536 c); [reflexivity|lia]. }
Qed.
End DivMod.
Ltac Zify.zify_post_hook ::= idtac.

Lemma of_utf8_utf8 s : valid_str s -> of_utf8 (utf8 s) = Some s.
Proof.
  intros H; induction H as [|c s Hc Hs IH]; [reflexivity|].
  cbn [utf8 flat_map]. fold (utf8 s).
  rewrite of_utf8_char by assumption. now rewrite IH.
Qed.

Lemma utf8_app a b : utf8 (a ++ b) = utf8 a ++ utf8 b.
Proof. apply flat_map_app. Qed.

Lemma utf8_inj a b : valid_str a -> valid_str b -> utf8 a = utf8 b -> a = b.
Proof.
  intros Ha Hb H. apply of_utf8_utf8 in Ha, Hb. rewrite H in Ha. congruence.
Qed.

Lemma skipn_skipn {A} (a b : nat) (l : list A) :
  skipn a (skipn b l) = skipn (b + a) l.
Proof.
  revert l; induction b as [|b IH]; intros l; [reflexivity|].
  destruct l as [|x l]; cbn [skipn Nat.add]; [now rewrite skipn_nil|apply IH].
Qed.

Lemma app_inj_tail_len {A} (a a' c c' : list A) :
  length c = length c' -> a ++ c = a' ++ c' -> a = a' /\ c = c'.
Proof.
  intros Hl H.
  assert (length a = length a') as Hla
    by (apply (f_equal (@length A)) in H; rewrite !app_length in H; lia).
  revert a' Hla H. induction a as [|x a IH]; destruct a' as [|y a']; cbn;
    intros Hla H; try discriminate; [auto|].
  injection H as -> H. injection Hla as Hla.
  destruct (IH a' Hla H) as [-> ->]. auto.
Qed.

Lemma app_inj_head_len {A} (a a' c c' : list A) :
  length a = length a' -> a ++ c = a' ++ c' -> a = a' /\ c = c'.
Proof.
  intros Hla H. apply app_inj_tail_len; [|exact H].
  apply (f_equal (@length A)) in H. rewrite !app_length in H. lia.
Qed.
