(** Proofs about last words and checksums. *)
From Coq Require FinFun.
From Verif Require Import Base BaseFacts Str Prims Bip39 BitsSpec BitsFacts Bip39Spec Bip39Facts CodingFacts
  Dict DictFacts Errors Mnemonic ChecksumSpec.
Open Scope list_scope.

Lemma bits_split a b h lo : h < 2 ^ N.of_nat a -> lo < 2 ^ N.of_nat b ->
  bits (a + b) (h * 2 ^ N.of_nat b + lo) = bits a h ++ bits b lo.
Proof.
  intros H L. apply value_inj; [now rewrite app_length, !bits_length|].
  rewrite value_app, bits_length, !value_bits; auto. rewrite Nat2N.inj_add, N.pow_add_r. nia.
Qed.

(** The numbers of a type with [n] words *)
Lemma type_numbers t : let n := mnemonic_count t in
  checksum_size_bits t = (n / 3)%nat /\ (to_key_size t = 11 * (n - 1) + (11 - n / 3))%nat /\ (1 <= n / 3 <= 8)%nat.
Proof. destruct t; cbn; repeat split; lia. Qed.

Section Last.
Variable P : prims.
Hypothesis HP : prims_ok P.
Variable pre : list N.
Hypothesis C : word_count (length pre + 1).
Let n := (length pre + 1)%nat.
Let B := checksum_range n.
Let F := free_range n.

Lemma ranges : F * B = 2048 /\ 0 < B /\ 0 < F.
Proof.
  unfold F, B, free_range, checksum_range. fold n in C. rewrite <- N.pow_add_r, <- Nat2N.inj_add.
  unfold word_count in C. cbn [In] in C.
  repeat split; try (apply N.neq_0_lt_0, N.pow_nonzero; discriminate).
  destruct C as [<-|[<-|[<-|[<-|[<-|[<-|[]]]]]]]; reflexivity.
Qed.

(** All last words with the same free bits are checked against one number. *)
Lemma last_checked h : h < F -> exists c, c < B /\ forall lo, lo < B ->
  (lo = c -> exists e, entropy_from_mnemonics P (pre ++ [h * B + lo]) = Ok e) /\
  (lo <> c -> entropy_from_mnemonics P (pre ++ [h * B + lo]) = Err (InvalidChecksum c lo)).
Proof.
  intros H. destruct (proj1 (word_count_type _) C) as [t Ht]. fold n in Ht.
  destruct (type_numbers t) as (T1 & T2 & T3). rewrite <- Ht in *.
  assert (forall lo, lo < B -> groups_bits (pre ++ [h * B + lo]) =
            (groups_bits pre ++ bits (11 - n / 3) h) ++ bits (n / 3) lo) as G.
  { intros lo L. rewrite groups_bits_app. unfold groups_bits at 2. cbn [flat_map]. rewrite app_nil_r, <- app_assoc.
    f_equal. rewrite <- bits_split by assumption. f_equal. lia. }
  assert (length (groups_bits pre ++ bits (11 - n / 3) h) = to_key_size t) as LG.
  { rewrite app_length, groups_bits_length, bits_length, T2. unfold n. lia. }
  assert (forall lo, length (pre ++ [h * B + lo]) = mnemonic_count t) as LM.
  { intros lo. rewrite app_length, <- Ht. reflexivity. }
  assert (0 < B) as B0 by apply ranges.
  destruct (entropy_from_mnemonics_spec P (pre ++ [h * B + 0]) t HP (LM 0)) as (e0 & W0 & E0 & B1 & _).
  rewrite (G 0 B0), firstn_app, LG, Nat.sub_diag, firstn_O, app_nil_r, firstn_all2 in B1 by lia.
  set (computed := firstn (checksum_size_bits t) (bytes_bits (sha256 P (e_bytes e0)))).
  exists (value computed). split.
  { pose proof (value_bound computed) as V. unfold computed in V at 2. rewrite firstn_length, bytes_bits_length, (sha256_len P HP), T1 in V.
    unfold B, checksum_range. replace (Nat.min (n / 3) (8 * 32)) with (n / 3)%nat in V by lia. exact V. }
  intros lo L. destruct (entropy_from_mnemonics_spec P (pre ++ [h * B + lo]) t HP (LM lo)) as (e & W & E & B2 & R).
  rewrite (G lo L), firstn_app, LG, Nat.sub_diag, firstn_O, app_nil_r, firstn_all2 in B2 by lia.
  rewrite <- B1 in B2. apply bytes_bits_inj in B2. rewrite R. cbv zeta.
  rewrite (G lo L), skipn_app, LG, Nat.sub_diag, skipn_O, skipn_all2 by lia. cbn [app].
  rewrite value_bits by exact L. rewrite B2. fold computed.
  split; intros Q.
  - exists e. rewrite Q, N.eqb_refl. reflexivity.
  - destruct (N.eqb_spec (value computed) lo); [congruence|reflexivity].
Qed.

(** Splitting a last word *)
Lemma split_last m : m < 2048 -> exists h lo, h < F /\ lo < B /\ m = h * B + lo /\ m / B = h /\ m mod B = lo.
Proof.
  intros M. destruct ranges as (R & B0 & F0). exists (m / B), (m mod B).
  split; [apply N.div_lt_upper_bound; lia|]. split; [apply N.mod_lt; lia|].
  split; [|split; reflexivity]. rewrite N.mul_comm. apply N.div_mod. lia.
Qed.
Lemma unsplit h lo : lo < B -> (h * B + lo) / B = h.
Proof. intros L. rewrite N.div_add_l by lia. rewrite N.div_small by exact L. lia. Qed.

(** The checksum for the free bits [h], as the code computes it *)
Definition answer (h : N) : N :=
  match entropy_from_mnemonics P (pre ++ [h * B]) with Err (InvalidChecksum c _) => c | _ => 0 end.
Lemma answer_checked h : h < F -> answer h < B /\ forall lo, lo < B ->
  (lo = answer h -> exists e, entropy_from_mnemonics P (pre ++ [h * B + lo]) = Ok e) /\
  (lo <> answer h -> entropy_from_mnemonics P (pre ++ [h * B + lo]) = Err (InvalidChecksum (answer h) lo)).
Proof.
  intros H. destruct (last_checked h H) as (c & L & K). assert (answer h = c) as ->; [|auto].
  unfold answer. destruct (K 0) as [K1 K2]; [apply ranges|]. rewrite N.add_0_r in K1, K2.
  destruct (N.eq_dec 0 c) as [<-|Q].
  - destruct (K1 eq_refl) as [e ->]. reflexivity.
  - now rewrite (K2 Q).
Qed.
Lemma answer_iff h lo : h < F -> lo < B ->
  (lo = answer h <-> exists e, entropy_from_mnemonics P (pre ++ [h * B + lo]) = Ok e).
Proof.
  intros H L. destruct (answer_checked h H) as [_ K]. destruct (K lo L) as [K1 K2]. split; [exact K1|].
  intros [e E]. destruct (N.eq_dec lo (answer h)) as [Q|Q]; [exact Q|]. rewrite (K2 Q) in E. discriminate.
Qed.

Theorem last_one h : h < F -> exists m, m < 2048 /\ m / B = h /\
  forall m', m' < 2048 -> m' / B = h -> ((exists e, entropy_from_mnemonics P (pre ++ [m']) = Ok e) <-> m' = m).
Proof.
  intros H. destruct ranges as (R & B0 & F0). destruct (answer_checked h H) as [L _].
  exists (h * B + answer h). split; [nia|]. split; [now apply unsplit|].
  intros m' M D. destruct (split_last m' M) as (h' & lo & H' & L' & -> & D' & _). rewrite D' in D. subst h'.
  rewrite <- answer_iff by assumption. split; [now intros ->|lia].
Qed.

Theorem last_words : exists ls, NoDup ls /\ N.of_nat (length ls) = F /\
  forall m, In m ls <-> m < 2048 /\ exists e, entropy_from_mnemonics P (pre ++ [m]) = Ok e.
Proof.
  destruct ranges as (R & B0 & F0).
  exists (map (fun k => N.of_nat k * B + answer (N.of_nat k)) (seq 0 (N.to_nat F))). split; [|split].
  - assert (forall l, (forall k, In k l -> N.of_nat k < F) -> NoDup l -> NoDup (map (fun k => N.of_nat k * B + answer (N.of_nat k)) l)) as K.
    { induction l as [|k l IH]; intros U D; [constructor|]. inversion_clear D as [|? ? D1 D2]. cbn [map]. constructor.
      - intros I. apply in_map_iff in I as (j & E & I). apply D1.
        assert (N.of_nat j < F) as J by (apply U; now right). assert (N.of_nat k < F) as Kk by (apply U; now left).
        destruct (answer_checked _ J) as [Lj _]. destruct (answer_checked _ Kk) as [Lk _].
        apply (f_equal (fun x => x / B)) in E. rewrite !unsplit in E by assumption. apply Nat2N.inj in E. now subst.
      - apply IH; auto. intros j I. apply U. now right. }
    apply K; [|apply seq_NoDup]. intros k I. apply in_seq in I. lia.
  - rewrite map_length, seq_length. apply N2Nat.id.
  - intros m. rewrite in_map_iff. split.
    + intros (k & <- & I). apply in_seq in I. assert (N.of_nat k < F) as H by lia.
      destruct (answer_checked _ H) as [L _]. split; [nia|]. now apply answer_iff.
    + intros [M E]. destruct (split_last m M) as (h & lo & H & L & -> & _ & _).
      apply answer_iff in E; auto. exists (N.to_nat h). rewrite N2Nat.id, E. split; [reflexivity|]. apply in_seq. lia.
Qed.

Theorem error_corrects m c f : m < 2048 -> entropy_from_mnemonics P (pre ++ [m]) = Err (InvalidChecksum c f) ->
  f = m mod B /\ c < B /\ c <> f /\ exists e, entropy_from_mnemonics P (pre ++ [m - f + c]) = Ok e.
Proof.
  intros M E. destruct (split_last m M) as (h & lo & H & L & -> & _ & Q). rewrite Q.
  destruct (answer_checked h H) as [La K]. destruct (K lo L) as [K1 K2].
  destruct (N.eq_dec lo (answer h)) as [Z|Z].
  { destruct (K1 Z) as [e E']. rewrite E' in E. discriminate. }
  rewrite (K2 Z) in E. injection E as <- <-. split; [reflexivity|]. split; [exact La|]. split; [auto|].
  replace (h * B + lo - lo + answer h) with (h * B + answer h) by lia. now apply answer_iff.
Qed.
End Last.

Theorem right_accepted P ms : prims_ok P -> Forall (fun m => m < 2048) ms -> word_count (length ms) ->
  ((exists e, entropy_from_mnemonics P ms = Ok e) <-> right_sentence P ms).
Proof.
  intros HP M C. destruct (proj1 (word_count_type _) C) as [t Ht].
  destruct (entropy_from_mnemonics_spec P ms t HP Ht) as (e & W & T & Hb & R). cbv zeta in R. split.
  - intros [e' E]. rewrite E in R. destruct (_ =? _); [|discriminate]. injection R as ->.
    exists (e_bytes e). split; [apply entropy_length_type; exists (e_type e); exact W|]. split; [exact M|].
    apply sentence_from_mnemonics; auto. congruence.
  - intros (ent & L & _ & G). apply entropy_length_type in L as [t' L].
    assert (t' = t) as ->.
    { apply type_count_inj. rewrite <- Ht. apply (f_equal (@length bool)) in G.
      rewrite groups_bits_length, app_length, firstn_length, !bytes_bits_length, (sha256_len P HP), L in G.
      destruct t'; cbn in *; lia. }
    exists {| e_type := t; e_bytes := ent |}. apply sentence_from_mnemonics; auto.
Qed.

(** The wallet takes any last word. *)
Theorem any_last_word P l pre m s unique size : word_count (length pre + 1) -> Forall (fun i => i < 2048) pre -> m < 2048 ->
  size / 32 * 3 = N.of_nat (length pre + 1) -> mnemonics_to_string (to_dict l) (pre ++ [m]) = Ok s ->
  exists seed, seed_from_mnemonic P s unique size l = Ok seed.
Proof.
  intros C M Mm Z E. assert (Forall (fun i => i < 2048) (pre ++ [m])) as A by (apply Forall_app; auto).
  assert (word_count (length (pre ++ [m]))) as W by now rewrite app_length.
  destruct (from_to_string (to_dict l) (language_dict_ok l) _ A W) as (s' & T & G). rewrite E in T. injection T as <-.
  apply word_count_type in W as [t Ht]. unfold seed_from_mnemonic. rewrite G. cbn [map_err bind]. unfold get_type.
  rewrite Ht, (proj2 (from_word_count_ok _ t) eq_refl). cbn [unwrap map_err bind]. rewrite app_length in Ht. cbn [length] in Ht.
  rewrite <- Ht, Z, N.ltb_irrefl, E. cbn [map_err bind]. eauto.
Qed.

(** * How many sentences *)
Lemma flat_NoDup {A} (f : A -> list (list A)) l : NoDup l -> (forall a, In a l -> NoDup (f a)) ->
  (forall a b x, In x (f a) -> In x (f b) -> a = b) -> NoDup (flat_map f l).
Proof.
  intros D F X. induction l as [|a l IH]; [constructor|]. inversion_clear D as [|? ? D1 D2]. cbn [flat_map].
  assert (forall (u v : list (list A)), NoDup u -> NoDup v -> (forall x, In x u -> ~ In x v) -> NoDup (u ++ v)) as J.
  { induction u as [|x u IHu]; intros v U V N; [exact V|]. inversion_clear U as [|? ? U1 U2]. cbn [app]. constructor.
    - rewrite in_app_iff. intros [I|I]; [auto|]. apply (N x); [now left|exact I].
    - apply IHu; auto. intros y I. apply N. now right. }
  apply J.
  - apply F. now left.
  - apply IH; auto. intros b I. apply F. now right.
  - intros x I K. apply in_flat_map in K as (b & Ib & K). apply D1. now rewrite (X a b x I K).
Qed.
Definition words_all : list N := map N.of_nat (seq 0 (N.to_nat 2048)).
Lemma words_all_in m : In m words_all <-> m < 2048.
Proof.
  unfold words_all. rewrite in_map_iff. split.
  - intros (k & <- & I). apply in_seq in I. lia.
  - intros M. exists (N.to_nat m). split; [apply N2Nat.id|]. apply in_seq. lia.
Qed.
Lemma words_all_NoDup : NoDup words_all.
Proof. unfold words_all. apply FinFun.Injective_map_NoDup; [exact Nat2N.inj|apply seq_NoDup]. Qed.
Lemma words_all_length : N.of_nat (length words_all) = 2048.
Proof. unfold words_all. rewrite map_length, seq_length. apply N2Nat.id. Qed.
Lemma sentences_all k : exists L, NoDup L /\ N.of_nat (length L) = 2048 ^ N.of_nat k /\
  forall p, In p L <-> length p = k /\ Forall (fun m => m < 2048) p.
Proof.
  induction k as [|k (L & D & N1 & I)].
  - exists [[]]. split; [repeat constructor; now intros []|]. split; [reflexivity|]. intros p. cbn [In]. split.
    + intros [<-|[]]. split; [reflexivity|constructor].
    + intros [E _]. left. now destruct p.
  - exists (flat_map (fun m => map (cons m) L) words_all). split; [|split].
    + apply flat_NoDup; [exact words_all_NoDup| |].
      * intros m _. apply FinFun.Injective_map_NoDup; [|exact D]. intros a b E. now injection E.
      * intros a b x. rewrite !in_map_iff. intros (u & <- & _) (v & E & _). now injection E.
    + rewrite Nat2N.inj_succ, N.pow_succ_r', <- N1, <- words_all_length. generalize words_all as W. intros W.
      induction W as [|w W IH]; [reflexivity|]. cbn [flat_map]. rewrite app_length, map_length. cbn [length]. lia.
    + intros p. rewrite in_flat_map. split.
      * intros (m & M & E). apply in_map_iff in E as (q & <- & Q). apply I in Q as [Q1 Q2]. apply words_all_in in M.
        cbn [length]. split; [lia|]. now constructor.
      * intros [E F]. destruct p as [|m p]; [discriminate|]. inversion_clear F as [|? ? F1 F2]. exists m.
        split; [now apply words_all_in|]. apply in_map, I. cbn [length] in E. split; [lia|exact F2].
Qed.
Lemma with_last (Q : list N -> N -> Prop) K L : NoDup L ->
  (forall p, In p L -> exists ls, NoDup ls /\ N.of_nat (length ls) = K /\ forall m, In m ls <-> Q p m) ->
  exists R, NoDup R /\ N.of_nat (length R) = N.of_nat (length L) * K /\
    forall x, In x R <-> exists p m, x = p ++ [m] /\ In p L /\ Q p m.
Proof.
  induction L as [|p L IH]; intros D H.
  - exists []. split; [constructor|]. split; [reflexivity|]. intros x. split; [easy|]. intros (p & m & _ & [] & _).
  - inversion_clear D as [|? ? D1 D2]. destruct (H p) as (ls & N1 & N2 & N3); [now left|].
    destruct (IH D2) as (R & R1 & R2 & R3); [intros q I; apply H; now right|].
    exists (map (fun m => p ++ [m]) ls ++ R). split; [|split].
    + clear N2 N3. induction N1 as [|m ls M N1 IHl]; [exact R1|]. cbn [map app]. constructor; [|exact IHl].
      rewrite in_app_iff, in_map_iff. intros [(j & E & I)|I].
      * apply app_inj_tail in E as [_ ->]. auto.
      * apply R3 in I as (q & j & E & I & _). apply app_inj_tail in E as [-> _]. auto.
    + rewrite app_length, map_length, Nat2N.inj_add, N2, R2. cbn [length]. lia.
    + intros x. rewrite in_app_iff, in_map_iff, R3. split.
      * intros [(m & <- & I)|(q & m & -> & I & J)].
        -- exists p, m. split; [reflexivity|]. split; [now left|]. now apply N3.
        -- exists q, m. split; [reflexivity|]. split; [now right|exact J].
      * intros (q & m & -> & [<-|I] & J).
        -- left. exists m. split; [reflexivity|]. now apply N3.
        -- right. now exists q, m.
Qed.
Theorem right_count P n : prims_ok P -> word_count n -> exists R, NoDup R /\
  N.of_nat (length R) = 2 ^ (32 * N.of_nat (n / 3)) /\
  forall ms, In ms R <-> length ms = n /\ Forall (fun m => m < 2048) ms /\ right_sentence P ms.
Proof.
  intros HP C. assert (exists k, n = (k + 1)%nat) as [k ->].
  { exists (n - 1)%nat. unfold word_count in C. cbn [In] in C. lia. }
  destruct (sentences_all k) as (L & L1 & L2 & L3).
  destruct (with_last (fun p m => m < 2048 /\ exists e, entropy_from_mnemonics P (p ++ [m]) = Ok e) (free_range (k + 1)) L L1)
    as (R & R1 & R2 & R3).
  { intros p I. apply L3 in I as [<- _]. now apply last_words. }
  exists R. split; [exact R1|]. split.
  - rewrite R2, L2. unfold free_range, word_count in *. cbn [In] in C. change 2048 with (2 ^ 11).
    rewrite <- N.pow_mul_r, <- N.pow_add_r. f_equal. clear -C.
    assert (In k [8; 11; 14; 17; 20; 23]%nat) as H by (cbn [In]; lia). clear C.
    cbn [In] in H. destruct H as [<-|[<-|[<-|[<-|[<-|[<-|[]]]]]]]; reflexivity.
  - intros ms. rewrite R3. split.
    + intros (p & m & -> & I & M & E). apply L3 in I as [<- F].
      assert (Forall (fun m => m < 2048) (p ++ [m])) as G by (apply Forall_app; auto).
      rewrite app_length. split; [reflexivity|]. split; [exact G|]. apply right_accepted; auto. now rewrite app_length.
    + intros (E & F & Q). destruct ms as [|m ms _] using rev_ind; [cbn in E; lia|].
      rewrite app_length in E. cbn [length] in E. pose proof F as F'. apply Forall_app in F' as [F1 F2].
      inversion_clear F2 as [|? ? F3 _]. exists ms, m. split; [reflexivity|]. split; [apply L3; split; [lia|exact F1]|].
      split; [exact F3|]. apply right_accepted; auto. rewrite app_length. cbn [length]. now rewrite E.
Qed.
