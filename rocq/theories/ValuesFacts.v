(** Proofs about the values of the bip39 crate. *)
From Coq Require Import Strings.String.
From Verif Require Import Base Str Prims Bits Hex Bip39 Crypt Bip39Spec HexSpec TextSpec Values ValuesSpec Display Toy.
From Verif Require Import BaseFacts Bip39Facts HexFacts DisplayFacts.
Open Scope list_scope.

Lemma view_wf e : array_wf e <-> entropy_wf (view e).
Proof. destruct e; unfold entropy_wf; cbn; reflexivity. Qed.
Lemma wf_length e : array_wf e -> List.length (v_as_ref e) = (to_key_size (v_get_type e) / 8)%nat.
Proof. apply view_wf. Qed.
Lemma as_mut_ref e b : v_as_ref (v_as_mut e b) = b.
Proof. now destruct e. Qed.
Lemma as_mut_mut e b c : v_as_mut (v_as_mut e b) c = v_as_mut e c.
Proof. now destruct e. Qed.
Lemma as_mut_type e b : v_get_type (v_as_mut e b) = v_get_type e.
Proof. now destruct e. Qed.
Lemma as_mut_wf e b : array_wf e -> List.length b = List.length (v_as_ref e) -> array_wf (v_as_mut e b).
Proof. destruct e; cbn; congruence. Qed.
Lemma view_inj e e' : view e = view e' -> e = e'.
Proof. destruct e, e'; cbn; intros H; inversion H; reflexivity. Qed.
Lemma view_onto t b : exists e, view e = {| e_type := t; e_bytes := b |}.
Proof.
  destruct t; [exists (Entropy9 b)|exists (Entropy12 b)|exists (Entropy15 b)|exists (Entropy18 b)|exists (Entropy21 b)
    |exists (Entropy24 b)]; reflexivity.
Qed.
Lemma same_length_type e e' : array_wf e -> array_wf e' -> List.length (v_as_ref e) = List.length (v_as_ref e') ->
  v_get_type e = v_get_type e'.
Proof. destruct e, e'; cbn; intros; try reflexivity; exfalso; lia. Qed.
Lemma same_bytes e e' : array_wf e -> array_wf e' -> v_as_ref e = v_as_ref e' -> e = e'.
Proof.
  intros H H' E. apply view_inj. unfold view. rewrite E. f_equal. apply same_length_type; congruence.
Qed.

(** ** Making values *)
Lemma firstn_next {A} (l : list A) i x : nth_error l i = Some x -> firstn (S i) l = firstn i l ++ [x].
Proof.
  revert i. induction l as [|y l IH]; intros [|i]; cbn; try discriminate; [now intros [= ->]|].
  intros H. now rewrite <- (IH _ H).
Qed.
Lemma copy_loop_exact {E} bs : forall n i e,
  (i + n = List.length (v_as_ref e))%nat -> firstn i (v_as_ref e) = firstn i bs ->
  copy_loop (E := E) n i e bs =
  if (List.length bs <? i + n)%nat && negb (n =? 0)%nat then Panic
  else Ok (v_as_mut e (firstn (i + n) (firstn i (v_as_ref e) ++ skipn i bs))).
Proof.
  induction n as [|n IH]; intros i e Hl He.
  { cbn [copy_loop]. rewrite andb_false_r. rewrite Nat.add_0_r in *.
    rewrite firstn_app, firstn_firstn, Nat.min_id, firstn_length, Hl, Nat.min_id, Nat.sub_diag, firstn_O, app_nil_r, <- Hl.
    rewrite Hl, firstn_all. f_equal. now destruct e. }
  cbn [copy_loop]. rewrite andb_true_r. destruct (nth_error bs i) as [x|] eqn:Ex.
  2:{ apply nth_error_None in Ex. destruct (Nat.ltb_spec (List.length bs) (i + S n)); [reflexivity|lia]. }
  destruct (Nat.ltb_spec i (List.length (v_as_ref e))); [|lia].
  assert (Hi : (i < List.length bs)%nat) by (apply nth_error_Some; congruence).
  assert (Hf : List.length (firstn i (v_as_ref e)) = i) by (rewrite firstn_length; lia).
  assert (Hn : firstn (S i) (firstn i (v_as_ref e) ++ x :: skipn (S i) (v_as_ref e)) = firstn (S i) bs).
  { rewrite (firstn_next bs i x Ex), <- He. rewrite firstn_app, Hf, Nat.sub_succ_l, Nat.sub_diag by lia.
    rewrite firstn_all2 by lia. reflexivity. }
  rewrite IH; rewrite ?as_mut_ref.
  2:{ rewrite app_length, Hf. cbn [List.length]. rewrite skipn_length. lia. }
  2:{ exact Hn. }
  rewrite as_mut_mut, Hn, firstn_skipn. rewrite <- Nat.add_succ_comm.
  rewrite He, firstn_skipn.
  destruct n as [|n]; cbn [Nat.eqb negb].
  - rewrite andb_false_r. destruct (Nat.ltb_spec (List.length bs) (S i + 0)); [lia|reflexivity].
  - now rewrite andb_true_r.
Qed.

Lemma zeroed_wf t : array_wf (v_zeroed t).
Proof. destruct t; reflexivity. Qed.
Lemma zeroed_type t : v_get_type (v_zeroed t) = t.
Proof. now destruct t. Qed.
Lemma zeroed_length t : List.length (v_as_ref (v_zeroed t)) = (to_key_size t / 8)%nat.
Proof. rewrite (wf_length _ (zeroed_wf t)), zeroed_type. reflexivity. Qed.

Lemma new_exact t bs :
  v_new t bs = if (List.length bs <? to_key_size t / 8)%nat then Panic
               else Ok (v_as_mut (v_zeroed t) (firstn (to_key_size t / 8) bs)).
Proof.
  unfold v_new. rewrite copy_loop_exact by reflexivity. rewrite zeroed_length. cbn [Nat.add firstn skipn app].
  destruct (Nat.ltb_spec (List.length bs) (to_key_size t / 8)); [|reflexivity].
  destruct (Nat.eqb_spec (to_key_size t / 8) 0) as [E|]; [rewrite E in *; lia|reflexivity].
Qed.
Lemma new_view t bs : rmap view (v_new t bs) = entropy_new t bs.
Proof.
  rewrite new_exact. unfold entropy_new. destruct (_ <? _)%nat; [reflexivity|]. cbn. unfold view.
  now rewrite as_mut_type, as_mut_ref, zeroed_type.
Qed.
Lemma new_wf t bs e : v_new t bs = Ok e -> array_wf e.
Proof.
  rewrite new_exact. destruct (Nat.ltb_spec (List.length bs) (to_key_size t / 8)); [discriminate|]. intros [= <-].
  apply as_mut_wf; [apply zeroed_wf|]. rewrite zeroed_length, firstn_length. now apply Nat.min_l.
Qed.

Lemma from_slice_view bs : rmap view (v_from_slice bs) = entropy_from_slice bs.
Proof.
  unfold v_from_slice, entropy_from_slice. destruct (from_entropy_size _) as [t|e| |]; try reflexivity. apply new_view.
Qed.
Lemma from_slice_exact bs e : v_from_slice bs = Ok e <-> array_wf e /\ v_as_ref e = bs.
Proof.
  split.
  - unfold v_from_slice. destruct (from_entropy_size _) as [t|e'| |] eqn:Et; try discriminate. cbn [bind]. intros H.
    split; [now apply new_wf in H|]. rewrite new_exact in H.
    apply from_entropy_size_ok in Et. pose proof (type_bytes t). remember (to_key_size t / 8)%nat as k.
    destruct (_ <? _)%nat; [discriminate|]. injection H as <-. rewrite as_mut_ref. apply firstn_all2. lia.
  - intros [Hw <-]. pose proof (from_slice_view (v_as_ref e)) as H.
    pose proof (entropy_from_slice_ok (view e) (proj1 (view_wf e) Hw)) as H1. cbn [view e_bytes] in H1. rewrite H1 in H.
    destruct (v_from_slice (v_as_ref e)) as [e'| | |]; try discriminate. cbn in H. injection H as H2 H3.
    f_equal. apply view_inj. unfold view. congruence.
Qed.
Lemma from_slice_error bs : ~ entropy_length (List.length bs) ->
  v_from_slice bs = Err (WrongKeySize (8 * N.of_nat (List.length bs))).
Proof.
  intros H. unfold v_from_slice. destruct (from_entropy_size_total (N.of_nat (List.length bs) * 8)) as [(t & Ht)|He].
  - exfalso. apply H, entropy_length_type. exists t. apply from_entropy_size_ok in Ht. pose proof (type_bytes t). set (k := (to_key_size t / 8)%nat) in *. lia.
  - rewrite He. cbn. now rewrite N.mul_comm.
Qed.

Lemma generate_exact t r : exists e, v_generate t r = Ok (e, snd (Base.fill (to_key_size t / 8)%nat r)) /\ array_wf e /\
  v_get_type e = t /\ v_as_ref e = fst (Base.fill (to_key_size t / 8)%nat r).
Proof.
  unfold v_generate. rewrite new_exact, repeat_length.
  assert (Hle : (to_key_size t / 8 <= 32)%nat) by (destruct t; vm_compute; lia).
  destruct (Nat.ltb_spec 32 (to_key_size t / 8)); [exfalso; set (k := (to_key_size t / 8)%nat) in *; lia|].
  cbn [bind]. rewrite as_mut_ref, firstn_length, repeat_length, Nat.min_l by assumption.
  destruct (Base.fill (to_key_size t / 8)%nat r) as [bs r'] eqn:E. cbn [fst snd]. rewrite as_mut_mut.
  eexists. split; [reflexivity|]. rewrite as_mut_type, zeroed_type, as_mut_ref. split; [|auto].
  apply as_mut_wf; [apply zeroed_wf|]. rewrite zeroed_length. unfold Base.fill in E. injection E as <- _.
  now rewrite map_length, seq_length.
Qed.
Lemma generate_view t r : rmap (fun '(e, r) => (view e, r)) (v_generate t r) = Ok (entropy_generate t r).
Proof.
  destruct (generate_exact t r) as (e & -> & _ & Ht & Hb). cbn [rmap bind]. unfold entropy_generate, view.
  rewrite Ht, Hb. reflexivity.
Qed.
Lemma checksum_view P e : v_checksum P e = checksum P (view e).
Proof. reflexivity. Qed.
Lemma to_mnemonics_view P e : fst (v_to_mnemonics P e) = to_mnemonics P (view e).
Proof. reflexivity. Qed.
Lemma from_mnemonics_view P ms : rmap view (fst (v_from_mnemonics P ms)) = entropy_from_mnemonics P ms.
Proof.
  unfold v_from_mnemonics, entropy_from_mnemonics. destruct (get_type ms) as [t| | |]; try reflexivity. cbn [bind].
  destruct (unwrap (write_all writer_new ms)) as [w| | |]; try reflexivity. cbn [bind].
  destruct (_ <? _)%nat; [reflexivity|]. cbn [fst]. rewrite <- new_view.
  destruct (v_new t _) as [e| | |]; try reflexivity. cbn [bind rmap].
  destruct (rev (to_bytes w)); [reflexivity|]. rewrite <- checksum_view. destruct (negb _); reflexivity.
Qed.
Lemma from_mnemonics_wf P ms e : fst (v_from_mnemonics P ms) = Ok e -> array_wf e.
Proof.
  unfold v_from_mnemonics. destruct (bind (get_type ms) _) as [[t r]| | |]; try discriminate.
  destruct (_ <? _)%nat; [discriminate|]. cbn [fst].
  destruct (v_new t _) as [e'| | |] eqn:E; try discriminate. cbn [bind]. apply new_wf in E.
  destruct (rev r); [now intros [= <-]|]. destruct (negb _); [discriminate|]. now intros [= <-].
Qed.

(** ** What is freed *)
Lemma to_mnemonics_freed P e : exposes (snd (v_to_mnemonics P e)) (v_as_ref e).
Proof. exists (sha256 P (v_as_ref e)). now left. Qed.
Lemma from_mnemonics_freed P ms e : fst (v_from_mnemonics P ms) = Ok e -> exposes (snd (v_from_mnemonics P ms)) (v_as_ref e).
Proof.
  unfold v_from_mnemonics. destruct (bind (get_type ms) _) as [[t r]| | |]; try discriminate.
  destruct (_ <? _)%nat; [discriminate|]. cbn [fst snd].
  destruct (v_new t (firstn (to_key_size t / 8) r)) as [e'| | |] eqn:E; try discriminate. cbn [bind]. intros H.
  assert (e' = e) as <-. { destruct (rev r); [congruence|]. destruct (negb _); congruence. }
  rewrite new_exact in E. destruct (_ <? _)%nat; [discriminate|]. injection E as <-. rewrite as_mut_ref, firstn_firstn, Nat.min_id.
  exists []. left. now rewrite app_nil_r.
Qed.

(** ** Dropping *)
Lemma zero_zeros b : zeros (zero b) /\ List.length (zero b) = List.length b.
Proof.
  split; [|apply repeat_length]. apply Forall_forall. intros x H. now apply repeat_spec in H.
Qed.
Lemma drop_exact e : v_get_type (v_drop e) = v_get_type e /\ zeros (v_as_ref (v_drop e)) /\
  List.length (v_as_ref (v_drop e)) = List.length (v_as_ref e).
Proof. split; [now destruct e|]. destruct e; apply zero_zeros. Qed.
Lemma seed_drop_exact s : List.length s = 64%nat -> exists z, seed_drop s = Ok z /\ zeros z /\ List.length z = 64%nat.
Proof.
  intros H. unfold seed_drop, SEED_SIZE. rewrite H. exists (repeat x00 64). split; [reflexivity|].
  split; [|apply repeat_length]. apply Forall_forall. intros x Hx. now apply repeat_spec in Hx.
Qed.

(** ** Texts *)
Lemma v_hex_exact b : v_hex b = Ok (List.map b2n (hex_of b)).
Proof. unfold v_hex. now rewrite encode_ok. Qed.
Lemma n2b_text l : List.map n2b (List.map b2n l) = l.
Proof. rewrite map_map. rewrite <- (map_id l) at 2. apply map_ext. intros a. apply n2b_b2n. Qed.
Lemma hex_reads b t : hex_text b t -> decode (List.map n2b t) = Ok b /\ List.length t = (2 * List.length b)%nat.
Proof.
  intros ->. rewrite n2b_text, map_length. destruct (hex_round_trip b) as (_ & H1 & H2). now split.
Qed.
Lemma hex_text_inj b b' t : hex_text b t -> hex_text b' t -> b = b'.
Proof. intros H H'. apply hex_reads in H as [H _]. apply hex_reads in H' as [H' _]. congruence. Qed.

Lemma shown e : exists t, v_display e = Ok t /\ v_debug e = Ok t /\ hex_text (v_as_ref e) t.
Proof. exists (List.map b2n (hex_of (v_as_ref e))). unfold v_display, v_debug. now rewrite v_hex_exact. Qed.
Lemma shown_inj e e' : array_wf e -> array_wf e' -> v_display e = v_display e' -> e = e'.
Proof.
  intros H H' E. destruct (shown e) as (t & E1 & _ & Ht). destruct (shown e') as (t' & E1' & _ & Ht').
  assert (t = t') as <- by congruence. apply same_bytes; auto. now apply hex_text_inj with t.
Qed.
Lemma shown_read e t : array_wf e -> v_display e = Ok t ->
  exists b, decode (List.map n2b t) = Ok b /\ v_from_slice b = Ok e.
Proof.
  intros H E. destruct (shown e) as (t' & E' & _ & Ht). assert (t' = t) as -> by congruence.
  apply hex_reads in Ht as [Ht _]. exists (v_as_ref e). split; [exact Ht|]. now apply from_slice_exact.
Qed.
Lemma seed_shown s : List.length s = 64%nat -> exists t, seed_display s = Ok t /\ seed_debug s = Ok t /\
  List.length t = 128%nat /\ exists b, decode (List.map n2b t) = Ok b /\ seed_from_slice b = Ok s.
Proof.
  intros H. exists (List.map b2n (hex_of s)). unfold seed_display, seed_debug. rewrite v_hex_exact.
  split; [reflexivity|]. split; [reflexivity|].
  destruct (hex_reads s _ eq_refl) as [H1 H2]. rewrite H in H2. split; [exact H2|].
  exists s. split; [exact H1|]. unfold seed_from_slice. now rewrite H.
Qed.
Lemma seed_shown_inj s s' : seed_display s = seed_display s' -> s = s'.
Proof.
  unfold seed_display. rewrite !v_hex_exact. intros [= E]. now apply hex_text_inj with (List.map b2n (hex_of s)).
Qed.

(** ** Order *)
Lemma of_be_cons x l : of_be (x :: l) = b2n x * 256 ^ N.of_nat (List.length l) + of_be l.
Proof.
  induction l as [|y l IH] using rev_ind; [cbn; lia|].
  rewrite app_comm_cons, !of_be_app, IH, app_length, Nat2N.inj_add, N.pow_add_r. cbn [List.length]. change (N.of_nat 1) with 1. lia.
Qed.
Lemma bytes_cmp_number : forall a b, List.length a = List.length b -> bytes_cmp a b = N.compare (of_be a) (of_be b).
Proof.
  induction a as [|x a IH]; intros [|y b] H; try discriminate; [reflexivity|]. injection H as H.
  cbn [bytes_cmp]. rewrite !of_be_cons, <- H, (IH b H).
  pose proof (of_be_bound a) as Ha. pose proof (of_be_bound b) as Hb. rewrite <- H in Hb.
  set (m := 256 ^ N.of_nat (List.length a)) in *.
  destruct (N.compare_spec (b2n x) (b2n y)) as [E|E|E].
  - rewrite E. destruct (N.compare_spec (of_be a) (of_be b)); symmetry;
      [apply N.compare_eq_iff|apply N.compare_lt_iff|apply N.compare_gt_iff]; lia.
  - symmetry. apply N.compare_lt_iff. nia.
  - symmetry. apply N.compare_gt_iff. nia.
Qed.
Lemma variant_index_length a b : array_wf a -> array_wf b ->
  Nat.compare (variant_index a) (variant_index b) = Nat.compare (List.length (v_as_ref a)) (List.length (v_as_ref b)).
Proof. destruct a, b; cbn [array_wf v_as_ref]; intros -> ->; reflexivity. Qed.
Lemma cmp_number a b : array_wf a -> array_wf b ->
  v_cmp a b = match Nat.compare (List.length (v_as_ref a)) (List.length (v_as_ref b)) with
              | Eq => N.compare (of_be (v_as_ref a)) (of_be (v_as_ref b)) | c => c end.
Proof.
  intros Ha Hb. unfold v_cmp. rewrite variant_index_length by assumption.
  destruct (Nat.compare_spec (List.length (v_as_ref a)) (List.length (v_as_ref b))); try reflexivity.
  now apply bytes_cmp_number.
Qed.
Lemma cmp_eq a b : array_wf a -> array_wf b -> (v_cmp a b = Eq <-> a = b).
Proof.
  intros Ha Hb. rewrite cmp_number by assumption. split.
  - destruct (Nat.compare_spec (List.length (v_as_ref a)) (List.length (v_as_ref b))) as [E| |]; try discriminate.
    rewrite N.compare_eq_iff. intros H. apply same_bytes; auto.
    rewrite <- (be_of_be (v_as_ref a)), <- (be_of_be (v_as_ref b)), H, E. reflexivity.
  - intros ->. now rewrite Nat.compare_refl, N.compare_refl.
Qed.
Lemma cmp_lt a b : array_wf a -> array_wf b -> (v_cmp a b = Lt <-> below a b).
Proof.
  intros Ha Hb. rewrite cmp_number by assumption. unfold below.
  destruct (Nat.compare_spec (List.length (v_as_ref a)) (List.length (v_as_ref b))) as [E|E|E].
  - rewrite N.compare_lt_iff. intuition lia.
  - intuition.
  - split; [discriminate|lia].
Qed.
Lemma cmp_gt a b : array_wf a -> array_wf b -> (v_cmp a b = Gt <-> below b a).
Proof.
  intros Ha Hb. rewrite cmp_number by assumption. unfold below.
  destruct (Nat.compare_spec (List.length (v_as_ref a)) (List.length (v_as_ref b))) as [E|E|E].
  - rewrite N.compare_gt_iff. intuition lia.
  - split; [discriminate|lia].
  - intuition.
Qed.
Lemma cmp_total : total_order array_wf v_cmp.
Proof.
  intros x y z Hx Hy Hz. split; [now apply cmp_eq|]. rewrite !cmp_lt, cmp_gt by assumption. split; [tauto|].
  unfold below. lia.
Qed.
Lemma eqb_exact a b : v_eqb a b = true <-> a = b.
Proof.
  unfold v_eqb. rewrite andb_true_iff, Nat.eqb_eq, bytes_eqb_eq. split; [|now intros ->].
  intros [H1 H2]. destruct a, b; cbn in *; congruence.
Qed.
Lemma type_order a b : type_cmp a b = Nat.compare (mnemonic_count a) (mnemonic_count b).
Proof. destruct a, b; reflexivity. Qed.
Lemma type_total : total_order (fun _ => True) type_cmp.
Proof.
  intros x y z _ _ _. rewrite !type_order, Nat.compare_eq_iff, !Nat.compare_lt_iff, Nat.compare_gt_iff.
  split; [split; [apply type_count_inj|congruence]|]. lia.
Qed.

(** ** Errors *)
Lemma cause_exact e w : cause e = Some w <-> e = LanguageError w.
Proof. destruct e; cbn; split; congruence. Qed.
Lemma dictionary_text_exact w : show_dictionary w = dictionary_text w.
Proof. unfold show_dictionary, dictionary_text. cbn. reflexivity. Qed.
Lemma hex_error_text_exact e : show_hex e = hex_error_text e.
Proof. destruct e. unfold show_hex, hex_error_text. cbn [TextSpec.fill]. now rewrite app_nil_r. Qed.
Lemma decrypt_error_text_exact e : show_decrypt e = decrypt_error_text e.
Proof. now destruct e. Qed.

(** ** The statements of the properties *)
Theorem enum_is_record :
  (forall e, array_wf e <-> entropy_wf (view e)) /\
  (forall e e', view e = view e' -> e = e') /\
  (forall E, exists e, view e = E) /\
  (forall t bs, rmap view (v_new t bs) = entropy_new t bs) /\
  (forall bs, rmap view (v_from_slice bs) = entropy_from_slice bs) /\
  (forall t r, rmap (fun '(e, r) => (view e, r)) (v_generate t r) = Ok (entropy_generate t r)) /\
  (forall P e, v_checksum P e = checksum P (view e)) /\
  (forall P e, fst (v_to_mnemonics P e) = to_mnemonics P (view e)) /\
  (forall P ms, rmap view (fst (v_from_mnemonics P ms)) = entropy_from_mnemonics P ms).
Proof.
  split; [exact view_wf|]. split; [exact view_inj|]. split; [intros [t b]; apply view_onto|].
  split; [exact new_view|]. split; [exact from_slice_view|]. split; [exact generate_view|].
  split; [exact checksum_view|]. split; [exact to_mnemonics_view|exact from_mnemonics_view].
Qed.
Theorem values_made :
  (forall bs e, v_from_slice bs = Ok e <-> array_wf e /\ v_as_ref e = bs) /\
  (forall bs, ~ entropy_length (List.length bs) -> v_from_slice bs = Err (WrongKeySize (8 * N.of_nat (List.length bs)))) /\
  (forall t r, exists e, array_wf e /\ v_get_type e = t /\ v_as_ref e = List.map r (seq 0 (List.length (v_as_ref e))) /\
     v_generate t r = Ok (e, fun i => r (List.length (v_as_ref e) + i)%nat)) /\
  (forall e, array_wf e -> entropy_length (List.length (v_as_ref e)) /\
     mnemonic_count (v_get_type e) = words_for (List.length (v_as_ref e))).
Proof.
  split; [exact from_slice_exact|]. split; [exact from_slice_error|]. split.
  - intros t r. destruct (generate_exact t r) as (e & H & Hw & Ht & Hb). exists e. split; [exact Hw|]. split; [exact Ht|].
    pose proof (wf_length e Hw) as Hl. rewrite Ht in Hl. rewrite Hl. split; [exact Hb|exact H].
  - intros e Hw. pose proof (wf_length e Hw) as Hl. rewrite Hl. split; [apply entropy_length_type; eauto|].
    now destruct e.
Qed.
Theorem values_shown :
  (forall e, exists t, v_display e = Ok t /\ v_debug e = Ok t /\ hex_text (v_as_ref e) t) /\
  (forall e t, array_wf e -> v_display e = Ok t ->
     exists b, decode (List.map n2b t) = Ok b /\ v_from_slice b = Ok e) /\
  (forall e e', array_wf e -> array_wf e' -> v_display e = v_display e' -> e = e') /\
  (forall s, List.length s = 64%nat -> exists t, seed_display s = Ok t /\ seed_debug s = Ok t /\
     hex_text s t /\ List.length t = 128%nat /\
     exists b, decode (List.map n2b t) = Ok b /\ seed_from_slice b = Ok s) /\
  (forall s s', seed_display s = seed_display s' -> s = s').
Proof.
  split; [exact shown|]. split; [exact shown_read|]. split; [exact shown_inj|]. split; [|exact seed_shown_inj].
  intros s H. destruct (seed_shown s H) as (t & H1 & H2 & H3 & H4). exists t. split; [exact H1|]. split; [exact H2|].
  split; [|auto]. unfold seed_display in H1. rewrite v_hex_exact in H1. injection H1 as <-. reflexivity.
Qed.
Theorem values_ordered :
  total_order array_wf v_cmp /\
  (forall a b, array_wf a -> array_wf b -> (v_cmp a b = Lt <-> below a b)) /\
  (forall a b, v_eqb a b = true <-> a = b) /\
  (forall a b, seed_eqb a b = true <-> a = b) /\
  total_order (fun _ => True) type_cmp /\
  (forall a b, type_cmp a b = Lt <-> (mnemonic_count a < mnemonic_count b)%nat) /\
  mnemonic_count type_default = 18%nat.
Proof.
  split; [exact cmp_total|]. split; [exact cmp_lt|]. split; [exact eqb_exact|]. split; [exact bytes_eqb_eq|].
  split; [exact type_total|]. split; [|reflexivity]. intros a b. rewrite type_order. apply Nat.compare_lt_iff.
Qed.
Theorem values_dropped :
  (forall e, v_get_type (v_drop e) = v_get_type e /\ zeros (v_as_ref (v_drop e)) /\
     List.length (v_as_ref (v_drop e)) = List.length (v_as_ref e)) /\
  (forall s, List.length s = 64%nat -> exists z, seed_drop s = Ok z /\ zeros z /\ List.length z = 64%nat).
Proof. split; [exact drop_exact|exact seed_drop_exact]. Qed.
Theorem values_left :
  (forall P e, exposes (snd (v_to_mnemonics P e)) (v_as_ref e)) /\
  (forall P ms e, fst (v_from_mnemonics P ms) = Ok e -> exposes (snd (v_from_mnemonics P ms)) (v_as_ref e)).
Proof. split; [exact to_mnemonics_freed|exact from_mnemonics_freed]. Qed.
Theorem values_left_refuted : exists P e, array_wf e /\ ~ zeros (v_as_ref e) /\
  (exists ms, fst (v_to_mnemonics P e) = Ok ms) /\ exposes (snd (v_to_mnemonics P e)) (v_as_ref e).
Proof.
  exists toy, (Entropy9 (repeat x01 12)). split; [reflexivity|]. split; [intros H; inversion H; discriminate|].
  split; [eexists; vm_compute; reflexivity|apply to_mnemonics_freed].
Qed.
Theorem value_errors :
  (forall e w, cause e = Some w <-> e = LanguageError w) /\
  (forall w, show_dictionary w = dictionary_text w) /\
  (forall e, show_hex e = hex_error_text e) /\
  (forall e, show_decrypt e = decrypt_error_text e).
Proof.
  split; [exact cause_exact|]. split; [exact dictionary_text_exact|]. split; [exact hex_error_text_exact|exact decrypt_error_text_exact].
Qed.
