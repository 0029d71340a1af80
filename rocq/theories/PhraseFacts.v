(** Entropy and phrases of any size. *)
From Coq Require Import Strings.String.
From Verif Require Import Base BaseFacts Str StrFacts Prims BitsSpec BitsFacts Bip39 Bip39Spec Bip39Facts Dict DictFacts
  KeyPath Errors Mnemonic FMap Manager ManagerSpec MnemonicFacts.
Open Scope list_scope.

Lemma map_nth_seq (bs : bytes) : List.map (fun i => nth i bs x00) (seq 0 (List.length bs)) = bs.
Proof.
  induction bs as [|b bs IH]; [reflexivity|]. cbn [List.length seq List.map nth]. f_equal.
  rewrite <- seq_shift, map_map. exact IH.
Qed.
Lemma bad_size_type n : ~ entropy_length n -> from_entropy_size (N.of_nat n * 8) = Err (WrongKeySize (N.of_nat n * 8)).
Proof.
  intros H. destruct (from_entropy_size_total (N.of_nat n * 8)) as [(t & E)|E]; [|exact E].
  exfalso. apply H. apply entropy_length_type. exists t. apply from_entropy_size_ok in E. pose proof (type_bytes t). lia.
Qed.

Section M.
Variable P : prims.

Theorem entropy_sizes size (r : rng) :
  (forall k, entropy_length k -> size = 8 * N.of_nat k ->
     generate_entropy size r = Ok (List.map r (seq 0 k), fun i => r (k + i)%nat)) /\
  ((forall k, entropy_length k -> size <> 8 * N.of_nat k) -> generate_entropy size r = Err (MInvalidEntropySize size)).
Proof.
  split.
  - intros k Hk ->. apply entropy_length_type in Hk as (t & ->). unfold generate_entropy.
    rewrite (proj2 (from_entropy_size_ok _ t)); [reflexivity|]. pose proof (type_bytes t). lia.
  - intros H. unfold generate_entropy. destruct (from_entropy_size_total size) as [(t & E)|E]; [|now rewrite E].
    exfalso. apply from_entropy_size_ok in E. apply (H (to_key_size t / 8)%nat); [apply entropy_length_type; eauto|].
    pose proof (type_bytes t). lia.
Qed.

Theorem phrase_of_entropy bs l : prims_ok P ->
  (entropy_length (List.length bs) -> exists ms ws t,
     sentence_of bs (sha256 P bs) ms /\
     Forall2 (fun i w => nth_error (to_dict l) (N.to_nat i) = Some w) ms ws /\
     phrase_of ws t /\ (4 * List.length ws = 3 * List.length bs)%nat /\
     mnemonic_from_entropy P bs l = Ok t) /\
  (~ entropy_length (List.length bs) ->
     mnemonic_from_entropy P bs l = Err (MInvalidEntropySize (8 * N.of_nat (List.length bs)))).
Proof.
  intros HP. split.
  - intros H. apply entropy_length_type in H as (t & Hl).
    destruct (generate_phrase P HP t l (fun i => nth i bs x00)) as (ms & ws & s & H1 & H2 & H3 & H4 & _ & H5 & _).
    rewrite <- Hl, map_nth_seq in *. exists ms, ws, s. split; [exact H1|]. split; [exact H2|]. split; [exact H3|]. split; [|exact H5].
    assert (List.length ws = (to_key_size t / 32 * 3)%nat) as ->.
    { apply Nat2N.inj. rewrite H4. destruct t; reflexivity. }
    rewrite Hl. destruct t; reflexivity.
  - intros H. unfold mnemonic_from_entropy, entropy_from_slice. rewrite (bad_size_type _ H). cbn [bind map_err mnemonic_of_bip39].
    do 2 f_equal. lia.
Qed.

Theorem phrase_injective a b l t : prims_ok P ->
  mnemonic_from_entropy P a l = Ok t -> mnemonic_from_entropy P b l = Ok t -> a = b.
Proof.
  intros HP Ha Hb.
  assert (forall bs, mnemonic_from_entropy P bs l = Ok t -> exists ms ws, sentence_of bs (sha256 P bs) ms /\
    Forall2 (fun i w => nth_error (to_dict l) (N.to_nat i) = Some w) ms ws /\ phrase_of ws t /\
    (4 * List.length ws = 3 * List.length bs)%nat) as H.
  { intros bs E. destruct (phrase_of_entropy bs l HP) as [H1 H2].
    assert ({entropy_length (List.length bs)} + {~ entropy_length (List.length bs)}) as [He|He] by (apply in_dec, Nat.eq_dec).
    - destruct (H1 He) as (ms & ws & t' & Hs & Hw & Hp & Hl & E'). rewrite E in E'. injection E' as <-. exists ms, ws. auto.
    - rewrite (H2 He) in E. discriminate. }
  destruct (H a Ha) as (ms & ws & [Hm Hs] & Hw & Hp & Hl). destruct (H b Hb) as (ms' & ws' & [Hm' Hs'] & Hw' & Hp' & Hl').
  assert (ws' = ws) as -> by (rewrite (phrase_split _ _ Hp), (phrase_split _ _ Hp'); reflexivity).
  assert (ms' = ms) as ->.
  { clear -Hw Hw' Hm Hm'. pose proof (language_dict_ok l) as (_ & Hnd & _). revert ms' Hw' Hm'.
    induction Hw as [|i w ms ws Hi Hw IH]; intros ms' Hw' Hm'; inversion Hw' as [|i' ? ms'' ? Hi' Hw'']; subst; [reflexivity|].
    inversion_clear Hm. inversion_clear Hm'. f_equal; [|auto].
    apply N2Nat.inj. rewrite <- Hi in Hi'. apply (proj1 (NoDup_nth_error (to_dict l)) Hnd); [|exact Hi'].
    apply nth_error_Some. rewrite Hi', Hi. discriminate. }
  rewrite Hs' in Hs. assert (List.length a = List.length b) as El by lia.
  apply (f_equal (firstn (8 * List.length a))) in Hs. rewrite !firstn_app in Hs.
  assert (forall bs, List.length (bytes_bits bs) = (8 * List.length bs)%nat) as Hbl by apply bytes_bits_length.
  rewrite El, !Hbl, El, Nat.sub_diag, !app_nil_r in Hs.
  rewrite (firstn_all2 (bytes_bits b)), (firstn_all2 (bytes_bits a)) in Hs by (rewrite Hbl; lia).
  symmetry. now apply bytes_bits_inj.
Qed.

Theorem any_manager_phrase m lang (r : rng) : prims_ok P ->
  (forall k, entropy_length k -> m_seed_size m = 8 * N.of_nat k -> exists t,
     mnemonic_from_entropy P (List.map r (seq 0 k)) (or_english lang) = Ok t /\
     generate_mnemonic P m lang r = Ok (t, fun i => r (k + i)%nat)) /\
  ((forall k, entropy_length k -> m_seed_size m <> 8 * N.of_nat k) ->
     generate_mnemonic P m lang r = Err (MnemonicError (MInvalidEntropySize (m_seed_size m)))).
Proof.
  intros HP. destruct (entropy_sizes (m_seed_size m) r) as [H1 H2]. split.
  - intros k Hk E. pose proof (phrase_of_entropy (List.map r (seq 0 k)) (or_english lang) HP) as [H3 _].
    rewrite map_length, seq_length in H3. destruct (H3 Hk) as (ms & ws & t & _ & _ & _ & _ & Et). exists t. split; [exact Et|].
    unfold generate_mnemonic. rewrite (H1 k Hk E). cbn [bind].
    change (match lang with Some l => l | None => language_default end) with (or_english lang). now rewrite Et.
  - intros H. unfold generate_mnemonic. now rewrite (H2 H).
Qed.
End M.
