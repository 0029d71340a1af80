From Verif Require Import Base FMap.

Lemma sorted_order_ok : order_ok sorted_order.
Proof. intros A l. apply Permutation_refl. Qed.
Lemma reverse_order_ok : order_ok reverse_order.
Proof. intros A l. apply Permutation_sym, Permutation_rev. Qed.

Section M.
Context {V : Type}.
Implicit Types (m : fmap V) (l : list (N * V)).

Lemma sorted_from_weaken m n : sorted_from (Some n) m -> sorted_from None m.
Proof. destruct m as [|[k v] m]; cbn; tauto. Qed.

Lemma sorted_from_lt m : forall n k v, sorted_from (Some n) m -> In (k, v) m -> n < k.
Proof.
  induction m as [|[k' v'] m IH]; intros n k v H Hin; [destruct Hin|].
  cbn [sorted_from] in H. destruct H as [H1 H2]. destruct Hin as [E|Hin].
  - injection E as <- <-. exact H1.
  - specialize (IH _ _ _ H2 Hin). lia.
Qed.

Lemma wf_tail k v m : wf_map ((k, v) :: m) -> wf_map m.
Proof. intros [_ H]. exact (sorted_from_weaken _ _ H). Qed.

Lemma wf_NoDup m : wf_map m -> NoDup (keys_of m).
Proof.
  unfold keys_of. induction m as [|[k v] m IH]; intros H; cbn [List.map fst]; constructor.
  - intros Hin. apply in_map_iff in Hin as ([k' v'] & Hk & Hin). cbn [fst] in Hk.
    destruct H as [_ H]. apply (sorted_from_lt _ _ _ _ H) in Hin. lia.
  - apply IH. exact (wf_tail _ _ _ H).
Qed.

Lemma get_In k v m : get k m = Some v -> In (k, v) m.
Proof.
  induction m as [|[k' v'] m IH]; cbn [get]; [discriminate|].
  destruct (N.eqb_spec k k') as [->|]; intros H.
  - injection H as ->. now left.
  - right. now apply IH.
Qed.

Lemma NoDup_get l : NoDup (List.map fst l) -> forall k v, In (k, v) l -> get k l = Some v.
Proof.
  induction l as [|[k' v'] l IH]; cbn [List.map fst]; intros H k v Hin; [destruct Hin|].
  apply NoDup_cons_iff in H as [Hn Hd]. cbn [get]. destruct Hin as [E|Hin].
  - injection E as -> ->. now rewrite N.eqb_refl.
  - destruct (N.eqb_spec k k') as [->|].
    + exfalso. apply Hn. apply in_map_iff. exists (k', v). split; [reflexivity|exact Hin].
    + now apply IH.
Qed.

Lemma In_get m : wf_map m -> forall k v, In (k, v) m <-> get k m = Some v.
Proof.
  intros H k v. split.
  - apply NoDup_get, wf_NoDup, H.
  - apply get_In.
Qed.

Lemma get_none k m : get k m = None <-> ~ In k (keys_of m).
Proof.
  unfold keys_of. induction m as [|[k' v'] m IH]; cbn [get List.map fst In].
  - tauto.
  - destruct (N.eqb_spec k k') as [->|Hn].
    + split; [discriminate|]. intros H; exfalso; apply H; now left.
    + rewrite IH. split; [intros H [->|Hin]; [congruence|tauto]|tauto].
Qed.

Lemma mem_In k m : mem k m = true <-> In k (keys_of m).
Proof.
  unfold mem. destruct (get k m) as [v|] eqn:E.
  - split; [intros _|reflexivity]. apply get_In in E.
    unfold keys_of. apply in_map_iff. now exists (k, v).
  - split; [discriminate|]. intros H. now apply get_none in E.
Qed.

Lemma ins_sorted k v m : forall lo, match lo with None => True | Some n => n < k end ->
  sorted_from lo m -> sorted_from lo (ins k v m).
Proof.
  induction m as [|[k' v'] m IH]; intros lo Hlo H; cbn [ins].
  - cbn [sorted_from]. tauto.
  - cbn [sorted_from] in H. destruct H as [H1 H2].
    destruct (N.ltb_spec k k'); [|destruct (N.eqb_spec k k') as [->|]]; cbn [sorted_from].
    + tauto.
    + tauto.
    + split; [exact H1|]. apply IH; [lia|exact H2].
Qed.

Lemma ins_wf k v m : wf_map m -> wf_map (ins k v m).
Proof. apply ins_sorted. exact I. Qed.

Lemma get_ins k v m k' : wf_map m -> get k' (ins k v m) = if k' =? k then Some v else get k' m.
Proof.
  induction m as [|[k0 v0] m IH]; intros Hwf; cbn [ins get].
  - reflexivity.
  - destruct (N.ltb_spec k k0) as [Hlt|]; [|destruct (N.eqb_spec k k0) as [->|Hne]]; cbn [get].
    + reflexivity.
    + destruct (N.eqb_spec k' k0); reflexivity.
    + rewrite IH by exact (wf_tail _ _ _ Hwf).
      destruct (N.eqb_spec k' k0) as [->|]; [|reflexivity].
      destruct (N.eqb_spec k0 k); [lia|reflexivity].
Qed.

Lemma map_ext_get : forall m m', wf_map m -> wf_map m' ->
  (forall k, get k m = get k m') -> m = m'.
Proof.
  induction m as [|[k v] m IH]; intros [|[k' v'] m'] Hm Hm' H.
  - reflexivity.
  - specialize (H k'). cbn [get] in H. rewrite N.eqb_refl in H. discriminate.
  - specialize (H k). cbn [get] in H. rewrite N.eqb_refl in H. discriminate.
  - assert (k = k') as ->.
    { pose proof (H k) as H1. pose proof (H k') as H2. cbn [get] in H1, H2.
      rewrite N.eqb_refl in H1, H2.
      destruct (N.eqb_spec k k') as [|Hn]; [assumption|].
      destruct (N.eqb_spec k' k) as [|_]; [congruence|].
      symmetry in H1. apply get_In in H1. apply get_In in H2.
      apply (sorted_from_lt _ _ _ _ (proj2 Hm')) in H1.
      apply (sorted_from_lt _ _ _ _ (proj2 Hm)) in H2. lia. }
    assert (v = v') as ->.
    { specialize (H k'). cbn [get] in H. rewrite N.eqb_refl in H. congruence. }
    f_equal. apply IH; [exact (wf_tail _ _ _ Hm)|exact (wf_tail _ _ _ Hm')|].
    intros x. specialize (H x). cbn [get] in H.
    destruct (N.eqb_spec x k') as [Ex|]; [subst x|exact H].
    assert (forall m0, sorted_from (Some k') m0 -> @get V k' m0 = None) as Hn.
    { intros m0 Hs. apply get_none. intros Hin. apply in_map_iff in Hin as ([a b] & E & Hin).
      cbn [fst] in E. subst a. apply (sorted_from_lt _ _ _ _ Hs) in Hin. lia. }
    rewrite (Hn m (proj2 Hm)), (Hn m' (proj2 Hm')). reflexivity.
Qed.

Lemma of_list_snoc l k v : of_list (l ++ [(k, v)]) = ins k v (of_list l).
Proof. unfold of_list. now rewrite fold_left_app. Qed.

Lemma of_list_wf l : wf_map (of_list l).
Proof.
  induction l as [|[k v] l IH] using rev_ind.
  - exact I.
  - rewrite of_list_snoc. now apply ins_wf.
Qed.

(** Of several entries for a key the last one stays. *)
Lemma get_of_list l k : get k (of_list l) = get k (rev l).
Proof.
  induction l as [|[k' v'] l IH] using rev_ind; [reflexivity|].
  rewrite of_list_snoc, rev_app_distr, get_ins by apply of_list_wf. cbn [rev app get].
  now rewrite IH.
Qed.

Lemma of_list_NoDup l : NoDup (List.map fst l) -> forall k v, get k (of_list l) = Some v <-> In (k, v) l.
Proof.
  intros H k v. rewrite get_of_list. split.
  - intros Hg. apply get_In in Hg. now apply in_rev in Hg.
  - intros Hin. apply NoDup_get; [|now apply in_rev in Hin].
    rewrite map_rev. now apply NoDup_rev.
Qed.

Lemma of_list_perm l m : wf_map m -> Permutation l m -> of_list l = m.
Proof.
  intros Hm Hp. apply map_ext_get; [apply of_list_wf|exact Hm|]. intros k.
  assert (NoDup (List.map fst l)) as Hd.
  { eapply Permutation_NoDup; [|apply (wf_NoDup m Hm)]. apply Permutation_map, Permutation_sym, Hp. }
  destruct (get k m) as [v|] eqn:E.
  - apply of_list_NoDup; [exact Hd|].
    apply (Permutation_in _ (Permutation_sym Hp)). now apply get_In.
  - apply get_none. intros Hin. apply in_map_iff in Hin as ([k' v] & Ek & Hin). cbn [fst] in Ek. subst k'.
    apply In_get in Hin; [|apply of_list_wf].
    apply of_list_NoDup in Hin; [|exact Hd].
    apply (Permutation_in _ Hp) in Hin. apply (In_get m Hm) in Hin. congruence.
Qed.

Lemma of_list_perm_NoDup l l' : NoDup (List.map fst l) -> Permutation l l' -> of_list l = of_list l'.
Proof.
  intros Hd Hp. apply map_ext_get; try apply of_list_wf. intros k.
  assert (NoDup (List.map fst l')) as Hd'.
  { eapply Permutation_NoDup; [|exact Hd]. now apply Permutation_map. }
  destruct (get k (of_list l')) as [v|] eqn:E.
  - apply of_list_NoDup in E; [|exact Hd']. apply of_list_NoDup; [exact Hd|].
    exact (Permutation_in _ (Permutation_sym Hp) E).
  - destruct (get k (of_list l)) as [v|] eqn:E'; [|reflexivity].
    apply of_list_NoDup in E'; [|exact Hd]. apply (Permutation_in _ Hp) in E'.
    apply of_list_NoDup in E'; [|exact Hd']. congruence.
Qed.

Lemma of_list_id m : wf_map m -> of_list m = m.
Proof. intros H. apply of_list_perm; [exact H|apply Permutation_refl]. Qed.

End M.

Lemma get_map {V W} (f : V -> W) (m : fmap V) k :
  get k (List.map (fun '(k, v) => (k, f v)) m) = option_map f (get k m).
Proof.
  induction m as [|[k' v'] m IH]; cbn [List.map get]; [reflexivity|].
  destruct (k =? k'); [reflexivity|exact IH].
Qed.

Lemma sorted_from_map {V W} (f : V -> W) (m : fmap V) : forall lo,
  sorted_from lo m -> sorted_from lo (List.map (fun '(k, v) => (k, f v)) m).
Proof.
  induction m as [|[k v] m IH]; intros lo; cbn [List.map sorted_from]; [trivial|].
  intros [H1 H2]. split; [exact H1|]. now apply IH.
Qed.
