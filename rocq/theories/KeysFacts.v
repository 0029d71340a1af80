From Verif Require Import Base BaseFacts Prims Bip39 KeyPath KeyPathSpec KeyPathFacts
  Errors XPrv XPrvSpec XPrvFacts Keys KeysSpec Toy.

(** Keeps conversion from unfolding the bounded loop. *)
Local Strategy 1000 [derive derive_loop derive_step xprv_from_data].

(** ** Path validation *)

(** The validation shared by all keys as one function. *)
Definition validate (n : N) (k : KeyPath) : option kp_error :=
  if negb (n =? 2 ^ 31) && negb (purpose k =? 2 ^ 31 + 44)
  then Some (InvalidPurpose (purpose k) (2 ^ 31 + 44))
  else if negb (coin k =? n) then Some (InvalidCoin (coin k) n)
  else if account k <? 2 ^ 31 then Some (InvalidAccount (account k))
  else if negb (change k =? 0) && negb (change k =? 1) then Some (InvalidChange (change k))
  else if 2 ^ 31 <=? address k then Some (InvalidAddress (address k))
  else None.

Fixpoint first_broken (l : list (bool * kp_error)) : option kp_error :=
  match l with
  | [] => None
  | (b, e) :: l' => if b then first_broken l' else Some e
  end.

Lemma first_broken_none l rs :
  Forall2 (fun x y => (fst x = true <-> fst y) /\ snd x = snd y) l rs ->
  (first_broken l = None <-> Forall (fun r : Prop * kp_error => fst r) rs).
Proof.
  induction 1 as [|[b e] [r e'] l rs [Hb He] _ IH]; cbn in *; [split; constructor|].
  destruct b.
  - rewrite IH. split; [intros H; constructor; [now apply Hb|exact H]|now inversion 1].
  - split; [discriminate|]. inversion 1; subst. cbn in *. exfalso.
    assert (false = true) by now apply Hb. discriminate.
Qed.

Lemma first_broken_some l rs e :
  Forall2 (fun x y => (fst x = true <-> fst y) /\ snd x = snd y) l rs ->
  (first_broken l = Some e <-> exists pre r post, rs = pre ++ (r, e) :: post /\
     Forall (fun r : Prop * kp_error => fst r) pre /\ ~ r).
Proof.
  induction 1 as [|[b e0] [r e'] l rs [Hb He] _ IH]; cbn in *.
  { split; [discriminate|]. intros (pre & r & post & E & _). now destruct pre. }
  destruct b.
  - rewrite IH. split.
    + intros (pre & r0 & post & -> & Hp & Hr). exists ((r, e') :: pre), r0, post.
      split; [reflexivity|]. split; [|exact Hr]. constructor; [now apply Hb|exact Hp].
    + intros (pre & r0 & post & E & Hp & Hr). destruct pre as [|a pre].
      * cbn in E. injection E as -> -> ->. exfalso. apply Hr. now apply Hb.
      * cbn in E. injection E as <- ->. inversion Hp; subst. eauto 6.
  - split.
    + intros E; injection E as <-. exists [], r, rs. subst e'. split; [reflexivity|].
      split; [constructor|]. intros Hr. apply Hb in Hr. discriminate.
    + intros (pre & r0 & post & E & Hp & Hr). destruct pre as [|a pre].
      * cbn in E. injection E as _ <- _. now subst.
      * cbn in E. injection E as <- ->. inversion Hp; subst. cbn in *.
        exfalso. assert (false = true) by now apply Hb. discriminate.
Qed.

Definition rules_b (n : N) (k : KeyPath) : list (bool * kp_error) :=
  (if n =? 2 ^ 31 then [] else
     [(purpose k =? 2 ^ 31 + 44, InvalidPurpose (purpose k) (2 ^ 31 + 44))]) ++
  [(coin k =? n, InvalidCoin (coin k) n);
   (2 ^ 31 <=? account k, InvalidAccount (account k));
   ((change k =? 0) || (change k =? 1), InvalidChange (change k));
   (address k <? 2 ^ 31, InvalidAddress (address k))].

Lemma rules_reflect n k :
  Forall2 (fun x y => (fst x = true <-> fst y) /\ snd x = snd y) (rules_b n k) (rules n k).
Proof.
  unfold rules_b, rules. apply Forall2_app.
  - destruct (n =? 2 ^ 31); repeat constructor; cbn [fst snd]; apply N.eqb_eq.
  - constructor; [split; [apply N.eqb_eq|reflexivity]|].
    constructor; [split; [apply N.leb_le|reflexivity]|].
    constructor; [split; [cbn [fst]; now rewrite orb_true_iff, !N.eqb_eq|reflexivity]|].
    constructor; [split; [apply N.ltb_lt|reflexivity]|]. constructor.
Qed.

Lemma validate_rules n k : validate n k = first_broken (rules_b n k).
Proof.
  unfold validate, rules_b.
  rewrite (N.ltb_antisym (2 ^ 31) (account k)), (N.ltb_antisym (2 ^ 31) (address k)),
    <- (negb_orb (change k =? 0)).
  destruct (n =? 2 ^ 31); cbn [negb andb app first_broken].
  - destruct (coin k =? n); cbn [negb]; [|reflexivity].
    destruct (2 ^ 31 <=? account k); cbn [negb]; [|reflexivity].
    destruct ((change k =? 0) || (change k =? 1)); cbn [negb]; [|reflexivity].
    destruct (2 ^ 31 <=? address k); reflexivity.
  - destruct (purpose k =? 2 ^ 31 + 44); cbn [negb]; [|reflexivity].
    destruct (coin k =? n); cbn [negb]; [|reflexivity].
    destruct (2 ^ 31 <=? account k); cbn [negb]; [|reflexivity].
    destruct ((change k =? 0) || (change k =? 1)); cbn [negb]; [|reflexivity].
    destruct (2 ^ 31 <=? address k); reflexivity.
Qed.

Lemma path_ok_validate n k : path_ok n k <-> validate n k = None.
Proof. rewrite validate_rules. symmetry. apply first_broken_none, rules_reflect. Qed.

Lemma rejects_validate n k e : rejects n k e <-> validate n k = Some e.
Proof. rewrite validate_rules. symmetry. apply first_broken_some, rules_reflect. Qed.

Lemma path_decided n k : path_ok n k \/ exists e, rejects n k e.
Proof.
  destruct (validate n k) as [e|] eqn:E.
  - right. exists e. now apply rejects_validate.
  - left. now apply path_ok_validate.
Qed.

Section K.
Variable P : prims.

Lemma btc_derive_eq x k :
  btc_derive_private P x k =
  match validate (2 ^ 31) k with
  | Some e => Err (InvalidKeyPath e)
  | None => map_err key_of_secp (derive_along P x (path_values k))
  end.
Proof.
  unfold btc_derive_private, validate, check_rest, path_err, BTC_COIN_TYPE, BIP44_SOFT_UPPER_BOUND.
  change 2147483648 with (2 ^ 31). rewrite N.eqb_refl. cbn [negb andb].
  destruct (coin k =? 2 ^ 31); cbn [negb]; [|reflexivity].
  destruct (account k <? 2 ^ 31); [reflexivity|].
  destruct (negb (change k =? 0) && negb (change k =? 1)); [reflexivity|].
  destruct (2 ^ 31 <=? address k); [reflexivity|].
  f_equal. unfold path_values. cbn [derive_along].
  repeat (match goal with |- bind ?m _ = _ => destruct m; cbn [bind]; [|reflexivity..] end).
  destruct (derive P _ (address k)); reflexivity.
Qed.

Lemma eth_derive_eq x k :
  eth_derive_private P x k =
  match validate (2 ^ 31 + 60) k with
  | Some e => Err (InvalidKeyPath e)
  | None => map_err key_of_secp (derive_along P x [account k; change k; address k])
  end.
Proof.
  unfold eth_derive_private, validate, check_rest, path_err, BIP44_SOFT_UPPER_BOUND,
    BIP44_PURPOSE, ETH_COIN_TYPE.
  change 2147483692 with (2 ^ 31 + 44). change 2147483708 with (2 ^ 31 + 60).
  change 2147483648 with (2 ^ 31). change (2 ^ 31 + 60 =? 2 ^ 31) with false. cbn [negb andb].
  destruct (purpose k =? 2 ^ 31 + 44); cbn [negb]; [|reflexivity].
  destruct (coin k =? 2 ^ 31 + 60); cbn [negb]; [|reflexivity].
  destruct (account k <? 2 ^ 31); [reflexivity|].
  destruct (negb (change k =? 0) && negb (change k =? 1)); [reflexivity|].
  destruct (2 ^ 31 <=? address k); [reflexivity|].
  f_equal. cbn [derive_along].
  repeat (match goal with |- bind ?m _ = _ => destruct m; cbn [bind]; [|reflexivity..] end).
  destruct (derive P _ (address k)); reflexivity.
Qed.

Lemma ada_derive_eq x k :
  ada_derive_private P x k =
  match validate (2 ^ 31 + 1815) k with
  | Some e => Err (InvalidKeyPath e)
  | None => Ok (ed_derive_along P x [account k; change k; address k])
  end.
Proof.
  unfold ada_derive_private, validate, check_rest, path_err, BIP44_SOFT_UPPER_BOUND,
    BIP44_PURPOSE, ADA_COIN_TYPE.
  change 2147483692 with (2 ^ 31 + 44). change 2147485463 with (2 ^ 31 + 1815).
  change 2147483648 with (2 ^ 31). change (2 ^ 31 + 1815 =? 2 ^ 31) with false. cbn [negb andb].
  destruct (purpose k =? 2 ^ 31 + 44); cbn [negb]; [|reflexivity].
  destruct (coin k =? 2 ^ 31 + 1815); cbn [negb]; [|reflexivity].
  destruct (account k <? 2 ^ 31); [reflexivity|].
  destruct (negb (change k =? 0) && negb (change k =? 1)); [reflexivity|].
  destruct (2 ^ 31 <=? address k); reflexivity.
Qed.

Lemma key_of_secp_not_path e e' : key_of_secp e <> InvalidKeyPath e'.
Proof. destruct e; discriminate. Qed.

Lemma map_err_not_path {A} (m : res secp_error A) e :
  map_err key_of_secp m <> Err (InvalidKeyPath e).
Proof. destruct m as [a|[]| |]; discriminate. Qed.

Lemma bind_map_err_not_path {A B} (m : res secp_error A) (f : A -> res key_error B) e :
  (forall a, f a <> Err (InvalidKeyPath e)) ->
  (let* a := map_err key_of_secp m in f a) <> Err (InvalidKeyPath e).
Proof.
  intros H. destruct m as [a|err| |]; cbn; try discriminate; [apply H|].
  destruct err; discriminate.
Qed.

Lemma secp_obeys n n' dp f :
  (forall k, dp k = match validate n k with
                    | Some e => Err (InvalidKeyPath e)
                    | None => map_err key_of_secp (f k)
                    end) ->
  obeys_rules n (secp_key P n' dp) (fun _ => True).
Proof.
  intros Hdp k. split.
  - intros Hok e data sig. apply path_ok_validate in Hok.
    cbn [secp_key pub_key sign verify]. rewrite Hdp, Hok. split; [|split].
    + apply bind_map_err_not_path. discriminate.
    + apply bind_map_err_not_path. intros a H.
      destruct (xprv_sign P a data); cbn in H; discriminate.
    + apply bind_map_err_not_path. intros a. apply map_err_not_path.
  - intros e Hr data sig. apply rejects_validate in Hr.
    cbn [secp_key pub_key sign verify]. rewrite Hdp, Hr. repeat split; reflexivity.
Qed.

Lemma btc_obeys x : obeys_rules (2 ^ 31) (btc_key P x) (fun _ => True).
Proof. apply (secp_obeys _ _ _ _ (btc_derive_eq x)). Qed.

Lemma eth_obeys x : obeys_rules (2 ^ 31 + 60) (eth_key P x) (fun _ => True).
Proof. apply (secp_obeys _ _ _ _ (eth_derive_eq x)). Qed.

Lemma ada_obeys x :
  obeys_rules (2 ^ 31 + 1815) (ada_key P x) (fun sig => length sig = 64%nat).
Proof.
  intros k. split.
  - intros Hok e data sig. apply path_ok_validate in Hok.
    cbn [ada_key pub_key sign verify]. rewrite ada_derive_eq, Hok. cbn [rmap bind].
    split; [discriminate|]. split; [discriminate|].
    destruct (Nat.ltb (length sig) ADA_SIGNATURE_SIZE); [discriminate|].
    destruct (Nat.eqb (length sig) ADA_SIGNATURE_SIZE); discriminate.
  - intros e Hr data sig. apply rejects_validate in Hr.
    cbn [ada_key pub_key sign verify]. rewrite ada_derive_eq, Hr. cbn [rmap bind].
    split; [reflexivity|]. split; [reflexivity|]. intros ->. reflexivity.
Qed.

Lemma paths_obeyed :
  (forall x, obeys_rules (2 ^ 31) (btc_key P x) (fun _ => True)) /\
  (forall x, obeys_rules (2 ^ 31 + 60) (eth_key P x) (fun _ => True)) /\
  (forall x, obeys_rules (2 ^ 31 + 1815) (ada_key P x) (fun sig => length sig = 64%nat)) /\
  (forall n k, path_ok n k \/ exists e, rejects n k e).
Proof.
  split; [exact btc_obeys|]. split; [exact eth_obeys|]. split; [exact ada_obeys|].
  exact path_decided.
Qed.

(** ** Constructed paths *)
Lemma constructed_paths p :
  (forall con pu, In (pu, con) [(44, btc_bip44); (49, btc_bip49); (84, btc_bip84)] ->
   forall a c d k,
     (con p false a c d = Ok k ->
        path_ok (2 ^ 31) k /\
        (pu = 44 -> forall n, In n [60; 1815] ->
           rejects (2 ^ 31 + n) k (InvalidCoin (2 ^ 31) (2 ^ 31 + n))) /\
        (pu <> 44 -> forall n, In n [60; 1815] ->
           rejects (2 ^ 31 + n) k (InvalidPurpose (2 ^ 31 + pu) (2 ^ 31 + 44)))) /\
     (con p true a c d = Ok k ->
        rejects (2 ^ 31) k (InvalidCoin (2 ^ 31 + 1) (2 ^ 31)) /\
        forall n, In n [60; 1815] -> exists e, rejects (2 ^ 31 + n) k e)) /\
  (forall a c d k, ada_new p a c d = Ok k ->
     path_ok (2 ^ 31 + 1815) k /\
     forall n, In n [0; 60] ->
       rejects (2 ^ 31 + n) k (InvalidCoin (2 ^ 31 + 1815) (2 ^ 31 + n))) /\
  (forall a k, eth_new p a = Ok k \/ eth_new_metamask a = Ok k ->
     path_ok (2 ^ 31 + 60) k /\
     forall n, In n [0; 1815] ->
       rejects (2 ^ 31 + n) k (InvalidCoin (2 ^ 31 + 60) (2 ^ 31 + n))).
Proof.
  assert (forall n a c d k,
    k = {| purpose := 2 ^ 31 + 44; coin := n; account := a + 2 ^ 31; change := c; address := d |} ->
    (c = 0 \/ c = 1) -> d < 2 ^ 31 -> path_ok n k) as Hown.
  { intros n a c d k -> Hc Hd. unfold path_ok, rules.
    cbn [purpose coin account change address].
    apply Forall_app. split; [destruct (n =? 2 ^ 31); repeat constructor|].
    constructor; [reflexivity|]. constructor; [cbn [fst]; lia|].
    constructor; [exact Hc|]. constructor; [exact Hd|]. constructor. }
  assert (forall n k, purpose k = 2 ^ 31 + 44 -> coin k <> n ->
    rejects n k (InvalidCoin (coin k) n)) as Hcoin.
  { intros n k Hp Hc. apply rejects_validate. unfold validate. rewrite Hp, N.eqb_refl.
    cbn [negb]. rewrite andb_false_r. now apply N.eqb_neq in Hc as ->. }
  assert (forall n k, n <> 2 ^ 31 -> purpose k <> 2 ^ 31 + 44 ->
    rejects n k (InvalidPurpose (purpose k) (2 ^ 31 + 44))) as Hpu.
  { intros n k Hn Hp. apply rejects_validate. unfold validate.
    apply N.eqb_neq in Hn as ->. apply N.eqb_neq in Hp as ->. reflexivity. }
  split; [|split].
  - intros con pu Hin a c d k.
    assert (exists PU, PU = 2 ^ 31 + pu /\ con = btc_path PU) as (PU & HPU & ->).
    { cbn in Hin. destruct Hin as [E|[E|[E|[]]]]; injection E as <- <-;
        eexists; (split; [|reflexivity]); reflexivity. }
    assert (pu = 44 \/ pu = 49 \/ pu = 84) as Hpus
      by (cbn in Hin; destruct Hin as [E|[E|[E|[]]]]; injection E as <- _; auto).
    clear Hin. rewrite !btc_path_eq. split; intros H.
    + destruct (three_args a c d) eqn:E; [discriminate|].
      apply three_args_none in E as (Ha & Hc & Hd). injection H as <-.
      change 2147483648 with (2 ^ 31). split; [|split].
      * unfold path_ok, rules. rewrite N.eqb_refl. cbn [app purpose coin account change address].
        constructor; [reflexivity|]. constructor; [cbn [fst]; lia|].
        constructor; [exact Hc|]. constructor; [exact Hd|]. constructor.
      * intros -> n Hn. apply Hcoin; [exact HPU|]. cbn [coin]. cbn in Hn. lia.
      * intros Hne n Hn. rewrite <- HPU. apply (Hpu (2 ^ 31 + n)); [cbn in Hn; lia|].
        cbn [purpose]. lia.
    + destruct (three_args a c d) eqn:E; [discriminate|].
      apply three_args_none in E as (Ha & Hc & Hd). injection H as <-. split.
      * apply rejects_validate. unfold validate. rewrite N.eqb_refl. cbn [negb andb coin]. reflexivity.
      * intros n Hn. destruct (N.eq_dec pu 44) as [Hp|Hp].
        -- eexists. apply Hcoin; [subst PU; subst pu; reflexivity|]. cbn [coin]. cbn in Hn. lia.
        -- eexists. apply Hpu; [cbn in Hn; lia|]. cbn [purpose]. lia.
  - intros a c d k H. rewrite ada_new_eq in H.
    destruct (three_args a c d) eqn:E; [discriminate|].
    apply three_args_none in E as (Ha & Hc & Hd). injection H as <-. split.
    + eapply Hown; [reflexivity| |]; assumption.
    + intros n Hn. apply Hcoin; [reflexivity|]. cbn [coin]. cbn in Hn. lia.
  - intros a k H. destruct (constructors_exact p) as (_ & _ & He & Hm).
    assert (purpose k = 2 ^ 31 + 44 /\ coin k = 2 ^ 31 + 60 /\ 2 ^ 31 <= account k /\
            change k = 0 /\ address k < 2 ^ 31) as (H1 & H2 & H3 & H4 & H5).
    { destruct H as [H|H]; [apply He in H|apply Hm in H]; destruct H as (Ha & E);
        injection E as -> -> -> -> ->; repeat split; lia. }
    split.
    + unfold path_ok, rules. rewrite H1, H2, H4.
      change (2 ^ 31 + 60 =? 2 ^ 31) with false. cbn [app].
      constructor; [reflexivity|]. constructor; [reflexivity|]. constructor; [exact H3|].
      constructor; [left; reflexivity|]. constructor; [exact H5|]. constructor.
    + intros n Hn. rewrite <- H2. apply Hcoin; [exact H1|]. rewrite H2. cbn in Hn. lia.
Qed.

(** ** Pre-derivation *)
Lemma derive_along_cons x i l :
  derive_along P x (i :: l) = let* y := derive P x i in derive_along P y l.
Proof. reflexivity. Qed.

Lemma derive_along_app x l l' :
  derive_along P x (l ++ l') = let* y := derive_along P x l in derive_along P y l'.
Proof.
  revert x. induction l as [|i l IH]; intros x; cbn [app derive_along bind]; [reflexivity|].
  destruct (derive P x i); cbn [bind]; auto.
Qed.

Definition secp_pub_at (x : XPrv) : bytes := pub_serialize (secp_pub P (x_key x)).

Lemma path_ok_fields n k : n <> 2 ^ 31 -> path_ok n k ->
  path_values k = [2 ^ 31 + 44; n; account k; change k; address k].
Proof.
  intros Hn H. unfold path_ok, rules in H. apply N.eqb_neq in Hn. rewrite Hn in H.
  cbn [app] in H. apply Forall_cons_iff in H as [Hp H].
  apply Forall_cons_iff in H as [Hc _]. cbn [fst] in Hp, Hc.
  unfold path_values. now rewrite Hp, Hc.
Qed.

Lemma btc_transparent data k msg sig : path_ok (2 ^ 31) k ->
  let master := let* x := xprv_from_data P data in derive_along P x (path_values k) in
  (let* K := key_from_data (btc_factory P) data in pub_key K k)
  = rmap (fun x => pub_serialize (secp_pub P (x_key x))) (map_err key_of_secp master) /\
  (let* K := key_from_data (btc_factory P) data in sign K msg k)
  = (let* x := map_err key_of_secp master in map_err secp_sign_error (xprv_sign P x msg)) /\
  (let* K := key_from_data (btc_factory P) data in verify K msg sig k)
  = (let* x := map_err key_of_secp master in
     map_err key_of_secp (xpub_verify P (secp_pub P (x_key x)) msg sig)).
Proof.
  intros Hok master. apply path_ok_validate in Hok. subst master.
  cbn [btc_factory key_from_data]. unfold btc_from_data, rmap.
  destruct (xprv_from_data P data) as [x|e| |]; cbn [map_err bind]; auto.
  cbn [btc_key secp_key pub_key sign verify]. rewrite btc_derive_eq, Hok. auto.
Qed.

Lemma eth_transparent data k msg sig : path_ok (2 ^ 31 + 60) k ->
  let master := let* x := xprv_from_data P data in derive_along P x (path_values k) in
  (let* K := key_from_data (eth_factory P) data in pub_key K k)
  = rmap (fun x => pub_serialize (secp_pub P (x_key x))) (map_err key_of_secp master) /\
  (let* K := key_from_data (eth_factory P) data in sign K msg k)
  = (let* x := map_err key_of_secp master in map_err secp_sign_error (xprv_sign P x msg)) /\
  (let* K := key_from_data (eth_factory P) data in verify K msg sig k)
  = (let* x := map_err key_of_secp master in
     map_err key_of_secp (xpub_verify P (secp_pub P (x_key x)) msg sig)).
Proof.
  intros Hok master. pose proof Hok as Hv. apply path_ok_validate in Hv. subst master.
  rewrite (path_ok_fields (2 ^ 31 + 60) k) by (try exact Hok; discriminate).
  change [2 ^ 31 + 44; 2 ^ 31 + 60; account k; change k; address k]
    with ([2 ^ 31 + 44; 2 ^ 31 + 60] ++ [account k; change k; address k]).
  cbn [eth_factory key_from_data]. unfold eth_from_data, rmap.
  change BIP44_PURPOSE with (2 ^ 31 + 44). change ETH_COIN_TYPE with (2 ^ 31 + 60).
  destruct (xprv_from_data P data) as [x|e| |]; cbn [map_err bind]; auto.
  rewrite derive_along_app. cbn [derive_along].
  destruct (derive P x (2 ^ 31 + 44)) as [y|e| |]; cbn [map_err bind]; auto.
  destruct (derive P y (2 ^ 31 + 60)) as [z|e| |]; cbn [map_err bind]; auto.
  cbn [eth_key secp_key pub_key sign verify]. rewrite eth_derive_eq, Hv. auto.
Qed.

Lemma ada_transparent data k msg sig : path_ok (2 ^ 31 + 1815) k ->
  length data = 96%nat -> length sig = 64%nat ->
  let master := rmap (fun x => ed_derive_along P x (path_values k)) (from_bytes_verified data) in
  (let* K := key_from_data (ada_factory P) data in pub_key K k)
  = rmap (ed_public P) master /\
  (let* K := key_from_data (ada_factory P) data in sign K msg k)
  = rmap (fun x => ed_sign P x msg) master /\
  (let* K := key_from_data (ada_factory P) data in verify K msg sig k)
  = rmap (fun x => ed_verify P x msg sig) master.
Proof.
  intros Hok Hl Hs master. pose proof Hok as Hv. apply path_ok_validate in Hv. subst master.
  rewrite (path_ok_fields (2 ^ 31 + 1815) k) by (try exact Hok; discriminate).
  cbn [ada_factory key_from_data]. unfold ada_from_data, rmap.
  rewrite Hl. unfold XPRV_SIZE. change (Nat.ltb 96 96) with false. change (Nat.eqb 96 96) with true.
  cbn [negb]. destruct (from_bytes_verified data) as [x|e| |]; cbn [bind]; auto.
  cbn [ada_key pub_key sign verify]. rewrite Hs. change (Nat.ltb 64 ADA_SIGNATURE_SIZE) with false.
  change (Nat.eqb 64 ADA_SIGNATURE_SIZE) with true. cbn [negb].
  rewrite ada_derive_eq, Hv. auto.
Qed.

(** ** Signatures *)
Hypothesis HP : prims_ok P.

Lemma sign_shape x data sig : xprv_sign P x data = Ok sig ->
  exists r s v, secp_sign P (keccak256 P data) (x_key x) = Some (r, s, v) /\
    (v = 0 \/ v = 1) /\ r < secp_n /\ s < secp_n /\ sig = be 32 r ++ be 32 s ++ [n2b v].
Proof.
  unfold xprv_sign. destruct (secp_sign P _ _) as [[[r s] v]|] eqn:E; [|discriminate].
  rewrite <- negb_orb.
  destruct (N.eqb_spec v 0) as [Hv|Hv]; [|destruct (N.eqb_spec v 1) as [Hv'|Hv']]; cbn [orb negb];
    intros H; try discriminate; injection H as <-;
    (destruct (secp_sign_range P HP _ _ _ _ _ E) as (Hr & Hs & _)); eauto 10.
Qed.

Lemma verify_65 x data sig data' :
  xprv_sign P x data = Ok sig ->
  length sig = 65%nat /\
  xpub_verify P (secp_pub P (x_key x)) data' sig = Err (SInvalidSignature 65 64).
Proof.
  intros H. apply sign_shape in H as (r & s & v & _ & _ & _ & _ & ->).
  assert (length (be 32 r ++ be 32 s ++ [n2b v]) = 65%nat) as Hl
    by (rewrite !app_length, !be_length; reflexivity).
  split; [exact Hl|]. unfold xpub_verify. rewrite Hl. reflexivity.
Qed.

Lemma verify_64 x data sig : secp_correct P -> 0 < x_key x < secp_n ->
  xprv_sign P x data = Ok sig ->
  xpub_verify P (secp_pub P (x_key x)) data (firstn 64 sig) = Ok true.
Proof.
  intros HC Hk H. apply sign_shape in H as (r & s & v & E & _ & Hr & Hs & ->).
  rewrite app_assoc.
  rewrite firstn_app, !app_length, !be_length. change (64 - (32 + 32))%nat with 0%nat.
  rewrite firstn_O, app_nil_r, firstn_all2 by (rewrite app_length, !be_length; lia).
  unfold xpub_verify. rewrite app_length, !be_length.
  change (Nat.eqb (32 + 32) SIGNATURE_SIZE) with true. cbn [negb].
  assert (slice 0 32 (be 32 r ++ be 32 s) = be 32 r) as ->.
  { change (be 32 r ++ be 32 s) with ([] ++ be 32 r ++ be 32 s).
    apply slice_app_exact; [reflexivity|now rewrite be_length]. }
  assert (slice 32 64 (be 32 r ++ be 32 s) = be 32 s) as ->.
  { rewrite <- (app_nil_r (be 32 s)) at 1. apply slice_app_exact; now rewrite be_length. }
  assert (secp_n < 256 ^ N.of_nat 32) by reflexivity.
  rewrite !of_be_be by (eapply N.lt_trans; eassumption).
  rewrite !N.mod_small by assumption.
  f_equal. eapply HC; eassumption.
Qed.

Lemma derive_along_wf l : forall x y, Forall is_u32 l -> xprv_wf x ->
  derive_along P x l = Ok y -> xprv_wf y.
Proof.
  induction l as [|i l IH]; intros x y Hu Hx H; [injection H as <-; exact Hx|].
  apply Forall_cons_iff in Hu as [Hi Hu]. rewrite derive_along_cons in H.
  destruct (derive P x i) as [z| | |] eqn:E; try discriminate.
  exact (IH z y Hu (derive_ok_wf P HP x i z Hi E) H).
Qed.

(** Derivation along a path whose every step is defined. *)
Lemma derive_along_defined l x z : Forall is_u32 l -> derives P x l z ->
  derive_along P x l = Ok z.
Proof.
  intros Hu H. induction H as [x|x i y l z Hd Hlt Hc Hr IH]; [reflexivity|].
  apply Forall_cons_iff in Hu as [Hi Hu]. rewrite derive_along_cons.
  destruct (derive_defined P HP x i Hi Hd Hlt) as (y' & E & Hc').
  rewrite E. cbn [bind]. rewrite (is_child_det P x i y' y Hc' Hc). exact (IH Hu).
Qed.

Lemma derive_along_depth l : forall x, Forall is_u32 l ->
  b2n (x_depth x) + N.of_nat (length l) <= 255 ->
  derive_along P x l <> Err SDeriveDepthTooBig /\
  (forall y, derive_along P x l = Ok y ->
     b2n (x_depth y) = b2n (x_depth x) + N.of_nat (length l)).
Proof.
  induction l as [|i l IH]; intros x Hu Hd.
  { split; [discriminate|]. intros y H; injection H as <-. cbn. lia. }
  apply Forall_cons_iff in Hu as [Hi Hu]. rewrite derive_along_cons.
  cbn [length] in *.
  destruct (derive P x i) as [y|e| |] eqn:E; cbn [bind].
  - pose proof (derive_ok_depth P HP x i y Hi E) as Hy.
    destruct (IH y Hu ltac:(lia)) as (H1 & H2). split; [exact H1|].
    intros z Hz. rewrite (H2 z Hz), Hy. lia.
  - split; [|discriminate]. intros H.
    destruct (derive_cases P HP x i Hi) as [[Hx _]|(_ & j & _ & _ & _ & Hc)]; [lia|].
    destruct Hc as [(_ & z & E' & _)|[(_ & E')|(_ & _ & _ & E')]]; congruence.
  - split; discriminate.
  - split; discriminate.
Qed.

Lemma seed_depth seed x l : Forall is_u32 l -> (length l <= 255)%nat ->
  xprv_from_seed P seed = Ok x ->
  x_depth x = x00 /\ x_index x = 0 /\ derive_along P x l <> Err SDeriveDepthTooBig /\
  (forall y, derive_along P x l = Ok y -> b2n (x_depth y) = N.of_nat (length l)).
Proof.
  intros Hu Hl H. destruct (from_seed_cases P HP seed) as [(_ & y & E & _ & _ & Hd & Hi & _)|(_ & E)];
    [|congruence].
  assert (x = y) as -> by congruence. split; [exact Hd|]. split; [exact Hi|].
  destruct (derive_along_depth l y Hu) as (H1 & H2).
  { rewrite Hd. change (b2n x00) with 0. lia. }
  split; [exact H1|]. intros z Hz. rewrite (H2 z Hz), Hd. reflexivity.
Qed.

Lemma secp_loaded_inv K n : secp_loaded P K n ->
  exists x dp, xprv_wf x /\ K = secp_key P n dp /\
    forall k, kp_wf k -> path_ok n k ->
      exists l, Forall is_u32 l /\ dp k = map_err key_of_secp (derive_along P x l).
Proof.
  intros [(-> & data & H)|(-> & data & H)].
  - cbn [btc_factory key_from_data] in H. unfold btc_from_data, rmap in H.
    destruct (xprv_from_data P data) as [x| | |] eqn:E; try discriminate.
    cbn in H. injection H as <-.
    apply (proj1 (from_data_exact P HP data)) in E as (Hwf & _).
    exists x, (btc_derive_private P x). split; [exact Hwf|]. split; [reflexivity|].
    intros k Hk Hok. apply path_ok_validate in Hok. exists (path_values k).
    split; [exact Hk|]. now rewrite btc_derive_eq, Hok.
  - cbn [eth_factory key_from_data] in H. unfold eth_from_data, rmap in H.
    destruct (xprv_from_data P data) as [x| | |] eqn:E; try discriminate. cbn [bind] in H.
    apply (proj1 (from_data_exact P HP data)) in E as (Hwf & _).
    destruct (derive P x BIP44_PURPOSE) as [y| | |] eqn:E1; try discriminate. cbn [bind] in H.
    destruct (derive P y ETH_COIN_TYPE) as [z| | |] eqn:E2; try discriminate. cbn in H.
    injection H as <-. exists z, (eth_derive_private P z).
    split; [eapply derive_ok_wf; [exact HP| |exact E2]; unfold is_u32; discriminate|].
    split; [reflexivity|]. intros k Hk Hok. apply path_ok_validate in Hok.
    exists [account k; change k; address k]. split; [|now rewrite eth_derive_eq, Hok].
    unfold kp_wf, path_values in Hk. now inversion Hk as [|? ? _ Hk']; inversion Hk'.
Qed.

Lemma secp_loaded_obeys K n : secp_loaded P K n -> obeys_rules n K (fun _ => True).
Proof.
  intros [(-> & d & H)|(-> & d & H)].
  - cbn [btc_factory key_from_data] in H. unfold rmap in H.
    destruct (btc_from_data P d) as [z| | |]; try discriminate. cbn [bind] in H.
    assert (btc_key P z = K) as <- by congruence. apply btc_obeys.
  - cbn [eth_factory key_from_data] in H. unfold rmap in H.
    destruct (eth_from_data P d) as [z| | |]; try discriminate. cbn [bind] in H.
    assert (eth_key P z = K) as <- by congruence. apply eth_obeys.
Qed.

Lemma secp_verify_sign K n k data sig : secp_loaded P K n -> kp_wf k ->
  sign K data k = Ok sig ->
  length sig = 65%nat /\
  (forall data', verify K data' sig k = Err (InvalidSignatureSize 65 64)) /\
  (secp_correct P -> verify K data (firstn 64 sig) k = Ok true).
Proof.
  intros HK Hk Hs. apply secp_loaded_inv in HK as HK'.
  destruct HK' as (x & dp & Hwf & -> & Hdp).
  destruct (path_decided n k) as [Hok|[e Hr]].
  - destruct (Hdp k Hk Hok) as (l & Hl & E).
    cbn [secp_key sign] in Hs. cbn [secp_key verify]. rewrite E in *.
    destruct (derive_along P x l) as [y| | |] eqn:Ey; try discriminate. cbn [map_err bind] in *.
    pose proof (derive_along_wf l x y Hl Hwf Ey) as (Hy & _).
    unfold public.
    destruct (xprv_sign P y data) as [sg| | |] eqn:Es; try discriminate.
    cbn in Hs. injection Hs as <-.
    split; [apply (verify_65 y data sg data Es)|]. split.
    + intros data'. rewrite (proj2 (verify_65 y data sg data' Es)). reflexivity.
    + intros HC. rewrite (verify_64 y data sg HC Hy Es). reflexivity.
  - exfalso. destruct (secp_loaded_obeys _ _ HK k) as (_ & Hb).
    destruct (Hb e Hr data sig) as (_ & Hb' & _). congruence.
Qed.

Lemma ada_verify_sign x k data sig : ed_correct P ->
  sign (ada_key P x) data k = Ok sig ->
  length sig = 64%nat /\ verify (ada_key P x) data sig k = Ok true.
Proof.
  intros HC Hs. cbn [ada_key sign] in Hs. cbn [ada_key verify].
  destruct (ada_derive_private P x k) as [y| | |]; try discriminate.
  cbn in Hs. injection Hs as <-.
  rewrite (ed_sign_len P HP). split; [reflexivity|].
  change (Nat.ltb 64 ADA_SIGNATURE_SIZE) with false.
  change (Nat.eqb 64 ADA_SIGNATURE_SIZE) with true. cbn. now rewrite HC.
Qed.

(** ** Cardano data *)
Lemma set_byte_length i f bs : length (set_byte i f bs) = length bs.
Proof.
  unfold set_byte. rewrite app_length. rewrite <- (firstn_skipn i bs) at 3.
  rewrite app_length. destruct (skipn i bs); reflexivity.
Qed.

Lemma set_byte_nth i f bs j : (i < length bs)%nat ->
  nth j (set_byte i f bs) x00 =
  if Nat.eqb j i then n2b (f (b2n (nth i bs x00))) else nth j bs x00.
Proof.
  intros Hi. unfold set_byte.
  destruct (skipn i bs) as [|b r] eqn:E.
  { apply (f_equal (@length _)) in E. rewrite skipn_length in E. cbn in E. lia. }
  assert (length (firstn i bs) = i) as Hl by (rewrite firstn_length; lia).
  assert (bs = firstn i bs ++ b :: r) as Hbs by (rewrite <- E; symmetry; apply firstn_skipn).
  assert (nth i bs x00 = b) as Hb.
  { rewrite Hbs, app_nth2; rewrite Hl; [now rewrite Nat.sub_diag|lia]. }
  rewrite Hb. destruct (Nat.eqb_spec j i) as [->|Hne].
  - rewrite app_nth2; rewrite Hl; [now rewrite Nat.sub_diag|lia].
  - rewrite Hbs at 2. destruct (Nat.lt_ge_cases j i).
    + rewrite !app_nth1 by (rewrite Hl; lia). reflexivity.
    + rewrite !app_nth2 by (rewrite Hl; lia). rewrite Hl.
      destruct (j - i)%nat as [|m] eqn:Em; [lia|]. reflexivity.
Qed.

Lemma clamp_bits b : b2n b < 256 ->
  b2n (n2b (N.land (b2n b) 248)) = 8 * (b2n b / 8) /\
  b2n (n2b (N.land (b2n (n2b (N.lor (b2n (n2b (N.land (b2n b) 63))) 64))) 0xDF))
    = 64 + b2n b mod 32 /\
  N.land (8 * (b2n b / 8)) 7 = 0 /\ N.land (64 + b2n b mod 32) 0xE0 = 0x40.
Proof. intros _. destruct b; vm_compute; auto. Qed.

Lemma ada_seed_data seed : length seed = 64%nat ->
  exists h, clamped (sha512 P (firstn 32 seed)) h /\
    key_data_from_seed (ada_factory P) seed = Ok (h ++ skipn 32 seed) /\
    length (h ++ skipn 32 seed) = 96%nat /\
    exists K, key_from_data (ada_factory P) (h ++ skipn 32 seed) = Ok K.
Proof.
  intros Hl. cbn [ada_factory key_data_from_seed key_from_data].
  unfold with_seed, seed_from_slice. rewrite Hl.
  change (Nat.eqb 64 SEED_SIZE) with true. cbn [negb map_err bind].
  unfold ada_data_from_seed. rewrite slice_0, slice_32_64 by exact Hl.
  set (h0 := sha512 P (firstn 32 seed)).
  assert (length h0 = 64%nat) as Hh0 by apply (sha512_len P HP).
  set (h := set_byte 31 _ (set_byte 31 _ (set_byte 31 _ (set_byte 0 _ h0)))).
  assert (length h = 64%nat) as Hh by (unfold h; rewrite !set_byte_length; exact Hh0).
  assert (b2n (nth 0 h x00) = 8 * (b2n (nth 0 h0 x00) / 8)) as H0.
  { unfold h. rewrite !set_byte_nth by (rewrite ?set_byte_length, Hh0; lia). cbn [Nat.eqb].
    apply (clamp_bits (nth 0 h0 x00)), b2n_lt. }
  assert (b2n (nth 31 h x00) = 64 + b2n (nth 31 h0 x00) mod 32) as H31.
  { unfold h. rewrite !set_byte_nth by (rewrite ?set_byte_length, Hh0; lia). cbn [Nat.eqb].
    apply (clamp_bits (nth 31 h0 x00)), b2n_lt. }
  assert (from_bytes_verified (h ++ skipn 32 seed) = Ok (h ++ skipn 32 seed)) as Hv.
  { unfold from_bytes_verified.
    rewrite !app_nth1 by (rewrite Hh; lia). rewrite H0, H31.
    destruct (clamp_bits (nth 31 h0 x00) (b2n_lt _)) as (_ & _ & _ & ->).
    destruct (clamp_bits (nth 0 h0 x00) (b2n_lt _)) as (_ & _ & -> & _). reflexivity. }
  assert (length (h ++ skipn 32 seed) = 96%nat) as H96
    by (rewrite app_length, skipn_length, Hh, Hl; reflexivity).
  exists h. split.
  { split; [congruence|]. split; [|split; assumption].
    intros i Hi0 Hi31. unfold h.
    rewrite !set_byte_nth by (rewrite ?set_byte_length, Hh0; lia).
    apply Nat.eqb_neq in Hi0 as ->. now apply Nat.eqb_neq in Hi31 as ->. }
  split; [exact Hv|]. split; [exact H96|].
  unfold ada_from_data. rewrite H96. change (Nat.ltb 96 XPRV_SIZE) with false.
  change (Nat.eqb 96 XPRV_SIZE) with true. cbn [negb]. rewrite Hv. cbn. eauto.
Qed.

Lemma ada_load_cases data :
  ((length data < 96)%nat ->
     key_from_data (ada_factory P) data = Err (InvalidKeySize (N.of_nat (length data)) 96)) /\
  (length data = 96%nat ->
     (b2n (nth 31 data x00) / 32 <> 2 ->
        key_from_data (ada_factory P) data = Err (InvalidKeyData (BoxAda AHighestBitsInvalid))) /\
     (b2n (nth 31 data x00) / 32 = 2 -> b2n (nth 0 data x00) mod 8 <> 0 ->
        key_from_data (ada_factory P) data = Err (InvalidKeyData (BoxAda ALowestBitsInvalid))) /\
     (b2n (nth 31 data x00) / 32 = 2 -> b2n (nth 0 data x00) mod 8 = 0 ->
        key_from_data (ada_factory P) data
        = Ok (ada_key P (ed_derive_along P data [2 ^ 31 + 44; 2 ^ 31 + 1815])))) /\
  ((96 < length data)%nat -> key_from_data (ada_factory P) data = Panic).
Proof.
  assert (forall b, (N.land (b2n b) 0xE0 =? 0x40) = (b2n b / 32 =? 2) /\
                    (N.land (b2n b) 7 =? 0) = (b2n b mod 8 =? 0)) as Hb
    by (intros []; vm_compute; auto).
  cbn [ada_factory key_from_data]. unfold ada_from_data, XPRV_SIZE. split; [|split].
  - intros H. apply Nat.ltb_lt in H as ->. reflexivity.
  - intros ->. change (Nat.ltb 96 96) with false. change (Nat.eqb 96 96) with true. cbn [negb].
    unfold from_bytes_verified. rewrite (proj1 (Hb _)), (proj2 (Hb _)).
    destruct (N.eqb_spec (b2n (nth 31 data x00) / 32) 2) as [E|E]; cbn [negb].
    2:{ split; [reflexivity|]. split; congruence. }
    split; [congruence|].
    destruct (N.eqb_spec (b2n (nth 0 data x00) mod 8) 0) as [E'|E']; cbn [negb].
    + split; [congruence|]. reflexivity.
    + split; [reflexivity|]. congruence.
  - intros H. destruct (Nat.ltb_spec (length data) 96); [lia|].
    destruct (Nat.eqb_spec (length data) 96); [lia|]. reflexivity.
Qed.

Lemma ada_verify_cases x k data sig :
  ((length sig < 64)%nat ->
     verify (ada_key P x) data sig k = Err (InvalidSignatureSize (N.of_nat (length sig)) 64)) /\
  ((64 < length sig)%nat -> verify (ada_key P x) data sig k = Panic) /\
  (length sig = 64%nat -> verify (ada_key P x) data sig k <> Panic).
Proof.
  cbn [ada_key verify]. unfold ADA_SIGNATURE_SIZE. split; [|split].
  - intros H. apply Nat.ltb_lt in H as ->. reflexivity.
  - intros H. destruct (Nat.ltb_spec (length sig) 64); [lia|].
    destruct (Nat.eqb_spec (length sig) 64); [lia|]. reflexivity.
  - intros ->. change (Nat.ltb 64 64) with false. change (Nat.eqb 64 64) with true. cbn [negb].
    rewrite ada_derive_eq. destruct (validate _ k); discriminate.
Qed.
End K.

(** ** Facts stated for the property files *)
Lemma serialize_round_trip P x : prims_ok P -> xprv_wf x ->
  xprv_serialize P x = xprv_layout P x /\ length (xprv_serialize P x) = 77%nat /\
  xprv_from_data P (xprv_serialize P x) = Ok x.
Proof.
  intros HP Hwf. rewrite serialize_layout. split; [reflexivity|].
  split; [now apply layout_length|]. now apply (from_data_exact P HP).
Qed.

Lemma cut_app {A} n (a b : list A) : length a = n ->
  firstn n (a ++ b) = a /\ skipn n (a ++ b) = b.
Proof.
  intros <-. rewrite firstn_app, skipn_app, Nat.sub_diag, firstn_all, skipn_all, firstn_O, app_nil_r.
  auto.
Qed.

Lemma cut_middle {A} n m (a b c : list A) : length a = n -> length b = m ->
  firstn m (skipn n (a ++ b ++ c)) = b.
Proof.
  intros Ha Hb. rewrite (proj2 (cut_app n a (b ++ c) Ha)). now apply cut_app.
Qed.

Lemma from_data_accepts P data : prims_ok P ->
  (exists x, xprv_from_data P data = Ok x) <->
  length data = 77%nat /\
  skipn 73 data = firstn 4 (sha256 P (sha256 P (firstn 73 data))) /\
  0 < of_be (firstn 32 (skipn 41 data)) < secp_n.
Proof.
  intros HP. split.
  - intros [x H]. apply (from_data_exact P HP) in H as (Hwf & ->).
    split; [now apply layout_length|].
    assert (length (xprv_payload x) = 73%nat) as Hl by now apply payload_length.
    unfold xprv_layout. split.
    + now rewrite (proj1 (cut_app _ _ _ Hl)), (proj2 (cut_app _ _ _ Hl)).
    + destruct Hwf as (Hk & Hc & Hf & Hi).
      assert (firstn 32 (skipn 41 (xprv_payload x ++
        firstn 4 (sha256 P (sha256 P (xprv_payload x))))) = ser256 (x_key x)) as ->.
      { unfold xprv_payload at 1. rewrite !app_assoc. rewrite <- (app_assoc _ (ser256 _)).
        apply cut_middle; [|apply be_length].
        unfold ser32. rewrite !app_length, be_length, Hc, Hf. reflexivity. }
      unfold ser256. rewrite of_be_be; [exact Hk|].
      eapply N.lt_trans; [apply Hk|reflexivity].
  - intros (Hl & Hck & Hk).
    destruct (split_fields data Hl) as (d & fp & idx & cc & key & ck & -> & Hf & Hi & Hc & Hky & Hs).
    rewrite parse_layout by assumption.
    assert (length ([d] ++ fp ++ idx ++ cc ++ key) = 73%nat) as Hp
      by (rewrite !app_length, Hf, Hi, Hc, Hky; reflexivity).
    set (payload := [d] ++ fp ++ idx ++ cc ++ key) in *.
    rewrite (proj1 (cut_app _ _ _ Hp)), (proj2 (cut_app _ _ _ Hp)) in Hck. unfold double_sha. rewrite <- Hck, bytes_eqb_refl.
    assert (firstn 32 (skipn 41 (payload ++ ck)) = key) as E.
    { unfold payload. rewrite !app_assoc. rewrite <- (app_assoc _ key).
      apply cut_middle; [|exact Hky]. rewrite !app_length, Hc, Hf, Hi. reflexivity. }
    rewrite E in Hk. destruct (secret_parse_32 key Hky) as [[_ ->]|[Hn _]]; [|tauto].
    cbn. eauto.
Qed.

Lemma from_data_total P data : prims_ok P ->
  xprv_from_data P data <> Panic /\ xprv_from_data P data <> Undef.
Proof.
  intros HP. unfold xprv_from_data.
  destruct (negb _); [split; discriminate|]. destruct (negb _); [split; discriminate|].
  unfold secret_parse. destruct (negb _); [split; discriminate|].
  destruct (_ || _); split; discriminate.
Qed.

Lemma hardened_no_curve P P' x i :
  hmac_sha512 P = hmac_sha512 P' -> 2 ^ 31 <= i ->
  ckd_key P x i = ckd_key P' x i /\ ckd_right P x i = ckd_right P' x i.
Proof.
  intros Hh Hi. unfold ckd_key, ckd_right, ckd_left, ckd_hmac.
  apply N.leb_le in Hi as ->. now rewrite Hh.
Qed.

Lemma soft_becomes_hard : exists (P : prims) (x y : XPrv) (i : N),
  prims_ok P /\ xprv_wf x /\ i < 2 ^ 31 /\ derive P x i = Ok y /\ 2 ^ 31 <= x_index y.
Proof.
  exists toy_zero,
    {| x_key := 1; x_chaincode := repeat x00 32; x_parent_fingerprint := repeat x00 4;
       x_depth := x00; x_index := 0 |},
    {| x_key := 6; x_chaincode := repeat x00 32;
       x_parent_fingerprint := [x00; x00; x00; x00];
       x_depth := x01; x_index := 2 ^ 31 |}, (2 ^ 31 - 1).
  split; [exact toy_zero_ok|]. split.
  { split; [split; reflexivity|]. split; [reflexivity|]. split; [reflexivity|].
    vm_compute. discriminate. }
  split; [reflexivity|]. split; [vm_compute; reflexivity|]. vm_compute. discriminate.
Qed.

Lemma bad_left_fails : exists (P : prims) (x : XPrv) (i : N),
  prims_ok P /\ xprv_wf x /\ ckd_defined P x (i + 1) /\
  derive P x i = Err SInvalidSecretKey.
Proof.
  exists toy_left,
    {| x_key := 1; x_chaincode := repeat x00 32; x_parent_fingerprint := repeat x00 4;
       x_depth := x00; x_index := 0 |}, 8.
  split; [exact toy_left_ok|]. split.
  { split; [split; reflexivity|]. split; [reflexivity|]. split; [reflexivity|].
    vm_compute. discriminate. }
  split; [|vm_compute; reflexivity].
  split; [split; vm_compute; reflexivity|vm_compute; discriminate].
Qed.

Lemma five_steps : exists x y,
  xprv_from_seed toy (repeat x11 64) = Ok x /\
  derive_along toy x [0x8000002C; 0x80000000; 0x80000000; 0; 7] = Ok y /\
  x_depth y = x05 /\ x_index y = 7.
Proof.
  assert (match xprv_from_seed toy (repeat x11 64) with
          | Ok x =>
            match derive_along toy x [0x8000002C; 0x80000000; 0x80000000; 0; 7] with
            | Ok y => byte_eqb (x_depth y) x05 && (x_index y =? 7)
            | _ => false
            end
          | _ => false
          end = true) as H by (vm_compute; reflexivity).
  destruct (xprv_from_seed _ _) as [x| | |]; try discriminate.
  destruct (derive_along _ _ _) as [y| | |] eqn:E; try discriminate.
  apply andb_true_iff in H as [Hd Hi]. exists x, y.
  split; [reflexivity|]. split; [exact E|]. split; [now apply byte_eqb_eq|now apply N.eqb_eq].
Qed.

Lemma btc_any_purpose : exists k : KeyPath, purpose k = 0 /\ path_ok (2 ^ 31) k.
Proof.
  exists {| purpose := 0; coin := 2 ^ 31; account := 2 ^ 31; change := 0; address := 0 |}.
  split; [reflexivity|now apply path_ok_validate].
Qed.

Lemma testnet_refused : exists (P : prims) x k,
  btc_bip44 Debug true 0 0 0 = Ok k /\
  pub_key (btc_key P x) k = Err (InvalidKeyPath (InvalidCoin 0x80000001 0x80000000)).
Proof.
  exists toy,
    {| x_key := 1; x_chaincode := repeat x00 32; x_parent_fingerprint := repeat x00 4;
       x_depth := x00; x_index := 0 |},
    {| purpose := 0x8000002C; coin := 0x80000001; account := 0x80000000; change := 0;
       address := 0 |}.
  split; reflexivity.
Qed.

Lemma secp_transparent (P : prims) (f : KeyFactory) (n : N) :
  (f = btc_factory P /\ n = 2 ^ 31) \/ (f = eth_factory P /\ n = 2 ^ 31 + 60) ->
  forall data k msg sig, path_ok n k ->
  let master := let* x := xprv_from_data P data in derive_along P x (path_values k) in
  (let* K := key_from_data f data in pub_key K k)
  = rmap (fun x => pub_serialize (secp_pub P (x_key x))) (map_err key_of_secp master) /\
  (let* K := key_from_data f data in sign K msg k)
  = (let* x := map_err key_of_secp master in map_err secp_sign_error (xprv_sign P x msg)) /\
  (let* K := key_from_data f data in verify K msg sig k)
  = (let* x := map_err key_of_secp master in
     map_err key_of_secp (xpub_verify P (secp_pub P (x_key x)) msg sig)).
Proof.
  intros [[-> ->]|[-> ->]] data k msg sig Hok;
    [now apply btc_transparent|now apply eth_transparent].
Qed.

Lemma secp_bip32 (P : prims) (f : KeyFactory) (n : N) : prims_ok P ->
  (f = btc_factory P /\ n = 2 ^ 31) \/ (f = eth_factory P /\ n = 2 ^ 31 + 60) ->
  forall x z k msg, kp_wf k -> path_ok n k -> xprv_wf x -> derives P x (path_values k) z ->
  exists K, key_from_data f (xprv_layout P x) = Ok K /\
    pub_key K k = Ok ([x04] ++ be 32 (fst (secp_pub P (x_key z)))
                            ++ be 32 (snd (secp_pub P (x_key z)))) /\
    sign K msg k = map_err secp_sign_error (xprv_sign P z msg).
Proof.
  intros HP Hf x z k msg Hk Hok Hwf Hd.
  destruct (secp_transparent P f n Hf (xprv_layout P x) k msg [] Hok) as (H1 & H2 & _).
  assert (xprv_from_data P (xprv_layout P x) = Ok x) as Hx by now apply (from_data_exact P HP).
  rewrite Hx in H1, H2. cbn [bind] in H1, H2.
  rewrite (derive_along_defined P HP _ _ _ Hk Hd) in H1, H2. cbn [map_err bind rmap] in H1, H2.
  destruct (key_from_data f (xprv_layout P x)) as [K| | |]; cbn [bind] in H1, H2;
    try discriminate H1.
  exists K. split; [reflexivity|]. split; [exact H1|exact H2].
Qed.

(** The key of the toy primitives used in the examples. *)
Definition toy_xprv : XPrv :=
  {| x_key := 1; x_chaincode := repeat x00 32; x_parent_fingerprint := repeat x00 4;
     x_depth := x00; x_index := 0 |}.

Lemma toy_xprv_wf : xprv_wf toy_xprv.
Proof.
  split; [split; reflexivity|]. split; [reflexivity|]. split; [reflexivity|].
  vm_compute. discriminate.
Qed.

Definition child (P : prims) (x : XPrv) (i : N) : XPrv :=
  match derive P x i with Ok y => y | _ => x end.

Definition ckd_definedb (P : prims) (x : XPrv) (i : N) : bool :=
  (0 <? ckd_left P x i) && (ckd_left P x i <? secp_n) && negb (ckd_key P x i =? 0)
  && (b2n (x_depth x) <? 255).

Fixpoint derivesb (P : prims) (x : XPrv) (l : list N) : bool :=
  match l with
  | [] => true
  | i :: r => (i <=? u32_max) && ckd_definedb P x i && derivesb P (child P x i) r
  end.

Lemma fold_left_cons {A B} (f : A -> B -> A) b l a :
  fold_left f (b :: l) a = fold_left f l (f a b).
Proof. reflexivity. Qed.

Lemma derivesb_derives P l : prims_ok P -> forall x, derivesb P x l = true ->
  derives P x l (fold_left (child P) l x).
Proof.
  intros HP. induction l as [|i l IH]; intros x H; [constructor|].
  cbn [derivesb] in H. rewrite !andb_true_iff in H. destruct H as ((Hi & Hd) & Hr).
  unfold ckd_definedb in Hd. rewrite !andb_true_iff, negb_true_iff in Hd.
  destruct Hd as (((H0 & H1) & H2) & H3).
  apply N.ltb_lt in H0, H1, H3. apply N.eqb_neq in H2. apply N.leb_le in Hi.
  assert (ckd_defined P x i) as Hd by (split; [split; assumption|assumption]).
  destruct (derive_defined P HP x i Hi Hd H3) as (y & E & Hc).
  assert (child P x i = y) as Hy by (unfold child; now rewrite E).
  rewrite fold_left_cons, Hy. rewrite Hy in Hr.
  exact (derives_cons P x i y l _ Hd H3 Hc (IH y Hr)).
Qed.

Lemma bip32_case : exists x z,
  let k := {| purpose := 0x8000002C; coin := 0x8000003C; account := 0x80000000; change := 0;
              address := 3 |} in
  kp_wf k /\ path_ok (2 ^ 31 + 60) k /\ xprv_wf x /\ derives toy x (path_values k) z.
Proof.
  exists toy_xprv. eexists. cbv zeta. split; [repeat constructor; discriminate|].
  split; [now apply path_ok_validate|]. split; [exact toy_xprv_wf|].
  apply derivesb_derives; [exact toy_ok|vm_compute; reflexivity].
Qed.

Lemma own_signature_refused : exists P K k data sig,
  prims_ok P /\ secp_correct P /\ secp_loaded P K (2 ^ 31) /\ kp_wf k /\
  sign K data k = Ok sig /\ verify K data sig k = Err (InvalidSignatureSize 65 64).
Proof.
  set (k := {| purpose := 0x8000002C; coin := 0x80000000; account := 0x80000000; change := 0;
               address := 3 |}).
  assert (kp_wf k) as Hk by (repeat constructor; discriminate).
  assert (path_ok (2 ^ 31) k) as Hok by now apply path_ok_validate.
  assert (derives toy toy_xprv (path_values k) (fold_left (child toy) (path_values k) toy_xprv)) as Hd
    by (apply derivesb_derives; [exact toy_ok|vm_compute; reflexivity]).
  destruct (secp_bip32 toy (btc_factory toy) (2 ^ 31) toy_ok
              (or_introl (conj eq_refl eq_refl)) toy_xprv _ k [x01] Hk Hok toy_xprv_wf Hd)
    as (K & HK & _ & Hs).
  assert (secp_loaded toy K (2 ^ 31)) as HL by (left; eauto).
  cbn [xprv_sign toy secp_sign] in Hs. unfold xprv_sign in Hs. cbn [toy secp_sign] in Hs.
  change (negb (1 =? 0) && negb (1 =? 1)) with false in Hs. cbn [map_err] in Hs.
  exists toy, K, k, [x01]. eexists. split; [exact toy_ok|]. split; [exact toy_secp|].
  split; [exact HL|]. split; [exact Hk|]. split; [exact Hs|].
  apply (secp_verify_sign toy toy_ok K (2 ^ 31) k [x01] _ HL Hk Hs).
Qed.

Lemma ada_verify_panics : exists (P : prims) x k data sig,
  verify (ada_key P x) data sig k = Panic.
Proof.
  exists toy, [], {| purpose := 0; coin := 0; account := 0; change := 0; address := 0 |}, [],
    (repeat x00 65).
  apply ada_verify_cases. rewrite repeat_length. lia.
Qed.
