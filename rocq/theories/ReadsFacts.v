From Verif Require Import Base BaseFacts Prims KeyPath KeyPathSpec Errors XPrv XPrvSpec XPrvFacts Keys KeysSpec KeysFacts FMap Reads ReadsSpec.

(** ** Talks *)
Lemma told_nil O : told O [].
Proof. intros pre g n post E. now destruct pre. Qed.
Lemma told_snoc O t g n : told O t -> O (map fst t) g = Some n -> told O (t ++ [(g, n)]).
Proof.
  intros Ht Hn pre g' n' post E.
  destruct post as [|x post] using rev_ind; [|clear IHpost].
  - apply app_inj_tail in E as [-> E]. injection E as -> ->. exact Hn.
  - rewrite app_comm_cons, app_assoc in E. apply app_inj_tail in E as [E _]. now apply Ht in E.
Qed.
Lemma told_app O t u : told O (t ++ u) -> told O t.
Proof. intros H pre g n post ->. eapply (H pre g n (post ++ u)). now rewrite <- app_assoc. Qed.

Lemma ask_case {E} O t g : told O t ->
  (exists n, O (map fst t) g = Some n /\ told O (t ++ [(g, n)]) /\
     @ask E O g (map fst t) = (Ok n, map fst (t ++ [(g, n)]))) \/
  (O (map fst t) g = None /\ @ask E O g (map fst t) = (Panic, map fst t ++ [g])).
Proof.
  intros Ht. unfold ask. destruct (O (map fst t) g) as [n|] eqn:En.
  - left. exists n. split; [reflexivity|]. split; [now apply told_snoc|]. now rewrite map_app.
  - now right.
Qed.

Lemma andthen_ok {E A B} (m : asking E A) (k : A -> asking E B) h a h' : m h = (Ok a, h') -> andthen m k h = k a h'.
Proof. intros H. unfold andthen. now rewrite H. Qed.
Lemma andthen_panic {E A B} (m : asking E A) (k : A -> asking E B) h h' : m h = (Panic, h') -> andthen m k h = (Panic, h').
Proof. intros H. unfold andthen. now rewrite H. Qed.

Definition stuck {E A} (O : path_object) (r : res E A * list getter) : Prop :=
  exists t g, told O t /\ O (map fst t) g = None /\ r = (Panic, map fst t ++ [g]).

(** ** The checks *)
Lemma check_rest_spec {A} n O (k : asking key_error A) t : told O t ->
  let r := o_check_rest O k (map fst t) in
  (exists pre c post ts f e, [GAccount; GChange; GAddress] = pre ++ c :: post /\ Forall2 (passes n) pre ts /\
     fails n c f e /\ told O (t ++ concat ts ++ f) /\
     r = (Err (InvalidKeyPath e), map fst (t ++ concat ts ++ f))) \/
  (exists ts, Forall2 (passes n) [GAccount; GChange; GAddress] ts /\ told O (t ++ concat ts) /\
     r = k (map fst (t ++ concat ts))) \/
  stuck O r.
Proof.
  intros Ht. cbv zeta. unfold o_check_rest.
  destruct (@ask_case key_error O t GAccount Ht) as [(a & Ea & Ha & Aa)|[Na Aa]].
  2:{ right; right. exists t, GAccount. split; [exact Ht|]. split; [exact Na|]. exact (andthen_panic _ _ _ _ Aa). }
  rewrite (andthen_ok _ _ _ _ _ Aa). unfold BIP44_SOFT_UPPER_BOUND.
  destruct (N.ltb_spec a 0x80000000) as [La|La].
  { destruct (@ask_case key_error O _ GAccount Ha) as [(b & Eb & Hb & Ab)|[Nb Ab]].
    - left. exists [], GAccount, [GChange; GAddress], [], [(GAccount, a); (GAccount, b)], (InvalidAccount b).
      cbn [concat app]. rewrite <- app_assoc in Hb. split; [reflexivity|]. split; [constructor|].
      split; [constructor; exact La|]. split; [exact Hb|]. rewrite (andthen_ok _ _ _ _ _ Ab), <- app_assoc. reflexivity.
    - right; right. exists (t ++ [(GAccount, a)]), GAccount. split; [exact Ha|]. split; [exact Nb|]. exact (andthen_panic _ _ _ _ Ab). }
  assert (passes n GAccount [(GAccount, a)]) as Pa by (constructor; exact La).
  destruct (@ask_case key_error O _ GChange Ha) as [(c & Ec & Hc & Ac)|[Nc Ac]].
  2:{ right; right. exists (t ++ [(GAccount, a)]), GChange. split; [exact Ha|]. split; [exact Nc|]. exact (andthen_panic _ _ _ _ Ac). }
  rewrite (andthen_ok _ _ _ _ _ Ac).
  (* after the change has been found good in the talk [u] *)
  assert (forall u, passes n GChange u -> told O (t ++ [(GAccount, a)] ++ u) ->
    let r := (let! d := ask O GAddress in
              if 0x80000000 <=? d
              then let! d := ask O GAddress in of_res (path_err (InvalidAddress d))
              else k) (map fst (t ++ [(GAccount, a)] ++ u)) in
    (exists pre c post ts f e, [GAccount; GChange; GAddress] = pre ++ c :: post /\ Forall2 (passes n) pre ts /\
       fails n c f e /\ told O (t ++ concat ts ++ f) /\
       r = (Err (InvalidKeyPath e), map fst (t ++ concat ts ++ f))) \/
    (exists ts, Forall2 (passes n) [GAccount; GChange; GAddress] ts /\ told O (t ++ concat ts) /\
       r = k (map fst (t ++ concat ts))) \/
    stuck O r) as Hrest.
  { intros u Pu Hu. cbv zeta.
    destruct (@ask_case key_error O _ GAddress Hu) as [(d & Ed & Hd & Ad)|[Nd Ad]].
    2:{ right; right. exists (t ++ [(GAccount, a)] ++ u), GAddress. split; [exact Hu|]. split; [exact Nd|]. exact (andthen_panic _ _ _ _ Ad). }
    rewrite (andthen_ok _ _ _ _ _ Ad). unfold BIP44_SOFT_UPPER_BOUND.
    destruct (N.leb_spec 0x80000000 d) as [Ld|Ld].
    - destruct (@ask_case key_error O _ GAddress Hd) as [(b & Eb & Hb & Ab)|[Nb Ab]].
      + left. exists [GAccount; GChange], GAddress, [], [[(GAccount, a)]; u], [(GAddress, d); (GAddress, b)], (InvalidAddress b).
        assert (t ++ concat [[(GAccount, a)]; u] ++ [(GAddress, d); (GAddress, b)]
          = ((t ++ [(GAccount, a)] ++ u) ++ [(GAddress, d)]) ++ [(GAddress, b)]) as Eq.
        { cbn [concat]. rewrite app_nil_r, <- !app_assoc. reflexivity. }
        rewrite Eq. split; [reflexivity|]. split; [repeat constructor; assumption|]. split; [constructor; exact Ld|].
        split; [exact Hb|]. exact (andthen_ok _ _ _ _ _ Ab).
      + right; right. exists ((t ++ [(GAccount, a)] ++ u) ++ [(GAddress, d)]), GAddress. split; [exact Hd|]. split; [exact Nb|].
        exact (andthen_panic _ _ _ _ Ab).
    - right; left. exists [[(GAccount, a)]; u; [(GAddress, d)]].
      assert (t ++ concat [[(GAccount, a)]; u; [(GAddress, d)]] = (t ++ [(GAccount, a)] ++ u) ++ [(GAddress, d)]) as Eq.
      { cbn [concat]. rewrite app_nil_r, <- !app_assoc. reflexivity. }
      rewrite Eq. split; [repeat constructor; assumption|]. split; [exact Hd|reflexivity]. }
  destruct (N.eqb_spec c 0) as [->|Nc].
  { rewrite (andthen_ok (of_res (Ok false)) _ _ _ _ eq_refl). rewrite <- app_assoc in Hc |- *. apply Hrest; [constructor|exact Hc]. }
  destruct (@ask_case key_error O _ GChange Hc) as [(c' & Ec' & Hc' & Ac')|[Nc' Ac']].
  2:{ right; right. exists ((t ++ [(GAccount, a)]) ++ [(GChange, c)]), GChange. split; [exact Hc|]. split; [exact Nc'|].
      exact (andthen_panic _ _ _ _ (andthen_panic _ _ _ _ Ac')). }
  rewrite (andthen_ok _ _ _ _ _ (andthen_ok _ _ _ _ _ Ac')).
  destruct (N.eqb_spec c' 1) as [->|N1]; cbn [negb].
  { rewrite <- !app_assoc in Hc' |- *. apply Hrest; [now constructor|exact Hc']. }
  destruct (@ask_case key_error O _ GChange Hc') as [(c2 & Ec2 & Hc2 & Ac2)|[Nc2 Ac2]].
  - left. exists [GAccount], GChange, [GAddress], [[(GAccount, a)]], [(GChange, c); (GChange, c'); (GChange, c2)], (InvalidChange c2).
    assert (t ++ concat [[(GAccount, a)]] ++ [(GChange, c); (GChange, c'); (GChange, c2)]
      = (((t ++ [(GAccount, a)]) ++ [(GChange, c)]) ++ [(GChange, c')]) ++ [(GChange, c2)]) as Eq.
    { cbn [concat]. rewrite app_nil_r, <- !app_assoc. reflexivity. }
    rewrite Eq. split; [reflexivity|]. split; [repeat constructor; assumption|]. split; [now constructor|].
    split; [exact Hc2|]. exact (andthen_ok _ _ _ _ _ Ac2).
  - right; right. exists (((t ++ [(GAccount, a)]) ++ [(GChange, c)]) ++ [(GChange, c')]), GChange. split; [exact Hc'|].
    split; [exact Nc2|]. exact (andthen_panic _ _ _ _ Ac2).
Qed.

(** ** Deriving *)
Section P.
Variable P : prims.

Fixpoint o_along (O : path_object) (x : XPrv) (gs : list getter) : asking secp_error XPrv :=
  match gs with
  | [] => of_res (Ok x)
  | g :: gs => let! i := ask O g in let! y := of_res (derive P x i) in o_along O y gs
  end.

Lemma along_spec O (HP : prims_ok P) (HO : object_ok O) gs : forall x t, told O t ->
  let r := o_along O x gs (map fst t) in
  (exists vs z, length vs = length gs /\ told O (t ++ combine gs vs) /\ derive_along P x vs = Ok z /\
     r = (Ok z, map fst t ++ gs)) \/
  (exists vs v g post y e, told O (t ++ combine gs (vs ++ [v])) /\
     length gs = (length vs + 1 + length post)%nat /\ derive_along P x vs = Ok y /\ derive P y v = Err e /\
     gs = g ++ post /\ r = (Err e, map fst t ++ g)) \/
  stuck O r.
Proof.
  induction gs as [|g gs IH]; intros x t Ht; cbv zeta; cbn [o_along].
  - left. exists [], x. cbn [combine length derive_along]. rewrite !app_nil_r. auto.
  - destruct (@ask_case secp_error O t g Ht) as [(v & Ev & Hv & Av)|[Nv Av]].
    2:{ right; right. exists t, g. split; [exact Ht|]. split; [exact Nv|]. exact (andthen_panic _ _ _ _ Av). }
    rewrite (andthen_ok _ _ _ _ _ Av).
    destruct (derive_total P HP x v (HO _ _ _ Ev)) as [Hp Hu].
    destruct (derive P x v) as [y|e| |] eqn:Ed; [| |congruence..].
    + rewrite (andthen_ok (of_res (Ok y)) _ _ _ _ eq_refl).
      destruct (IH y _ Hv) as [(vs & z & L & Hvs & D & R)|[(vs & w & g' & post & y' & e & Hvs & L & D & De & -> & R)|S]].
      * left. exists (v :: vs), z. cbn [length combine derive_along]. rewrite Ed. cbn [bind].
        rewrite <- app_assoc in Hvs. split; [now rewrite L|]. split; [exact Hvs|]. split; [exact D|].
        rewrite R, map_app, <- app_assoc. reflexivity.
      * right; left. exists (v :: vs), w, (g :: g'), post, y', e. cbn [length combine derive_along app]. rewrite Ed. cbn [bind].
        rewrite <- app_assoc in Hvs. split; [exact Hvs|]. split; [now rewrite L|]. split; [exact D|]. split; [exact De|].
        split; [reflexivity|]. rewrite R, map_app, <- app_assoc. reflexivity.
      * right; right. exact S.
    + right; left. exists [], v, [g], gs, x, e. cbn [length combine derive_along app]. split.
      { destruct gs; exact Hv. }
      split; [lia|]. split; [reflexivity|]. split; [exact Ed|]. split; [reflexivity|].
      unfold andthen, of_res. now rewrite map_app.
Qed.

(** ** The private keys *)
Hypothesis HP : prims_ok P.

Section Checked.
Variable A : Type.
Variable O : path_object.
Variable k : asking key_error A.

(** The checks from the coin on, after a talk in which earlier parts were good. *)
Lemma from_coin n pre ts : checks n = pre ++ [GCoin; GAccount; GChange; GAddress] ->
  Forall2 (passes n) pre ts -> told O (concat ts) ->
  let r := (let! c := ask O GCoin in
            if negb (c =? n) then let! c := ask O GCoin in of_res (path_err (InvalidCoin c n))
            else o_check_rest O k) (map fst (concat ts)) in
  (exists t e, told O t /\ refused n t e /\ r = (Err (InvalidKeyPath e), map fst t)) \/
  (exists t, told O t /\ accepted n t /\ r = k (map fst t)) \/
  stuck O r.
Proof.
  intros Hc Hpre Ht. cbv zeta.
  destruct (@ask_case key_error O _ GCoin Ht) as [(c & Ec & Hcn & Ac)|[Nc Ac]].
  2:{ right; right. exists (concat ts), GCoin. split; [exact Ht|]. split; [exact Nc|]. exact (andthen_panic _ _ _ _ Ac). }
  rewrite (andthen_ok _ _ _ _ _ Ac). destruct (N.eqb_spec c n) as [->|Hne]; cbn [negb].
  - destruct (check_rest_spec n O k _ Hcn) as [(p & g & post & us & f & e & E1 & E2 & E3 & E4 & E5)|[(us & E1 & E2 & E3)|S]].
    + left. exists (concat (ts ++ [[(GCoin, n)]] ++ us) ++ f), e.
      assert (concat (ts ++ [[(GCoin, n)]] ++ us) ++ f = (concat ts ++ [(GCoin, n)]) ++ concat us ++ f) as Eq.
      { rewrite !concat_app. cbn [concat]. rewrite app_nil_r, <- !app_assoc. reflexivity. }
      rewrite Eq. split; [exact E4|]. split; [|exact E5]. rewrite <- Eq.
      exists (pre ++ GCoin :: p), g, post, (ts ++ [[(GCoin, n)]] ++ us), f.
      split; [rewrite Hc, E1, <- app_assoc; reflexivity|].
      split; [apply Forall2_app; [exact Hpre|constructor; [constructor|exact E2]]|]. auto.
    + right; left. exists (concat (ts ++ [[(GCoin, n)]] ++ us)).
      assert (concat (ts ++ [[(GCoin, n)]] ++ us) = (concat ts ++ [(GCoin, n)]) ++ concat us) as Eq.
      { rewrite !concat_app. cbn [concat]. rewrite app_nil_r, <- !app_assoc. reflexivity. }
      split; [rewrite Eq; exact E2|]. split; [|rewrite Eq; exact E3].
      exists (ts ++ [[(GCoin, n)]] ++ us). split; [|reflexivity]. rewrite Hc.
      apply Forall2_app; [exact Hpre|]. constructor; [constructor|exact E1].
    + right; right. exact S.
  - destruct (@ask_case key_error O _ GCoin Hcn) as [(b & Eb & Hb & Ab)|[Nb Ab]].
    + left. exists (concat ts ++ [(GCoin, c); (GCoin, b)]), (InvalidCoin b n).
      rewrite <- app_assoc in Hb. split; [exact Hb|]. split.
      * exists pre, GCoin, [GAccount; GChange; GAddress], ts, [(GCoin, c); (GCoin, b)].
        split; [exact Hc|]. split; [exact Hpre|]. split; [now constructor|reflexivity].
      * rewrite (andthen_ok _ _ _ _ _ Ab), <- app_assoc. reflexivity.
    + right; right. exists (concat ts ++ [(GCoin, c)]), GCoin. split; [exact Hcn|]. split; [exact Nb|].
      exact (andthen_panic _ _ _ _ Ab).
Qed.

Lemma from_purpose n : n <> 2 ^ 31 ->
  let r := (let! p := ask O GPurpose in
            if negb (p =? 0x8000002C) then let! p := ask O GPurpose in of_res (path_err (InvalidPurpose p 0x8000002C))
            else let! c := ask O GCoin in
            if negb (c =? n) then let! c := ask O GCoin in of_res (path_err (InvalidCoin c n))
            else o_check_rest O k) [] in
  (exists t e, told O t /\ refused n t e /\ r = (Err (InvalidKeyPath e), map fst t)) \/
  (exists t, told O t /\ accepted n t /\ r = k (map fst t)) \/
  stuck O r.
Proof.
  intros Hn. cbv zeta.
  assert (checks n = [GPurpose; GCoin; GAccount; GChange; GAddress]) as Hc.
  { unfold checks. destruct (N.eqb_spec n (2 ^ 31)); [congruence|reflexivity]. }
  destruct (@ask_case key_error O [] GPurpose (told_nil O)) as [(p & Ep & Hp & Ap)|[Np Ap]].
  2:{ right; right. exists [], GPurpose. split; [apply told_nil|]. split; [exact Np|]. exact (andthen_panic _ _ _ _ Ap). }
  change (map fst (@nil (getter * N))) with (@nil getter) in Ap.
  rewrite (andthen_ok _ _ _ _ _ Ap). destruct (N.eqb_spec p 0x8000002C) as [->|Hne]; cbn [negb].
  - apply (from_coin n [GPurpose] [[(GPurpose, 0x8000002C)]] Hc); [|exact Hp]. constructor; constructor.
  - destruct (@ask_case key_error O _ GPurpose Hp) as [(b & Eb & Hb & Ab)|[Nb Ab]].
    + left. exists [(GPurpose, p); (GPurpose, b)], (InvalidPurpose b 0x8000002C). split; [exact Hb|]. split.
      * exists [], GPurpose, [GCoin; GAccount; GChange; GAddress], [], [(GPurpose, p); (GPurpose, b)].
        split; [exact Hc|]. split; [constructor|]. split; [now constructor|reflexivity].
      * rewrite (andthen_ok _ _ _ _ _ Ab). reflexivity.
    + right; right. exists [(GPurpose, p)], GPurpose. split; [exact Hp|]. split; [exact Nb|].
      exact (andthen_panic _ _ _ _ Ab).
Qed.
End Checked.

Lemma secp_derivation O n x t : object_ok O -> told O t -> accepted n t ->
  let r := asking_map (map_err key_of_secp) (o_along O x (parts n)) (map fst t) in
  secp_outcome P n x O (fst r) (snd r).
Proof.
  intros HO Ht Ha. cbv zeta. unfold asking_map.
  destruct (along_spec O HP HO (parts n) x t Ht)
    as [(vs & z & L & Hvs & D & R)|[(vs & v & g & post & y & e & Hvs & L & D & De & Eg & R)|(u & g & Hu & Ng & R)]];
    rewrite R; cbn [fst snd map_err].
  - now apply so_derived with vs.
  - now apply so_underivable with vs v post y.
  - now apply so_panics.
Qed.

Lemma along_last O x g h :
  o_along O x [g] h = (let! i := ask O g in of_res (derive P x i)) h.
Proof.
  cbn [o_along]. unfold andthen. destruct (ask O g h) as [[i|e| |] h']; try reflexivity.
  unfold of_res. destruct (derive P x i); reflexivity.
Qed.
Lemma andthen_ext {E A B} (m : asking E A) (f g : A -> asking E B) h : (forall a h, f a h = g a h) -> andthen m f h = andthen m g h.
Proof. intros H. unfold andthen. destruct (m h) as [[]]; auto. Qed.

Theorem btc_outcome x O : object_ok O ->
  secp_outcome P (2 ^ 31) x O (fst (o_btc_derive_private P x O [])) (snd (o_btc_derive_private P x O [])).
Proof.
  intros HO.
  assert (forall h, (let! i := ask O GPurpose in
       let! pk := of_res (derive P x i) in
       let! i := ask O GCoin in
       let! pk := of_res (derive P pk i) in
       let! i := ask O GAccount in
       let! pk := of_res (derive P pk i) in
       let! i := ask O GChange in
       let! pk := of_res (derive P pk i) in
       let! i := ask O GAddress in
       of_res (derive P pk i)) h = o_along O x (parts (2 ^ 31)) h) as Hal.
  { intros h. change (parts (2 ^ 31)) with [GPurpose; GCoin; GAccount; GChange; GAddress].
    cbn [o_along]. do 8 (apply andthen_ext; intros ? ?). symmetry. apply along_last. }
  unfold o_btc_derive_private. set (k := asking_map _ _).
  destruct (from_coin _ O k (2 ^ 31) [] [] eq_refl (Forall2_nil _) (told_nil O)) as [(t & e & H1 & H2 & H3)|[(t & H1 & H2 & H3)|(t & g & H1 & H2 & H3)]];
    change (map fst (concat [])) with (@nil getter) in H3; change (2 ^ 31) with BTC_COIN_TYPE in H3; rewrite H3.
  - now apply so_refused.
  - subst k. unfold asking_map. rewrite Hal. now apply secp_derivation.
  - now apply so_panics.
Qed.

Theorem eth_outcome x O : object_ok O ->
  secp_outcome P (2 ^ 31 + 60) x O (fst (o_eth_derive_private P x O [])) (snd (o_eth_derive_private P x O [])).
Proof.
  intros HO.
  assert (forall h, (let! i := ask O GAccount in
       let! pk := of_res (derive P x i) in
       let! i := ask O GChange in
       let! pk := of_res (derive P pk i) in
       let! i := ask O GAddress in
       of_res (derive P pk i)) h = o_along O x (parts (2 ^ 31 + 60)) h) as Hal.
  { intros h. change (parts (2 ^ 31 + 60)) with [GAccount; GChange; GAddress].
    cbn [o_along]. do 4 (apply andthen_ext; intros ? ?). symmetry. apply along_last. }
  unfold o_eth_derive_private. set (k := asking_map _ _).
  destruct (from_purpose _ O k (2 ^ 31 + 60) ltac:(discriminate)) as [(t & e & H1 & H2 & H3)|[(t & H1 & H2 & H3)|(t & g & H1 & H2 & H3)]];
    change (2 ^ 31 + 60) with ETH_COIN_TYPE in H3; unfold BIP44_PURPOSE; rewrite H3.
  - now apply so_refused.
  - subst k. unfold asking_map. rewrite Hal. now apply secp_derivation.
  - now apply so_panics.
Qed.

Theorem ada_outcome x O :
  ed_outcome P x O (fst (o_ada_derive_private P x O [])) (snd (o_ada_derive_private P x O [])).
Proof.
  unfold o_ada_derive_private.
  match goal with |- context [o_check_rest O ?k'] => set (k := k') end.
  destruct (from_purpose _ O k (2 ^ 31 + 1815) ltac:(discriminate)) as [(t & e & H1 & H2 & H3)|[(t & H1 & H2 & H3)|(t & g & H1 & H2 & H3)]];
    change (2 ^ 31 + 1815) with ADA_COIN_TYPE in H3; unfold BIP44_PURPOSE; rewrite H3.
  - now apply eo_refused.
  - subst k. cbv zeta.
    destruct (@ask_case key_error O _ GAccount H1) as [(a & Ea & Ha & Aa)|[Na Aa]].
    2:{ rewrite (andthen_panic _ _ _ _ Aa). now apply eo_panics. }
    rewrite (andthen_ok _ _ _ _ _ Aa).
    destruct (@ask_case key_error O _ GChange Ha) as [(b & Eb & Hb & Ab)|[Nb Ab]].
    2:{ rewrite (andthen_panic _ _ _ _ Ab). now apply eo_panics. }
    rewrite (andthen_ok _ _ _ _ _ Ab).
    destruct (@ask_case key_error O _ GAddress Hb) as [(c & Ec & Hc & Ac)|[Nc Ac]].
    2:{ rewrite (andthen_panic _ _ _ _ Ac). now apply eo_panics. }
    rewrite (andthen_ok _ _ _ _ _ Ac). rewrite !map_app, <- !app_assoc in *.
    exact (eo_derived P x O t [a; b; c] H2 eq_refl Hc).
  - now apply eo_panics.
Qed.

(** ** The methods *)
Theorem secp_methods x K n : (K = o_btc_key P x /\ n = 2 ^ 31) \/ (K = o_eth_key P x /\ n = 2 ^ 31 + 60) ->
  forall O, object_ok O -> exists r h, secp_outcome P n x O r h /\
    o_pub_key K O [] = (rmap (fun z => pub_serialize (secp_pub P (x_key z))) r, h) /\
    (forall msg, o_sign K msg O [] = ((let* z := r in map_err secp_sign_error (xprv_sign P z msg)), h)) /\
    (forall msg sig, o_verify K msg sig O []
       = ((let* z := r in map_err key_of_secp (xpub_verify P (secp_pub P (x_key z)) msg sig)), h)).
Proof.
  assert (forall f O, let m := f O in forall nw, exists r h, r = fst (m []) /\ h = snd (m []) /\
    o_pub_key (o_secp_key P nw f) O [] = (rmap (fun z => pub_serialize (secp_pub P (x_key z))) r, h) /\
    (forall msg, o_sign (o_secp_key P nw f) msg O [] = ((let* z := r in map_err secp_sign_error (xprv_sign P z msg)), h)) /\
    (forall msg sig, o_verify (o_secp_key P nw f) msg sig O []
       = ((let* z := r in map_err key_of_secp (xpub_verify P (secp_pub P (x_key z)) msg sig)), h))) as H.
  { intros f O m nw. exists (fst (m [])), (snd (m [])). split; [reflexivity|]. split; [reflexivity|].
    cbn [o_secp_key o_pub_key o_sign o_verify]. unfold asking_map, andthen. subst m.
    split; [reflexivity|]. split; intros; destruct (f O []) as [[z|e| |] h]; reflexivity. }
  intros [[-> ->]|[-> ->]] O HO.
  - destruct (H (o_btc_derive_private P x) O BITCOIN) as (r & h & -> & -> & H').
    eexists _, _. split; [now apply btc_outcome|]. exact H'.
  - destruct (H (o_eth_derive_private P x) O ETHEREUM) as (r & h & -> & -> & H').
    eexists _, _. split; [now apply eth_outcome|]. exact H'.
Qed.

Theorem ed_methods x O : exists r h, ed_outcome P x O r h /\
  o_pub_key (o_ada_key P x) O [] = (rmap (ed_public P) r, h) /\
  (forall msg, o_sign (o_ada_key P x) msg O [] = (rmap (fun z => ed_sign P z msg) r, h)) /\
  (forall msg sig, length sig = 64%nat ->
     o_verify (o_ada_key P x) msg sig O [] = (rmap (fun z => ed_verify P z msg sig) r, h)) /\
  (forall msg sig, length sig <> 64%nat -> snd (o_verify (o_ada_key P x) msg sig O []) = []).
Proof.
  exists (fst (o_ada_derive_private P x O [])), (snd (o_ada_derive_private P x O [])).
  split; [apply ada_outcome|]. cbn [o_ada_key o_pub_key o_sign o_verify]. unfold asking_map, ADA_SIGNATURE_SIZE.
  split; [reflexivity|]. split; [reflexivity|]. split; intros msg sig L.
  - rewrite L. reflexivity.
  - destruct (Nat.ltb_spec (length sig) 64); [reflexivity|]. destruct (Nat.eqb_spec (length sig) 64); [congruence|]. reflexivity.
Qed.

(** ** Objects that always answer the same *)
Lemma ask_constant {E} O k g h : constant O k ->
  @ask E O g h = (Ok (match g with GPurpose => purpose k | GCoin => coin k | GAccount => account k
                       | GChange => change k | GAddress => address k end), h ++ [g]).
Proof. intros H. destruct (H h) as (H1 & H2 & H3 & H4 & H5). unfold ask. destruct g; [rewrite H1|rewrite H2|rewrite H3|rewrite H4|rewrite H5]; reflexivity. Qed.

Lemma check_rest_constant {A} O k (m : asking key_error A) r : constant O k -> (forall h, fst (m h) = r) ->
  forall h, fst (o_check_rest O m h) = check_rest k r.
Proof.
  intros H Hm h. unfold o_check_rest, check_rest. rewrite (andthen_ok _ _ _ _ _ (ask_constant O k GAccount h H)).
  destruct (account k <? _).
  { rewrite (andthen_ok _ _ _ _ _ (ask_constant O k GAccount _ H)). reflexivity. }
  rewrite (andthen_ok _ _ _ _ _ (ask_constant O k GChange _ H)).
  destruct (change k =? 0); cbn [negb andb].
  - rewrite (andthen_ok (of_res (Ok false)) _ _ _ _ eq_refl).
    rewrite (andthen_ok _ _ _ _ _ (ask_constant O k GAddress _ H)). destruct (_ <=? _); [|apply Hm].
    rewrite (andthen_ok _ _ _ _ _ (ask_constant O k GAddress _ H)). reflexivity.
  - erewrite andthen_ok by (rewrite (andthen_ok _ _ _ _ _ (ask_constant O k GChange _ H)); reflexivity).
    destruct (change k =? 1); cbn [negb].
    + rewrite (andthen_ok _ _ _ _ _ (ask_constant O k GAddress _ H)). destruct (_ <=? _); [|apply Hm].
      rewrite (andthen_ok _ _ _ _ _ (ask_constant O k GAddress _ H)). reflexivity.
    + rewrite (andthen_ok _ _ _ _ _ (ask_constant O k GChange _ H)). reflexivity.
Qed.

Ltac steps H := repeat match goal with
  | |- context [andthen (ask ?O ?g) _ ?h] => rewrite (andthen_ok _ _ _ _ _ (ask_constant O _ g h H))
  | |- context [andthen (of_res ?r) _ _] =>
    match r with derive _ _ _ => destruct r; unfold andthen at 1, of_res at 1; cbn [bind]; try reflexivity end
  end.

Lemma btc_constant x O k : constant O k -> forall h, fst (o_btc_derive_private P x O h) = btc_derive_private P x k.
Proof.
  intros H h. unfold o_btc_derive_private, btc_derive_private.
  rewrite (andthen_ok _ _ _ _ _ (ask_constant O k GCoin h H)). destruct (negb _).
  { rewrite (andthen_ok _ _ _ _ _ (ask_constant O k GCoin _ H)). reflexivity. }
  apply check_rest_constant; [exact H|]. intros h'. unfold asking_map. cbn [fst]. f_equal. steps H. reflexivity.
Qed.
Lemma eth_constant x O k : constant O k -> forall h, fst (o_eth_derive_private P x O h) = eth_derive_private P x k.
Proof.
  intros H h. unfold o_eth_derive_private, eth_derive_private.
  rewrite (andthen_ok _ _ _ _ _ (ask_constant O k GPurpose h H)). destruct (negb _).
  { rewrite (andthen_ok _ _ _ _ _ (ask_constant O k GPurpose _ H)). reflexivity. }
  rewrite (andthen_ok _ _ _ _ _ (ask_constant O k GCoin _ H)). destruct (negb _).
  { rewrite (andthen_ok _ _ _ _ _ (ask_constant O k GCoin _ H)). reflexivity. }
  apply check_rest_constant; [exact H|]. intros h'. unfold asking_map. cbn [fst]. f_equal. steps H. reflexivity.
Qed.
Lemma ada_constant x O k : constant O k -> forall h, fst (o_ada_derive_private P x O h) = ada_derive_private P x k.
Proof.
  intros H h. unfold o_ada_derive_private, ada_derive_private.
  rewrite (andthen_ok _ _ _ _ _ (ask_constant O k GPurpose h H)). destruct (negb _).
  { rewrite (andthen_ok _ _ _ _ _ (ask_constant O k GPurpose _ H)). reflexivity. }
  rewrite (andthen_ok _ _ _ _ _ (ask_constant O k GCoin _ H)). destruct (negb _).
  { rewrite (andthen_ok _ _ _ _ _ (ask_constant O k GCoin _ H)). reflexivity. }
  apply check_rest_constant; [exact H|]. intros h'. cbv zeta. steps H. reflexivity.
Qed.

Lemma secp_same nw f g : (forall O k, constant O k -> forall h, fst (g O h) = f k) ->
  same_answers (secp_key P nw f) (o_secp_key P nw g).
Proof.
  intros H. split; [reflexivity|]. intros O k Hk. specialize (H O k Hk []).
  cbn [secp_key o_secp_key pub_key sign verify o_pub_key o_sign o_verify]. unfold asking_map, andthen. cbn [fst].
  rewrite <- H. destruct (g O []) as [[z|e| |] h]; auto.
Qed.
Theorem keys_same x y : same_answers (btc_key P x) (o_btc_key P x) /\ same_answers (eth_key P x) (o_eth_key P x) /\
  same_answers (ada_key P y) (o_ada_key P y).
Proof.
  split; [|split].
  - apply secp_same. intros O k H. now apply btc_constant.
  - apply secp_same. intros O k H. now apply eth_constant.
  - split; [reflexivity|]. intros O k H. pose proof (ada_constant y O k H []) as E.
    cbn [ada_key o_ada_key pub_key sign verify o_pub_key o_sign o_verify]. unfold asking_map. cbn [fst]. rewrite <- E.
    split; [reflexivity|]. split; [reflexivity|]. intros msg sig. destruct (Nat.ltb _ _); [reflexivity|].
    destruct (negb _); reflexivity.
Qed.

(** ** Objects that change their mind *)
(** Answers of [k] to the first questions of the checks, then those of [k']. *)
Definition turns (checked : nat) (k k' : KeyPath) : path_object := fun h g =>
  let k := if Nat.ltb (length h) checked then k else k' in
  Some match g with GPurpose => purpose k | GCoin => coin k | GAccount => account k
       | GChange => change k | GAddress => address k end.
Definition plain (n : N) : KeyPath :=
  {| purpose := 2 ^ 31 + 44; coin := n; account := 2 ^ 31; change := 0; address := 0 |}.
Lemma turns_ok m k k' : kp_wf k -> kp_wf k' -> object_ok (turns m k k').
Proof.
  intros H H' h g n E. unfold turns in E. injection E as <-.
  assert (forall q, kp_wf q -> Forall is_u32 (path_values q)) as Hq by auto.
  apply Hq in H, H'. unfold path_values in *.
  repeat match goal with X : Forall _ (_ :: _) |- _ => inversion_clear X end.
  destruct (Nat.ltb _ _); destruct g; assumption.
Qed.
Lemma plain_ok n : is_u32 n -> kp_wf (plain n).
Proof. intros H. unfold kp_wf, path_values, plain. cbn. repeat constructor; try exact H; unfold is_u32; cbv; discriminate. Qed.

Lemma btc_turns x k : fst (o_btc_derive_private P x (turns 4 (plain (2 ^ 31)) k) [])
  = map_err key_of_secp (derive_along P x (path_values k)).
Proof.
  unfold o_btc_derive_private, o_check_rest, andthen, ask, of_res, asking_map, turns, path_values, derive_along, bind.
  cbn -[derive]. 
  repeat match goal with |- context [derive P ?y ?i] => destruct (derive P y i); [|reflexivity..] end.
  reflexivity.
Qed.
Lemma eth_turns x k : fst (o_eth_derive_private P x (turns 5 (plain (2 ^ 31 + 60)) k) [])
  = map_err key_of_secp (derive_along P x [account k; change k; address k]).
Proof.
  unfold o_eth_derive_private, o_check_rest, andthen, ask, of_res, asking_map, turns, derive_along, bind.
  cbn -[derive].
  repeat match goal with |- context [derive P ?y ?i] => destruct (derive P y i); [|reflexivity..] end.
  reflexivity.
Qed.
Lemma ada_turns x k : fst (o_ada_derive_private P x (turns 5 (plain (2 ^ 31 + 1815)) k) [])
  = Ok (ed_derive_along P x [account k; change k; address k]).
Proof. reflexivity. Qed.

Lemma secp_method_results nw f O : 
  fst (o_pub_key (o_secp_key P nw f) O []) = rmap (fun z => pub_serialize (secp_pub P (x_key z))) (fst (f O [])) /\
  (forall msg, fst (o_sign (o_secp_key P nw f) msg O [])
     = (let* z := fst (f O []) in map_err secp_sign_error (xprv_sign P z msg))).
Proof.
  cbn [o_secp_key o_pub_key o_sign]. unfold asking_map, andthen. split; [reflexivity|].
  intros msg. destruct (f O []) as [[z|e| |] h]; reflexivity.
Qed.

Theorem anywhere x y k : kp_wf k ->
  (exists O, object_ok O /\
     fst (o_pub_key (o_btc_key P x) O [])
     = rmap (fun z => pub_serialize (secp_pub P (x_key z))) (map_err key_of_secp (derive_along P x (path_values k))) /\
     forall msg, fst (o_sign (o_btc_key P x) msg O [])
     = (let* z := map_err key_of_secp (derive_along P x (path_values k)) in map_err secp_sign_error (xprv_sign P z msg))) /\
  (exists O, object_ok O /\
     fst (o_pub_key (o_eth_key P x) O [])
     = rmap (fun z => pub_serialize (secp_pub P (x_key z))) (map_err key_of_secp (derive_along P x [account k; change k; address k])) /\
     forall msg, fst (o_sign (o_eth_key P x) msg O [])
     = (let* z := map_err key_of_secp (derive_along P x [account k; change k; address k]) in
        map_err secp_sign_error (xprv_sign P z msg))) /\
  (exists O, object_ok O /\
     fst (o_pub_key (o_ada_key P y) O []) = Ok (ed_public P (ed_derive_along P y [account k; change k; address k])) /\
     forall msg, fst (o_sign (o_ada_key P y) msg O [])
     = Ok (ed_sign P (ed_derive_along P y [account k; change k; address k]) msg)).
Proof.
  intros Hk. split; [|split].
  - exists (turns 4 (plain (2 ^ 31)) k). split; [apply turns_ok; [apply plain_ok; cbv; discriminate|exact Hk]|].
    rewrite <- btc_turns. apply secp_method_results.
  - exists (turns 5 (plain (2 ^ 31 + 60)) k). split; [apply turns_ok; [apply plain_ok; cbv; discriminate|exact Hk]|].
    rewrite <- eth_turns. apply secp_method_results.
  - exists (turns 5 (plain (2 ^ 31 + 1815)) k). split; [apply turns_ok; [apply plain_ok; cbv; discriminate|exact Hk]|].
    split; reflexivity.
Qed.

(** ** How many questions *)
Definition grows {E A} (m : asking E A) (k : nat) : Prop := forall h, (length (snd (m h)) <= length h + k)%nat.
Lemma grows_ask {E} O g : grows (@ask E O g) 1.
Proof. intros h. unfold ask. cbn [snd]. now rewrite app_length. Qed.
Lemma grows_res {E A} (r : res E A) : grows (of_res r) 0.
Proof. intros h. cbn. lia. Qed.
Lemma grows_map {E F A B} (f : res E A -> res F B) m k : grows m k -> grows (asking_map f m) k.
Proof. intros H h. apply H. Qed.
Lemma grows_then {E A B} (m : asking E A) (f : A -> asking E B) i j k :
  grows m i -> (forall a, grows (f a) j) -> (i + j <= k)%nat -> grows (andthen m f) k.
Proof.
  intros H1 H2 L h. unfold andthen. specialize (H1 h). destruct (m h) as [[a|e| |] h']; cbn [snd] in *; [|lia..].
  specialize (H2 a h'). lia.
Qed.
Lemma grows_ask_then {E B} O g (f : N -> asking E B) k : (forall a, grows (f a) k) -> grows (andthen (ask O g) f) (S k).
Proof. intros H. eapply grows_then; [apply grows_ask|exact H|lia]. Qed.
Lemma grows_res_then {E A B} (r : res E A) (f : A -> asking E B) k : (forall a, grows (f a) k) -> grows (andthen (of_res r) f) k.
Proof. intros H. eapply grows_then; [apply grows_res|exact H|lia]. Qed.
Lemma grows_more {E A} (m : asking E A) i k : (i <= k)%nat -> grows m i -> grows m k.
Proof. intros L H h. specialize (H h). lia. Qed.
Ltac counted :=
  repeat first
    [ apply grows_ask_then; intros ?
    | apply grows_res_then; intros ?
    | match goal with |- grows (if ?b then _ else _) _ => destruct b end
    | apply grows_map
    | apply (grows_more _ 0); [lia|apply grows_res] ].
Lemma rest_counted {A} O (k : asking key_error A) j : grows k (S j) -> grows (o_check_rest O k) (5 + j).
Proof.
  intros H. unfold o_check_rest. counted. eapply (grows_then _ _ 1 (2 + j)); [|intros []|lia].
  - counted.
  - counted.
  - counted. exact H.
Qed.
Local Opaque o_check_rest.
Theorem few_questions x y O msg sig :
  (length (snd (o_pub_key (o_btc_key P x) O [])) <= 10)%nat /\
  (length (snd (o_sign (o_btc_key P x) msg O [])) <= 10)%nat /\
  (length (snd (o_verify (o_btc_key P x) msg sig O [])) <= 10)%nat /\
  (length (snd (o_pub_key (o_eth_key P x) O [])) <= 9)%nat /\
  (length (snd (o_sign (o_eth_key P x) msg O [])) <= 9)%nat /\
  (length (snd (o_verify (o_eth_key P x) msg sig O [])) <= 9)%nat /\
  (length (snd (o_pub_key (o_ada_key P y) O [])) <= 9)%nat /\
  (length (snd (o_sign (o_ada_key P y) msg O [])) <= 9)%nat /\
  (length (snd (o_verify (o_ada_key P y) msg sig O [])) <= 9)%nat.
Proof.
  assert (grows (o_btc_derive_private P x O) 10) as Hb.
  { unfold o_btc_derive_private. counted. apply (rest_counted O _ 4). counted. }
  assert (grows (o_eth_derive_private P x O) 9) as He.
  { unfold o_eth_derive_private. counted. apply (rest_counted O _ 2). counted. }
  assert (grows (o_ada_derive_private P y O) 9) as Ha.
  { unfold o_ada_derive_private. counted. apply (rest_counted O _ 2). counted. }
  assert (forall nw f n, grows (f O) n -> (length (snd (o_pub_key (o_secp_key P nw f) O [])) <= n)%nat /\
    (length (snd (o_sign (o_secp_key P nw f) msg O [])) <= n)%nat /\
    (length (snd (o_verify (o_secp_key P nw f) msg sig O [])) <= n)%nat) as Hs.
  { intros nw f n H. cbn [o_secp_key o_pub_key o_sign o_verify]. split; [apply (grows_map _ _ _ H)|].
    split; eapply (grows_then _ _ n 0 n H); try lia; intros; apply grows_res. }
  destruct (Hs BITCOIN _ _ Hb) as (H1 & H2 & H3). destruct (Hs ETHEREUM _ _ He) as (H4 & H5 & H6).
  do 6 (split; [assumption|]). cbn [o_ada_key o_pub_key o_sign o_verify].
  split; [apply (grows_map _ _ _ Ha)|]. split; [apply (grows_map _ _ _ Ha)|].
  destruct (Nat.ltb _ _); [cbn; lia|]. destruct (negb _); [cbn; lia|]. apply (grows_map _ _ _ Ha).
Qed.
End P.

(** ** Questions depend on earlier answers only *)
Definition alike_from (h : list getter) (O O' : path_object) (s : list getter) : Prop :=
  forall pre g post, s = pre ++ g :: post -> O' (h ++ pre) g = O (h ++ pre) g.
Definition causal {E A} (m : path_object -> asking E A) : Prop := forall O h, exists s,
  snd (m O h) = h ++ s /\ forall O', (alike_from h O O' s -> m O' h = m O h) /\
  (forall t g post, s = t ++ g :: post -> alike_from h O O' t -> exists post', snd (m O' h) = h ++ t ++ g :: post').

Lemma alike_app h O O' s u : alike_from h O O' (s ++ u) -> alike_from h O O' s /\ alike_from (h ++ s) O O' u.
Proof.
  intros H. split; intros pre g post ->.
  - apply (H pre g (post ++ u)). now rewrite <- app_assoc.
  - rewrite <- app_assoc. apply (H (s ++ pre) g post). now rewrite <- app_assoc.
Qed.
Lemma causal_res {E A} (r : res E A) : causal (fun _ => of_res r).
Proof.
  intros O h. exists []. unfold of_res. rewrite app_nil_r. split; [reflexivity|]. intros O'. split; [reflexivity|].
  intros t g post H. now destruct t.
Qed.
Lemma causal_ask {E} g : causal (fun O => @ask E O g).
Proof.
  intros O h. exists [g]. split; [reflexivity|]. intros O'. unfold ask. split.
  - intros H. specialize (H [] g [] eq_refl). rewrite app_nil_r in H. now rewrite H.
  - intros t g' post H _. destruct t as [|x t]; [injection H as -> <-; now exists []|]. injection H as _ H. now destruct t.
Qed.
Lemma causal_then {E A B} (m : path_object -> asking E A) (k : path_object -> A -> asking E B) :
  causal m -> (forall a, causal (fun O => k O a)) -> causal (fun O => andthen (m O) (k O)).
Proof.
  intros Hm Hk O h. destruct (Hm O h) as (s & Es & Hs).
  assert (forall O', exists u, snd (andthen (m O') (k O') h) = snd (m O' h) ++ u) as Hext.
  { intros O'. unfold andthen. destruct (m O' h) as [[a|e| |] h']; cbn [snd]; [|exists []; now rewrite app_nil_r..].
    destruct (Hk a O' h') as (u & Eu & _). now exists u. }
  assert (forall t g post O', s = t ++ g :: post -> alike_from h O O' t ->
    exists post', snd (andthen (m O') (k O') h) = h ++ t ++ g :: post') as Hearly.
  { intros t g post O' H Ha. destruct (Hs O') as [_ H2]. destruct (H2 t g post H Ha) as [p Ep].
    destruct (Hext O') as [u Eu]. exists (p ++ u). rewrite Eu, Ep, <- !app_assoc. reflexivity. }
  destruct (m O h) as [r h'] eqn:Em. cbn [snd] in Es. subst h'.
  assert ((forall a, r <> Ok a) -> exists s0, snd (andthen (m O) (k O) h) = h ++ s0 /\ forall O',
    (alike_from h O O' s0 -> andthen (m O') (k O') h = andthen (m O) (k O) h) /\
    (forall t g post, s0 = t ++ g :: post -> alike_from h O O' t ->
       exists post', snd (andthen (m O') (k O') h) = h ++ t ++ g :: post')) as Hstop.
  { intros Hr. exists s. split; [unfold andthen; rewrite Em; destruct r; [congruence|reflexivity..]|].
    intros O'. split; [|intros t g post; apply Hearly].
    intros Ha. destruct (Hs O') as [H1 _]. unfold andthen. rewrite (H1 Ha), Em. destruct r; [congruence|reflexivity..]. }
  destruct r as [a|e| |]; [clear Hstop|apply Hstop; discriminate..].
  destruct (Hk a O (h ++ s)) as (u & Eu & Hu). exists (s ++ u).
  split; [unfold andthen; rewrite Em, Eu, app_assoc; reflexivity|]. intros O'. split.
  - intros Ha. apply alike_app in Ha as [Ha1 Ha2]. destruct (Hs O') as [H1 _]. destruct (Hu O') as [H2 _].
    unfold andthen. rewrite (H1 Ha1), Em. now apply H2.
  - intros t g post F Ha. apply app_eq_app in F as (l & [[-> F]|[-> F]]).
    + destruct l as [|x l].
      * cbn [app] in F. rewrite app_nil_r in *. destruct (Hs O') as [H1 _]. destruct (Hu O') as [_ H2].
        destruct (H2 [] g post (eq_sym F)) as [p Ep]; [intros pre g' q G; now destruct pre|].
        exists p. unfold andthen. rewrite (H1 Ha), Ep, <- !app_assoc. reflexivity.
      * injection F as -> F. eapply Hearly; [reflexivity|exact Ha].
    + apply alike_app in Ha as [Ha1 Ha2]. destruct (Hs O') as [H1 _]. destruct (Hu O') as [_ H2].
      destruct (H2 l g post F Ha2) as [p Ep]. exists p. unfold andthen. rewrite (H1 Ha1), Ep, <- !app_assoc. reflexivity.
Qed.
Lemma causal_map {E F A B} (f : res E A -> res F B) (m : path_object -> asking E A) :
  causal m -> causal (fun O => asking_map f (m O)).
Proof.
  intros H O h. destruct (H O h) as (s & Es & Hs). exists s. split; [exact Es|]. intros O'. destruct (Hs O') as [H1 H2].
  split; [|exact H2]. intros Ha. unfold asking_map. now rewrite (H1 Ha).
Qed.
Lemma causal_if {E A} (b : bool) (m k : path_object -> asking E A) :
  causal m -> causal k -> causal (fun O => if b then m O else k O).
Proof. now destruct b. Qed.
Ltac caused := repeat first
  [ apply causal_ask | apply causal_res | apply causal_map
  | apply (causal_if _ (fun O => _) (fun O => _))
  | apply (causal_then (fun O => _) (fun O a => _)); [|intros ?] ].
Lemma causal_in_time {E A} (m : path_object -> asking E A) : causal m -> in_time m.
Proof. intros H O O'. destruct (H O []) as (s & Es & Hs). cbn [app] in Es. rewrite Es. exact (Hs O'). Qed.

Theorem keys_causal P (x : XPrv) (y : bytes) (K : ObjKey) : K = o_btc_key P x \/ K = o_eth_key P x \/ K = o_ada_key P y ->
  in_time (o_pub_key K) /\ (forall msg, in_time (o_sign K msg)) /\ (forall msg sig, in_time (o_verify K msg sig)).
Proof.
  assert (causal (o_btc_derive_private P x)) as Hb.
  { unfold o_btc_derive_private. caused. }
  assert (causal (o_eth_derive_private P x)) as He.
  { unfold o_eth_derive_private. caused. }
  assert (causal (o_ada_derive_private P y)) as Ha.
  { unfold o_ada_derive_private. cbv zeta. caused. }
  intros [-> | [-> | ->]]; cbn [o_btc_key o_eth_key o_secp_key o_ada_key o_pub_key o_sign o_verify];
    (split; [|split; intros]); apply causal_in_time; caused; assumption.
Qed.

(** ** Keychains *)
Theorem o_dispatch (kc : fmap ObjKey) (n : N) :
  (get n kc = None -> forall O msg sig,
     o_kc_pub_key kc n O [] = (Err (KeyDoesNotExist n), []) /\ o_kc_sign kc n msg O [] = (Err (KeyDoesNotExist n), []) /\
     o_kc_verify kc n msg sig O [] = (Err (KeyDoesNotExist n), [])) /\
  (forall K, get n kc = Some K -> forall O msg sig,
     (forall r h, o_pub_key K O [] = (r, h) -> o_kc_pub_key kc n O [] = (map_err (KeyError n) r, h)) /\
     (forall r h, o_sign K msg O [] = (r, h) -> o_kc_sign kc n msg O [] = (map_err (KeyError n) r, h)) /\
     (forall r h, o_verify K msg sig O [] = (r, h) -> o_kc_verify kc n msg sig O [] = (map_err (KeyError n) r, h))).
Proof.
  unfold o_kc_pub_key, o_kc_sign, o_kc_verify, o_pk. split.
  - intros H O msg sig. rewrite H. cbn [ok_or]. auto.
  - intros K H O msg sig. rewrite H. cbn [ok_or]. unfold andthen, of_res, asking_map.
    split; [|split]; intros r h E; rewrite E; reflexivity.
Qed.

(** An error that reports a value that would have been good. *)
Theorem error_value P x : exists O, object_ok O /\
  fst (o_pub_key (o_btc_key P x) O []) = Err (InvalidKeyPath (InvalidCoin (2 ^ 31) (2 ^ 31))).
Proof.
  exists (turns 1 (plain 0) (plain (2 ^ 31))). split; [apply turns_ok; apply plain_ok; cbv; discriminate|reflexivity].
Qed.
