(** Proofs about the C bindings: variables, memory. *)
From Coq Require Import Strings.String Eqdep_dec.
From Verif Require Import Base Str Prims Bip39 Dict KeyPath Errors FMap Crypt Data XPrv XPrvSpec Keys Mnemonic
  Keychain Manager Features ManagerSpec Display Ffi FfiSpec.
From Verif Require Import FMapFacts KeyPathFacts XPrvFacts KeysFacts ManagerFacts LifeFacts StoryFacts TextFacts FeatureFacts.
Open Scope list_scope.
Local Strategy 1000 [XPrv.derive XPrv.derive_loop XPrv.derive_step XPrv.xprv_from_data].

(** ** Variables *)
Lemma upd_same s t v x : upd s t v x t v = x.
Proof.
  unfold upd. destruct (ty_eq_dec t t) as [E|E]; [|congruence]. rewrite N.eqb_refl.
  rewrite (UIP_dec ty_eq_dec E eq_refl). reflexivity.
Qed.
Lemma upd_other s t v x t' v' : (t', v') <> (t, v) -> upd s t v x t' v' = s t' v'.
Proof.
  intros H. unfold upd. destruct (ty_eq_dec t t') as [E|E]; [|reflexivity]. destruct E.
  destruct (N.eqb_spec v' v); [|reflexivity]. congruence.
Qed.
Lemma var_dec (a b : ty * var) : {a = b} + {a <> b}.
Proof. destruct a as [t v], b as [t' v']. destruct (ty_eq_dec t t'), (N.eq_dec v v'); [left|right..]; congruence. Qed.
Lemma upd_assigned s t v x : assigned s t v x (upd s t v x).
Proof. split; [apply upd_same|]. intros. now apply upd_other. Qed.

(** ** Heaps *)
Lemma get_del i k m : get k (del i m) = if k =? i then None else get k m.
Proof.
  induction m as [|[j b] m IH]; [cbn; now destruct (k =? i)|].
  unfold del in *. cbn [filter fst get].
  destruct (N.eqb_spec j i) as [->|Hj]; cbn [negb get].
  - rewrite IH. now destruct (N.eqb_spec k i).
  - rewrite IH. destruct (N.eqb_spec k j) as [->|]; [|reflexivity]. now destruct (N.eqb_spec j i).
Qed.

Lemma NoDup_app_iff {A} (a b : list A) :
  NoDup (a ++ b) <-> NoDup a /\ NoDup b /\ forall x, In x a -> ~ In x b.
Proof.
  induction a as [|x a IH]; cbn [app].
  - split; [intros H; split; [constructor|]; split; [exact H|intros x []]|tauto].
  - split.
    + intros H. inversion H as [|? ? H1 H2]; subst. apply IH in H2 as (H2 & H3 & H4).
      split; [constructor; [|exact H2]; intros Hx; apply H1, in_app_iff; now left|]. split; [exact H3|].
      intros y [<-|Hy]; [|now apply H4]. intros Hx. apply H1, in_app_iff. now right.
    + intros (H1 & H2 & H3). inversion H1 as [|? ? H4 H5]; subst. constructor.
      * intros Hx. apply in_app_iff in Hx as [Hx|Hx]; [tauto|]. apply (H3 x); [now left|exact Hx].
      * apply IH. split; [exact H5|]. split; [exact H2|]. intros y Hy. apply H3. now right.
Qed.

Definition extends (h h' : heap) : Prop :=
  next h <= next h' /\ forall i, i < next h -> get i (live h') = get i (live h).
Lemma extends_refl h : extends h h.
Proof. split; [lia|auto]. Qed.
Lemma extends_trans a b c : extends a b -> extends b c -> extends a c.
Proof. intros [H1 H2] [H3 H4]. split; [lia|]. intros i Hi. rewrite H4 by lia. auto. Qed.

Section F.
Variable P : prims.
Hypothesis HP : prims_ok P.
Variable C : data_config.
Variable T : texts.
Variable bd : build.

Definition block_ok (b : block) : Prop :=
  0 < l_size (layout_of b) /\
  match b with
  | BText b => ~ In x00 b
  | BManager m => built_new P (b_features bd) = Ok m
  | BKeychain kc => tame_keychain kc
  | _ => True
  end.
Definition heap_ok (h : heap) : Prop :=
  forall i b, get i (live h) = Some b -> i < next h /\ block_ok b.

Record inv (st : store * heap) : Prop := {
  inv_heap : heap_ok (snd st);
  inv_vals : forall t v, val_ok (snd st) t (fst st t v);
  inv_excl : exclusive st
}.

(** ** Handles and changes of the heap *)
Lemma data_ok_agree h h' d : data_ok h d ->
  (forall i, In i (ids (d_ptr d)) -> get i (live h') = get i (live h)) -> data_ok h' d.
Proof.
  unfold data_ok. destruct (d_ptr d) as [| |i]; auto. intros (b & Hb & Hl) H. exists b. split; [|exact Hl].
  rewrite H by (now left). exact Hb.
Qed.

(** A handle depends only on the blocks it is responsible for (and, for stale
    strings, on the next name). *)
Lemma val_ok_agree h h' t x : val_ok h t x -> next h <= next h' ->
  (forall i, In i (refs h t x) -> get i (live h') = get i (live h)) ->
  (forall i, i < next h -> get i (live h) = None -> get i (live h') = None) ->
  val_ok h' t x.
Proof.
  intros Hv Hn Ha Hd.
  assert (forall p, text_ok h p -> (forall i, In i (ids p) -> get i (live h') = get i (live h)) -> text_ok h' p) as Ht.
  { intros [| |i]; cbn; auto. intros (b & Hb) H. exists b. rewrite H by (now left). exact Hb. }
  destruct t; cbn [val_ok refs] in *.
  - destruct x as [| |i]; auto. destruct Hv as (m & Hm). exists m. rewrite Ha by (now left). exact Hm.
  - destruct x as [| |i]; auto. destruct Hv as (m & Hm). exists m. rewrite Ha by (now left). exact Hm.
  - now apply data_ok_agree with h.
  - destruct x as [| |i]; auto. cbn [read] in Ha. destruct Hv as [Hi [Hg|(b & Hb)]].
    + split; [lia|]. left. now apply Hd.
    + split; [lia|]. right. exists b. rewrite Hb in Ha. rewrite Ha by (now left). exact Hb.
  - destruct (n_ptr x) as [| |i]; auto. destruct Hv as (ns & Hg & Hc). exists ns.
    rewrite Ha by (now left). auto.
  - destruct (k_ptr x) as [| |i] eqn:E; auto. destruct Hv as (es & Hg & Hc & Hf). exists es.
    cbn [read] in Ha. rewrite Hg in Ha. split; [rewrite Ha by (now left); exact Hg|]. split; [exact Hc|].
    apply Forall_forall. intros e He. rewrite Forall_forall in Hf. apply data_ok_agree with h; [now apply Hf|].
    intros j Hj. apply Ha. right. apply in_flat_map. eauto.
  - now apply Ht.
  - exact I.
  - exact I.
  - now apply Ht.
Qed.

Lemma refs_agree h h' t x : val_ok h t x ->
  (forall i, In i (refs h t x) -> get i (live h') = get i (live h)) ->
  (forall i, i < next h -> get i (live h) = None -> get i (live h') = None) ->
  refs h' t x = refs h t x.
Proof.
  intros Hv Ha Hd. destruct t; cbn [refs val_ok] in *; auto.
  - destruct x as [| |i]; auto. cbn [read] in *. destruct Hv as [Hi [Hg|(b & Hb)]].
    + now rewrite (Hd i Hi Hg), Hg.
    + rewrite Hb in *. rewrite Ha by (now left). now rewrite Hb.
  - f_equal. destruct (k_ptr x) as [| |i]; auto. cbn [read] in *. rewrite Ha by (now left). reflexivity.
Qed.

(** Blocks a handle is responsible for exist. *)
Lemma refs_live h t x i : val_ok h t x -> In i (refs h t x) -> get i (live h) <> None.
Proof.
  assert (forall d, data_ok h d -> In i (ids (d_ptr d)) -> get i (live h) <> None) as Hdd.
  { intros d. unfold data_ok. destruct (d_ptr d); cbn; try tauto. intros (b & Hb & _) [<-|[]]. congruence. }
  assert (forall p, text_ok h p -> In i (ids p) -> get i (live h) <> None) as Ht.
  { intros [| |j]; cbn; try tauto. intros (b & Hb) [<-|[]]. congruence. }
  intros Hv Hi. destruct t; cbn [val_ok refs] in *; auto.
  - destruct x as [| |j]; cbn in Hi; try tauto. destruct Hi as [<-|[]]. destruct Hv as (m & Hm). congruence.
  - destruct x as [| |j]; cbn in Hi; try tauto. destruct Hi as [<-|[]]. destruct Hv as (m & Hm). congruence.
  - now apply (Hdd x).
  - destruct x as [| |j]; cbn in Hi; try tauto. destruct (get j (live h)) eqn:E; [|destruct Hi].
    destruct Hi as [<-|[]]. congruence.
  - destruct (n_ptr x) as [| |j]; cbn in Hi; try tauto. destruct Hi as [<-|[]]. destruct Hv as (m & Hm & _). congruence.
  - destruct (k_ptr x) as [| |j] eqn:E; cbn in Hi; try tauto. destruct Hv as (es & Hg & _ & Hf).
    destruct Hi as [<-|Hi]; [congruence|]. rewrite Hg in Hi. apply in_flat_map in Hi as (e & He & Hi).
    rewrite Forall_forall in Hf. now apply (Hdd (snd e)); [apply Hf|].
  - now apply (Ht (i_mnemonic x)).
  - now apply (Ht (e_message x)).
Qed.
Lemma refs_below h t x i : heap_ok h -> val_ok h t x -> In i (refs h t x) -> i < next h.
Proof.
  intros Hh Hv Hi. pose proof (refs_live h t x i Hv Hi) as Hl. destruct (get i (live h)) as [b|] eqn:E; [|congruence].
  now apply Hh in E.
Qed.

(** ** Allocation *)
Definition fresh_val (h h' : heap) (t : ty) (x : val t) : Prop :=
  extends h h' /\ heap_ok h' /\ val_ok h' t x /\ NoDup (refs h' t x) /\
  (forall i, In i (refs h' t x) -> next h <= i) /\
  (forall i, next h <= i -> get i (live h') <> None -> In i (refs h' t x)).

Lemma alloc_spec b h p h' : heap_ok h -> alloc b h = (p, h') ->
  (l_size (layout_of b) = 0 /\ p = Dangling /\ h' = h) \/
  (0 < l_size (layout_of b) /\ p = At (next h) /\ extends h h' /\ next h' = next h + 1 /\
   get (next h) (live h') = Some b /\ (forall i, i <> next h -> get i (live h') = get i (live h)) /\
   (block_ok b -> heap_ok h')).
Proof.
  intros Hh. unfold alloc. destruct (N.eqb_spec (l_size (layout_of b)) 0) as [E|E]; intros [= <- <-]; [left; auto|right].
  split; [lia|]. split; [reflexivity|]. cbn [live next get].
  assert (forall i, i <> next h -> (if i =? next h then Some b else get i (live h)) = get i (live h)) as Ho.
  { intros i Hi. now destruct (N.eqb_spec i (next h)). }
  split. { split; [cbn; lia|]. intros i Hi. cbn [live get]. apply Ho. lia. }
  split; [reflexivity|]. rewrite N.eqb_refl. split; [reflexivity|]. split; [exact Ho|].
  intros Hb i b' Hg. cbn [live get next] in *. destruct (N.eqb_spec i (next h)) as [->|Hi].
  - split; [lia|]. congruence.
  - apply Hh in Hg as [Hg1 Hg2]. split; [lia|exact Hg2].
Qed.

Lemma fresh_none h i : heap_ok h -> next h <= i -> get i (live h) = None.
Proof. intros Hh Hi. destruct (get i (live h)) eqn:E; [|reflexivity]. apply Hh in E. lia. Qed.

Lemma data_fresh b h d h' : heap_ok h -> data_ptr b h = (d, h') -> fresh_val h h' TData d.
Proof.
  intros Hh. unfold data_ptr. destruct (alloc (BBytes b) h) as [p h1] eqn:E. intros [= <- <-].
  apply (alloc_spec _ _ _ _ Hh) in E as [(Hs & -> & ->)|(Hs & -> & He & Hn & Hg & Ho & Hk)].
  - split; [apply extends_refl|]. split; [exact Hh|]. cbn in *. split; [unfold data_ok; cbn; lia|].
    split; [constructor|]. split; [tauto|]. intros i Hi Hl. now rewrite (fresh_none h i Hh Hi) in Hl.
  - split; [exact He|]. split; [apply Hk; split; [exact Hs|exact I]|].
    split; [cbn; unfold data_ok; cbn; eauto|]. cbn [refs d_ptr ids]. split; [constructor; [cbn; tauto|constructor]|].
    split. { intros i [<-|[]]. lia. }
    intros i Hi Hl. destruct (N.eq_dec i (next h)) as [->|Hne]; [now left|].
    rewrite (Ho i Hne), (fresh_none h i Hh Hi) in Hl. congruence.
Qed.

Lemma nets_fresh ns h d h' : heap_ok h -> networks_ptr ns h = (d, h') -> fresh_val h h' TNetworks d.
Proof.
  intros Hh. unfold networks_ptr. destruct (alloc (BNets ns) h) as [p h1] eqn:E. intros [= <- <-].
  apply (alloc_spec _ _ _ _ Hh) in E as [(Hs & -> & ->)|(Hs & -> & He & Hn & Hg & Ho & Hk)].
  - split; [apply extends_refl|]. split; [exact Hh|]. cbn [layout_of nets_layout l_size] in Hs.
    split; [cbn; lia|]. split; [constructor|]. split; [cbn; tauto|].
    intros i Hi Hl. now rewrite (fresh_none h i Hh Hi) in Hl.
  - split; [exact He|]. split; [apply Hk; split; [exact Hs|exact I]|].
    split; [cbn; eauto|]. cbn [refs n_ptr ids]. split; [constructor; [cbn; tauto|constructor]|].
    split. { intros i [<-|[]]. lia. }
    intros i Hi Hl. destruct (N.eq_dec i (next h)) as [->|Hne]; [now left|].
    rewrite (Ho i Hne), (fresh_none h i Hh Hi) in Hl. congruence.
Qed.

(** One block, for the kinds that are never empty. *)
Lemma box_fresh b h p h' : heap_ok h -> block_ok b -> alloc b h = (p, h') ->
  exists i, p = At i /\ i = next h /\ extends h h' /\ heap_ok h' /\ get i (live h') = Some b /\
    next h' = next h + 1 /\ forall j, j <> i -> get j (live h') = get j (live h).
Proof.
  intros Hh Hb E. destruct (alloc_spec _ _ _ _ Hh E) as [(Hs & _)|(Hs & -> & He & Hn & Hg & Ho & Hk)].
  - destruct Hb. lia.
  - exists (next h). auto 10.
Qed.

Lemma has_nul_spec b : has_nul b = false <-> ~ In x00 b.
Proof.
  unfold has_nul. induction b as [|c b IH]; cbn [existsb In]; [tauto|].
  destruct (Byte.eqb x00 c) eqn:E; cbn [orb].
  - apply Byte.byte_dec_bl in E. subst c. split; [discriminate|tauto].
  - rewrite IH. assert (c <> x00) by (intros ->; discriminate). intuition congruence.
Qed.

Lemma text_block_ok b : ~ In x00 b -> block_ok (BText b).
Proof. intros H. split; [cbn; lia|exact H]. Qed.

(** [to_cstr] *)
Lemma cstr_spec {E} s h : heap_ok h ->
  (In x00 (utf8 s) /\ to_cstr (E := E) s h = Panic) \/
  (exists h', ~ In x00 (utf8 s) /\ to_cstr (E := E) s h = Ok (At (next h), h') /\ extends h h' /\ heap_ok h' /\
     get (next h) (live h') = Some (BText (utf8 s)) /\ next h' = next h + 1 /\
     forall j, j <> next h -> get j (live h') = get j (live h)).
Proof.
  intros Hh. unfold to_cstr. destruct (has_nul (utf8 s)) eqn:E0.
  - left. split; [|reflexivity]. unfold has_nul in E0. apply existsb_exists in E0 as (c & Hc & E1).
    apply Byte.byte_dec_bl in E1. now subst c.
  - right. apply has_nul_spec in E0. destruct (alloc (BText (utf8 s)) h) as [p h'] eqn:E1.
    destruct (box_fresh _ _ _ _ Hh (text_block_ok _ E0) E1) as (i & -> & -> & H1 & H2 & H3 & H4 & H5).
    exists h'. auto 10.
Qed.

Lemma backup_fresh : forall l h es h', heap_ok h -> backup_elems l h = (es, h') ->
  extends h h' /\ heap_ok h' /\ List.length es = List.length l /\ Forall (fun e => data_ok h' (snd e)) es /\
  NoDup (flat_map (fun e => ids (d_ptr (snd e))) es) /\
  (forall i, In i (flat_map (fun e => ids (d_ptr (snd e))) es) -> next h <= i < next h') /\
  (forall i, next h <= i -> get i (live h') <> None -> In i (flat_map (fun e => ids (d_ptr (snd e))) es)).
Proof.
  induction l as [|[n b] l IH]; intros h es h' Hh E; cbn [backup_elems] in E.
  - injection E as <- <-. split; [apply extends_refl|]. split; [exact Hh|]. split; [reflexivity|].
    split; [constructor|]. split; [constructor|]. split; [cbn; tauto|]. intros i Hi Hl. now rewrite (fresh_none h i Hh Hi) in Hl.
  - destruct (data_ptr b h) as [d h1] eqn:E1. destruct (backup_elems l h1) as [es1 h2] eqn:E2. injection E as <- <-.
    destruct (data_fresh _ _ _ _ Hh E1) as (X1 & X2 & X3 & X4 & X5 & X6).
    destruct (IH _ _ _ X2 E2) as (Y1 & Y2 & Y3 & Y4 & Y5 & Y6 & Y7).
    cbn [val_ok refs] in *. cbn [flat_map snd List.length].
    assert (forall i, In i (ids (d_ptr d)) -> i < next h1) as Hb by (intros i Hi; now apply (refs_below h1 TData d i)).
    split; [eapply extends_trans; eassumption|]. split; [exact Y2|]. split; [now rewrite Y3|]. split.
    { constructor; [|exact Y4]. apply data_ok_agree with h1; [exact X3|]. intros i Hi. apply Y1. now apply Hb. }
    split.
    { apply NoDup_app_iff. split; [exact X4|]. split; [exact Y5|]. intros i Hi Hi'. apply Hb in Hi. apply Y6 in Hi'. lia. }
    destruct X1 as [X1a X1b], Y1 as [Y1a Y1b].
    split.
    { intros i Hi. apply in_app_iff in Hi as [Hi|Hi].
      - split; [now apply X5|]. apply Hb in Hi. lia.
      - apply Y6 in Hi. lia. }
    intros i Hi Hl. apply in_app_iff. destruct (N.lt_ge_cases i (next h1)) as [Hlt|Hge].
    + left. apply X6; [exact Hi|]. now rewrite <- (Y1b i Hlt).
    + right. now apply Y7.
Qed.

Lemma backup_ptr_fresh l h k h' : heap_ok h -> backup_ptr l h = (k, h') -> fresh_val h h' TBackup k.
Proof.
  intros Hh. unfold backup_ptr. destruct (backup_elems l h) as [es h1] eqn:E1.
  destruct (alloc (BBackup es) h1) as [p h2] eqn:E2. intros [= <- <-].
  destruct (backup_fresh _ _ _ _ Hh E1) as (Y1 & Y2 & Y3 & Y4 & Y5 & Y6 & Y7).
  apply (alloc_spec _ _ _ _ Y2) in E2 as [(Hs & -> & ->)|(Hs & -> & He & Hn & Hg & Ho & Hk)].
  - assert (es = []) as ->. { destruct es; [reflexivity|]. cbn in Hs. lia. }
    split; [exact Y1|]. split; [exact Y2|]. split; [cbn; reflexivity|]. split; [constructor|].
    split; [cbn; tauto|]. intros i Hi Hl. destruct (Y7 i Hi Hl).
  - split; [eapply extends_trans; eassumption|]. split; [apply Hk; split; [exact Hs|exact I]|]. split.
    { cbn. exists es. split; [exact Hg|]. split; [reflexivity|]. apply Forall_forall. intros e He'.
      rewrite Forall_forall in Y4. apply data_ok_agree with h1; [now apply Y4|]. intros i Hi. apply Ho.
      assert (In i (flat_map (fun e => ids (d_ptr (snd e))) es)) as Hi' by (apply in_flat_map; eauto).
      apply Y6 in Hi'. lia. }
    cbn [refs k_ptr ids read]. rewrite Hg. cbn [app]. split.
    { constructor; [|exact Y5]. intros Hi. apply Y6 in Hi. lia. }
    destruct Y1 as [Y1a Y1b]. split.
    { intros i [<-|Hi]; [lia|]. now apply Y6 in Hi. }
    intros i Hi Hl. destruct (N.eq_dec i (next h1)) as [->|Hne]; [now left|]. right. apply Y7; [exact Hi|].
    now rewrite <- (Ho i Hne).
Qed.

Lemma one_fresh h h' t (x : val t) : heap_ok h -> extends h h' -> heap_ok h' ->
  (forall j, j <> next h -> get j (live h') = get j (live h)) -> val_ok h' t x -> refs h' t x = [next h] ->
  fresh_val h h' t x.
Proof.
  intros Hh He Hh' Ho Hv Hr. split; [exact He|]. split; [exact Hh'|]. split; [exact Hv|]. rewrite Hr.
  split; [constructor; [intros []|constructor]|]. split; [intros i [<-|[]]; lia|].
  intros i Hi Hl. destruct (N.eq_dec i (next h)) as [->|Hne]; [now left|].
  rewrite (Ho i Hne), (fresh_none h i Hh Hi) in Hl. congruence.
Qed.
Lemma none_fresh h t (x : val t) : heap_ok h -> val_ok h t x -> refs h t x = [] -> fresh_val h h t x.
Proof.
  intros Hh Hv Hr. split; [apply extends_refl|]. split; [exact Hh|]. split; [exact Hv|]. rewrite Hr.
  split; [constructor|]. split; [intros i []|]. intros i Hi Hl. now rewrite (fresh_none h i Hh Hi) in Hl.
Qed.

(** ** The bodies of the exported functions *)
Definition good {t} (h : heap) (Q : kc_error -> Prop) (r : res kc_error (val t * heap)) : Prop :=
  match r with
  | Ok (x, h') => fresh_val h h' t x
  | Err e => Q e
  | Panic => True
  | Undef => False
  end.
Lemma good_bind {t A} h (Q : kc_error -> Prop) (r : res kc_error A) (k : A -> res kc_error (val t * heap)) :
  tame Q r -> (forall a, r = Ok a -> good h Q (k a)) -> good h Q (bind r k).
Proof. destruct r; cbn; auto. Qed.

Lemma manager_read h (x : val TManager) : heap_ok h -> val_ok h TManager x ->
  match rust_manager (E := kc_error) h x with Ok m => built_new P (b_features bd) = Ok m | Panic => x = Null | _ => False end.
Proof.
  intros Hh. destruct x as [| |i]; cbn; auto. intros (m & Hm). rewrite Hm. apply Hh in Hm as (_ & _ & Hm). exact Hm.
Qed.
Lemma keychain_read h (x : val TKeychain) : heap_ok h -> val_ok h TKeychain x ->
  match rust_keychain (E := kc_error) h x with Ok kc => tame_keychain kc | Panic => x = Null | _ => False end.
Proof.
  intros Hh. destruct x as [| |i]; cbn; auto. intros (m & Hm). rewrite Hm. apply Hh in Hm as (_ & _ & Hm). exact Hm.
Qed.
Lemma str_tame {E} (Q : E -> Prop) b : tame Q (rust_str b).
Proof. unfold rust_str. now destruct (of_utf8 b). Qed.
Lemma str_read {E} b s : rust_str (E := E) b = Ok s -> of_utf8 b = Some s.
Proof. unfold rust_str. destruct (of_utf8 b); congruence. Qed.

(** The errors of a function call are clean unless one of the two escapes of
    C54 applies. *)
Definition allowed {t} (a : api t) (e : kc_error) : Prop := c_strings a -> clean e \/ nul_phrase P C a.
Lemma tame_weaken {E A} (Q R : E -> Prop) (r : res E A) : tame Q r -> (forall e, Q e -> R e) -> tame R r.
Proof. destruct r; cbn; auto. Qed.
Lemma clean_allowed {t} (a : api t) e : clean e -> allowed a e.
Proof. intros H _. now left. Qed.

Lemma path_good (a : api TPath) h r : heap_ok h -> tame clean_kp r ->
  good h (allowed a) (let* path := map_err KeyPathError r in Ok ((path : val TPath), h)).
Proof.
  intros Hh Ht. apply good_bind.
  - apply tame_map_err with (Q := clean_kp); [exact Ht|]. intros e He. now apply clean_allowed.
  - intros p _. now apply none_fresh.
Qed.

Lemma manager_new_cases : (exists m, built_new P (b_features bd) = Ok m) \/ built_new P (b_features bd) = Err (CantCalculateSeedSize 0 usize_max).
Proof. destruct (b_features bd) as [[|] [|] [|]]; [left; eexists; reflexivity..|right; reflexivity]. Qed.

Ltac gb := match goal with |- @good ?t _ _ _ => apply (good_bind (t := t)) end.
Theorem body_good t (a : api t) s e h : inv (s, h) -> api_ok a -> env_ok e -> good h (allowed a) (body P C bd a s e h).
Proof.
  intros [Hh Hv _] Ha [Ho1 Ho2]. cbn [fst snd] in *.
  assert (forall m, tame (allowed a) (rust_manager h (s TManager m)) /\
                    forall M, rust_manager (E := kc_error) h (s TManager m) = Ok M -> with_networks P (built_network_all (b_features bd)) = Ok M) as HM.
  { intros m. pose proof (manager_read h (s TManager m) Hh (Hv TManager m)) as H. rewrite built_new_chosen in H.
    destruct (rust_manager h (s TManager m)); cbn; try contradiction; (split; [exact I|]); [intros M [= <-]; exact H|discriminate]. }
  assert (forall k, tame (allowed a) (rust_keychain h (s TKeychain k)) /\
                    forall K, rust_keychain (E := kc_error) h (s TKeychain k) = Ok K -> tame_keychain K) as HK.
  { intros k. pose proof (keychain_read h (s TKeychain k) Hh (Hv TKeychain k)) as H.
    destruct (rust_keychain h (s TKeychain k)); cbn; try contradiction; (split; [exact I|]); [intros M [= <-]; exact H|discriminate]. }
  assert (forall b, good h (allowed a) (t := TData) (Ok (data_ptr b h))) as HD.
  { intros b. cbn [good]. destruct (data_ptr b h) as [d h'] eqn:E. now apply (data_fresh b). }
  assert (forall A (r : res kc_error A), tame clean r -> tame (allowed a) r) as HW.
  { intros A r H. eapply tame_weaken; [exact H|]. intros e'. apply clean_allowed. }
  destruct a; cbn [body].
  - (* ManagerNew *)
    destruct manager_new_cases as [[m Em]|Em]; rewrite Em; cbn [bind good]; [|now apply clean_allowed].
    destruct (alloc (BManager m) h) as [p h'] eqn:E.
    destruct (box_fresh (BManager m) h p h' Hh) as (i & -> & -> & H1 & H2 & H3 & H4 & H5); [split; [reflexivity|exact Em]|exact E|].
    apply one_fresh; auto. cbn. eauto.
  - (* ManagerHasNetwork *)
    gb; [apply HM|]. intros M _. now apply none_fresh.
  - (* GenerateMnemonic *)
    gb; [apply HM|]. intros M EM. apply HM in EM.
    destruct (generate_tame P HP _ M (language_rust lang) (env_rng e) EM) as (tx & r' & ->). cbn [bind].
    destruct (cstr_spec (E := kc_error) tx h Hh) as [[_ ->]|(h' & Hn & -> & H1 & H2 & H3 & H4 & H5)]; [exact I|].
    cbn [good]. apply one_fresh; auto.
    + cbn. split; [lia|]. right. eauto.
    + cbn [refs read]. now rewrite H3.
  - (* KeychainDataFromSeed *)
    gb; [apply HM|]. intros M EM. apply HM in EM. apply (new_tame P HP _ M) in EM.
    gb; [apply str_tame|]. intros pw Epw.
    gb; [|intros [d r'] _; apply HD]. apply HW. unfold keychain_data_from_seed.
    apply create_tame; auto. discriminate.
  - (* KeychainDataFromMnemonic *)
    gb; [apply HM|]. intros M EM. apply HM in EM. apply (new_tame P HP _ M) in EM.
    gb; [apply str_tame|]. intros mn Emn.
    gb; [apply str_tame|]. intros pw Epw.
    gb; [|intros [d r'] _; apply HD]. unfold keychain_data_from_mnemonic.
    assert (forall (r : res kc_error (bytes * rng)), (nn mn -> tame clean r) -> r <> Undef ->
       tame (allowed (KeychainDataFromMnemonic m mnemonic password lang)) r) as Hsplit.
    { intros r H1 H2. destruct r; cbn in *; auto. intros [Hc _]. left. apply H1.
      apply str_read in Emn. now apply of_utf8_nn in Emn. }
    apply Hsplit.
    + intros Hn. apply create_tame; auto. intros t Et. injection Et as <-. exact Hn.
    + apply (tame_defined (fun _ => True)). apply create_calm; auto.
  - (* KeychainFromData *)
    gb; [apply HM|]. intros M EM. apply HM in EM. apply (new_tame P HP _ M) in EM.
    gb; [apply str_tame|]. intros pw Epw.
    destruct (open_tame P HP C (env_o1 e) M data pw Ho1 EM) as [H1 H2].
    gb; [now apply HW|]. intros kc Ekc. apply H2 in Ekc.
    cbn [good]. destruct (alloc (BKeychain kc) h) as [p h'] eqn:E.
    destruct (box_fresh (BKeychain kc) h p h' Hh) as (i & -> & -> & X1 & X2 & X3 & X4 & X5); [split; [reflexivity|exact Ekc]|exact E|].
    apply one_fresh; auto. cbn. eauto.
  - (* AddNetwork *)
    gb; [apply HM|]. intros M EM. apply HM in EM. apply (new_tame P HP _ M) in EM.
    gb; [apply str_tame|]. intros pw Epw. apply str_read in Epw.
    gb; [|intros [d r'] _; apply HD].
    pose proof (add_calm P HP C (env_o1 e) M data pw n (env_rng e) EM) as Hc.
    pose proof (add_tame P HP C (env_o1 e) M data pw n (env_rng e) EM) as Ht.
    destruct (add_network P C (env_o1 e) M data pw n (env_rng e)) as [|e'| |] eqn:Ea; try exact I; try (now cbn; congruence).
    cbn [tame]. intros _.
    destruct (keychain_data_from_bytes P C data pw) as [w|e''| |] eqn:Ed.
    + destruct (w_mnemonic w) as [tx|] eqn:Em.
      * destruct (has_nul (utf8 tx)) eqn:En.
        -- right. cbn [nul_phrase]. exists pw, w, tx. repeat split; auto.
           unfold has_nul in En. apply existsb_exists in En as (c & Hin & E1). apply Byte.byte_dec_bl in E1. now subst c.
        -- left. apply Ht. intros w' t' [= <-] Et. assert (t' = tx) as -> by congruence. now apply has_nul_spec.
      * left. apply Ht. intros w' t' [= <-] Et. congruence.
    + left. apply Ht. discriminate.
    + left. apply Ht. discriminate.
    + left. apply Ht. discriminate.
  - (* ChangePassword *)
    gb; [apply HM|]. intros M EM. gb; [apply str_tame|]. intros pw Epw.
    gb; [apply str_tame|]. intros pw' Epw'.
    gb; [apply HW; now apply change_tame|intros [d r'] _; apply HD].
  - (* GetKeysData *)
    gb; [apply HM|]. intros M EM. gb; [apply str_tame|]. intros pw Epw.
    gb; [apply HW; now apply keys_data_tame|]. intros ks _. cbn [good].
    destruct (backup_ptr ks h) as [k h'] eqn:E. now apply backup_ptr_fresh in E.
  - (* RetrieveMnemonic *)
    gb; [apply HM|]. intros M EM. gb; [apply str_tame|]. intros pw Epw.
    gb; [apply HW; now apply retrieve_tame|]. intros [tx l] _.
    unfold info_ptr, language_c. destruct (c_language_from (language_code l)) as [cl|]; cbn [bind]; [|exact I].
    destruct (cstr_spec (E := kc_error) tx h Hh) as [[_ ->]|(h' & Hn & -> & H1 & H2 & H3 & H4 & H5)]; [exact I|].
    cbn [bind good]. apply one_fresh; auto. cbn. eauto.
  - (* KeychainNetworks *)
    gb; [apply HK|]. intros K _. cbn [good].
    destruct (networks_ptr (networks (env_o1 e) K) h) as [np h'] eqn:E. now apply nets_fresh in E.
  - (* PubKey *)
    destruct Ha as [_ Hp]. gb; [apply HK|]. intros K EK. apply HK in EK.
    gb; [apply HW, EK, Hp|]. intros b _. apply HD.
  - destruct Ha as [_ Hp]. gb; [apply HK|]. intros K EK. apply HK in EK.
    gb; [apply HW, EK, Hp|]. intros b _. apply HD.
  - destruct Ha as [_ Hp]. gb; [apply HK|]. intros K EK. apply HK in EK.
    gb; [apply HW, EK, Hp|]. intros b _. now apply none_fresh.
  - (* KeypathFromString *)
    gb; [apply str_tame|]. intros p Ep. apply str_read in Ep. gb; [|intros kp _; now apply none_fresh].
    pose proof (path_tame (b_profile bd) p) as Ht. pose proof (generic_defined (b_profile bd) p) as Hd.
    destruct (generic_from (b_profile bd) p) as [|e'| |]; try exact I; [|congruence].
    cbn [map_err tame]. intros Hc. left. cbn [c_strings] in Hc. apply Ht. now apply of_utf8_nn in Ep.
  - apply path_good; [exact Hh|apply btc_path_tame].
  - apply path_good; [exact Hh|apply btc_path_tame].
  - apply path_good; [exact Hh|apply btc_path_tame].
  - apply path_good; [exact Hh|apply ada_path_tame].
  - apply path_good; [exact Hh|apply eth_path_tame].
  - apply path_good; [exact Hh|apply metamask_tame].
Qed.

(** ** Releasing *)
Lemma layout_refl l : layout_eqb l l = true.
Proof. unfold layout_eqb. now rewrite !N.eqb_refl. Qed.
Lemma dealloc_ok {E} i b h : heap_ok h -> get i (live h) = Some b ->
  dealloc (E := E) (At i) (layout_of b) h = Ok {| live := del i (live h); next := next h |}.
Proof.
  intros Hh Hg. unfold dealloc. cbn [read]. rewrite Hg, layout_refl. apply Hh in Hg as (_ & Hs & _).
  destruct (N.eqb_spec (l_size (layout_of b)) 0); [lia|reflexivity].
Qed.
Lemma strlen_ok b : ~ In x00 b -> strlen b = N.of_nat (List.length b).
Proof.
  induction b as [|c b IH]; intros H; [reflexivity|]. cbn [strlen List.length].
  destruct (Byte.eqb c x00) eqn:E; [apply Byte.byte_dec_bl in E; subst c; destruct H; now left|].
  rewrite IH by (intros Hi; apply H; now right). lia.
Qed.

(** [h'] is [h] without the allocations [l]. *)
Definition without (l : list N) (h h' : heap) : Prop :=
  next h' = next h /\ (forall i, In i l -> get i (live h') = None) /\
  forall i, ~ In i l -> get i (live h') = get i (live h).
Lemma without_nil h : without [] h h.
Proof. split; [reflexivity|]. split; [intros i []|auto]. Qed.
Lemma without_one i h : without [i] h {| live := del i (live h); next := next h |}.
Proof.
  split; [reflexivity|]. cbn [live]. split.
  - intros j [<-|[]]. rewrite get_del, N.eqb_refl. reflexivity.
  - intros j Hj. rewrite get_del. destruct (N.eqb_spec j i) as [->|]; [|reflexivity]. destruct Hj. now left.
Qed.
Lemma without_app l l' a b c : without l a b -> without l' b c -> without (l ++ l') a c.
Proof.
  intros (N1 & D1 & K1) (N2 & D2 & K2). split; [congruence|]. split.
  - intros i Hi. destruct (in_dec N.eq_dec i l') as [H|H]; [now apply D2|].
    apply in_app_iff in Hi as [Hi|Hi]; [|contradiction]. rewrite K2 by assumption. now apply D1.
  - intros i Hi. rewrite in_app_iff in Hi. rewrite K2, K1; tauto.
Qed.
Lemma without_ok l h h' : heap_ok h -> without l h h' -> heap_ok h'.
Proof.
  intros Hh (N1 & D1 & K1) i b Hg. destruct (in_dec N.eq_dec i l) as [H|H].
  - rewrite D1 in Hg by assumption. discriminate.
  - rewrite K1 in Hg by assumption. rewrite N1. now apply Hh.
Qed.

Lemma char_free_ok {E} p h : heap_ok h -> text_ok h p -> p <> Null ->
  exists h', char_free (E := E) p h = Ok (Null, h') /\ without (ids p) h h'.
Proof.
  intros Hh. destruct p as [| |i]; cbn [text_ok]; [congruence|tauto|]. intros (b & Hg) _.
  unfold char_free. cbn [read ids]. rewrite Hg. rewrite strlen_ok by (now apply Hh in Hg as (_ & _ & Hg)).
  change (bytes_layout (N.of_nat (List.length b) + 1)) with (layout_of (BText b)).
  rewrite (dealloc_ok i _ h Hh Hg). cbn [bind]. eexists. split; [reflexivity|]. apply without_one.
Qed.
Lemma data_free_ok {E} d h : heap_ok h -> data_ok h d ->
  exists d' h', data_free (E := E) d h = Ok (d', h') /\ d_ptr d' = Null /\ without (ids (d_ptr d)) h h'.
Proof.
  intros Hh. unfold data_ok, data_free. destruct d as [[| |i] n]; cbn [d_ptr d_len is_null ids].
  - intros _. eexists _, _. split; [reflexivity|]. split; [reflexivity|apply without_nil].
  - intros ->. cbn [dealloc bytes_layout l_size]. eexists _, _. split; [reflexivity|]. split; [reflexivity|apply without_nil].
  - intros (b & Hg & ->). change (bytes_layout (N.of_nat (List.length b))) with (layout_of (BBytes b)).
    rewrite (dealloc_ok i _ h Hh Hg). cbn [bind]. eexists _, _. split; [reflexivity|]. split; [reflexivity|apply without_one].
Qed.
Lemma elems_free_ok {E} : forall es h, heap_ok h -> Forall (fun e => data_ok h (snd e)) es ->
  NoDup (flat_map (fun e => ids (d_ptr (snd e))) es) ->
  exists h', elems_free (E := E) es h = Ok h' /\ without (flat_map (fun e => ids (d_ptr (snd e))) es) h h'.
Proof.
  induction es as [|[n d] es IH]; intros h Hh Hf Hnd; cbn [elems_free flat_map snd] in *.
  - eexists. split; [reflexivity|apply without_nil].
  - inversion Hf as [|? ? Hd Hf']; subst. cbn [snd] in Hd. apply NoDup_app_iff in Hnd as (Hn1 & Hn2 & Hn3).
    destruct (data_free_ok (E := E) d h Hh Hd) as (d' & h1 & -> & _ & Hw). cbn [bind].
    pose proof (without_ok _ _ _ Hh Hw) as Hh1. pose proof Hw as (W1 & W2 & W3).
    destruct (IH h1 Hh1) as (h2 & E2 & Hw2); [|exact Hn2|].
    + apply Forall_forall. intros e He. rewrite Forall_forall in Hf'. apply data_ok_agree with h; [now apply Hf'|].
      intros i Hi. apply W3. intros Hi'. apply (Hn3 i Hi'). apply in_flat_map. eauto.
    + exists h2. split; [exact E2|]. eapply without_app; eassumption.
Qed.

Theorem free_ok t (x : val t) h : heap_ok h -> val_ok h t x -> NoDup (refs h t x) ->
  (t = TString -> refs h t x <> []) -> (t = TNetworks -> refs h t x = []) ->
  exists x' h', free t x h = Ok (x', h') /\ pointer x' = Null /\ without (refs h t x) h h'.
Proof.
  intros Hh Hv Hnd Hstr Hnet. destruct t; cbn [free val_ok refs pointer val] in *.
  - unfold manager_free. destruct x as [| |i]; cbn [is_null ids read] in *; [|tauto|].
    + eexists _, _. split; [reflexivity|]. split; [reflexivity|apply without_nil].
    + destruct Hv as (m & Hg). rewrite Hg. change manager_layout with (layout_of (BManager m)).
      rewrite (dealloc_ok i _ h Hh Hg). cbn [bind]. eexists _, _. split; [reflexivity|]. split; [reflexivity|apply without_one].
  - unfold keychain_free. destruct x as [| |i]; cbn [is_null ids read] in *; [|tauto|].
    + eexists _, _. split; [reflexivity|]. split; [reflexivity|apply without_nil].
    + destruct Hv as (m & Hg). rewrite Hg. change keychain_layout with (layout_of (BKeychain m)).
      rewrite (dealloc_ok i _ h Hh Hg). cbn [bind]. eexists _, _. split; [reflexivity|]. split; [reflexivity|apply without_one].
  - now apply data_free_ok.
  - specialize (Hstr eq_refl). destruct x as [| |i]; cbn [read] in *; [congruence|congruence|].
    destruct (get i (live h)) as [b|] eqn:Hg; [|congruence]. destruct Hv as (_ & [Hv|(b' & Hv)]); [congruence|].
    destruct (char_free_ok (E := Empty_set) (At i) h Hh) as (h' & E & Hw); [cbn; rewrite Hg; eauto|discriminate|].
    exists Null, h'. auto.
  - specialize (Hnet eq_refl). unfold networks_free. destruct x as [[| |i] n]; cbn [n_ptr n_count is_null ids] in *; [| |discriminate].
    + eexists _, _. split; [reflexivity|]. split; [reflexivity|apply without_nil].
    + subst n. cbn. eexists _, _. split; [reflexivity|]. split; [reflexivity|apply without_nil].
  - unfold backup_free. destruct x as [[| |i] n]; cbn [k_ptr k_count is_null ids read app] in *.
    + eexists _, _. split; [reflexivity|]. split; [reflexivity|apply without_nil].
    + subst n. cbn. eexists _, _. split; [reflexivity|]. split; [reflexivity|apply without_nil].
    + destruct Hv as (es & Hg & -> & Hf). rewrite Hg in *. pose proof (Hh _ _ Hg) as (_ & Hs & _).
      cbn [layout_of backup_layout l_size] in Hs.
      destruct (N.eqb_spec (N.of_nat (List.length es)) 0); [lia|]. rewrite N.eqb_refl.
      inversion Hnd as [|? ? Hni Hnd']; subst.
      destruct (elems_free_ok (E := Empty_set) es h Hh Hf Hnd') as (h1 & -> & Hw). cbn [bind].
      pose proof (without_ok _ _ _ Hh Hw) as Hh1. pose proof Hw as (W1 & W2 & W3).
      change (backup_layout (N.of_nat (List.length es))) with (layout_of (BBackup es)).
      rewrite (dealloc_ok i (BBackup es) h1 Hh1) by (now rewrite W3). cbn [bind].
      eexists _, _. split; [reflexivity|]. split; [reflexivity|].
      pose proof (without_app _ _ _ _ _ Hw (without_one i h1)) as (V1 & V2 & V3). split; [exact V1|]. split.
      * intros j Hj. apply V2. apply in_app_iff. destruct Hj as [<-|Hj]; [right; now left|now left].
      * intros j Hj. apply V3. rewrite in_app_iff. cbn [In] in *. tauto.
  - unfold info_free. destruct x as [p l]; cbn [i_mnemonic i_language] in *. destruct (is_null p) eqn:En.
    + destruct p; try discriminate. eexists _, _. split; [reflexivity|]. split; [reflexivity|apply without_nil].
    + destruct (char_free_ok (E := Empty_set) p h Hh Hv) as (h' & -> & Hw); [intros ->; discriminate|]. cbn [bind].
      eexists _, _. split; [reflexivity|]. split; [reflexivity|exact Hw].
  - eexists _, _. split; [reflexivity|]. split; [reflexivity|apply without_nil].
  - eexists _, _. split; [reflexivity|]. split; [reflexivity|apply without_nil].
  - unfold error_free. destruct x as [l p]; cbn [e_message e_type] in *. destruct (is_null p) eqn:En.
    + destruct p; try discriminate. eexists _, _. split; [reflexivity|]. split; [reflexivity|apply without_nil].
    + destruct (char_free_ok (E := Empty_set) p h Hh Hv) as (h' & -> & Hw); [intros ->; discriminate|]. cbn [bind].
      eexists _, _. split; [reflexivity|]. split; [reflexivity|exact Hw].
Qed.

(** ** Null handles *)
Lemma null_refs h t (x : val t) : pointer x = Null -> refs h t x = [].
Proof.
  destruct t; cbn [pointer refs val]; intros H; rewrite ?H; auto.
Qed.
Lemma null_ok h t (x : val t) : pointer x = Null -> val_ok h t x.
Proof.
  destruct t; cbn [pointer val_ok val]; intros H; try (unfold data_ok); rewrite ?H; auto. all: exact I.
Qed.

(** ** Every allocation is some variable's responsibility *)
Definition held (st : store * heap) : Prop :=
  forall i, get i (live (snd st)) <> None -> exists t v, In i (refs (snd st) t (fst st t v)).

Lemma assign_inv s h t v x h' : inv (s, h) -> fresh_val h h' t x -> inv (upd s t v x, h').
Proof.
  intros [Hh Hv [Hn He]] (F1 & F2 & F3 & F4 & F5 & F6). cbn [fst snd] in *. destruct F1 as [F1a F1b].
  assert (forall t' v', (t', v') <> (t, v) -> val_ok h' t' (s t' v') /\ refs h' t' (s t' v') = refs h t' (s t' v')) as Hold.
  { intros t' v' _.
    assert (forall i, In i (refs h t' (s t' v')) -> get i (live h') = get i (live h)) as Ha.
    { intros i Hi. apply F1b. eapply refs_below; [exact Hh|apply Hv|exact Hi]. }
    assert (forall i, i < next h -> get i (live h) = None -> get i (live h') = None) as Hd by (intros i Hi E; now rewrite F1b).
    split; [now apply val_ok_agree with h|now apply refs_agree]. }
  split; cbn [fst snd].
  - exact F2.
  - intros t' v'. destruct (var_dec (t', v') (t, v)) as [E|E].
    + injection E as -> ->. now rewrite upd_same.
    + rewrite upd_other by assumption. now apply Hold.
  - split; cbn [fst snd].
    + intros t' v'. destruct (var_dec (t', v') (t, v)) as [E|E].
      * injection E as -> ->. now rewrite upd_same.
      * rewrite upd_other by assumption. destruct (Hold t' v' E) as [_ ->]. apply Hn.
    + assert (forall t' v' i, (t', v') <> (t, v) -> In i (refs h' t' (s t' v')) -> i < next h) as Hlt.
      { intros t' v' i E Hi. destruct (Hold t' v' E) as [_ Hr]. rewrite Hr in Hi. eapply refs_below; [exact Hh|apply Hv|exact Hi]. }
      intros t1 v1 t2 v2 i H1 H2.
      destruct (var_dec (t1, v1) (t, v)) as [E1|E1]; destruct (var_dec (t2, v2) (t, v)) as [E2|E2].
      * congruence.
      * injection E1 as -> ->. rewrite upd_same in H1. rewrite upd_other in H2 by assumption.
        apply F5 in H1. apply Hlt in H2; [lia|assumption].
      * injection E2 as -> ->. rewrite upd_same in H2. rewrite upd_other in H1 by assumption.
        apply F5 in H2. apply Hlt in H1; [lia|assumption].
      * rewrite upd_other in H1 by assumption. rewrite upd_other in H2 by assumption.
        destruct (Hold t1 v1 E1) as [_ R1]. destruct (Hold t2 v2 E2) as [_ R2]. rewrite R1 in H1. rewrite R2 in H2.
        now apply (He t1 v1 t2 v2 i).
Qed.
Lemma assign_held s h t v x h' : inv (s, h) -> fresh_val h h' t x -> refs h t (s t v) = [] -> held (s, h) ->
  held (upd s t v x, h').
Proof.
  intros [Hh Hv _] (F1 & F2 & F3 & F4 & F5 & F6) H0 Hheld i Hl. cbn [fst snd] in *. destruct F1 as [F1a F1b].
  destruct (N.lt_ge_cases i (next h)) as [Hi|Hi].
  - rewrite F1b in Hl by assumption. destruct (Hheld i Hl) as (t' & v' & Hin). cbn [fst snd] in Hin.
    exists t', v'. assert ((t', v') <> (t, v)) as E by (intros E; injection E as -> ->; rewrite H0 in Hin; destruct Hin).
    rewrite upd_other by assumption. rewrite (refs_agree h h'); [exact Hin|apply Hv| |].
    + intros j Hj. apply F1b. eapply refs_below; [exact Hh|apply Hv|exact Hj].
    + intros j Hj E'. now rewrite F1b.
  - exists t, v. rewrite upd_same. now apply F6.
Qed.

Lemma delete_step t v s h : inv (s, h) ->
  (t = TString -> refs h t (s t v) <> []) -> (t = TNetworks -> refs h t (s t v) = []) ->
  exists s' h', delete t v s h = Ok (s', h') /\ inv (s', h') /\ without (refs h t (s t v)) h h' /\
    refs h' t (s' t v) = [] /\ (t <> TString -> pointer (s' t v) = Null) /\
    (forall t' v', (t', v') <> (t, v) -> s' t' v' = s t' v' /\ refs h' t' (s t' v') = refs h t' (s t' v')) /\
    (held (s, h) -> held (s', h')).
Proof.
  intros [Hh Hv [Hn He]] Hs Hnw. cbn [fst snd] in *.
  destruct (free_ok t (s t v) h Hh (Hv t v) (Hn t v) Hs Hnw) as (x & h' & Ef & Hp & Hw).
  pose proof (without_ok _ _ _ Hh Hw) as Hh'. pose proof Hw as (W1 & W2 & W3).
  unfold delete. rewrite Ef. cbn [bind].
  set (s' := match t with TString => s | _ => upd s t v x end).
  assert (forall t' v', (t', v') <> (t, v) -> s' t' v' = s t' v') as Hoth.
  { intros t' v' E. destruct t; cbn [s']; try reflexivity; now apply upd_other. }
  assert (forall t' v', (t', v') <> (t, v) -> val_ok h' t' (s t' v') /\ refs h' t' (s t' v') = refs h t' (s t' v')) as Hold.
  { intros t' v' E.
    assert (forall i, In i (refs h t' (s t' v')) -> get i (live h') = get i (live h)) as Ha.
    { intros i Hi. apply W3. intros Hi'. apply E. now apply (He t' v' t v i). }
    assert (forall i, i < next h -> get i (live h) = None -> get i (live h') = None) as Hd.
    { intros i _ E'. destruct (in_dec N.eq_dec i (refs h t (s t v))) as [H|H]; [now apply W2|]. now rewrite W3. }
    split; [apply val_ok_agree with h; auto; lia|now apply refs_agree]. }
  assert (refs h' t (s' t v) = [] /\ val_ok h' t (s' t v)) as [Hr0 Hv0].
  { destruct (ty_eq_dec t TString) as [->|Hne].
    - change (s' TString v) with (s TString v). cbn [refs val_ok] in *. specialize (Hv TString v). cbn [val_ok] in Hv.
      destruct (s TString v) as [| |i]; cbn [read] in *; [auto|tauto|].
      assert (get i (live h') = None) as Hg.
      { destruct (get i (live h)) eqn:Eg; [apply W2; now left|]. rewrite W3; [exact Eg|]. intros []. }
      rewrite Hg. split; [reflexivity|]. split; [lia|now left].
    - assert (s' t v = x) as -> by (destruct t; cbn [s']; try congruence; apply upd_same).
      split; [now apply null_refs|now apply null_ok]. }
  exists s', h'. split; [reflexivity|]. split; [|split; [exact Hw|split; [exact Hr0|split; [|split]]]].
  - split; cbn [fst snd].
    + exact Hh'.
    + intros t' v'. destruct (var_dec (t', v') (t, v)) as [E|E].
      * injection E as -> ->. exact Hv0.
      * rewrite Hoth by assumption. now apply Hold.
    + split; cbn [fst snd].
      * intros t' v'. destruct (var_dec (t', v') (t, v)) as [E|E].
        -- injection E as -> ->. rewrite Hr0. constructor.
        -- rewrite Hoth by assumption. destruct (Hold t' v' E) as [_ ->]. apply Hn.
      * intros t1 v1 t2 v2 i H1 H2.
        destruct (var_dec (t1, v1) (t, v)) as [E1|E1]; [injection E1 as -> ->; rewrite Hr0 in H1; destruct H1|].
        destruct (var_dec (t2, v2) (t, v)) as [E2|E2]; [injection E2 as -> ->; rewrite Hr0 in H2; destruct H2|].
        rewrite Hoth in H1 by assumption. rewrite Hoth in H2 by assumption.
        destruct (Hold t1 v1 E1) as [_ R1]. destruct (Hold t2 v2 E2) as [_ R2]. rewrite R1 in H1. rewrite R2 in H2.
        now apply (He t1 v1 t2 v2 i).
  - intros Hne. assert (s' t v = x) as -> by (destruct t; cbn [s']; try congruence; apply upd_same). exact Hp.
  - intros t' v' E. split; [now apply Hoth|now apply Hold].
  - intros Hheld i Hl. cbn [fst snd] in *.
    destruct (in_dec N.eq_dec i (refs h t (s t v))) as [H|H]; [rewrite W2 in Hl by assumption; congruence|].
    rewrite W3 in Hl by assumption. destruct (Hheld i Hl) as (t' & v' & Hin). cbn [fst snd] in Hin. exists t', v'.
    assert ((t', v') <> (t, v)) as E by (intros E; injection E as -> ->; contradiction).
    rewrite Hoth by assumption. destruct (Hold t' v' E) as [_ ->]. exact Hin.
Qed.

(** ** Calls *)
Lemma error_fresh (f : str) ety h : heap_ok h ->
  let r := (let* '(p, h) := to_cstr f h in Ok ({| e_type := ety; e_message := p |}, h)) : res Empty_set (ErrorPtr * heap) in
  (In x00 (utf8 f) /\ r = Panic) \/
  (~ In x00 (utf8 f) /\ exists p h', r = Ok (p, h') /\ e_type p = ety /\ points_to_text h' (e_message p) (utf8 f) /\
     fresh_val h h' TError p).
Proof.
  intros Hh r. subst r. destruct (cstr_spec (E := Empty_set) f h Hh) as [[Hi ->]|(h' & Hn & -> & H1 & H2 & H3 & H4 & H5)].
  - left. auto.
  - right. split; [exact Hn|]. cbn [bind]. eexists _, h'. split; [reflexivity|]. cbn [e_type e_message].
    split; [reflexivity|]. split; [exists (next h); auto|]. apply one_fresh; auto. cbn. eauto.
Qed.

Theorem entry_cases t (a : api t) out err e s h : inv (s, h) -> api_ok a -> env_ok e ->
  match body P C bd a s e h with
  | Ok (x, h') => entry P C T bd a out err e s h = Ok (true, upd s t out x, h') /\ fresh_val h h' t x
  | Err ke =>
      (In x00 (utf8 (show T ke)) /\ entry P C T bd a out err e s h = Panic) \/
      (~ In x00 (utf8 (show T ke)) /\ exists p h', entry P C T bd a out err e s h = Ok (false, upd s TError err p, h') /\
         e_type p = error_type ke /\ points_to_text h' (e_message p) (utf8 (show T ke)) /\ fresh_val h h' TError p)
  | Panic =>
      (In x00 (utf8 (env_panic e)) /\ entry P C T bd a out err e s h = Panic) \/
      (~ In x00 (utf8 (env_panic e)) /\ exists p h', entry P C T bd a out err e s h = Ok (false, upd s TError err p, h') /\
         e_type p = EPanic /\ points_to_text h' (e_message p) (utf8 (env_panic e)) /\ fresh_val h h' TError p)
  | Undef => False
  end.
Proof.
  intros Hi Ha He. pose proof (body_good t a s e h Hi Ha He) as Hg. pose proof (inv_heap _ Hi) as Hh. cbn [snd] in Hh.
  unfold entry. destruct (body P C bd a s e h) as [[x h']|ke| |]; cbn [handle good] in *.
  - split; [reflexivity|exact Hg].
  - unfold error_new. destruct (error_fresh (show T ke) (error_type ke) h Hh) as [[H1 H2]|(H1 & p & h' & H2 & H3)]; cbv zeta in H2.
    + left. split; [exact H1|]. now rewrite H2.
    + right. split; [exact H1|]. exists p, h'. split; [|exact H3]. now rewrite H2.
  - unfold error_panic. destruct (error_fresh (env_panic e) EPanic h Hh) as [[H1 H2]|(H1 & p & h' & H2 & H3)]; cbv zeta in H2.
    + left. split; [exact H1|]. now rewrite H2.
    + right. split; [exact H1|]. exists p, h'. split; [|exact H3]. now rewrite H2.
  - exact Hg.
Qed.

Lemma call_step t (a : api t) out err e s h : inv (s, h) -> api_ok a -> env_ok e ->
  entry P C T bd a out err e s h = Panic \/
  exists b s' h', entry P C T bd a out err e s h = Ok (b, s', h') /\ inv (s', h') /\
    (refs h t (s t out) = [] -> refs h TError (s TError err) = [] -> held (s, h) -> held (s', h')).
Proof.
  intros Hi Ha He. pose proof (entry_cases t a out err e s h Hi Ha He) as H.
  destruct (body P C bd a s e h) as [[x h']|ke| |].
  - destruct H as [E F]. right. eexists _, _, _. split; [exact E|]. split; [now apply assign_inv with h|].
    intros H1 H2. now apply assign_held.
  - destruct H as [[_ E]|(_ & p & h' & E & _ & _ & F)]; [now left|right].
    eexists _, _, _. split; [exact E|]. split; [now apply assign_inv with h|].
    intros H1 H2. now apply assign_held.
  - destruct H as [[_ E]|(_ & p & h' & E & _ & _ & F)]; [now left|right].
    eexists _, _, _. split; [exact E|]. split; [now apply assign_inv with h|].
    intros H1 H2. now apply assign_held.
  - destruct H.
Qed.

Theorem step_ok x st : inv st -> permitted x st ->
  run_step P C T bd x st = Panic \/
  exists st', run_step P C T bd x st = Ok st' /\ inv st' /\ (careful x st -> held st -> held st').
Proof.
  destruct st as [s h], x as [e [t a out err|t v]]; intros Hi [He Hp]; cbn [fst snd] in *; unfold run_step; cbn [fst snd].
  - destruct (call_step t a out err e s h Hi Hp He) as [E|(b & s' & h' & E & Hi' & Hh)]; rewrite E; cbn [bind]; [now left|right].
    eexists. split; [reflexivity|]. split; [exact Hi'|]. intros [H1 H2]. now apply Hh.
  - right. destruct (delete_step t v s h Hi) as (s' & h' & E & Hi' & _ & _ & _ & _ & Hh).
    + intros ->. exact Hp.
    + intros ->. exact Hp.
    + exists (s', h'). auto.
Qed.

Lemma start_inv : inv start.
Proof.
  split; cbn.
  - intros i b H. discriminate.
  - intros t v. apply null_ok. now destruct t.
  - split; cbn [fst snd].
    + intros t v. rewrite null_refs; [constructor|now destruct t].
    + intros t v t' v' i Hi. cbn in Hi. rewrite null_refs in Hi; [destruct Hi|now destruct t].
Qed.
Lemma start_held : held start.
Proof. intros i Hi. cbn in Hi. congruence. Qed.

Theorem run_ok l : forall st, inv st -> along P C T bd permitted l st ->
  run P C T bd l st = Panic \/
  exists st', run P C T bd l st = Ok st' /\ inv st' /\ (along P C T bd careful l st -> held st -> held st').
Proof.
  induction l as [|x l IH]; intros st Hi Hp; cbn [run along] in *.
  - right. exists st. auto.
  - destruct Hp as [Hp Hr]. destruct (step_ok x st Hi Hp) as [E|(st' & E & Hi' & Hh)]; rewrite E; cbn [bind]; [now left|].
    destruct (IH st' Hi' (Hr st' E)) as [E'|(st'' & E' & Hi'' & Hh')]; [now left|right].
    exists st''. split; [exact E'|]. split; [exact Hi''|]. intros [Hc Hc'] H0. apply Hh'; [now apply Hc'|now apply Hh].
Qed.
End F.
