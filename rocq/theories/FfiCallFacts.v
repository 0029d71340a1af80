(** The exported functions compute what the Rust functions compute. *)
From Coq Require Import Strings.String.
From Verif Require Import Base Str Prims Bip39 Dict KeyPath Errors FMap Crypt Data XPrv XPrvSpec Keys Mnemonic
  Keychain Manager Features ManagerSpec Display Ffi FfiSpec FfiCallSpec.
From Verif Require Import FMapFacts FfiFacts FfiTheorems.
Open Scope list_scope.
Local Strategy 1000 [XPrv.derive XPrv.derive_loop XPrv.derive_step XPrv.xprv_from_data].

Theorem codes_table :
  (forall e, error_code (error_type e) = class_number e) /\
  error_code EPanic = (-1)%Z.
Proof. split; [now destruct e|reflexivity]. Qed.

Theorem languages_named :
  (forall c l, language_rust c = Some l <-> same_language c l) /\
  (forall c l, language_c (E := Empty_set) l = Ok c <-> same_language c l).
Proof.
  split; intros c l; (split; [destruct c, l; cbn; intros H; try discriminate; constructor|now destruct 1]).
Qed.

Lemma rust_the_language c : language_rust c = Some (the_language c).
Proof. now destruct c. Qed.
Lemma c_the_language {E} l : exists c, language_c (E := E) l = Ok c /\ same_language c l.
Proof. destruct l; (eexists; split; [reflexivity|constructor]). Qed.

Section F.
Variable P : prims.
Variable C : data_config.
Variable T : texts.
Variable bd : build.

(** [r] is the outcome [m] with its value stored. *)
Definition stores {t} (m : res kc_error (content t)) (r : res kc_error (val t * heap)) : Prop :=
  match m with
  | Ok c => exists x h', r = Ok (x, h') /\ holds h' t x c
  | Err e => r = Err e
  | Panic => r = Panic
  | Undef => r = Undef
  end.

Lemma stores_bind {t A} (r : res kc_error A) (k : A -> res kc_error (content t)) k' :
  (forall a, r = Ok a -> stores (k a) (k' a)) -> stores (bind r k) (bind r k').
Proof. destruct r; cbn; auto. Qed.
Lemma stores_rmap {t A} (f : A -> content t) (r : res kc_error A) k' :
  (forall a, r = Ok a -> stores (Ok (f a)) (k' a)) -> stores (rmap f r) (bind r k').
Proof. destruct r; cbn; auto. Qed.
Lemma stores_self {t} (r : res kc_error (content t)) k' :
  (forall a, r = Ok a -> stores (Ok a) (k' a)) -> stores r (bind r k').
Proof. destruct r; cbn; auto. Qed.
Lemma stores_manager {t} s h v (k : manager -> res kc_error (content t)) k' :
  (forall m, stores (k m) (k' m)) -> stores (with_manager s h v k) (bind (rust_manager h (s TManager v)) k').
Proof.
  intros Hk. unfold with_manager, rust_manager. destruct (s TManager v) as [| |i]; cbn [is_null bind read]; try reflexivity.
  destruct (get i (live h)) as [[]|]; cbn [bind]; try reflexivity. apply Hk.
Qed.
Lemma stores_keychain {t} s h v (k : Keychain -> res kc_error (content t)) k' :
  (forall m, stores (k m) (k' m)) -> stores (with_keychain s h v k) (bind (rust_keychain h (s TKeychain v)) k').
Proof.
  intros Hk. unfold with_keychain, rust_keychain. destruct (s TKeychain v) as [| |i]; cbn [is_null bind read]; try reflexivity.
  destruct (get i (live h)) as [[]|]; cbn [bind]; try reflexivity. apply Hk.
Qed.
Lemma stores_text {t} b (k : str -> res kc_error (content t)) k' :
  (forall s, stores (k s) (k' s)) -> stores (with_text b k) (bind (rust_str b) k').
Proof. intros Hk. unfold with_text, rust_str. destruct (of_utf8 b); cbn [bind]; [apply Hk|reflexivity]. Qed.

Lemma alloc_at b h : l_size (layout_of b) <> 0 -> exists h', alloc b h = (At (next h), h') /\
  get (next h) (live h') = Some b.
Proof.
  intros H. unfold alloc. destruct (N.eqb_spec (l_size (layout_of b)) 0); [contradiction|].
  eexists. split; [reflexivity|]. cbn [live get]. now rewrite N.eqb_refl.
Qed.
Lemma data_holds b h : holds_data (snd (data_ptr b h)) (fst (data_ptr b h)) b.
Proof.
  unfold data_ptr. destruct b as [|c b].
  - split; reflexivity.
  - destruct (alloc_at (BBytes (c :: b)) h) as (h' & E & G); [cbn; lia|]. rewrite E. split; [reflexivity|exact G].
Qed.
Lemma data_stores b h : stores (t := TData) (Ok b) (Ok (data_ptr b h)).
Proof. exists (fst (data_ptr b h)), (snd (data_ptr b h)). split; [now destruct (data_ptr b h)|apply data_holds]. Qed.
Lemma text_stores s h : stores (t := TString) (as_text s s) (to_cstr s h).
Proof.
  unfold as_text, to_cstr. destruct (in_dec _ _ _) as [H|H].
  - destruct (has_nul (utf8 s)) eqn:E; [reflexivity|]. apply has_nul_spec in E. contradiction.
  - apply has_nul_spec in H as ->. destruct (alloc (BText (utf8 s)) h) as [p h'] eqn:E.
    exists p, h'. split; [reflexivity|]. exact (text_alloc _ _ _ _ E).
Qed.

(** Allocating keeps what older pointers show. *)
Definition keeps (h h' : heap) : Prop :=
  next h <= next h' /\ forall i, i < next h -> get i (live h') = get i (live h).
Lemma alloc_keeps b h : keeps h (snd (alloc b h)).
Proof.
  unfold alloc. destruct (_ =? _); split; cbn; try lia; auto.
  intros i Hi. destruct (N.eqb_spec (next h) i); [lia|]. destruct (N.eqb_spec i (next h)); [lia|reflexivity].
Qed.
Definition below (h : heap) (d : DataPtr) : Prop := match d_ptr d with At i => i < next h | _ => True end.
Lemma keeps_data h h' d b : keeps h h' -> below h d -> holds_data h d b -> below h' d /\ holds_data h' d b.
Proof.
  intros [K1 K2] Hb [H1 H2]. unfold below, holds_data in *. destruct (d_ptr d); [now split|now split; [|split]|].
  split; [lia|]. split; [exact H1|]. now rewrite K2.
Qed.
Lemma data_below b h : below (snd (data_ptr b h)) (fst (data_ptr b h)) /\ keeps h (snd (data_ptr b h)).
Proof.
  unfold data_ptr. pose proof (alloc_keeps (BBytes b) h) as K. destruct b as [|c b]; [now split|].
  unfold alloc in *. cbn [layout_of bytes_layout l_size] in *. destruct (N.eqb_spec (N.of_nat (List.length (c :: b))) 0); [cbn in *; lia|].
  cbn [fst snd] in *. split; [unfold below; cbn; lia|exact K].
Qed.
Lemma keeps_trans a b c : keeps a b -> keeps b c -> keeps a c.
Proof. intros [A1 A2] [B1 B2]. split; [lia|]. intros i Hi. rewrite B2 by lia. now apply A2. Qed.
Lemma backup_holds l : forall h, let '(es, h') := backup_elems l h in
  keeps h h' /\ Forall2 (fun e c => fst e = fst c /\ below h' (snd e) /\ holds_data h' (snd e) (snd c)) es l.
Proof.
  induction l as [|[n b] l IH]; intros h; cbn [backup_elems].
  - split; [split; [lia|auto]|constructor].
  - pose proof (data_holds b h) as H1. destruct (data_below b h) as [H2 H3].
    destruct (data_ptr b h) as [d h1]. cbn [fst snd] in *. specialize (IH h1).
    destruct (backup_elems l h1) as [es h2]. destruct IH as [K F]. split; [now apply (keeps_trans _ h1)|].
    constructor; [|exact F]. split; [reflexivity|]. now apply (keeps_data h1).
Qed.
Lemma backup_stores l h : stores (t := TBackup) (Ok l) (Ok (backup_ptr l h)).
Proof.
  unfold backup_ptr. pose proof (backup_holds l h) as H. destruct (backup_elems l h) as [es h1]. destruct H as [K F].
  destruct (alloc (BBackup es) h1) as [p h2] eqn:E. pose proof (alloc_keeps (BBackup es) h1) as K2. rewrite E in K2. cbn [snd] in K2.
  exists {| k_ptr := p; k_count := N.of_nat (List.length es) |}, h2. split; [reflexivity|].
  assert (List.length es = List.length l) as Hl by (clear -F; induction F; cbn; congruence).
  split; [now rewrite <- Hl|]. cbn [k_ptr].
  destruct es as [|x es].
  - injection E as <- <-. now destruct l.
  - destruct (alloc_at (BBackup (x :: es)) h1) as (h2' & E' & G); [cbn; lia|]. rewrite E in E'. injection E' as -> ->.
    exists (x :: es). split; [exact G|]. clear -F K2. induction F as [|a b l1 l2 (A1 & A2 & A3) _ IH]; constructor; [|exact IH].
    split; [exact A1|]. now apply (keeps_data h1).
Qed.
Lemma nets_stores ns h : stores (t := TNetworks) (Ok ns) (Ok (networks_ptr ns h)).
Proof.
  unfold networks_ptr. destruct ns as [|n ns].
  - eexists _, _. split; [reflexivity|]. split; reflexivity.
  - destruct (alloc_at (BNets (n :: ns)) h) as (h' & E & G); [cbn; lia|]. rewrite E.
    eexists _, _. split; [reflexivity|]. split; [reflexivity|exact G].
Qed.
Lemma info_stores m l h : stores (t := TInfo) (as_text m (m, l)) (info_ptr m l h).
Proof.
  unfold info_ptr. destruct (c_the_language (E := kc_error) l) as (c & -> & Hc). cbn [bind].
  unfold as_text, to_cstr. destruct (in_dec _ _ _) as [H|H].
  - destruct (has_nul (utf8 m)) eqn:E; [reflexivity|]. apply has_nul_spec in E. contradiction.
  - apply has_nul_spec in H as ->. destruct (alloc (BText (utf8 m)) h) as [p h'] eqn:E. cbn [bind].
    eexists _, h'. split; [reflexivity|]. split; [exact (text_alloc _ _ _ _ E)|exact Hc].
Qed.
Lemma path_stores r h : stores (t := TPath) (path_result r) (bind (map_err KeyPathError r) (fun p => Ok (p, h))).
Proof. destruct r; cbn; try reflexivity. eexists _, _. split; reflexivity. Qed.

Theorem body_stores t (a : api t) s e h : stores (rust_call P C bd a s h e) (body P C bd a s e h).
Proof.
  destruct a; cbn [rust_call body]; rewrite ?rust_the_language;
    repeat lazymatch goal with
    | |- @stores ?t (with_manager _ _ _ _) _ => apply (@stores_manager t); intros ?
    | |- @stores ?t (with_keychain _ _ _ _) _ => apply (@stores_keychain t); intros ?
    | |- @stores ?t (with_text _ _) _ => apply (@stores_text t); intros ?
    | |- stores (path_result _) _ => apply path_stores
    end.
  - apply (stores_self (t := TManager)). intros m _. destruct (alloc_at (BManager m) h) as (h' & E & G); [cbn; lia|]. rewrite E.
    eexists _, _. split; [reflexivity|]. eexists. split; [reflexivity|exact G].
  - eexists _, _. split; reflexivity.
  - apply (stores_bind (t := TString)). intros [p r] _. apply text_stores.
  - apply (stores_rmap (t := TData)). intros [d r] _. apply data_stores.
  - apply (stores_rmap (t := TData)). intros [d r] _. apply data_stores.
  - apply (stores_self (t := TKeychain)). intros kc _. destruct (alloc_at (BKeychain kc) h) as (h' & E & G); [cbn; lia|]. rewrite E.
    eexists _, _. split; [reflexivity|]. eexists. split; [reflexivity|exact G].
  - apply (stores_rmap (t := TData)). intros [d r] _. apply data_stores.
  - apply (stores_rmap (t := TData)). intros [d r] _. apply data_stores.
  - apply (stores_self (t := TBackup)). intros l _. apply backup_stores.
  - apply (stores_bind (t := TInfo)). intros [phrase l] _. apply info_stores.
  - apply nets_stores.
  - apply (stores_self (t := TData)). intros d _. apply data_stores.
  - apply (stores_self (t := TData)). intros d _. apply data_stores.
  - apply (stores_self (t := TBool)). intros b _. eexists _, _. split; reflexivity.
Qed.

Hypothesis HP : prims_ok P.
Theorem call_result t (a : api t) out err e s h :
  reached P C T bd (s, h) -> api_ok a -> env_ok e ->
  (forall c, rust_call P C bd a s h e = Ok c ->
     exists x s' h', entry P C T bd a out err e s h = Ok (true, s', h') /\
       assigned s t out x s' /\ holds h' t x c) /\
  (forall ke, rust_call P C bd a s h e = Err ke -> ~ In x00 (utf8 (show T ke)) ->
     exists p s' h', entry P C T bd a out err e s h = Ok (false, s', h') /\
       assigned s TError err p s' /\ error_code (e_type p) = class_number ke /\
       points_to_text h' (e_message p) (utf8 (show T ke))) /\
  (rust_call P C bd a s h e = Panic -> ~ In x00 (utf8 (env_panic e)) ->
     exists p s' h', entry P C T bd a out err e s h = Ok (false, s', h') /\
       assigned s TError err p s' /\ error_code (e_type p) = (-1)%Z /\
       points_to_text h' (e_message p) (utf8 (env_panic e))) /\
  rust_call P C bd a s h e <> Undef.
Proof.
  intros Hr Ha He. apply (reached_inv P HP) in Hr. pose proof (body_good P HP C bd t a s e h Hr Ha He) as Hg.
  pose proof (body_stores t a s e h) as Hs. pose proof (entry_exact P C T bd t a out err e s h) as Hx.
  destruct (rust_call P C bd a s h e) as [c|ke| |]; cbn [stores] in Hs.
  - destruct Hs as (x & h' & E & Hh). rewrite E in Hx. split; [|now split; [|split]].
    intros c0 [= <-]. exists x, (upd s t out x), h'. split; [exact Hx|]. split; [apply upd_assigned|exact Hh].
  - rewrite Hs in Hx. split; [discriminate|]. split; [|now split]. intros ke0 [= <-] Hn.
    destruct Hx as [[Hx _]|(_ & p & h' & E & Ht & Hp)]; [contradiction|].
    exists p, (upd s TError err p), h'. split; [exact E|]. split; [apply upd_assigned|]. split; [|exact Hp].
    rewrite Ht. apply codes_table.
  - rewrite Hs in Hx. split; [discriminate|]. split; [discriminate|]. split; [|discriminate]. intros _ Hn.
    destruct Hx as [[Hx _]|(_ & p & h' & E & Ht & Hp)]; [contradiction|].
    exists p, (upd s TError err p), h'. split; [exact E|]. split; [apply upd_assigned|]. split; [|exact Hp].
    now rewrite Ht.
  - rewrite Hs in Hg. destruct Hg.
Qed.
End F.
