(** Wallets that live through the C functions: where they come from, and what
    C programs that use them are expected to observe. *)
From Coq Require Import Strings.String.
From Verif Require Import Base Prims Bip39Spec Dict KeyPath KeyPathSpec Errors FMap Data XPrv XPrvSpec KeysSpec Keychain Manager Features
  ManagerSpec Display Ffi FfiSpec FfiCallSpec InteropSpec.
Open Scope list_scope.

(** What a wallet was made from. *)
Inductive origin :=
| FromPhrase (t : str) (l : Language)
| FromSeed (s : bytes).

(** The seed it stands for. *)
Definition origin_seed (P : prims) (o : origin) : bytes :=
  match o with
  | FromPhrase t _ => bip39_seed P t
  | FromSeed s => s
  end.

(** The networks of a build of the C library. *)
Definition c_networks (bd : build) : list N :=
  (if with_bitcoin (b_features bd) then [2 ^ 31] else []) ++
  (if with_ethereum (b_features bd) then [2 ^ 31 + 60] else []) ++
  (if with_cardano (b_features bd) then [2 ^ 31 + 1815] else []).

(** The networks [ns] include the network [n] of the build. *)
Definition c_offers (bd : build) (ns : list N) (n : N) : Prop := In n ns /\ In n (c_networks bd).

(** The number of words of its phrases. *)
Definition c_words (bd : build) : nat :=
  if with_bitcoin (b_features bd) || with_ethereum (b_features bd) then 12 else 9.

Section S.
Variable P : prims.
Variable C : data_config.
Variable T : texts.

Section B.
Variable bd : build.

(** A call that some C program respecting the contract can make succeeded and
    left [c]. *)
Definition returned {t : ty} (a : api t) (c : content t) : Prop :=
  exists s h e out err s' h', reached P C T bd (s, h) /\ api_ok a /\ env_ok e /\
    entry P C T bd a out err e s h = Ok (true, s', h') /\ holds h' t (s' t out) c.

(** Made in the state [st] with the environment [e], the call succeeds and
    sets its result variable, whatever it is, to a handle of [c]. *)
Definition gives (st : store * heap) (e : env) {t : ty} (a : api t) (c : content t) : Prop :=
  forall out err, exists x s' h', entry P C T bd a out err e (fst st) (snd st) = Ok (true, s', h') /\
    assigned (fst st) t out x s' /\ holds h' t x c.

(** It fails and sets its error variable to an error with this code. *)
Definition refuses (st : store * heap) (e : env) {t : ty} (a : api t) (code : Z) : Prop :=
  forall out err, exists p s' h', entry P C T bd a out err e (fst st) (snd st) = Ok (false, s', h') /\
    assigned (fst st) TError err p s' /\ error_code (e_type p) = code.

(** With the keychain in [k] the functions answer for [n] and the path [p] as
    the owner of the BIP-32 key [z], and as the owner of the extended Ed25519
    key [y]. *)
Definition c_answers_secp (z : XPrv) (k : var) (st : store * heap) (e : env) (n : N) (p : KeyPath) : Prop :=
  gives st e (PubKey k n p) ([x04] ++ be 32 (fst (secp_pub P (x_key z))) ++ be 32 (snd (secp_pub P (x_key z)))) /\
  (forall msg r s v, secp_sign P (keccak256 P msg) (x_key z) = Some (r, s, v) -> v < 2 ->
     gives st e (Sign k n msg p) (be 32 r ++ be 32 s ++ [n2b v])) /\
  (forall msg r s, r < secp_n -> s < secp_n ->
     gives st e (Verify k n msg (be 32 r ++ be 32 s) p)
       (secp_verify P (keccak256 P msg) r s (secp_pub P (x_key z)))).
Definition c_answers_ed (y : bytes) (k : var) (st : store * heap) (e : env) (n : N) (p : KeyPath) : Prop :=
  gives st e (PubKey k n p) (ed_public P y) /\
  (forall msg, gives st e (Sign k n msg p) (ed_sign P y msg)) /\
  (forall msg sig, List.length sig = 64%nat -> gives st e (Verify k n msg sig p) (ed_verify P y msg sig)).

(** With the keychain in [k] the functions list exactly the networks of the
    build among [ns], and answer for them and their paths as the standards
    prescribe for the seed [s].  Other paths and other networks are refused. *)
Definition c_standard (s : bytes) (ns : list N) (k : var) (st : store * heap) (e : env) : Prop :=
  (exists l, gives st e (KeychainNetworks k) l /\ NoDup l /\ forall n, In n l <-> c_offers bd ns n) /\
  (forall n p, c_offers bd ns n -> kp_wf p -> path_ok n p ->
     (n = 2 ^ 31 \/ n = 2 ^ 31 + 60 ->
        forall z, derives P (bip32_master P s) (path_values p) z -> c_answers_secp z k st e n p) /\
     (n = 2 ^ 31 + 1815 ->
        forall h, clamped (sha512 P (firstn 32 s)) h ->
          c_answers_ed (ed_derive_along P (h ++ skipn 32 s) (path_values p)) k st e n p)) /\
  (forall n p msg sig, c_offers bd ns n -> kp_wf p -> ~ path_ok n p ->
     refuses st e (PubKey k n p) 9 /\ refuses st e (Sign k n msg p) 9 /\
     (List.length sig = 64%nat -> refuses st e (Verify k n msg sig p) 9)) /\
  (forall n p msg sig, is_u32 n -> ~ c_offers bd ns n -> kp_wf p ->
     refuses st e (PubKey k n p) 6 /\ refuses st e (Sign k n msg p) 6 /\ refuses st e (Verify k n msg sig p) 6).
End B.

(** [b] is wallet data with the password [pw], made from [o], with the networks
    [ns].  It may have been made, changed and extended by C programs and by
    Rust programs with built-in networks, in any mixture, with the same or with
    different builds. *)
Inductive c_wallet : bytes -> str -> origin -> list N -> Prop :=
| cw_phrase bd m t lang pw b t' l pw' :
    of_utf8 t = Some t' -> same_language lang l -> of_utf8 pw = Some pw' ->
    returned bd (KeychainDataFromMnemonic m t pw lang) b ->
    c_wallet b pw' (FromPhrase t' l) (c_networks bd)
| cw_seed bd m s pw b pw' :
    of_utf8 pw = Some pw' -> returned bd (KeychainDataFromSeed m s pw) b ->
    c_wallet b pw' (FromSeed s) (c_networks bd)
| cw_change bd m b pw o ns old new new' b' :
    c_wallet b pw o ns -> of_utf8 old = Some pw -> of_utf8 new = Some new' ->
    returned bd (ChangePassword m b old new) b' -> c_wallet b' new' o ns
| cw_add bd m b pw o ns pwb n b' :
    c_wallet b pw o ns -> of_utf8 pwb = Some pw ->
    returned bd (AddNetwork m b pwb n) b' -> c_wallet b' pw o (n :: ns)
| cw_rust_phrase ns o1 o2 m t lang pw r x :
    with_networks P ns = Ok m -> order_ok o1 -> order_ok o2 ->
    keychain_data_from_mnemonic P o1 o2 m t pw lang r = Ok x ->
    c_wallet (fst x) pw (FromPhrase t (or_english lang)) ns
| cw_rust_seed ns o1 o2 m s pw r x :
    with_networks P ns = Ok m -> order_ok o1 -> order_ok o2 ->
    keychain_data_from_seed P o1 o2 m s pw r = Ok x ->
    c_wallet (fst x) pw (FromSeed s) ns
| cw_rust_change b pw o ns new r x :
    c_wallet b pw o ns -> change_password P b pw new r = Ok x -> c_wallet (fst x) new o ns
| cw_rust_add b pw o ns ns' m ord n r x :
    c_wallet b pw o ns -> with_networks P ns' = Ok m -> order_ok ord ->
    add_network P C ord m b pw n r = Ok x -> c_wallet (fst x) pw o (n :: ns).

(** The key bytes that a backup of a wallet for the seed [s] contains. *)
Definition standard_key (s : bytes) (n : N) (d : bytes) : Prop :=
  ((n = 2 ^ 31 \/ n = 2 ^ 31 + 60) /\ d = xprv_layout P (bip32_master P s)) \/
  (n = 2 ^ 31 + 1815 /\ exists h, clamped (sha512 P (firstn 32 s)) h /\ d = h ++ skipn 32 s).
End S.

(** [t] is a phrase of the language, of the length that the build expects. *)
Definition accepted (bd : build) (l : Language) (t : str) : Prop :=
  exists ws, phrase_of ws t /\ List.length ws = c_words bd /\ Forall (fun w => In w (to_dict l)) ws.
(** The build can extend the wallet: the secret is a seed or a phrase of the
    length that it expects. *)
Definition extensible (bd : build) (o : origin) : Prop :=
  match o with
  | FromPhrase t _ => exists ws, phrase_of ws t /\ List.length ws = c_words bd
  | FromSeed _ => True
  end.

(** Calls that read the data [b] with the password [pwb]. *)
Inductive reads_data (bd : build) (m : var) (b pwb : bytes) : forall t : ty, api t -> Prop :=
| reads_open : reads_data bd m b pwb TKeychain (KeychainFromData m b pwb)
| reads_phrase : reads_data bd m b pwb TInfo (RetrieveMnemonic m b pwb)
| reads_keys : reads_data bd m b pwb TBackup (GetKeysData m b pwb)
| reads_change new new' : of_utf8 new = Some new' -> reads_data bd m b pwb TData (ChangePassword m b pwb new)
| reads_add n : In n (c_networks bd) -> reads_data bd m b pwb TData (AddNetwork m b pwb n).
