(** Property C71: wallets used through the C functions, from end to end. *)
From Coq Require Import Strings.String.
From Verif Require Import Base Str Prims Bip39Spec Dict KeyPath KeyPathSpec Errors FMap FMapFacts Crypt CryptSpec CryptFacts Data XPrv XPrvSpec
  XPrvFacts KeysFacts KeysSpec Keychain Manager Features ManagerSpec MnemonicFacts StoryFacts Display Ffi FfiSpec FfiCallSpec InteropSpec FfiWalletSpec FfiWalletFacts
  PropertiesData PropertiesManager PropertiesFfi PropertiesInterop Toy.
Open Scope list_scope.

(** C71, for every build of the C library.  A C program can start, make a
    manager if the build has networks, and go on after every call, whether it
    succeeded or failed. *)
Theorem C71_going_on :
  forall (P : prims) (C : data_config) (T : texts) (bd : build), prims_ok P -> texts_ok T ->
  reached P C T bd start /\
  (forall (s : store) (h : heap) (e : env), reached P C T bd (s, h) -> env_ok e ->
     (c_networks bd <> [] -> exists M, gives P C T bd (s, h) e ManagerNew M) /\
     (c_networks bd = [] -> refuses P C T bd (s, h) e ManagerNew 3)) /\
  (forall (t : ty) (a : api t) (out err : var) (e : env) (s : store) (h : heap) (ok : bool) (s' : store) (h' : heap),
     reached P C T bd (s, h) -> api_ok a -> env_ok e ->
     entry P C T bd a out err e s h = Ok (ok, s', h') -> reached P C T bd (s', h')).
Proof.
  intros P C T bd HP HT.
  exact (conj (starting P C T bd) (conj (fun s h e => making_manager P HP C T bd s h e HT) (going_on P C T bd))).
Qed.
Print Assumptions C71_going_on.

(** Generated phrases are accepted ones. *)
Theorem C71_generate :
  forall (P : prims) (C : data_config) (T : texts) (bd : build), prims_ok P ->
  forall (lang : CLanguage) (l : Language) (m : var) (M : manager) (s : store) (h : heap) (e : env),
  same_language lang l -> reached P C T bd (s, h) -> env_ok e -> holds h TManager (s TManager m) M ->
  exists t : str, gives P C T bd (s, h) e (GenerateMnemonic m lang) t /\ accepted bd l t.
Proof. intros P C T bd HP. exact (generating P HP C T bd). Qed.
Print Assumptions C71_generate.

(** A wallet is made from every accepted phrase and every seed of 64 bytes for
    which BIP-32 has a master key, if the build needs it; everything else is refused. *)
Theorem C71_from_phrase :
  forall (P : prims) (C : data_config) (T : texts) (bd : build), prims_ok P ->
  forall (lang : CLanguage) (l : Language) (tb : bytes) (t : str) (pwb : bytes) (pw : str) (m : var) (M : manager)
    (s : store) (h : heap) (e : env),
  texts_ok T -> same_language lang l -> no_nul tb -> of_utf8 tb = Some t -> of_utf8 pwb = Some pw ->
  reached P C T bd (s, h) -> env_ok e -> holds h TManager (s TManager m) M ->
  (accepted bd l t -> usable_for P (c_networks bd) (bip39_seed P t) ->
     exists b, gives P C T bd (s, h) e (KeychainDataFromMnemonic m tb pwb lang) b /\
       c_wallet P C T b pw (FromPhrase t l) (c_networks bd)) /\
  (accepted bd l t -> ~ usable_for P (c_networks bd) (bip39_seed P t) ->
     refuses P C T bd (s, h) e (KeychainDataFromMnemonic m tb pwb lang) 9) /\
  (~ accepted bd l t -> refuses P C T bd (s, h) e (KeychainDataFromMnemonic m tb pwb lang) 11).
Proof. intros P C T bd HP. exact (making_phrase P HP C T bd). Qed.
Print Assumptions C71_from_phrase.

Theorem C71_from_seed :
  forall (P : prims) (C : data_config) (T : texts) (bd : build), prims_ok P ->
  forall (sd pwb : bytes) (pw : str) (m : var) (M : manager) (s : store) (h : heap) (e : env),
  texts_ok T -> of_utf8 pwb = Some pw ->
  reached P C T bd (s, h) -> env_ok e -> holds h TManager (s TManager m) M ->
  (List.length sd = 64%nat -> usable_for P (c_networks bd) sd ->
     exists b, gives P C T bd (s, h) e (KeychainDataFromSeed m sd pwb) b /\
       c_wallet P C T b pw (FromSeed sd) (c_networks bd)) /\
  (List.length sd = 64%nat -> ~ usable_for P (c_networks bd) sd -> refuses P C T bd (s, h) e (KeychainDataFromSeed m sd pwb) 9) /\
  (List.length sd <> 64%nat -> refuses P C T bd (s, h) e (KeychainDataFromSeed m sd pwb) 5).
Proof. intros P C T bd HP. exact (making_seed P HP C T bd). Qed.
Print Assumptions C71_from_seed.

(** Every wallet opens, whatever build made it, if BIP-32 defines the key at
    m/44'/60' or Ethereum is not in both the wallet and the build. *)
Theorem C71_open :
  forall (P : prims) (C : data_config) (T : texts) (bd : build), prims_ok P ->
  forall (b : bytes) (pw : str) (pwb : bytes) (o : origin) (ns : list N) (m : var) (M : manager)
    (s : store) (h : heap) (e : env),
  c_wallet P C T b pw o ns -> of_utf8 pwb = Some pw ->
  reached P C T bd (s, h) -> env_ok e -> holds h TManager (s TManager m) M ->
  (c_offers bd ns (2 ^ 31 + 60) ->
     exists y, derives P (bip32_master P (origin_seed P o)) [2 ^ 31 + 44; 2 ^ 31 + 60] y) ->
  exists kc, gives P C T bd (s, h) e (KeychainFromData m b pwb) kc.
Proof. intros P C T bd HP. exact (open_works P HP C T bd). Qed.
Print Assumptions C71_open.

(** The keychain it opened to, wherever it is used, has exactly the networks
    that the wallet and the build share and answers as the standards prescribe for the seed. *)
Theorem C71_use :
  forall (P : prims) (C : data_config) (T : texts) (bd : build), prims_ok P ->
  forall (b : bytes) (pw : str) (pwb : bytes) (o : origin) (ns : list N) (m : var) (kc : Keychain),
  texts_ok T -> c_wallet P C T b pw o ns -> of_utf8 pwb = Some pw ->
  returned P C T bd (KeychainFromData m b pwb) kc ->
  forall (s : store) (h : heap) (e : env) (k : var),
  reached P C T bd (s, h) -> env_ok e -> holds h TKeychain (s TKeychain k) kc ->
  c_standard P C T bd (origin_seed P o) ns k (s, h) e.
Proof. intros P C T bd HP. exact (used P HP C T bd). Qed.
Print Assumptions C71_use.

(** The phrase comes back as it was; a seed does not come back. *)
Theorem C71_retrieve :
  forall (P : prims) (C : data_config) (T : texts) (bd : build), prims_ok P ->
  forall (b : bytes) (pw : str) (pwb : bytes) (o : origin) (ns : list N) (m : var) (M : manager)
    (s : store) (h : heap) (e : env),
  texts_ok T -> c_wallet P C T b pw o ns -> of_utf8 pwb = Some pw ->
  reached P C T bd (s, h) -> env_ok e -> holds h TManager (s TManager m) M ->
  match o with
  | FromPhrase t l => gives P C T bd (s, h) e (RetrieveMnemonic m b pwb) (t, l)
  | FromSeed _ => refuses P C T bd (s, h) e (RetrieveMnemonic m b pwb) 2
  end.
Proof. intros P C T bd HP. exact (retrieving P HP C T bd). Qed.
Print Assumptions C71_retrieve.

(** A backup of the keys lists each network of the wallet once, with the key
    the standards prescribe. *)
Theorem C71_backup :
  forall (P : prims) (C : data_config) (T : texts) (bd : build), prims_ok P ->
  forall (b : bytes) (pw : str) (pwb : bytes) (o : origin) (ns : list N) (m : var) (M : manager)
    (s : store) (h : heap) (e : env),
  c_wallet P C T b pw o ns -> of_utf8 pwb = Some pw ->
  reached P C T bd (s, h) -> env_ok e -> holds h TManager (s TManager m) M ->
  exists l, gives P C T bd (s, h) e (GetKeysData m b pwb) l /\ NoDup (List.map fst l) /\
    forall n d, In (n, d) l <-> offers ns n /\ standard_key P (origin_seed P o) n d.
Proof. intros P C T bd HP. exact (exporting P HP C T bd). Qed.
Print Assumptions C71_backup.

(** The password can always be changed. *)
Theorem C71_change :
  forall (P : prims) (C : data_config) (T : texts) (bd : build), prims_ok P ->
  forall (b : bytes) (pw : str) (pwb : bytes) (o : origin) (ns : list N) (m : var) (M : manager) (new : bytes) (new' : str)
    (s : store) (h : heap) (e : env),
  c_wallet P C T b pw o ns -> of_utf8 pwb = Some pw -> of_utf8 new = Some new' ->
  reached P C T bd (s, h) -> env_ok e -> holds h TManager (s TManager m) M ->
  exists b', gives P C T bd (s, h) e (ChangePassword m b pwb new) b' /\ c_wallet P C T b' new' o ns.
Proof. intros P C T bd HP. exact (changing P HP C T bd). Qed.
Print Assumptions C71_change.

(** All outcomes of adding a network. *)
Theorem C71_add :
  forall (P : prims) (C : data_config) (T : texts) (bd : build), prims_ok P ->
  forall (b : bytes) (pw : str) (pwb : bytes) (o : origin) (ns : list N) (m : var) (M : manager) (n : N)
    (s : store) (h : heap) (e : env),
  texts_ok T -> c_wallet P C T b pw o ns -> of_utf8 pwb = Some pw -> is_u32 n ->
  reached P C T bd (s, h) -> env_ok e -> holds h TManager (s TManager m) M ->
  (~ In n (c_networks bd) -> refuses P C T bd (s, h) e (AddNetwork m b pwb n) 8) /\
  (In n (c_networks bd) -> In n ns -> refuses P C T bd (s, h) e (AddNetwork m b pwb n) 7) /\
  (In n (c_networks bd) -> ~ In n ns ->
     (~ extensible bd o -> refuses P C T bd (s, h) e (AddNetwork m b pwb n) 11) /\
     (extensible bd o ->
        (usable_for P [n] (origin_seed P o) ->
           exists b', gives P C T bd (s, h) e (AddNetwork m b pwb n) b' /\ c_wallet P C T b' pw o (n :: ns)) /\
        (~ usable_for P [n] (origin_seed P o) ->
           refuses P C T bd (s, h) e (AddNetwork m b pwb n) 9))).
Proof. intros P C T bd HP. exact (extending P HP C T bd). Qed.
Print Assumptions C71_add.

(** Any data, of a wallet or not, that is too short or was not encrypted with the
    given password. *)
Theorem C71_wrong :
  forall (P : prims) (C : data_config) (T : texts) (bd : build), prims_ok P ->
  forall (t : ty) (a : api t) (m : var) (M : manager) (b pwb : bytes) (pw : str) (s : store) (h : heap) (e : env),
  texts_ok T -> reads_data bd m b pwb t a -> of_utf8 pwb = Some pw ->
  reached P C T bd (s, h) -> env_ok e -> holds h TManager (s TManager m) M ->
  ((List.length b <= 60)%nat -> refuses P C T bd (s, h) e a 1) /\
  ((60 < List.length b)%nat ->
     (forall salt nonce d, List.length salt = 32%nat -> List.length nonce = 12%nat -> ~ is_sealed P pw salt nonce d b) ->
     refuses P C T bd (s, h) e a 0).
Proof. intros P C T bd HP. exact (not_opened P HP C T bd). Qed.
Print Assumptions C71_wrong.
Example C71_wrong_case : (60 < List.length case_data)%nat /\
  forall salt nonce d, List.length salt = 32%nat -> List.length nonce = 12%nat -> ~ is_sealed toy (lit "bad") salt nonce d case_data.
Proof.
  assert ((60 < List.length case_data)%nat) as Hl by (apply Nat.ltb_lt; vm_compute; reflexivity). split; [exact Hl|].
  intros salt nonce d Hs Hn H. assert (d <> []) as Hd.
  { intros ->. destruct H as (ct & E & _ & Ed). rewrite Ed, !app_length, Hs, Hn, (chacha_tag_len toy toy_ok), E in Hl. cbn in Hl. lia. }
  pose proof (proj2 (proj1 (decrypt_exact toy toy_ok case_data (lit "bad")) d) (conj Hd (ex_intro _ salt (ex_intro _ nonce (conj Hs (conj Hn H)))))) as E.
  vm_compute in E. discriminate E.
Qed.

(** All at once, from the start: a manager, a wallet from a phrase, the wallet
    opened; the manager and the keychain are there to be used. *)
Theorem C71_session :
  forall (P : prims) (C : data_config) (T : texts) (bd : build), prims_ok P ->
  forall (lang : CLanguage) (l : Language) (tb : bytes) (t : str) (pwb : bytes) (pw : str) (e : env) (vm vk err : var),
  texts_ok T -> same_language lang l -> no_nul tb -> of_utf8 tb = Some t -> of_utf8 pwb = Some pw -> env_ok e ->
  c_networks bd <> [] -> accepted bd l t -> usable_for P (c_networks bd) (bip39_seed P t) ->
  (In (2 ^ 31 + 60) (c_networks bd) -> exists y, derives P (bip32_master P (bip39_seed P t)) [2 ^ 31 + 44; 2 ^ 31 + 60] y) ->
  exists b M kc s1 h1 s2 h2,
    entry P C T bd ManagerNew vm err e (fst start) (snd start) = Ok (true, s1, h1) /\
    c_wallet P C T b pw (FromPhrase t l) (c_networks bd) /\
    returned P C T bd (KeychainDataFromMnemonic vm tb pwb lang) b /\
    entry P C T bd (KeychainFromData vm b pwb) vk err e s1 h1 = Ok (true, s2, h2) /\
    reached P C T bd (s2, h2) /\ holds h2 TManager (s2 TManager vm) M /\
    returned P C T bd (KeychainFromData vm b pwb) kc /\ holds h2 TKeychain (s2 TKeychain vk) kc.
Proof. intros P C T bd HP. exact (session P HP C T bd). Qed.
Print Assumptions C71_session.

(** The hypotheses for the usual build and a phrase of twelve words, for a
    build with Cardano only and a phrase of nine, and the simple primitives.
    With [C71_session] they give wallets and states for all the theorems
    above. *)
Definition zoos (k : nat) : str := join [0x20] (repeat (lit "zoo") k).
Definition cardano_build : build :=
  {| b_profile := Debug; b_features := {| with_cardano := true; with_ethereum := false; with_bitcoin := false |} |}.
Example C71_case :
  texts_ok case_texts /\ env_ok case_env /\ same_language CEnglish English /\
  (forall k, In k [9; 12]%nat -> no_nul (utf8 (zoos k)) /\ of_utf8 (utf8 (zoos k)) = Some (zoos k)) /\
  of_utf8 (blit "pw") = Some (lit "pw") /\
  c_networks release_build <> [] /\ c_networks cardano_build = [2 ^ 31 + 1815] /\
  accepted release_build English (zoos 12) /\ ~ accepted cardano_build English (zoos 12) /\
  accepted cardano_build English (zoos 9) /\ ~ accepted release_build English (zoos 9) /\
  extensible release_build (FromPhrase (zoos 12) English) /\ ~ extensible cardano_build (FromPhrase (zoos 12) English) /\
  usable_seed toy (bip39_seed toy (zoos 12)) /\ usable_for toy (c_networks cardano_build) (bip39_seed toy (zoos 9)) /\
  (exists y, derives toy (bip32_master toy (bip39_seed toy (zoos 12))) [2 ^ 31 + 44; 2 ^ 31 + 60] y) /\
  (exists z, derives toy (bip32_master toy (bip39_seed toy (zoos 12))) (path_values case_path) z) /\
  kp_wf case_path /\ path_ok (2 ^ 31 + 60) case_path /\ ~ path_ok (2 ^ 31) case_path.
Proof.
  assert (forall k, In k [9; 12]%nat -> phrase_of (repeat (lit "zoo") k) (zoos k)) as Hp.
  { intros k Hk. split; [destruct Hk as [<-|[<-|[]]]; discriminate|]. split; [|destruct Hk as [<-|[<-|[]]]; vm_compute; reflexivity].
    apply Forall_forall. intros w Hw. apply repeat_spec in Hw as ->.
    intros H. vm_compute in H. repeat (destruct H as [H|H]; [discriminate|]). destruct H. }
  assert (forall k bd, In k [9; 12]%nat -> accepted bd English (zoos k) <-> k = c_words bd) as Ha.
  { intros k bd Hk. split.
    - intros (ws & H & E & _). rewrite <- E, (phrase_words _ _ _ H (Hp k Hk)). symmetry. apply repeat_length.
    - intros E. exists (repeat (lit "zoo") k). split; [exact (Hp k Hk)|]. split; [now rewrite repeat_length|].
      apply Forall_forall. intros w Hw. apply repeat_spec in Hw as ->. apply (nth_error_In _ 2047). vm_compute. reflexivity. }
  assert (In 9%nat [9; 12]%nat /\ In 12%nat [9; 12]%nat) as [I9 I12] by (cbn; auto).
  split.
  { unfold texts_ok, no_nul. repeat split; intros H; vm_compute in H; repeat (destruct H as [H|H]; [discriminate|]); destruct H. }
  split; [split; [exact sorted_order_ok|exact reverse_order_ok]|]. split; [constructor|]. split.
  { intros k [<-|[<-|[]]]; (split; [|vm_compute; reflexivity]);
      intros H; vm_compute in H; repeat (destruct H as [H|H]; [discriminate|]); destruct H. }
  split; [vm_compute; reflexivity|]. split; [discriminate|]. split; [reflexivity|].
  split; [now apply Ha|]. split; [intros H; apply Ha in H; [discriminate H|exact I12]|].
  split; [now apply Ha|]. split; [intros H; apply Ha in H; [discriminate H|exact I9]|].
  split; [exists (repeat (lit "zoo") 12); split; [now apply Hp|reflexivity]|].
  split.
  { intros (ws & H & E). rewrite (phrase_words _ _ _ H (Hp 12%nat I12)) in E. discriminate E. }
  split; [split; vm_compute; reflexivity|]. split; [intros [[E|[]]|[E|[]]]; discriminate E|].
  split; [eexists; apply derivesb_derives; [exact toy_ok|vm_compute; reflexivity]|].
  split; [eexists; apply derivesb_derives; [exact toy_ok|vm_compute; reflexivity]|].
  split; [unfold kp_wf, path_values; repeat (constructor; [vm_compute; discriminate|]); constructor|].
  split; [unfold path_ok, rules; repeat (apply Forall_cons; [cbn; try lia; auto|]); apply Forall_nil|].
  unfold path_ok, rules; intros H; inversion H as [|? ? H0]; discriminate H0.
Qed.
