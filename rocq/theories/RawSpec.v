(** Which raw arguments are valid, what they stand for, and what a call does
    with others. *)
From Verif Require Import Base Str Prims Dict KeyPath Errors FMap Data Keys Keychain Manager Features Display Ffi FfiSpec Raw.

(** [p] points into a live allocation with the bytes [b], [off] bytes after
    its beginning. *)
Inductive place (h : heap) (c : own) : raw -> bytes -> N -> Prop :=
| pl_bytes i off b : get i (live h) = Some (BBytes b) -> place h c (RLib i off) b off
| pl_text i off b : get i (live h) = Some (BText b) -> place h c (RLib i off) (b ++ [x00]) off
| pl_own i off b : get i c = Some b -> place h c (ROwn i off) b off.

(** The [len] bytes at [p] are there and are [b]. *)
Definition readable (h : heap) (c : own) (p : raw) (len : N) (b : bytes) : Prop :=
  N.of_nat (length b) = len /\
  ((p = RNothing /\ b = []) \/
   exists all off pre post, place h c p all off /\ all = pre ++ b ++ post /\ N.of_nat (length pre) = off).

(** At [p] is the C string [b]. *)
Definition terminated (h : heap) (c : own) (p : raw) (b : bytes) : Prop :=
  ~ In x00 b /\
  exists all off pre post, place h c p all off /\ all = pre ++ b ++ x00 :: post /\ N.of_nat (length pre) = off.

(** The call [a] on pointers is the call [a'] on what they lead to. *)
Inductive leads (h : heap) (c : own) : forall {t : ty}, raw_api t -> api t -> Prop :=
| ld_new : leads h c RManagerNew ManagerNew
| ld_has m n : leads h c (RManagerHasNetwork (Some m) n) (ManagerHasNetwork m n)
| ld_generate m l : leads h c (RGenerateMnemonic (Some m) (c_language_code l)) (GenerateMnemonic m l)
| ld_seed m p n q b x : readable h c p n b -> terminated h c q x ->
    leads h c (RKeychainDataFromSeed (Some m) p n q) (KeychainDataFromSeed m b x)
| ld_mnemonic m p q l x y : terminated h c p x -> terminated h c q y ->
    leads h c (RKeychainDataFromMnemonic (Some m) p q (c_language_code l)) (KeychainDataFromMnemonic m x y l)
| ld_open m p n q b x : readable h c p n b -> terminated h c q x ->
    leads h c (RKeychainFromData (Some m) p n q) (KeychainFromData m b x)
| ld_add m p n q k b x : readable h c p n b -> terminated h c q x ->
    leads h c (RAddNetwork (Some m) p n q k) (AddNetwork m b x k)
| ld_change m p n q q' b x y : readable h c p n b -> terminated h c q x -> terminated h c q' y ->
    leads h c (RChangePassword (Some m) p n q q') (ChangePassword m b x y)
| ld_backup m p n q b x : readable h c p n b -> terminated h c q x ->
    leads h c (RGetKeysData (Some m) p n q) (GetKeysData m b x)
| ld_retrieve m p n q b x : readable h c p n b -> terminated h c q x ->
    leads h c (RRetrieveMnemonic (Some m) p n q) (RetrieveMnemonic m b x)
| ld_networks k : leads h c (RKeychainNetworks (Some k)) (KeychainNetworks k)
| ld_pub k n path : leads h c (RPubKey (Some k) n path) (PubKey k n path)
| ld_sign k n p len path b : readable h c p len b ->
    leads h c (RSign (Some k) n p len path) (Sign k n b path)
| ld_verify k n p len q len' path b b' : readable h c p len b -> readable h c q len' b' ->
    leads h c (RVerify (Some k) n p len q len' path) (Verify k n b b' path)
| ld_path p x : terminated h c p x -> leads h c (RKeypathFromString p) (KeypathFromString x)
| ld_44 (f : bool) x y z : leads h c (RKeypathBitcoin44 (if f then 1 else 0) x y z) (KeypathBitcoin44 f x y z)
| ld_49 (f : bool) x y z : leads h c (RKeypathBitcoin49 (if f then 1 else 0) x y z) (KeypathBitcoin49 f x y z)
| ld_84 (f : bool) x y z : leads h c (RKeypathBitcoin84 (if f then 1 else 0) x y z) (KeypathBitcoin84 f x y z)
| ld_cardano x y z : leads h c (RKeypathCardano x y z) (KeypathCardano x y z)
| ld_ethereum x : leads h c (RKeypathEthereum x) (KeypathEthereum x)
| ld_metamask x : leads h c (RKeypathMetamask x) (KeypathMetamask x).

(** What a function looks at, in this order: references, enums and flags,
    slices, the manager or keychain, C strings. *)
Inductive look :=
| LRef (v : option var)
| LLanguage (n : N)
| LFlag (n : N)
| LSlice (p : raw) (len : N)
| LManager (v : option var)
| LKeychain (v : option var)
| LString (p : raw).

Definition looks {t} (a : raw_api t) : list look :=
  match a with
  | RManagerNew => []
  | RManagerHasNetwork m _ => [LRef m; LManager m]
  | RGenerateMnemonic m l => [LRef m; LLanguage l; LManager m]
  | RKeychainDataFromSeed m p n q => [LRef m; LSlice p n; LManager m; LString q]
  | RKeychainDataFromMnemonic m p q l => [LRef m; LLanguage l; LManager m; LString p; LString q]
  | RKeychainFromData m p n q => [LRef m; LSlice p n; LManager m; LString q]
  | RAddNetwork m p n q _ => [LRef m; LSlice p n; LManager m; LString q]
  | RChangePassword m p n q q' => [LRef m; LSlice p n; LManager m; LString q; LString q']
  | RGetKeysData m p n q => [LRef m; LSlice p n; LManager m; LString q]
  | RRetrieveMnemonic m p n q => [LRef m; LSlice p n; LManager m; LString q]
  | RKeychainNetworks k => [LRef k; LKeychain k]
  | RPubKey k _ _ => [LRef k; LKeychain k]
  | RSign k _ p n _ => [LRef k; LSlice p n; LKeychain k]
  | RVerify k _ p n q n' _ => [LRef k; LSlice p n; LSlice q n'; LKeychain k]
  | RKeypathFromString p => [LString p]
  | RKeypathBitcoin44 f _ _ _ => [LFlag f]
  | RKeypathBitcoin49 f _ _ _ => [LFlag f]
  | RKeypathBitcoin84 f _ _ _ => [LFlag f]
  | RKeypathCardano _ _ _ => []
  | RKeypathEthereum _ => []
  | RKeypathMetamask _ => []
  end.

(** Looking is undefined: a null reference, a number without meaning, bytes
    that are not there, a string that does not end, an object that is neither
    null nor alive. *)
Definition look_undefined (s : store) (h : heap) (c : own) (x : look) : Prop :=
  match x with
  | LRef v => v = None
  | LLanguage n => 8 <= n
  | LFlag n => 2 <= n
  | LSlice p len => forall b, ~ readable h c p len b
  | LManager v => exists m, v = Some m /\ s TManager m <> Null /\
      forall i x, s TManager m = At i -> get i (live h) <> Some (BManager x)
  | LKeychain v => exists k, v = Some k /\ s TKeychain k <> Null /\
      forall i x, s TKeychain k = At i -> get i (live h) <> Some (BKeychain x)
  | LString p => forall b, ~ terminated h c p b
  end.

(** Looking panics: a null object, a string that is not UTF-8. *)
Definition look_panics (s : store) (h : heap) (c : own) (x : look) : Prop :=
  match x with
  | LManager v => exists m, v = Some m /\ s TManager m = Null
  | LKeychain v => exists k, v = Some k /\ s TKeychain k = Null
  | LString p => exists b, terminated h c p b /\ of_utf8 b = None
  | _ => False
  end.
Definition look_fine (s : store) (h : heap) (c : own) (x : look) : Prop :=
  ~ look_undefined s h c x /\ ~ look_panics s h c x.

(** The first look that is not fine. *)
Definition first_bad (s : store) (h : heap) (c : own) (l : list look) (x : look) : Prop :=
  exists pre post, l = pre ++ x :: post /\ Forall (look_fine s h c) pre /\ ~ look_fine s h c x.

(** Calls and deletes within the contract: valid references and pointers, and
    as in C51. *)
Definition raw_permitted (x : env * raw_step) (st : store * heap * own) : Prop :=
  let '(s, h, c) := st in
  env_ok (fst x) /\
  match snd x with
  | RCall a out err => out <> None /\ err <> None /\ exists a', leads h c a a' /\ api_ok a'
  | RDelete t v => exists v', v = Some v' /\
      match t with
      | TString => refs h TString (s TString v') <> []
      | TNetworks => refs h TNetworks (s TNetworks v') = []
      | _ => True
      end
  | RWrite _ _ => True
  | RRelease _ => True
  end.

Fixpoint raw_along P C T bd (ok : env * raw_step -> store * heap * own -> Prop)
  (l : list (env * raw_step)) (st : store * heap * own) : Prop :=
  match l with
  | [] => True
  | x :: l' => ok x st /\ forall st', raw_run_step P C T bd x st = Ok st' -> raw_along P C T bd ok l' st'
  end.

Definition raw_start : store * heap * own := (start, []).

(** The variables to be written are not responsible for anything. *)
Definition raw_careful (x : env * raw_step) (st : store * heap * own) : Prop :=
  let '(s, h, c) := st in
  match snd x with
  | @RCall t _ (Some out) (Some err) =>
    refs h t (s t out) = [] /\ refs h TError (s TError err) = []
  | _ => True
  end.
