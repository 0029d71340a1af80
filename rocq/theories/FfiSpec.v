(** What the C bindings are expected to do. *)
From Coq Require Import Strings.String.
From Verif Require Import Base Prims Dict KeyPath Errors FMap Data Manager Features Display Ffi.
Open Scope list_scope.

(** ** Errors *)

(** Two errors are of the same class. *)
Inductive same_class : kc_error -> kc_error -> Prop :=
| sc_wrong_password : same_class WrongPassword WrongPassword
| sc_not_enough_data : same_class NotEnoughData NotEnoughData
| sc_seed_is_not_saved : same_class SeedIsNotSaved SeedIsNotSaved
| sc_cant_calculate a b c d : same_class (CantCalculateSeedSize a b) (CantCalculateSeedSize c d)
| sc_data a b : same_class (DataError a) (DataError b)
| sc_seed_size a b : same_class (KInvalidSeedSize a) (KInvalidSeedSize b)
| sc_does_not_exist a b : same_class (KeyDoesNotExist a) (KeyDoesNotExist b)
| sc_already_exist a b : same_class (KeyAlreadyExist a) (KeyAlreadyExist b)
| sc_not_supported a b : same_class (NetworkIsNotSupported a) (NetworkIsNotSupported b)
| sc_key a b c d : same_class (KeyError a b) (KeyError c d)
| sc_key_path a b : same_class (KeyPathError a) (KeyPathError b)
| sc_mnemonic a b : same_class (MnemonicError a) (MnemonicError b).

(** ** Variables *)

(** [s'] is [s] with the variable [v] of type [t] set to [x]. *)
Definition assigned (s : store) (t : ty) (v : var) (x : val t) (s' : store) : Prop :=
  s' t v = x /\ forall t' v', (t', v') <> (t, v) -> s' t' v' = s t' v'.

(** [p] points to the C string [b] in [h]. *)
Definition points_to_text (h : heap) (p : addr) (b : bytes) : Prop :=
  exists i, p = At i /\ get i (live h) = Some (BText b).

(** ** Memory *)

Definition ids (p : addr) : list N := match p with At i => [i] | _ => [] end.

(** The allocations a handle is responsible for.  A string variable that was
    passed to [delete_string] is not responsible any more. *)
Definition refs (h : heap) (t : ty) : val t -> list N :=
  match t return val t -> list N with
  | TManager => fun x => ids x
  | TKeychain => fun x => ids x
  | TData => fun x => ids (d_ptr x)
  | TString => fun x => match read h x with Some _ => ids x | None => [] end
  | TNetworks => fun x => ids (n_ptr x)
  | TBackup => fun x =>
      ids (k_ptr x) ++ match read h (k_ptr x) with
                       | Some (BBackup es) => flat_map (fun e => ids (d_ptr (snd e))) es
                       | _ => []
                       end
  | TInfo => fun x => ids (i_mnemonic x)
  | TBool => fun _ => []
  | TPath => fun _ => []
  | TError => fun x => ids (e_message x)
  end.

Definition pointer {t : ty} : val t -> addr :=
  match t return val t -> addr with
  | TManager => fun x => x
  | TKeychain => fun x => x
  | TData => d_ptr
  | TString => fun x => x
  | TNetworks => n_ptr
  | TBackup => k_ptr
  | TInfo => i_mnemonic
  | TBool => fun _ => Null
  | TPath => fun _ => Null
  | TError => e_message
  end.

(** A handle is null (or empty), or describes a live allocation correctly; a
    string variable may have been passed to [delete_string]. *)
Definition data_ok (h : heap) (d : DataPtr) : Prop :=
  match d_ptr d with
  | Null => True
  | Dangling => d_len d = 0
  | At i => exists b, get i (live h) = Some (BBytes b) /\ d_len d = N.of_nat (List.length b)
  end.
Definition text_ok (h : heap) (p : addr) : Prop :=
  match p with
  | Null => True
  | Dangling => False
  | At i => exists b, get i (live h) = Some (BText b)
  end.
Definition val_ok (h : heap) (t : ty) : val t -> Prop :=
  match t return val t -> Prop with
  | TManager => fun x => match x with Null => True | Dangling => False
                         | At i => exists m, get i (live h) = Some (BManager m) end
  | TKeychain => fun x => match x with Null => True | Dangling => False
                         | At i => exists k, get i (live h) = Some (BKeychain k) end
  | TData => data_ok h
  | TString => fun x => match x with Null => True | Dangling => False
                         | At i => i < next h /\ (get i (live h) = None \/ exists b, get i (live h) = Some (BText b)) end
  | TNetworks => fun x => match n_ptr x with Null => True | Dangling => n_count x = 0
                         | At i => exists ns, get i (live h) = Some (BNets ns) /\ n_count x = N.of_nat (List.length ns) end
  | TBackup => fun x => match k_ptr x with Null => True | Dangling => k_count x = 0
                         | At i => exists es, get i (live h) = Some (BBackup es) /\ k_count x = N.of_nat (List.length es) /\
                             Forall (fun e => data_ok h (snd e)) es end
  | TInfo => fun x => text_ok h (i_mnemonic x)
  | TBool => fun _ => True
  | TPath => fun _ => True
  | TError => fun x => text_ok h (e_message x)
  end.

(** Arguments within their C types. *)
Definition u32_path (p : KeyPath) : Prop :=
  is_u32 (purpose p) /\ is_u32 (coin p) /\ is_u32 (account p) /\ is_u32 (change p) /\ is_u32 (address p).
Definition api_ok {t} (a : api t) : Prop :=
  match a with
  | ManagerHasNetwork _ n => is_u32 n
  | AddNetwork _ _ _ n => is_u32 n
  | PubKey _ n p => is_u32 n /\ u32_path p
  | Sign _ n _ p => is_u32 n /\ u32_path p
  | Verify _ n _ _ p => is_u32 n /\ u32_path p
  | KeypathBitcoin44 _ a b c => is_u32 a /\ is_u32 b /\ is_u32 c
  | KeypathBitcoin49 _ a b c => is_u32 a /\ is_u32 b /\ is_u32 c
  | KeypathBitcoin84 _ a b c => is_u32 a /\ is_u32 b /\ is_u32 c
  | KeypathCardano a b c => is_u32 a /\ is_u32 b /\ is_u32 c
  | KeypathEthereum a => is_u32 a
  | KeypathMetamask a => is_u32 a
  | _ => True
  end.
Definition env_ok (e : env) : Prop := order_ok (env_o1 e) /\ order_ok (env_o2 e).

(** Steps that respect the contract: a string is passed to [delete_string]
    only while it exists, and no non-empty network list is deleted (C52). *)
Definition permitted (x : env * step) (st : store * heap) : Prop :=
  env_ok (fst x) /\
  match snd x with
  | Call a _ _ => api_ok a
  | Delete TString v => refs (snd st) TString (fst st TString v) <> []
  | Delete TNetworks v => refs (snd st) TNetworks (fst st TNetworks v) = []
  | Delete _ _ => True
  end.

(** In addition, the variables to be written are not responsible for anything. *)
Definition careful (x : env * step) (st : store * heap) : Prop :=
  match snd x with
  | @Call t _ out err =>
    refs (snd st) t (fst st t out) = [] /\ refs (snd st) TError (fst st TError err) = []
  | Delete _ _ => True
  end.

Section P.
Variable P : prims.
Variable C : data_config.
Variable T : texts.
Variable bd : build.

(** Every step of a run satisfies [ok] in the state it is made in. *)
Fixpoint along (ok : env * step -> store * heap -> Prop) (l : list (env * step)) (st : store * heap) : Prop :=
  match l with
  | [] => True
  | x :: l' => ok x st /\ forall st', run_step P C T bd x st = Ok st' -> along ok l' st'
  end.

(** The states of C programs that respect the contract. *)
Definition reached (st : store * heap) : Prop :=
  exists l, along permitted l start /\ run P C T bd l start = Ok st.

(** No two variables are responsible for one allocation, nor is a variable
    twice. *)
Definition exclusive (st : store * heap) : Prop :=
  (forall t v, NoDup (refs (snd st) t (fst st t v))) /\
  forall t v t' v' i, In i (refs (snd st) t (fst st t v)) -> In i (refs (snd st) t' (fst st t' v')) ->
    (t, v) = (t', v').

(** The variable that a function uses as its manager or keychain. *)
Definition object {t} (a : api t) : option (ty * var) :=
  match a with
  | ManagerHasNetwork m _ => Some (TManager, m)
  | GenerateMnemonic m _ => Some (TManager, m)
  | KeychainDataFromSeed m _ _ => Some (TManager, m)
  | KeychainDataFromMnemonic m _ _ _ => Some (TManager, m)
  | KeychainFromData m _ _ => Some (TManager, m)
  | AddNetwork m _ _ _ => Some (TManager, m)
  | ChangePassword m _ _ _ => Some (TManager, m)
  | GetKeysData m _ _ => Some (TManager, m)
  | RetrieveMnemonic m _ _ => Some (TManager, m)
  | KeychainNetworks k => Some (TKeychain, k)
  | PubKey k _ _ => Some (TKeychain, k)
  | Sign k _ _ _ => Some (TKeychain, k)
  | Verify k _ _ _ _ => Some (TKeychain, k)
  | _ => None
  end.

(** ** Texts *)

Definition no_nul (b : bytes) : Prop := ~ In x00 b.
(** The C string arguments contain no NUL (they end there). *)
Definition c_strings {t} (a : api t) : Prop :=
  match a with
  | KeychainDataFromSeed _ _ pw => no_nul pw
  | KeychainDataFromMnemonic _ mn pw _ => no_nul mn /\ no_nul pw
  | KeychainFromData _ _ pw => no_nul pw
  | AddNetwork _ _ pw _ => no_nul pw
  | ChangePassword _ _ old new => no_nul old /\ no_nul new
  | GetKeysData _ _ pw => no_nul pw
  | RetrieveMnemonic _ _ pw => no_nul pw
  | KeypathFromString s => no_nul s
  | _ => True
  end.
(** The texts of serde_json have none either. *)
Definition texts_ok : Prop :=
  no_nul (utf8 (malformed_text T)) /\ no_nul (utf8 (variant_rest T)).

(** The call's wallet data decodes to a phrase with a NUL. *)
Definition nul_phrase {t} (a : api t) : Prop :=
  match a with
  | AddNetwork _ data pw _ => exists s w t, of_utf8 pw = Some s /\
      keychain_data_from_bytes P C data s = Ok w /\ w_mnemonic w = Some t /\ In x00 (utf8 t)
  | _ => False
  end.
(** The error repeats a string of the data that contains a NUL. *)
Definition nul_variant (e : kc_error) : Prop :=
  match e with
  | DataError (DUnknownVariant v) => In x00 (utf8 v)
  | _ => False
  end.
End P.
