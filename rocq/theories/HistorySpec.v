(** Histories of operations on one piece of wallet data, and the abstract
    wallet they are expected to follow. *)
From Verif Require Import Base Str Prims FMap Crypt Data Keys Manager ManagerSpec.

Inductive op :=
| Change (old new : str)
| Add (m : manager) (pw : str) (n : N)
| Open (m : manager) (pw : str).

Definition op_passwords (p : op) : list str :=
  match p with
  | Change old new => [old; new]
  | Add _ pw _ => [pw]
  | Open _ pw => [pw]
  end.

Definition op_ok (p : op) : Prop :=
  match p with
  | Change _ _ => True
  | Add m _ _ => manager_ok m
  | Open m _ => manager_ok m
  end.

(** Every operation but opening is given the password that is current by
    then. *)
Fixpoint follows (pw : str) (l : list op) : Prop :=
  match l with
  | [] => True
  | Change old new :: l' => old = pw /\ follows new l'
  | Add _ pw' _ :: l' => pw' = pw /\ follows pw l'
  | Open _ _ :: l' => follows pw l'
  end.

(** Networks are added through managers of built-in networks only. *)
Definition builtin_op (P : prims) (p : op) : Prop :=
  match p with
  | Add m _ _ => exists ns, with_networks P ns = Ok m
  | _ => True
  end.

Section Code.
Variable P : prims.
Variable C : data_config.

(** What the caller holds after an operation of the code: the new data when
    it succeeded, otherwise the old data. *)
Definition perform (o : order) (p : op) (s : bytes * rng) : bytes * rng :=
  match p with
  | Change old new =>
    match change_password P (fst s) old new (snd s) with Ok s' => s' | _ => s end
  | Add m pw n =>
    match add_network P C o m (fst s) pw n (snd s) with Ok s' => s' | _ => s end
  | Open _ _ => s
  end.
Fixpoint perform_all (l : list (order * op)) (s : bytes * rng) : bytes * rng :=
  match l with
  | [] => s
  | (o, p) :: l' => perform_all l' (perform o p s)
  end.

(** The authentication tells the passwords [pws] apart: at no point of the
    history does the current data decrypt under two of them. *)
Fixpoint told_apart (pws : list str) (l : list (order * op)) (s : bytes * rng) : Prop :=
  (forall pw pw' d d', In pw pws -> In pw' pws ->
     decrypt P (fst s) pw = Ok d -> decrypt P (fst s) pw' = Ok d' -> pw = pw') /\
  match l with
  | [] => True
  | (o, p) :: l' => told_apart pws l' (perform o p s)
  end.

(** The abstract wallet: its password and contents. *)
Inductive effect : str * wallet -> op -> str * wallet -> Prop :=
| eff_change pw new w : effect (pw, w) (Change pw new) (new, w)
| eff_change_wrong pw old new w : old <> pw -> effect (pw, w) (Change old new) (pw, w)
| eff_add pw m n f s d w w' :
    get n (m_factories m) = Some f -> get n (w_keys w) = None ->
    wallet_secret P m w s -> key_data_from_seed f s = Ok d -> extended w n d w' ->
    effect (pw, w) (Add m pw n) (pw, w')
| eff_add_wrong pw pw' m n w : pw' <> pw -> effect (pw, w) (Add m pw' n) (pw, w)
| eff_add_unsupported pw pw' m n w :
    get n (m_factories m) = None -> effect (pw, w) (Add m pw' n) (pw, w)
| eff_add_present pw pw' m n w :
    get n (w_keys w) <> None -> effect (pw, w) (Add m pw' n) (pw, w)
| eff_add_no_secret pw pw' m n w :
    (forall s, ~ wallet_secret P m w s) -> effect (pw, w) (Add m pw' n) (pw, w)
| eff_add_failing pw pw' m n f s w :
    get n (m_factories m) = Some f -> wallet_secret P m w s ->
    (forall d, key_data_from_seed f s <> Ok d) -> effect (pw, w) (Add m pw' n) (pw, w)
| eff_open pw w m pw' : effect (pw, w) (Open m pw') (pw, w).

Inductive effects : str * wallet -> list op -> str * wallet -> Prop :=
| effs_nil a : effects a [] a
| effs_cons a p b l c : effect a p b -> effects b l c -> effects a (p :: l) c.

(** Adding several networks through one manager, each with its own iteration
    order. *)
Fixpoint add_all (m : manager) (l : list (order * N)) (pw : str) (s : bytes * rng)
  : res Errors.kc_error (bytes * rng) :=
  match l with
  | [] => Ok s
  | (o, n) :: l' =>
    let* s' := add_network P C o m (fst s) pw n (snd s) in
    add_all m l' pw s'
  end.
End Code.
