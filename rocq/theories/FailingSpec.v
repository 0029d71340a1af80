(** What is expected of C programs when the random source can fail. *)
From Coq Require Import Strings.String.
From Verif Require Import Base Prims Errors FMap Data Manager Features Display Ffi FfiSpec Failing.
Open Scope list_scope.

(** The functions that need random bytes: the manager they use, and how many
    bytes (a phrase of twelve or nine words, or salt and nonce). *)
Definition needs (bd : build) {t} (a : api t) : option (var * nat) :=
  match a with
  | GenerateMnemonic m _ => Some (m, if with_bitcoin (b_features bd) || with_ethereum (b_features bd) then 16%nat else 12%nat)
  | KeychainDataFromSeed m _ _ => Some (m, 44%nat)
  | KeychainDataFromMnemonic m _ _ _ => Some (m, 44%nat)
  | AddNetwork m _ _ _ => Some (m, 44%nat)
  | ChangePassword m _ _ _ => Some (m, 44%nat)
  | _ => None
  end.

Definition with_rng (e : env) (r : rng) : env :=
  {| env_o1 := env_o1 e; env_o2 := env_o2 e; env_rng := r; env_panic := env_panic e |}.

(** The source works and gives [r]. *)
Definition works (src : source) (r : rng) : Prop := forall q, src q = Some (r q).

Section P.
Variable P : prims.
Variable C : data_config.
Variable T : texts.
Variable bd : build.

(** Every step of a run satisfies [ok] in the state it is made in. *)
Fixpoint f_along (ok : env * step -> store * heap -> Prop) (l : list (env * source * step))
  (st : store * heap * list N) : Prop :=
  match l with
  | [] => True
  | x :: l' => ok (fst (fst x), snd x) (fst st) /\ forall st', f_step P C T bd x st = Ok st' -> f_along ok l' st'
  end.

(** The states of C programs that respect the contract, with the managers whose
    source has failed. *)
Definition f_reached (st : store * heap) (bad : list N) : Prop :=
  exists l, f_along permitted l (start, []) /\ f_run P C T bd l (start, []) = Ok (st, bad).

(** The call reports a panic and does nothing else, except that afterwards the
    managers [bad] are unusable. *)
Definition reports_panic (err : var) (e : env) (s : store) (h : heap) (bad : list N)
  (o : res Empty_set (bool * store * heap * list N)) : Prop :=
  exists s' h' p, o = Ok (false, s', h', bad) /\ assigned s TError err p s' /\ error_code (e_type p) = (-1)%Z /\
    points_to_text h' (e_message p) (utf8 (env_panic e)) /\
    forall i, i <> next h -> get i (live h') = get i (live h).
(** The call does what it does in Ffi with the random numbers [r]. *)
Definition as_with {t} (a : api t) (out err : var) (e : env) (s : store) (h : heap) (bad : list N) (r : rng)
  (o : res Empty_set (bool * store * heap * list N)) : Prop :=
  o = rmap (fun x => (x, bad)) (entry P C T bd a out err (with_rng e r) s h).
End P.
