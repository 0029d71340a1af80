(** A way to compute whether a C program respects its contract, for examples. *)
From Verif Require Import Base Prims Dict KeyPath Errors FMap Data Manager Features Display Ffi FfiSpec.

Definition none (l : list N) : bool := match l with [] => true | _ => false end.
Lemma none_eq l : none l = true -> l = [].
Proof. destruct l; [reflexivity|discriminate]. Qed.
Lemma none_neq l : negb (none l) = true -> l <> [].
Proof. destruct l; [discriminate|discriminate]. Qed.

Definition step_check (x : step) (st : store * heap) : bool :=
  match x with
  | @Call t _ out err =>
    none (refs (snd st) t (fst st t out)) && none (refs (snd st) TError (fst st TError err))
  | Delete TString v => negb (none (refs (snd st) TString (fst st TString v)))
  | Delete TNetworks v => none (refs (snd st) TNetworks (fst st TNetworks v))
  | Delete _ _ => true
  end.
Definition args_ok (x : env * step) : Prop :=
  env_ok (fst x) /\ match snd x with Call a _ _ => api_ok a | Delete _ _ => True end.

Section P.
Variable P : prims.
Variable C : data_config.
Variable T : texts.
Variable bd : build.

Fixpoint check (l : list (env * step)) (st : store * heap) : bool :=
  match l with
  | [] => true
  | x :: l' => step_check (snd x) st && match run_step P C T bd x st with Ok st' => check l' st' | _ => true end
  end.

Lemma check_along l : Forall args_ok l -> forall st, check l st = true ->
  along P C T bd permitted l st /\ along P C T bd careful l st.
Proof.
  induction l as [|x l IH]; intros H st E; cbn [along]; [auto|].
  inversion_clear H. cbn [check] in E. apply andb_true_iff in E. destruct E as [E1 E2].
  assert (permitted x st /\ careful x st) as [A B].
  { destruct x as [e [t a o r|t v]]; cbn [snd fst step_check] in *; destruct H0 as [He Ha]; unfold permitted, careful; cbn [snd fst].
    - apply andb_true_iff in E1. destruct E1 as [E1 E3]. apply none_eq in E1, E3. auto.
    - destruct t; auto; split; auto; split; auto.
      + now apply none_neq.
      + now apply none_eq. }
  split; (split; [assumption|]); intros st' R; rewrite R in E2; now apply IH.
Qed.
End P.
