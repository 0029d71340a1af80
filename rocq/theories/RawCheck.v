(** A way to compute whether a C program passes valid raw arguments, for
    examples. *)
From Verif Require Import Base Prims Dict KeyPath Errors FMap Data Manager Features Display Ffi FfiSpec FfiCheck Raw RawSpec RawFacts.

(** Numbers within their C types. *)
Definition raw_api_ok {t} (a : raw_api t) : Prop :=
  match a with
  | RManagerHasNetwork _ n => is_u32 n
  | RAddNetwork _ _ _ _ n => is_u32 n
  | RPubKey _ n p => is_u32 n /\ u32_path p
  | RSign _ n _ _ p => is_u32 n /\ u32_path p
  | RVerify _ n _ _ _ _ p => is_u32 n /\ u32_path p
  | RKeypathBitcoin44 _ a b c => is_u32 a /\ is_u32 b /\ is_u32 c
  | RKeypathBitcoin49 _ a b c => is_u32 a /\ is_u32 b /\ is_u32 c
  | RKeypathBitcoin84 _ a b c => is_u32 a /\ is_u32 b /\ is_u32 c
  | RKeypathCardano a b c => is_u32 a /\ is_u32 b /\ is_u32 c
  | RKeypathEthereum a => is_u32 a
  | RKeypathMetamask a => is_u32 a
  | _ => True
  end.
Lemma leads_api_ok h c t (a : raw_api t) (a' : api t) : leads h c a a' -> raw_api_ok a -> api_ok a'.
Proof. intros H. destruct H; cbn [raw_api_ok api_ok]; auto. Qed.

Definition raw_args_ok (x : env * raw_step) : Prop :=
  env_ok (fst x) /\
  match snd x with
  | RCall a _ _ => raw_api_ok a
  | _ => True
  end.

Section P.
Variable P : prims.
Variable C : data_config.
Variable T : texts.
Variable bd : build.

Definition raw_step_check (x : env * raw_step) (st : store * heap * own) : bool :=
  let '(s, h, c) := st in
  match snd x with
  | @RCall t a (Some out) (Some err) =>
    none (refs h t (s t out)) && none (refs h TError (s TError err)) &&
    match raw_body P C bd a s (fst x) h c with Ok _ => true | Err _ => true | _ => false end
  | RCall _ _ _ => false
  | RDelete TString (Some v) => negb (none (refs h TString (s TString v)))
  | RDelete TNetworks (Some v) => none (refs h TNetworks (s TNetworks v))
  | RDelete _ (Some _) => true
  | RDelete _ None => false
  | _ => true
  end.

Fixpoint raw_check (l : list (env * raw_step)) (st : store * heap * own) : bool :=
  match l with
  | [] => true
  | x :: l' => raw_step_check x st && match raw_run_step P C T bd x st with Ok st' => raw_check l' st' | _ => true end
  end.

Lemma raw_check_along l : Forall raw_args_ok l -> forall st, raw_check l st = true ->
  raw_along P C T bd raw_permitted l st /\ raw_along P C T bd raw_careful l st.
Proof.
  induction l as [|x l IH]; intros H st E; cbn [raw_along]; [auto|].
  inversion_clear H. cbn [raw_check] in E. apply andb_true_iff in E. destruct E as [E1 E2].
  assert (raw_permitted x st /\ raw_careful x st) as [A B].
  { destruct st as [[s h] c]. destruct x as [e [t a o r|t v|i b|i]]; cbn [snd fst raw_step_check] in *; destruct H0 as [He Ha];
      unfold raw_permitted, raw_careful; cbn [snd fst].
    - destruct o as [o|]; [|discriminate]. destruct r as [r|]; [|discriminate].
      apply andb_true_iff in E1. destruct E1 as [E1 E3]. apply andb_true_iff in E1. destruct E1 as [E1 E4].
      apply none_eq in E1, E4. split; [|auto]. split; [exact He|]. split; [discriminate|]. split; [discriminate|].
      destruct (raw_cases P C bd s h c a e) as [(y & _ & _ & E)|[(y & _ & _ & E)|(_ & a' & Hl & _)]];
        [rewrite E in E3; discriminate|rewrite E in E3; discriminate|]. exists a'. split; [exact Hl|exact (leads_api_ok _ _ _ _ _ Hl Ha)].
    - destruct v as [v|]; [|destruct t; discriminate]. split; [|auto]. split; [exact He|]. exists v. split; [reflexivity|].
      destruct t; auto; [now apply none_neq|now apply none_eq].
    - auto.
    - auto. }
  split; (split; [assumption|]); intros st' R; rewrite R in E2; now apply IH.
Qed.
End P.
