(** What is expected of threads that share the random source. *)
From Verif Require Import Base Str Prims Bip39 Dict Errors FMap Crypt Data Keys Mnemonic Manager Conc.

(** Executions: any number of steps of any threads. *)
Inductive steps {A} (src : nat -> option byte) : sys A -> sys A -> Prop :=
| steps_none st : steps src st st
| steps_more st st' st'' : steps src st st' -> sys_step A src st' st'' -> steps src st st''.

(** The bytes of the source from position [s] on. *)
Definition chunk (src : nat -> option byte) (s : nat) (b : bytes) : Prop :=
  forall i, (i < length b)%nat -> src (s + i)%nat = nth_error b i.

(** A call returns [a] having got, one after the other, the chunks at the
    given positions with the given lengths. *)
Inductive uses {A} (src : nat -> option byte) : proc A -> list (nat * nat) -> A -> Prop :=
| uses_ret a : uses src (Ret a) [] a
| uses_draw n k s b l a : length b = n -> chunk src s b -> uses src (k b) l a ->
    uses src (Draw n k) ((s, n) :: l) a.

(** The [n] bytes from [s] on and the [n'] bytes from [s'] on do not overlap. *)
Definition apart (s n s' n' : nat) : Prop := (s + n <= s')%nat \/ (s' + n' <= s)%nat.

(** No two chunks overlap, whether given to one call or to two. *)
Definition disjoint (G : nat -> nat -> list (nat * nat)) : Prop :=
  forall i j x s n i' j' x' s' n',
    nth_error (G i j) x = Some (s, n) -> nth_error (G i' j') x' = Some (s', n') ->
    (i, j, x) = (i', j', x') \/ apart s n s' n'.

(** The chunks of one thread follow each other. *)
Definition ordered (G : nat -> nat -> list (nat * nat)) : Prop :=
  forall i j x s n j' x' s' n',
    nth_error (G i j) x = Some (s, n) -> nth_error (G i j') x' = Some (s', n') ->
    (j < j')%nat \/ j = j' /\ (x < x')%nat -> (s + n <= s')%nat.

(** A call without other threads. *)
Fixpoint alone {A} (p : proc A) (r : rng) : A :=
  match p with
  | Ret a => a
  | Draw n k => let (b, r) := fill n r in alone (k b) r
  end.

(** The bytes of some chunks, in order. *)
Definition taken (src : nat -> option byte) (l : list (nat * nat)) (b : bytes) : Prop :=
  exists bs, Forall2 (fun c b => length b = snd c /\ chunk src (fst c) b) l bs /\ b = concat bs.

Definition starts_with (b : bytes) (r : rng) : Prop :=
  forall i, (i < length b)%nat -> nth_error b i = Some (r i).

(** The results of the operations as modelled for one thread. *)
Section Ops.
Variable P : prims.
Definition op_alone (x : op) (r : rng) : res kc_error output :=
  match x with
  | OpGenerate m language => rmap (fun a => OText (fst a)) (generate_mnemonic P m language r)
  | OpFromSeed o1 o2 m seed password =>
    rmap (fun a => OData (fst a)) (keychain_data_from_seed P o1 o2 m seed password r)
  | OpFromMnemonic o1 o2 m mnemonic password language =>
    rmap (fun a => OData (fst a)) (keychain_data_from_mnemonic P o1 o2 m mnemonic password language r)
  | OpChange data old_password new_password =>
    rmap (fun a => OData (fst a)) (change_password P data old_password new_password r)
  | OpAdd C o m data password network =>
    rmap (fun a => OData (fst a)) (add_network P C o m data password network r)
  end.
End Ops.
