(** Finite maps with numeric keys, the model of
    [std::collections::HashMap<Network, V>].

    A map is the list of its entries in strictly increasing order of keys, so
    that two maps with the same entries are equal.  The order in which a hash
    map is iterated is not this order: wherever the code iterates, the model
    takes the order as a parameter ([order]). *)
From Coq Require Export Permutation.
From Verif Require Import Base.

Definition fmap (V : Type) := list (N * V).

Section M.
Context {V : Type}.

(** [HashMap::get] *)
Fixpoint get (k : N) (m : fmap V) : option V :=
  match m with
  | [] => None
  | (k', v) :: m' => if k =? k' then Some v else get k m'
  end.

(** [HashMap::insert] *)
Fixpoint ins (k : N) (v : V) (m : fmap V) : fmap V :=
  match m with
  | [] => [(k, v)]
  | (k', v') :: m' =>
    if k <? k' then (k, v) :: m
    else if k =? k' then (k, v) :: m'
    else (k', v') :: ins k v m'
  end.

(** [Iterator::collect] into a [HashMap], or a loop of [insert]s: of two
    entries with the same key the later one stays. *)
Definition of_list (l : list (N * V)) : fmap V :=
  fold_left (fun m '(k, v) => ins k v m) l [].

(** [HashMap::contains_key] *)
Definition mem (k : N) (m : fmap V) : bool :=
  match get k m with Some _ => true | None => false end.

(** The keys, each once. *)
Definition keys_of (m : fmap V) : list N := List.map fst m.

(** Well-formedness: keys strictly increase. *)
Fixpoint sorted_from (lo : option N) (m : fmap V) : Prop :=
  match m with
  | [] => True
  | (k, _) :: m' =>
    match lo with None => True | Some n => n < k end /\ sorted_from (Some k) m'
  end.
Definition wf_map (m : fmap V) : Prop := sorted_from None m.

End M.

(** How one hash map iteration orders the entries: some permutation. *)
Definition order := forall A : Set, list A -> list A.
Definition order_ok (o : order) : Prop := forall (A : Set) (l : list A), Permutation (o A l) l.

Definition sorted_order : order := fun _ l => l.
Definition reverse_order : order := fun _ l => rev l.
