(** Texts cut at a separator, without reference to any procedure. *)
From Verif Require Import Base.

(** The separator occurs in [s] after [i] characters. *)
Definition occurs_at (sep s : str) (i : nat) : Prop :=
  exists a b, length a = i /\ s = a ++ sep ++ b.

(** [ps] are the pieces of [s]: it is cut at the leftmost occurrence of the
    separator, then what follows is. *)
Inductive pieces (sep : str) : str -> list str -> Prop :=
| p_last s : (forall i, ~ occurs_at sep s i) -> pieces sep s [s]
| p_cut a b ps :
    (forall i, occurs_at sep (a ++ sep ++ b) i -> (length a <= i)%nat) ->
    pieces sep b ps -> pieces sep (a ++ sep ++ b) (a :: ps).

(** After the word, the separator is first seen where it was put. *)
Definition ends_clearly (sep w : str) : Prop :=
  forall i, occurs_at sep (w ++ sep) i -> (length w <= i)%nat.

(** Words that can be told apart once they are put together. *)
Definition separable (sep : str) (ws : list str) : Prop :=
  ws <> [] /\ Forall (ends_clearly sep) (removelast ws) /\
  forall i, ~ occurs_at sep (last ws []) i.

(** No character of the word is in the separator. *)
Definition disjoint_from (sep w : str) : Prop := forall c, In c w -> ~ In c sep.

(** The words one after the other with the separator between them. *)
Definition put_together (sep : str) (ws : list str) : str :=
  concat (List.map (fun w => w ++ sep) (removelast ws)) ++ last ws [].
