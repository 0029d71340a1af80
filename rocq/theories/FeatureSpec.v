(** What the networks of a build are expected to be. *)
From Coq Require Import Strings.String.
From Verif Require Import Base Features.
Open Scope list_scope.

(** The build has the network [n]. *)
Definition built (F : features) (n : N) : Prop :=
  (n = 2 ^ 31 + 1815 /\ with_cardano F = true) \/
  (n = 2 ^ 31 + 60 /\ with_ethereum F = true) \/
  (n = 2 ^ 31 /\ with_bitcoin F = true).

(** Among the networks [ns] of the build is one whose seeds have at least 128
    bits, so that phrases have twelve words; otherwise they have nine. *)
Definition twelve_words (F : features) (ns : list N) : Prop :=
  exists n, (n = 2 ^ 31 \/ n = 2 ^ 31 + 60) /\ In n ns /\ built F n.

(** [l] is a line of the text [h]. *)
Definition line_of (h l : bytes) : Prop :=
  exists pre post, h = pre ++ l ++ [x0a] ++ post /\ ~ In x0a l /\ (pre = [] \/ exists pre', pre = pre' ++ [x0a]).

(** The text [h] defines the C macro [name] as 1. *)
Definition defines (h name : bytes) : Prop :=
  ~ In x09 name /\
  exists tabs, tabs <> [] /\ Forall (eq x09) tabs /\ line_of h (blit "#define " ++ name ++ tabs ++ blit "1").
