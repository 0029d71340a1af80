(** A way to compute executions, for examples. *)
From Verif Require Import Base Prims Conc ConcSpec.

Section S.
Variable A : Type.
Variable src : nat -> option byte.

Definition step_of (t : thread A) (m : lock) (q : nat) : option (thread A * lock * nat) :=
  match cur _ t with
  | Idle => None
  | Ready (Ret a) => Some (finish A t (Some a), m, q)
  | Ready (Draw n k) =>
    match m with
    | Free => Some (goto A t (Filling n [] k), Held, q)
    | Held => None
    | Poisoned => Some (finish A t None, Poisoned, q)
    end
  | Filling n acc k =>
    match m with
    | Held =>
      match n with
      | O => Some (goto A t (Ready (k acc)), Free, q)
      | S n => match src q with
               | Some b => Some (goto A t (Filling n (acc ++ [b]) k), Held, S q)
               | None => Some (finish A t None, Poisoned, q)
               end
      end
    | _ => None
    end
  end.

Lemma step_of_sound t m q t' m' q' : step_of t m q = Some (t', m', q') -> lstep A src t m q t' m' q'.
Proof.
  unfold step_of. destruct (cur A t) as [|[a|n k]|n acc k] eqn:E; [discriminate| | |].
  - intros [= <- <- <-]. now constructor.
  - destruct m; try discriminate; intros [= <- <- <-]; econstructor; eassumption.
  - destruct m; try discriminate. destruct n as [|n].
    + intros [= <- <- <-]. econstructor. eassumption.
    + destruct (src q) eqn:Es; intros [= <- <- <-]; econstructor; eassumption.
Qed.

(** Thread [i] makes a step if it can. *)
Definition sched1 (i : nat) (st : sys A) : sys A :=
  match nth_error (threads _ st) i with
  | Some t =>
    match step_of t (mutex _ st) (pos _ st) with
    | Some (t', m, q) =>
      {| threads := firstn i (threads _ st) ++ t' :: skipn (S i) (threads _ st); mutex := m; pos := q |}
    | None => st
    end
  | None => st
  end.
Definition sched (l : list nat) (st : sys A) : sys A := fold_left (fun st i => sched1 i st) l st.

Lemma sched_steps st0 l : forall st, steps src st0 st -> steps src st0 (sched l st).
Proof.
  induction l as [|i l IH]; intros st H; [exact H|]. cbn [sched fold_left]. apply IH.
  unfold sched1. destruct (nth_error (threads _ st) i) as [t|] eqn:Ei; [|exact H].
  destruct (step_of t _ _) as [[[t' m'] q']|] eqn:Es; [|exact H]. apply step_of_sound in Es.
  apply nth_error_split in Ei. destruct Ei as (b & a & E & <-). destruct st as [th m q]. cbn [threads mutex pos] in *. subst th.
  eapply steps_more; [exact H|]. rewrite firstn_app, Nat.sub_diag, firstn_all. cbn [firstn]. rewrite app_nil_r.
  replace (skipn (S (length b)) (b ++ t :: a)) with a.
  - now apply s_step.
  - clear. induction b as [|x b IH]; [reflexivity|exact IH].
Qed.
End S.
