From Verif Require Import Base BaseFacts Str.

(** ** split and join *)
Lemma split_nonempty sep s : split sep s <> [].
Proof.
  destruct s as [|c s]; cbn; [discriminate|].
  destruct (c =? sep); [discriminate|]. destruct (split sep s); discriminate.
Qed.

Lemma split_no_sep sep s : Forall (fun p => ~ In sep p) (split sep s).
Proof.
  induction s as [|c s IH]; cbn [split].
  - constructor; [intros []|constructor].
  - destruct (N.eqb_spec c sep) as [->|Hne].
    + constructor; [intros []|exact IH].
    + destruct (split sep s) as [|p ps] eqn:E; [now destruct (split_nonempty sep s)|].
      inversion_clear IH as [|? ? Hp Hps]. constructor; [|exact Hps].
      intros [H|H]; [congruence|now apply Hp].
Qed.

Lemma join_cons sep p q ps : join sep (p :: q :: ps) = p ++ sep ++ join sep (q :: ps).
Proof. reflexivity. Qed.

Lemma join_split sep s : join [sep] (split sep s) = s.
Proof.
  induction s as [|c s IH]; [reflexivity|]. cbn [split].
  destruct (split sep s) as [|p ps] eqn:E; [now destruct (split_nonempty sep s)|].
  destruct (N.eqb_spec c sep) as [->|Hne].
  - rewrite join_cons. cbn [app]. now rewrite IH.
  - destruct ps as [|q ps].
    + cbn [join] in *. now rewrite IH.
    + rewrite join_cons in *. cbn [app] in *. now rewrite IH.
Qed.

Lemma split_app_sep sep p s :
  ~ In sep p -> split sep (p ++ sep :: s) = p :: split sep s.
Proof.
  induction p as [|c p IH]; intros Hn; cbn [split app].
  - now rewrite N.eqb_refl.
  - destruct (N.eqb_spec c sep) as [->|Hne].
    + exfalso. apply Hn. now left.
    + rewrite IH; [reflexivity|]. intros H. apply Hn. now right.
Qed.

Lemma split_no_sep_whole sep p : ~ In sep p -> split sep p = [p].
Proof.
  induction p as [|c p IH]; intros Hn; [reflexivity|]. cbn [split].
  destruct (N.eqb_spec c sep) as [->|Hne].
  - exfalso. apply Hn. now left.
  - rewrite IH; [reflexivity|]. intros H. apply Hn. now right.
Qed.

Lemma split_join sep ps :
  ps <> [] -> Forall (fun p => ~ In sep p) ps -> split sep (join [sep] ps) = ps.
Proof.
  intros Hne H. induction H as [|p ps Hp Hps IH]; [congruence|].
  destruct ps as [|q ps].
  - cbn [join]. now apply split_no_sep_whole.
  - rewrite join_cons. cbn [app]. rewrite split_app_sep by assumption.
    now rewrite IH by discriminate.
Qed.

(** ** position *)
Lemma position_from_some w l : forall i j,
  position_from i w l = Some j -> exists k, j = i + N.of_nat k /\ nth_error l k = Some w.
Proof.
  induction l as [|x l IH]; intros i j H; cbn in H; [discriminate|].
  destruct (str_eqb x w) eqn:E.
  - injection H as <-. apply str_eqb_eq in E as ->. exists O. split; [cbn; lia|reflexivity].
  - apply IH in H as (k & -> & Hk). exists (S k). split; [lia|exact Hk].
Qed.

Lemma position_from_none w l : forall i,
  position_from i w l = None <-> ~ In w l.
Proof.
  induction l as [|x l IH]; intros i; cbn [position_from In]; [tauto|].
  destruct (str_eqb x w) eqn:E.
  - apply str_eqb_eq in E as ->. split; [discriminate|intros H; now destruct H; left].
  - rewrite IH. split; [|tauto]. intros H [->|H1]; [|now apply H].
    now rewrite str_eqb_refl in E.
Qed.

Lemma position_some w l j :
  position w l = Some j -> nth_error l (N.to_nat j) = Some w.
Proof.
  intros H. apply position_from_some in H as (k & -> & Hk).
  now replace (N.to_nat (0 + N.of_nat k)) with k by lia.
Qed.

Lemma position_none w l : position w l = None <-> ~ In w l.
Proof. apply position_from_none. Qed.

Lemma position_nth w l k :
  NoDup l -> nth_error l k = Some w -> position w l = Some (N.of_nat k).
Proof.
  intros Hnd Hk. destruct (position w l) as [j|] eqn:E.
  - apply position_some in E as Hj.
    rewrite NoDup_nth_error in Hnd.
    assert (N.to_nat j = k) as <-.
    { apply Hnd; [|congruence]. apply nth_error_Some. congruence. }
    now rewrite N2Nat.id.
  - apply position_none in E. exfalso. apply E. now apply nth_error_In in Hk.
Qed.

(** ** mapM *)
Lemma mapM_ok {E A B} (f : A -> res E B) (g : A -> B) l :
  (forall a, In a l -> f a = Ok (g a)) -> mapM f l = Ok (List.map g l).
Proof.
  induction l as [|a l IH]; intros H; [reflexivity|].
  cbn [mapM]. rewrite H by now left. cbn [bind].
  rewrite IH; [reflexivity|]. intros b Hb. apply H. now right.
Qed.

Lemma mapM_inv {E A B} (f : A -> res E B) l bs :
  mapM f l = Ok bs -> Forall2 (fun a b => f a = Ok b) l bs.
Proof.
  revert bs; induction l as [|a l IH]; intros bs H; cbn in H.
  - injection H as <-. constructor.
  - destruct (f a) as [b| | |] eqn:E1; try discriminate.
    destruct (mapM f l) as [bs'| | |]; try discriminate.
    injection H as <-. constructor; auto.
Qed.

Lemma mapM_Forall2 {E A B} (f : A -> res E B) l bs :
  Forall2 (fun a b => f a = Ok b) l bs -> mapM f l = Ok bs.
Proof.
  intros H. induction H as [|a b l bs Hab H IH]; [reflexivity|].
  cbn [mapM]. rewrite Hab. cbn [bind]. now rewrite IH.
Qed.

Lemma mapM_length {E A B} (f : A -> res E B) l bs :
  mapM f l = Ok bs -> length bs = length l.
Proof. intros H. apply mapM_inv in H. induction H; cbn; congruence. Qed.

Lemma mapM_first_err {E A B} (f : A -> res E B) pre a post e :
  (forall x, In x pre -> exists y, f x = Ok y) -> f a = Err e ->
  mapM f (pre ++ a :: post) = Err e.
Proof.
  induction pre as [|x pre IH]; intros Hpre Ha; cbn [mapM app].
  - now rewrite Ha.
  - destruct (Hpre x) as [y ->]; [now left|]. cbn [bind].
    rewrite IH; [reflexivity| |exact Ha]. intros z Hz. apply Hpre. now right.
Qed.

Lemma Forall_first_not {A} (P : A -> Prop) (dec : forall a, {P a} + {~ P a}) l :
  Forall P l \/ exists pre a post, l = pre ++ a :: post /\ Forall P pre /\ ~ P a.
Proof.
  induction l as [|a l IH]; [left; constructor|].
  destruct (dec a) as [Ha|Ha].
  - destruct IH as [IH|(pre & b & post & -> & Hp & Hb)].
    + left; now constructor.
    + right. exists (a :: pre), b, post. auto.
  - right. exists [], a, l. auto.
Qed.
