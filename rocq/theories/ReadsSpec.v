(** What a key asks a path object and what it does with the answers. *)
From Verif Require Import Base Prims KeyPath Errors XPrv Keys KeysSpec Reads.

(** Questions and the answers to them, the oldest first. *)
Definition talk := list (getter * N).

(** The object gives these answers to these questions. *)
Definition told (O : path_object) (t : talk) : Prop :=
  forall pre g n post, t = pre ++ (g, n) :: post -> O (map fst pre) g = Some n.

(** Answers are of type [u32]. *)
Definition object_ok (O : path_object) : Prop := forall h g n, O h g = Some n -> is_u32 n.

(** An object that always gives the answers of [k]. *)
Definition constant (O : path_object) (k : KeyPath) : Prop :=
  forall h, O h GPurpose = Some (purpose k) /\ O h GCoin = Some (coin k) /\
    O h GAccount = Some (account k) /\ O h GChange = Some (change k) /\ O h GAddress = Some (address k).

(** The talk in which the key of network [n] (2^31 is Bitcoin) finds a part of
    the path good: the change is asked for twice unless the first answer is 0. *)
Inductive passes (n : N) : getter -> talk -> Prop :=
| pass_purpose : passes n GPurpose [(GPurpose, 2 ^ 31 + 44)]
| pass_coin : passes n GCoin [(GCoin, n)]
| pass_account a : 2 ^ 31 <= a -> passes n GAccount [(GAccount, a)]
| pass_change_0 : passes n GChange [(GChange, 0)]
| pass_change_1 c : c <> 0 -> passes n GChange [(GChange, c); (GChange, 1)]
| pass_address a : a < 2 ^ 31 -> passes n GAddress [(GAddress, a)].

(** The talk in which it finds it bad, and the error, which reports one more
    answer. *)
Inductive fails (n : N) : getter -> talk -> kp_error -> Prop :=
| fail_purpose p p' : p <> 2 ^ 31 + 44 ->
    fails n GPurpose [(GPurpose, p); (GPurpose, p')] (InvalidPurpose p' (2 ^ 31 + 44))
| fail_coin c c' : c <> n -> fails n GCoin [(GCoin, c); (GCoin, c')] (InvalidCoin c' n)
| fail_account a a' : a < 2 ^ 31 ->
    fails n GAccount [(GAccount, a); (GAccount, a')] (InvalidAccount a')
| fail_change c c' c'' : c <> 0 -> c' <> 1 ->
    fails n GChange [(GChange, c); (GChange, c'); (GChange, c'')] (InvalidChange c'')
| fail_address a a' : 2 ^ 31 <= a ->
    fails n GAddress [(GAddress, a); (GAddress, a')] (InvalidAddress a').

(** The parts that are checked, in order. *)
Definition checks (n : N) : list getter :=
  (if n =? 2 ^ 31 then [] else [GPurpose]) ++ [GCoin; GAccount; GChange; GAddress].

Definition accepted (n : N) (t : talk) : Prop :=
  exists ts, Forall2 (passes n) (checks n) ts /\ t = concat ts.
Definition refused (n : N) (t : talk) (e : kp_error) : Prop :=
  exists pre c post ts f, checks n = pre ++ c :: post /\ Forall2 (passes n) pre ts /\
    fails n c f e /\ t = concat ts ++ f.

(** The parts that are asked for again to derive the key: the stored Ethereum
    and Cardano keys are already at purpose and coin. *)
Definition parts (n : N) : list getter :=
  (if n =? 2 ^ 31 then [GPurpose; GCoin] else []) ++ [GAccount; GChange; GAddress].

(** What comes of asking [O] on behalf of the extended key [x] of network [n]:
    the private key to be used or an error, and the questions asked. *)
Inductive secp_outcome (P : prims) (n : N) (x : XPrv) (O : path_object)
  : res key_error XPrv -> list getter -> Prop :=
| so_refused t e : told O t -> refused n t e ->
    secp_outcome P n x O (Err (InvalidKeyPath e)) (map fst t)
| so_derived t vs z : accepted n t -> length vs = length (parts n) ->
    told O (t ++ combine (parts n) vs) -> derive_along P x vs = Ok z ->
    secp_outcome P n x O (Ok z) (map fst t ++ parts n)
| so_underivable t vs v post g y e : accepted n t ->
    told O (t ++ combine (parts n) (vs ++ [v])) -> length (parts n) = (length vs + 1 + length post)%nat ->
    derive_along P x vs = Ok y -> derive P y v = Err e -> parts n = g ++ post ->
    secp_outcome P n x O (Err (key_of_secp e)) (map fst t ++ g)
| so_panics t g : told O t -> O (map fst t) g = None ->
    secp_outcome P n x O Panic (map fst t ++ [g]).

(** The same for Cardano, where derivation cannot fail. *)
Inductive ed_outcome (P : prims) (x : bytes) (O : path_object) : res key_error bytes -> list getter -> Prop :=
| eo_refused t e : told O t -> refused (2 ^ 31 + 1815) t e ->
    ed_outcome P x O (Err (InvalidKeyPath e)) (map fst t)
| eo_derived t vs : accepted (2 ^ 31 + 1815) t -> length vs = 3%nat ->
    told O (t ++ combine (parts (2 ^ 31 + 1815)) vs) ->
    ed_outcome P x O (Ok (ed_derive_along P x vs)) (map fst t ++ parts (2 ^ 31 + 1815))
| eo_panics t g : told O t -> O (map fst t) g = None ->
    ed_outcome P x O Panic (map fst t ++ [g]).

(** What a method of a key for fixed paths does is what the method for path
    objects does with an object that always answers the same. *)
Definition same_answers (K : Key) (K' : ObjKey) : Prop :=
  key_network K = o_network K' /\
  forall O k, constant O k ->
    fst (o_pub_key K' O []) = pub_key K k /\
    (forall msg, fst (o_sign K' msg O []) = sign K msg k) /\
    (forall msg sig, fst (o_verify K' msg sig O []) = verify K msg sig k).

(** Two objects that give the same answers to these questions. *)
Definition alike (O O' : path_object) (h : list getter) : Prop :=
  forall pre g post, h = pre ++ g :: post -> O' pre g = O pre g.

(** What is asked next depends on the answers so far and on nothing else, and
    what comes of it on the answers given. *)
Definition in_time {E A} (m : path_object -> asking E A) : Prop := forall O O' : path_object,
  (alike O O' (snd (m O [])) -> m O' [] = m O []) /\
  (forall t g post, snd (m O []) = t ++ g :: post -> alike O O' t ->
     exists post', snd (m O' []) = t ++ g :: post').
