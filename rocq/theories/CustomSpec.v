(** What a manager and a keychain ask the caller's own networks, in which
    order, and what they do with the answers. *)
From Verif Require Import Base Str Prims Dict KeyPath Errors FMap Data Keys Keychain Manager ManagerSpec Custom.

(** The caller's code stays within its types. *)
Record world_ok (W : world) : Prop := {
  ok_size : forall h f s, W h (AskSize f) = Ok s -> is_usize (ss_min s) /\ is_usize (ss_max s);
  ok_network : forall h f n, W h (AskNetwork f) = Ok n -> is_u32 n;
  ok_key_network : forall h k n, W h (AskKeyNetwork k) = Ok n -> is_u32 n;
  ok_fill : forall h len bs, W h (AskFill len) = Ok bs -> length bs = len;
  ok_defined : forall h q, W h q <> Undef
}.

(** Of the pairs in [l], the last one for [n] has [a]. *)
Definition last_pair {A} (n : N) (a : A) (l : list (N * A)) : Prop :=
  exists pre post, l = pre ++ (n, a) :: post /\ forall x, In x post -> fst x <> n.

(** A map filled with these pairs one after the other. *)
Definition filled {A} (l : list (N * A)) (m : fmap A) : Prop :=
  wf_map m /\ forall n a, get n m = Some a <-> last_pair n a l.

(** The same method of several objects called in turn: what each answers. *)
Inductive in_turn {I A} (q : I -> question) (says : list event -> I -> A -> Prop)
  : list event -> list I -> list A -> list event -> Prop :=
| turn_nil h : in_turn q says h [] [] h
| turn_cons h i a l r h' : says h i a -> in_turn q says (h ++ [Asked (q i)]) l r h' ->
    in_turn q says h (i :: l) (a :: r) h'.

Definition says_size (W : world) h f s := W h (AskSize f) = Ok s.
Definition says_network (W : world) h f n := W h (AskNetwork f) = Ok n.
Definition says_key_network (W : world) h k n := W h (AskKeyNetwork k) = Ok n.

(** The largest minimum and the smallest maximum of the sizes. *)
Definition bounds (ss : list SeedSize) (lo hi : N) : Prop :=
  (forall s, In s ss -> ss_min s <= lo /\ hi <= ss_max s) /\
  ((ss = [] /\ lo = 0) \/ exists s, In s ss /\ ss_min s = lo) /\
  ((ss = [] /\ hi = usize_max) \/ exists s, In s ss /\ ss_max s = hi).

(** Making a manager of the factories [fs]. *)
Inductive built (W : world) (h : list event) (fs : list nat) : res kc_error cmanager -> list event -> Prop :=
| built_ok ss h1 ns h2 lo hi m :
    in_turn AskSize (says_size W) h fs ss h1 -> bounds ss lo hi -> 0 < lo < hi ->
    in_turn AskNetwork (says_network W) h1 fs ns h2 ->
    cm_seed_size m = lo -> filled (combine ns fs) (cm_factories m) -> built W h fs (Ok m) h2
| built_no_size ss h1 lo hi :
    in_turn AskSize (says_size W) h fs ss h1 -> bounds ss lo hi -> lo = 0 \/ hi <= lo ->
    built W h fs (Err (CantCalculateSeedSize lo hi)) h1
| built_size_panic pre f post ss h1 :
    fs = pre ++ f :: post -> in_turn AskSize (says_size W) h pre ss h1 -> W h1 (AskSize f) = Panic ->
    built W h fs Panic (h1 ++ [Asked (AskSize f)])
| built_network_panic ss h1 lo hi pre f post ns h2 :
    in_turn AskSize (says_size W) h fs ss h1 -> bounds ss lo hi -> 0 < lo < hi ->
    fs = pre ++ f :: post -> in_turn AskNetwork (says_network W) h1 pre ns h2 -> W h2 (AskNetwork f) = Panic ->
    built W h fs Panic (h2 ++ [Asked (AskNetwork f)]).

(** The seed that the manager gets from a secret, as in ManagerSpec. *)
Definition c_secret (P : prims) (m : cmanager) :=
  secret P {| m_factories := []; m_seed_size := cm_seed_size m |}.

(** Factories give their data for [seed], each followed by its network. *)
Inductive given (W : world) (seed : bytes) : list event -> list nat -> list (N * bytes) -> list event -> Prop :=
| given_nil h : given W seed h [] [] h
| given_cons h f d n fs ds h' :
    W h (AskData f seed) = Ok d ->
    W (h ++ [Asked (AskData f seed)]) (AskNetwork f) = Ok n ->
    given W seed (h ++ [Asked (AskData f seed); Asked (AskNetwork f)]) fs ds h' ->
    given W seed h (f :: fs) ((n, d) :: ds) h'.

(** Asking the factories [fs] for a new wallet's keys. *)
Inductive collected (W : world) (seed : bytes) (h : list event) (fs : list nat)
  : res kc_error (list (N * bytes)) -> list event -> Prop :=
| coll_all ds h' : given W seed h fs ds h' -> collected W seed h fs (Ok ds) h'
| coll_panic pre f post ds h' :
    fs = pre ++ f :: post -> given W seed h pre ds h' -> W h' (AskData f seed) = Panic ->
    collected W seed h fs Panic (h' ++ [Asked (AskData f seed)])
| coll_error pre f post ds h' e n :
    fs = pre ++ f :: post -> given W seed h pre ds h' -> W h' (AskData f seed) = Err e ->
    W (h' ++ [Asked (AskData f seed)]) (AskNetwork f) = Ok n ->
    collected W seed h fs (Err (KeyError n e)) (h' ++ [Asked (AskData f seed); Asked (AskNetwork f)])
| coll_network_panic pre f post ds h' :
    fs = pre ++ f :: post -> given W seed h pre ds h' -> W h' (AskData f seed) <> Panic ->
    W (h' ++ [Asked (AskData f seed)]) (AskNetwork f) = Panic ->
    collected W seed h fs Panic (h' ++ [Asked (AskData f seed); Asked (AskNetwork f)]).

(** The entries of a wallet that the manager has a factory for, in order. *)
Inductive registered (m : cmanager) : list (N * bytes) -> list (N * nat * bytes) -> Prop :=
| reg_nil : registered m [] []
| reg_known n d f l r : get n (cm_factories m) = Some f -> registered m l r ->
    registered m ((n, d) :: l) ((n, f, d) :: r)
| reg_unknown n d l r : get n (cm_factories m) = None -> registered m l r ->
    registered m ((n, d) :: l) r.

Definition ask_item (i : N * nat * bytes) : question := AskKey (snd (fst i)) (snd i).
Definition says_key (W : world) h (i : N * nat * bytes) k := W h (AskKey (snd (fst i)) (snd i)) = Ok k.

(** Making keys of these entries, and a keychain of the keys. *)
Inductive opened (W : world) (h : list event) (items : list (N * nat * bytes))
  : res kc_error (fmap key_name) -> list event -> Prop :=
| open_ok ks h1 ns h2 kc :
    in_turn ask_item (says_key W) h items ks h1 ->
    in_turn AskKeyNetwork (says_key_network W) h1 ks ns h2 ->
    filled (combine ns ks) kc -> opened W h items (Ok kc) h2
| open_error pre n f d post ks h1 e :
    items = pre ++ (n, f, d) :: post -> in_turn ask_item (says_key W) h pre ks h1 ->
    W h1 (AskKey f d) = Err e -> opened W h items (Err (KeyError n e)) (h1 ++ [Asked (AskKey f d)])
| open_panic pre n f d post ks h1 :
    items = pre ++ (n, f, d) :: post -> in_turn ask_item (says_key W) h pre ks h1 ->
    W h1 (AskKey f d) = Panic -> opened W h items Panic (h1 ++ [Asked (AskKey f d)])
| open_network_panic ks h1 pre k post ns h2 :
    in_turn ask_item (says_key W) h items ks h1 -> ks = pre ++ k :: post ->
    in_turn AskKeyNetwork (says_key_network W) h1 pre ns h2 -> W h2 (AskKeyNetwork k) = Panic ->
    opened W h items Panic (h2 ++ [Asked (AskKeyNetwork k)]).

(** All that is asked satisfies [Q]; nothing is asked after bytes are drawn,
    and bytes are drawn only on success: 32 and then 12. *)
Definition asks_only {E A} (Q : question -> Prop) (h : list event) (out : res E A * list event) : Prop :=
  exists qs, Forall Q qs /\
    (snd out = h ++ map Asked qs \/
     (exists a, fst out = Ok a) /\ snd out = h ++ map Asked qs ++ [Drawn 32; Drawn 12]).

(** If a computation panicked, so did the last method it called. *)
Definition panics_with {E A} (W : world) (h : list event) (out : res E A * list event) : Prop :=
  fst out = Panic -> exists qs q, snd out = h ++ map Asked (qs ++ [q]) /\ W (h ++ map Asked qs) q = Panic.

(** An object that always answers as a function does. *)
Definition plays_key (W : world) (k : key_name) (K : Key) : Prop := forall h,
  W h (AskKeyNetwork k) = Ok (key_network K) /\
  (forall path, W h (AskPub k path) = pub_key K path) /\
  (forall data path, W h (AskSign k data path) = sign K data path) /\
  (forall data sig path, W h (AskVerify k data sig path) = verify K data sig path).
Definition plays (W : world) (f : nat) (F : KeyFactory) : Prop := forall h,
  W h (AskSize f) = Ok (f_seed_size F) /\ W h (AskNetwork f) = Ok (f_network F) /\
  (forall seed, W h (AskData f seed) = key_data_from_seed F seed) /\
  (forall data, match key_from_data F data with
                | Ok K => exists k, W h (AskKey f data) = Ok k /\ plays_key W k K
                | Err e => W h (AskKey f data) = Err e
                | Panic => W h (AskKey f data) = Panic
                | Undef => W h (AskKey f data) = Undef
                end).

(** Two results are the same up to [R]. *)
Definition same_result {E A B} (R : A -> B -> Prop) (x : res E A) (y : res E B) : Prop :=
  match x, y with
  | Ok a, Ok b => R a b
  | Err e, Err e' => e = e'
  | Panic, Panic => True
  | Undef, Undef => True
  | _, _ => False
  end.

(** Two maps have the same keys, with values that are the same up to [R]. *)
Definition same_map {A B} (R : A -> B -> Prop) (m : fmap A) (m' : fmap B) : Prop :=
  Forall2 (fun x y => fst x = fst y /\ R (snd x) (snd y)) m m'.
Definition plays_manager (W : world) (m : cmanager) (m' : manager) : Prop :=
  cm_seed_size m = m_seed_size m' /\ same_map (plays W) (cm_factories m) (m_factories m').
