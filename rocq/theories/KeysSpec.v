(** What the keys of the three networks are expected to do. *)
From Verif Require Import Base Prims KeyPath KeyPathSpec Errors XPrv XPrvSpec Keys.

(** The rules a path must obey for the network [n] (2^31 is Bitcoin), in the
    order they are checked, each with the error reported when broken. *)
Definition rules (n : N) (k : KeyPath) : list (Prop * kp_error) :=
  (if n =? 2 ^ 31 then [] else
     [(purpose k = 2 ^ 31 + 44, InvalidPurpose (purpose k) (2 ^ 31 + 44))]) ++
  [(coin k = n, InvalidCoin (coin k) n);
   (2 ^ 31 <= account k, InvalidAccount (account k));
   (change k = 0 \/ change k = 1, InvalidChange (change k));
   (address k < 2 ^ 31, InvalidAddress (address k))].

Definition path_ok (n : N) (k : KeyPath) : Prop := Forall (fun r => fst r) (rules n k).

(** [e] belongs to the first broken rule. *)
Definition rejects (n : N) (k : KeyPath) (e : kp_error) : Prop :=
  exists pre r post, rules n k = pre ++ (r, e) :: post /\
    Forall (fun r => fst r) pre /\ ~ r.

(** Deriving along a path with the code's own [derive]. *)
Fixpoint derive_along (P : prims) (x : XPrv) (path : list N) : res secp_error XPrv :=
  match path with
  | [] => Ok x
  | i :: rest => let* y := derive P x i in derive_along P y rest
  end.

(** Cardano derivation along a path. *)
Definition ed_derive_along (P : prims) (x : bytes) (path : list N) : bytes :=
  fold_left (ed_derive P) path x.

(** The clamped 64 bytes [h'] of a hash [h]: in the first byte the lowest
    three bits are cleared; in the 32nd byte the highest and the third
    highest bit are cleared and the second highest is set. *)
Definition clamped (h h' : bytes) : Prop :=
  length h' = length h /\
  (forall i, i <> 0%nat -> i <> 31%nat -> nth i h' x00 = nth i h x00) /\
  b2n (nth 0 h' x00) = 8 * (b2n (nth 0 h x00) / 8) /\
  b2n (nth 31 h' x00) = 64 + b2n (nth 31 h x00) mod 32.

(** The key [K] treats paths by the rules of [n].  [sig_ok] restricts the
    signatures for which [verify] looks at the path at all. *)
Definition obeys_rules (n : N) (K : Key) (sig_ok : bytes -> Prop) : Prop :=
  forall k : KeyPath,
  (path_ok n k -> forall e data sig,
     pub_key K k <> Err (InvalidKeyPath e) /\ sign K data k <> Err (InvalidKeyPath e) /\
     verify K data sig k <> Err (InvalidKeyPath e)) /\
  (forall e, rejects n k e -> forall data sig,
     pub_key K k = Err (InvalidKeyPath e) /\ sign K data k = Err (InvalidKeyPath e) /\
     (sig_ok sig -> verify K data sig k = Err (InvalidKeyPath e))).

(** A Bitcoin or Ethereum key loaded from stored bytes. *)
Definition secp_loaded (P : prims) (K : Key) (n : N) : Prop :=
  (n = 2 ^ 31 /\ exists data, key_from_data (btc_factory P) data = Ok K) \/
  (n = 2 ^ 31 + 60 /\ exists data, key_from_data (eth_factory P) data = Ok K).
