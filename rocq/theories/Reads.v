(** Keys that are given a caller's own implementation of the trait [KeyPath],
    whose getters may answer differently from call to call or panic:
    keychain/src/key_path.rs:53-59, keychain/src/keychain.rs:26-51,
    keychain/src/networks/{bitcoin,ethereum,cardano}/key.rs.
    Keys.v has paths that always give the same answers. *)
From Verif Require Import Base Prims Bip39 KeyPath Errors XPrv Keys FMap.

(** The methods of the trait, keychain/src/key_path.rs:53-59 *)
Inductive getter := GPurpose | GCoin | GAccount | GChange | GAddress.

(** A path object: its answer to the next question, given the questions asked
    so far, the oldest first; [None] when the getter panics. *)
Definition path_object := list getter -> getter -> option N.

(** A computation that asks: from the questions asked before to its outcome
    and the questions asked after. *)
Definition asking (E A : Type) := list getter -> res E A * list getter.

Definition of_res {E A} (r : res E A) : asking E A := fun h => (r, h).
Definition andthen {E A B} (m : asking E A) (k : A -> asking E B) : asking E B := fun h =>
  match m h with
  | (Ok a, h') => k a h'
  | (Err e, h') => (Err e, h')
  | (Panic, h') => (Panic, h')
  | (Undef, h') => (Undef, h')
  end.
Notation "'let!' x := m 'in' k" := (andthen m (fun x => k))
  (at level 200, x pattern, m at level 100, k at level 200, right associativity).
Definition asking_map {E F A B} (f : res E A -> res F B) (m : asking E A) : asking F B :=
  fun h => (f (fst (m h)), snd (m h)).

(** Calling a getter. *)
Definition ask {E} (O : path_object) (g : getter) : asking E N := fun h =>
  (match O h g with Some n => Ok n | None => Panic end, h ++ [g]).

(** trait [Key], keychain/src/key.rs:67-82, for path objects *)
Record ObjKey := {
  o_network : N;
  o_pub_key : path_object -> asking key_error bytes;
  o_sign : bytes -> path_object -> asking key_error bytes;
  o_verify : bytes -> bytes -> path_object -> asking key_error bool
}.

Section WithPrims.
Variable P : prims.

(** The last three checks: bitcoin/key.rs:28-36, ethereum/key.rs:34-42,
    cardano/key.rs:92-100.  [&&] calls the second getter only if the first
    answer is not 0; an error calls the getter once more. *)
Definition o_check_rest {A} (O : path_object) (k : asking key_error A) : asking key_error A :=
  let! a := ask O GAccount in
  if a <? BIP44_SOFT_UPPER_BOUND
  then let! a := ask O GAccount in of_res (path_err (InvalidAccount a))
  else
  let! c := ask O GChange in
  let! bad := (if c =? 0 then of_res (Ok false)
               else let! c := ask O GChange in of_res (Ok (negb (c =? 1)))) in
  if (bad : bool) then let! c := ask O GChange in of_res (path_err (InvalidChange c))
  else
  let! d := ask O GAddress in
  if BIP44_SOFT_UPPER_BOUND <=? d
  then let! d := ask O GAddress in of_res (path_err (InvalidAddress d))
  else k.

(** [Key::derive_private], bitcoin/key.rs:24-45.  The argument of the first
    [derive] is evaluated before it, the others inside the closures. *)
Definition o_btc_derive_private (xprv : XPrv) (O : path_object) : asking key_error XPrv :=
  let! c := ask O GCoin in
  if negb (c =? BTC_COIN_TYPE)
  then let! c := ask O GCoin in of_res (path_err (InvalidCoin c BTC_COIN_TYPE))
  else o_check_rest O
    (asking_map (map_err key_of_secp)
      (let! i := ask O GPurpose in
       let! pk := of_res (derive P xprv i) in
       let! i := ask O GCoin in
       let! pk := of_res (derive P pk i) in
       let! i := ask O GAccount in
       let! pk := of_res (derive P pk i) in
       let! i := ask O GChange in
       let! pk := of_res (derive P pk i) in
       let! i := ask O GAddress in
       of_res (derive P pk i))).

(** The methods common to the Bitcoin and Ethereum keys,
    bitcoin/key.rs:48-64, ethereum/key.rs:52-68 *)
Definition o_secp_key (network : N) (derive_private : path_object -> asking key_error XPrv) : ObjKey := {|
  o_network := network;
  o_pub_key path := asking_map (rmap (fun pk => pub_serialize (public P pk))) (derive_private path);
  o_sign data path :=
    let! pk := derive_private path in
    of_res (map_err secp_sign_error (xprv_sign P pk data));
  o_verify data signature path :=
    let! pk := derive_private path in
    of_res (map_err key_of_secp (xpub_verify P (public P pk) data signature))
|}.
Definition o_btc_key (xprv : XPrv) : ObjKey := o_secp_key BITCOIN (o_btc_derive_private xprv).

(** [Key::derive_private], ethereum/key.rs:27-50 *)
Definition o_eth_derive_private (xprv : XPrv) (O : path_object) : asking key_error XPrv :=
  let! p := ask O GPurpose in
  if negb (p =? BIP44_PURPOSE)
  then let! p := ask O GPurpose in of_res (path_err (InvalidPurpose p BIP44_PURPOSE))
  else
  let! c := ask O GCoin in
  if negb (c =? ETH_COIN_TYPE)
  then let! c := ask O GCoin in of_res (path_err (InvalidCoin c ETH_COIN_TYPE))
  else o_check_rest O
    (asking_map (map_err key_of_secp)
      (let! i := ask O GAccount in
       let! pk := of_res (derive P xprv i) in
       let! i := ask O GChange in
       let! pk := of_res (derive P pk i) in
       let! i := ask O GAddress in
       of_res (derive P pk i))).
Definition o_eth_key (xprv : XPrv) : ObjKey := o_secp_key ETHEREUM (o_eth_derive_private xprv).

(** [Key::derive_private], cardano/key.rs:85-108 *)
Definition o_ada_derive_private (xprv : bytes) (O : path_object) : asking key_error bytes :=
  let! p := ask O GPurpose in
  if negb (p =? BIP44_PURPOSE)
  then let! p := ask O GPurpose in of_res (path_err (InvalidPurpose p BIP44_PURPOSE))
  else
  let! c := ask O GCoin in
  if negb (c =? ADA_COIN_TYPE)
  then let! c := ask O GCoin in of_res (path_err (InvalidCoin c ADA_COIN_TYPE))
  else o_check_rest O
    (let! i := ask O GAccount in
     let pk := ed_derive P xprv i in
     let! i := ask O GChange in
     let pk := ed_derive P pk i in
     let! i := ask O GAddress in
     of_res (Ok (ed_derive P pk i))).

(** [impl Key], cardano/key.rs:111-139 *)
Definition o_ada_key (xprv : bytes) : ObjKey := {|
  o_network := CARDANO;
  o_pub_key path := asking_map (rmap (fun pk => ed_public P pk)) (o_ada_derive_private xprv path);
  o_sign data path := asking_map (rmap (fun pk => ed_sign P pk data)) (o_ada_derive_private xprv path);
  o_verify data signature path :=
    if Nat.ltb (length signature) ADA_SIGNATURE_SIZE
    then of_res (Err (InvalidSignatureSize (N.of_nat (length signature)) (N.of_nat ADA_SIGNATURE_SIZE)))
    else if negb (Nat.eqb (length signature) ADA_SIGNATURE_SIZE) then of_res Panic
    else asking_map (rmap (fun pk => ed_verify P pk data signature)) (o_ada_derive_private xprv path)
|}.

End WithPrims.

(** [Keychain::pub_key], [sign], [verify] and [_pk], keychain.rs:26-51 *)
Definition o_pk (kc : fmap ObjKey) (n : N) : res kc_error ObjKey := ok_or (get n kc) (KeyDoesNotExist n).
Definition o_kc_pub_key (kc : fmap ObjKey) (n : N) (path : path_object) : asking kc_error bytes :=
  let! key := of_res (o_pk kc n) in
  asking_map (map_err (KeyError n)) (o_pub_key key path).
Definition o_kc_sign (kc : fmap ObjKey) (n : N) (data : bytes) (path : path_object) : asking kc_error bytes :=
  let! key := of_res (o_pk kc n) in
  asking_map (map_err (KeyError n)) (o_sign key data path).
Definition o_kc_verify (kc : fmap ObjKey) (n : N) (data signature : bytes) (path : path_object) : asking kc_error bool :=
  let! key := of_res (o_pk kc n) in
  asking_map (map_err (KeyError n)) (o_verify key data signature path).
