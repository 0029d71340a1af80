(** Key paths: keychain/src/key_path.rs and
    keychain/src/networks/{bitcoin,cardano,ethereum}/key_path.rs. *)
From Coq Require Import Strings.String.
From Verif Require Import Base Str.

(** keychain/src/key_path.rs:4 *)
Definition BIP44_PURPOSE : N := 0x8000002C.
(** keychain/src/key_path.rs:7 *)
Definition BIP44_SOFT_UPPER_BOUND : N := 0x80000000.
(** keychain/src/key_path.rs:10 *)
Definition KEY_PATH_PARTS_COUNT : nat := 6.

(** [Error], keychain/src/key_path.rs:12-23. *)
Inductive kp_error :=
| InvalidPartsCount (n : N)
| InvalidPurpose (p expected : N)
| InvalidPathMarker (m : str)
| InvalidCoin (c expected : N)
| InvalidAccount (a : N)
| InvalidChange (c : N)
| InvalidAddress (a : N)
| EmptyValueAtIndex (i : N)
| ParseErrorAtIndex (i : N) (e : int_error).

(** trait [KeyPath], keychain/src/key_path.rs:53-59: the five getters of a
    path object.  Simplification: a getter returns the same value each time
    it is called; Reads.v has getters that do not. *)
Record KeyPath := {
  purpose : N;
  coin : N;
  account : N;
  change : N;
  address : N
}.

(** [GenericKeyPath::soft_int], keychain/src/key_path.rs:77-82 *)
Definition soft_int (index : N) (s : str) : res kp_error N :=
  if Nat.eqb (str_len s) 0 then Err (EmptyValueAtIndex index)
  else map_err (ParseErrorAtIndex index) (parse_u32 s).

(** [u32] addition: overflow panics in debug builds and wraps in release. *)
Definition add_u32 {E} (p : profile) (a b : N) : res E N :=
  if a + b <=? u32_max then Ok (a + b)
  else match p with Debug => Panic | Release => Ok ((a + b) mod 2 ^ 32) end.

(** [GenericKeyPath::hard_int], keychain/src/key_path.rs:70-75 *)
Definition hard_int (p : profile) (index : N) (s : str) : res kp_error N :=
  if Nat.eqb (str_len s) 0 then Err (EmptyValueAtIndex index)
  else
    let* init := str_to (str_len s - 1) s in
    let* val := soft_int index init in
    add_u32 p val BIP44_SOFT_UPPER_BOUND.

(** [GenericKeyPath::parse_int], keychain/src/key_path.rs:84-93 *)
Definition parse_int (p : profile) (index : N) (s : str) : res kp_error N :=
  if Nat.eqb (str_len s) 0 then Err (EmptyValueAtIndex index)
  else
    let* tail := str_from (str_len s - 1) s in
    if str_eqb tail (lit "'") then hard_int p index s else soft_int index s.

(** [GenericKeyPath::print_int], keychain/src/key_path.rs:95-101 *)
Definition print_int (val : N) : str :=
  if BIP44_SOFT_UPPER_BOUND <=? val
  then dec (val - BIP44_SOFT_UPPER_BOUND) ++ lit "'"
  else dec val.

(** [GenericKeyPath::from], keychain/src/key_path.rs:103-119 *)
Definition generic_from (p : profile) (path : str) : res kp_error KeyPath :=
  let parts := List.map trim (split 0x2F path) in
  if negb (Nat.eqb (List.length parts) KEY_PATH_PARTS_COUNT)
  then Err (InvalidPartsCount (N.of_nat (List.length parts)))
  else
    let part i := nth i parts [] in
    if negb (str_eqb (part 0%nat) (lit "m")) then Err (InvalidPathMarker (part 0%nat))
    else
      let* pu := parse_int p 1 (part 1%nat) in
      let* co := parse_int p 2 (part 2%nat) in
      let* ac := parse_int p 3 (part 3%nat) in
      let* ch := parse_int p 4 (part 4%nat) in
      let* ad := parse_int p 5 (part 5%nat) in
      Ok {| purpose := pu; coin := co; account := ac; change := ch; address := ad |}.

(** [GenericKeyPath::to_string] / [String::from],
    keychain/src/key_path.rs:121-123,148-159 *)
Definition generic_to_string (k : KeyPath) : str :=
  lit "m/" ++ print_int (purpose k) ++ lit "/" ++ print_int (coin k)
  ++ lit "/" ++ print_int (account k) ++ lit "/" ++ print_int (change k)
  ++ lit "/" ++ print_int (address k).

(** * Network specific paths *)

(** keychain/src/networks/bitcoin/key_path.rs:3-13 *)
Definition BTC_COIN_TYPE : N := 0x80000000.
Definition BTC_COIN_TYPE_TESTNET : N := 0x80000001.
Definition BIP49_PURPOSE : N := 0x80000031.
Definition BIP84_PURPOSE : N := 0x80000054.

(** [KeyPath::coin], bitcoin/key_path.rs:25-32 *)
Definition btc_coin (testnet : bool) : N :=
  if testnet then BTC_COIN_TYPE_TESTNET else BTC_COIN_TYPE.

(** [KeyPath::is_valid], bitcoin/key_path.rs:34-46.  Note the argument of
    [InvalidAddress]. *)
Definition btc_is_valid (account change address : N) : res kp_error unit :=
  if BIP44_SOFT_UPPER_BOUND <=? account then Err (InvalidAccount account)
  else if negb (change =? 0) && negb (change =? 1) then Err (InvalidChange change)
  else if BIP44_SOFT_UPPER_BOUND <=? address then Err (InvalidAddress change)
  else Ok tt.

(** The common body of [bip44], [bip49] and [bip84],
    bitcoin/key_path.rs:48-79 *)
Definition btc_path (pu : N) (p : profile) (testnet : bool) (account change address : N)
  : res kp_error KeyPath :=
  let* _ := btc_is_valid account change address in
  let* ac := add_u32 p account BIP44_SOFT_UPPER_BOUND in
  Ok {| purpose := pu; coin := btc_coin testnet; account := ac;
        change := change; address := address |}.
Definition btc_bip44 := btc_path BIP44_PURPOSE.
Definition btc_bip49 := btc_path BIP49_PURPOSE.
Definition btc_bip84 := btc_path BIP84_PURPOSE.

(** keychain/src/networks/cardano/key_path.rs:4 *)
Definition ADA_COIN_TYPE : N := 0x80000717.

(** [KeyPath::new] and the getters, cardano/key_path.rs:14-25,28-48 *)
Definition ada_new (p : profile) (account change address : N) : res kp_error KeyPath :=
  if BIP44_SOFT_UPPER_BOUND <=? account then Err (InvalidAccount account)
  else if negb (change =? 0) && negb (change =? 1) then Err (InvalidChange change)
  else if BIP44_SOFT_UPPER_BOUND <=? address then Err (InvalidAddress change)
  else
    let* ac := add_u32 p account BIP44_SOFT_UPPER_BOUND in
    Ok {| purpose := BIP44_PURPOSE; coin := ADA_COIN_TYPE; account := ac;
          change := change; address := address |}.

(** keychain/src/networks/ethereum/key_path.rs:4 *)
Definition ETH_COIN_TYPE : N := 0x8000003c.

(** [KeyPath::new] and the getters, ethereum/key_path.rs:13-18,28-48 *)
Definition eth_new (p : profile) (account : N) : res kp_error KeyPath :=
  if BIP44_SOFT_UPPER_BOUND <=? account then Err (InvalidAccount account)
  else
    let* ac := add_u32 p account BIP44_SOFT_UPPER_BOUND in
    Ok {| purpose := BIP44_PURPOSE; coin := ETH_COIN_TYPE; account := ac;
          change := 0; address := 0 |}.

(** [KeyPath::new_metamask] and the getters, ethereum/key_path.rs:20-25,28-48 *)
Definition eth_new_metamask (account : N) : res kp_error KeyPath :=
  if BIP44_SOFT_UPPER_BOUND <=? account then Err (InvalidAccount account)
  else
    Ok {| purpose := BIP44_PURPOSE; coin := ETH_COIN_TYPE;
          account := BIP44_SOFT_UPPER_BOUND; change := 0; address := account |}.
