(** Property C86: what [{:?}] prints for the errors and values of the library,
    and what the texts tell. *)
From Coq Require Import Strings.String.
From Verif Require Import Base Str Hex Bip39 Dict DictSpec KeyPath Errors Crypt FMap Data Keys TextSpec DataSpec
  Debug DebugSpec DebugFacts.
Open Scope N_scope.
Open Scope list_scope.

(** C86.  Errors print as Rust values. *)
Theorem C86_errors : forall T e, valid_error e -> error_debug T e (fmt T (view_error T e)).
Proof. exact error_debug_exact. Qed.
Print Assumptions C86_errors.
Theorem C86_other_errors : forall T,
  (forall e, fmt T (view_secp e) = secp_debug e) /\ (forall e, fmt T (view_ada e) = ada_debug e) /\
  (forall e, fmt T (view_hex e) = hex_debug e) /\ (forall e, fmt T (view_decrypt e) = decrypt_debug e) /\
  (forall e, valid_bip39 e -> bip39_debug T e (fmt T (view_bip39 e))).
Proof. exact other_errors_exact. Qed.
Print Assumptions C86_other_errors.

(** So do values: paths show the numbers kept, phrases and stored data all
    that they hold. *)
Theorem C86_values : forall T,
  (forall n, fmt T (view_network n) = network_debug n) /\
  (forall p, fmt T (view_btc_path p) = btc_path_debug p) /\
  (forall p, fmt T (view_ada_path p) = ada_path_debug p) /\
  (forall p, fmt T (view_eth_path p) = eth_path_debug p) /\
  (forall s, fmt T (view_seed_size s) = seed_size_debug s) /\
  (forall l, fmt T (view_language l) = language_debug l) /\
  (forall t, fmt T (view_type t) = type_debug t).
Proof. exact values_exact. Qed.
Print Assumptions C86_values.
Theorem C86_versioned : forall T v, fmt T (view_versioned v) = versioned_debug v.
Proof. exact versioned_exact. Qed.
Print Assumptions C86_versioned.
Theorem C86_mnemonics : forall T ms, fmt T (view_mnemonics ms) = mnemonics_debug ms.
Proof. exact mnemonics_exact. Qed.
Print Assumptions C86_mnemonics.
Theorem C86_phrase : forall T s, valid_str s -> phrase_debug T s (fmt T (view_phrase s)).
Proof. exact phrase_exact. Qed.
Print Assumptions C86_phrase.

(** Different errors print differently, unless they come from a custom network
    or from serde_json. *)
Theorem C86_distinct : forall T e e', typed_error e -> typed_error e' ->
  fmt T (view_error T e) = fmt T (view_error T e') -> e = e'.
Proof. exact error_apart. Qed.
Print Assumptions C86_distinct.

(** Whatever a phrase contains, its text tells it; so with word numbers and
    stored data, and the text of the latter tells the whole wallet. *)
Theorem C86_phrase_distinct : forall T s s', valid_str s -> valid_str s' ->
  fmt T (view_phrase s) = fmt T (view_phrase s') -> s = s'.
Proof. exact phrase_apart. Qed.
Print Assumptions C86_phrase_distinct.
Theorem C86_mnemonics_distinct : forall T ms ms', Forall word ms -> Forall word ms' ->
  fmt T (view_mnemonics ms) = fmt T (view_mnemonics ms') -> ms = ms'.
Proof. exact mnemonics_apart. Qed.
Print Assumptions C86_mnemonics_distinct.
Theorem C86_versioned_distinct : forall T v v',
  fmt T (view_versioned v) = fmt T (view_versioned v') -> v = v'.
Proof. exact versioned_apart. Qed.
Print Assumptions C86_versioned_distinct.
Theorem C86_wallet : forall T o o' w w', order_ok o -> order_ok o' -> wallet_ok w -> wallet_ok w' ->
  fmt T (view_versioned (versioned_new o w)) = fmt T (view_versioned (versioned_new o' w')) -> w = w'.
Proof. exact wallet_apart. Qed.
Print Assumptions C86_wallet.

(** A phrase that the library accepts stands in its text as it is, if the
    standard library shows the letters of its language as they are. *)
Theorem C86_phrase_shown : forall T l s ms, (forall c, c = 32 \/ in_script l c -> plain T c = true) ->
  mnemonics_from_string (to_dict l) s = Ok ms ->
  fmt T (view_phrase s) = lit "MnemonicString(""" ++ s ++ lit """)".
Proof. exact phrase_shown. Qed.
Print Assumptions C86_phrase_shown.

(** Paths made by the constructors: the text tells the path and its network. *)
Theorem C86_paths : forall T,
  (forall q q', made_btc q -> made_btc q' -> fmt T (view_btc_path q) = fmt T (view_btc_path q') -> q = q') /\
  (forall q q', made_ada q -> made_ada q' -> fmt T (view_ada_path q) = fmt T (view_ada_path q') -> q = q') /\
  (forall q q', made_eth q -> made_eth q' -> fmt T (view_eth_path q) = fmt T (view_eth_path q') -> q = q') /\
  (forall q q', made_btc q -> made_ada q' -> fmt T (view_btc_path q) <> fmt T (view_ada_path q')) /\
  (forall q q', made_btc q -> made_eth q' -> fmt T (view_btc_path q) <> fmt T (view_eth_path q')) /\
  (forall q q', made_ada q -> made_eth q' -> fmt T (view_ada_path q) <> fmt T (view_eth_path q')).
Proof. exact paths_apart. Qed.
Print Assumptions C86_paths.

(** A custom network's error can print as one of the library's; and the text
    does not tell the type. *)
Theorem C86_custom_refuted : exists T e e', e <> e' /\ valid_error e /\ typed_error e' /\
  fmt T (view_error T e) = fmt T (view_error T e').
Proof. exact custom_mimics_debug. Qed.
Print Assumptions C86_custom_refuted.
Theorem C86_type_refuted : forall T n,
  fmt T (view_error T (KInvalidSeedSize n)) = fmt T (view_bip39 (InvalidSeedSize n)) /\
  fmt T (view_error T NotEnoughData) = fmt T (view_decrypt DNotEnoughData).
Proof. exact type_not_shown. Qed.
Print Assumptions C86_type_refuted.

(** A table that shows printable ASCII only. *)
Definition ascii_debug : debug_config :=
  {| plain := fun c => (32 <=? c) && (c <=? 126); short_nul := true; old_overflow := false;
     boxed_debug := fun t => t; json_debug := fun _ => lit "Error" |}.
Example C86_case_error :
  let e := KeyError 60 (InvalidKeyPath (InvalidPathMarker (lit "a""b" ++ [233; 10]))) in
  typed_error e /\ valid_error e /\
  fmt ascii_debug (view_error ascii_debug e) =
    lit "KeyError(Network(60), InvalidKeyPath(InvalidPathMarker(""a\""b\u{e9}\n"")))".
Proof.
  split; [split; [discriminate|]|split]; [| |reflexivity]; cbn; repeat constructor.
Qed.
Example C86_case_parse :
  fmt ascii_debug (view_error ascii_debug (KeyPathError (ParseErrorAtIndex 3 IntPosOverflow))) =
    lit "KeyPathError(ParseErrorAtIndex(3, ParseIntError { kind: PosOverflow }))".
Proof. reflexivity. Qed.
Example C86_case_values :
  fmt ascii_debug (view_versioned {| v_version := V2; v_data := blit "{}" |}) =
    lit "VersionedData { version: V2, data: [123, 125] }" /\
  fmt ascii_debug (view_mnemonics [0; 2047]) = lit "Mnemonics([MnemonicIndex(0), MnemonicIndex(2047)])" /\
  (exists q, made_eth q /\
     fmt ascii_debug (view_eth_path q) = lit "KeyPath { account: 2147483649, address: 0 }").
Proof.
  split; [reflexivity|split; [reflexivity|]]. exists {| purpose := BIP44_PURPOSE; coin := ETH_COIN_TYPE;
    account := 2147483649; change := 0; address := 0 |}.
  split; [|reflexivity]. exists Debug, 1. split; [discriminate|left; reflexivity].
Qed.
Example C86_case_phrase :
  (forall c, c = 32 \/ in_script English c -> plain ascii_debug c = true) /\
  fmt ascii_debug (view_phrase (lit "zoo zoo")) = lit "MnemonicString(""zoo zoo"")".
Proof.
  split; [|reflexivity]. intros c H. cbn. apply andb_true_intro. rewrite !N.leb_le.
  cbn in H. unfold latin in H. lia.
Qed.
