(** Properties C13-C18: key paths. *)
From Coq Require Import Strings.String.
From Verif Require Import Base Str KeyPath KeyPathSpec KeyPathFacts.

(** C13.  Printing then parsing gives the path back. *)
Theorem C13_round_trip : forall (p : profile) (k : KeyPath),
  kp_wf k -> generic_from p (generic_to_string k) = Ok k.
Proof. exact generic_round_trip. Qed.
Print Assumptions C13_round_trip.

Theorem C13_print_injective : forall k k' : KeyPath,
  kp_wf k -> kp_wf k' -> generic_to_string k = generic_to_string k' -> k = k'.
Proof. exact generic_to_string_inj. Qed.
Print Assumptions C13_print_injective.

Example C13_case :
  let k := {| purpose := 0x8000002C; coin := 0x80000717; account := 0x80000000;
              change := 1; address := 0xFFFFFFFF |} in
  kp_wf k /\ generic_to_string k = lit "m/44'/1815'/0'/1/2147483647'".
Proof. split; [repeat constructor; discriminate|vm_compute; reflexivity]. Qed.

(** C14.  The parser computes exactly the grammar's outcome. *)
Theorem C14_grammar : forall (p : profile) (s : str) (r : res kp_error KeyPath),
  generic_from p s = r <-> path_outcome p s r.
Proof. intros p s r. symmetry. exact (path_outcome_exact p s r). Qed.
Print Assumptions C14_grammar.

Example C14_cases :
  generic_from Debug (lit " m / +44'/60' /0'/ 0/007")
    = Ok {| purpose := 0x8000002C; coin := 0x8000003C; account := 0x80000000;
            change := 0; address := 7 |} /\
  generic_from Debug (lit "m/44'/60'/0'/0") = Err (InvalidPartsCount 5) /\
  generic_from Debug (lit "M/44'/60'/0'/0/0") = Err (InvalidPathMarker (lit "M")) /\
  generic_from Debug (lit "m/44'/60'/'/0/x") = Err (EmptyValueAtIndex 3) /\
  generic_from Debug (lit "m/44'/60'/0'/4294967296/x") = Err (ParseErrorAtIndex 4 IntPosOverflow) /\
  generic_from Debug (lit "m/44'/60'/x'/42949672960x/0") = Err (ParseErrorAtIndex 3 IntInvalidDigit) /\
  generic_from Debug (lit "m/44'/60'/0'/42949672960x/0") = Err (ParseErrorAtIndex 4 IntPosOverflow) /\
  generic_from Debug (lit "m/44'/60'/0'/-1/0") = Err (ParseErrorAtIndex 4 IntInvalidDigit).
Proof. repeat split; vm_compute; reflexivity. Qed.

(** C15.  The inputs on which parsing panics. *)
Theorem C15_panics : forall (p : profile) (s : str),
  generic_from p s = Panic <->
  exists pre t post, path_parts s (lit "m" :: pre ++ t :: post) /\
    List.length (pre ++ t :: post) = 5%nat /\ Forall (accepted p) pre /\
    ((exists t' c, t = t' ++ [c] /\ 0x80 <= c) \/
     (p = Debug /\ exists t' n, t = t' ++ lit "'" /\ number t' n /\ 2 ^ 31 <= n)).
Proof. exact generic_panic. Qed.
Print Assumptions C15_panics.

Theorem C15_defined : forall (p : profile) (s : str), generic_from p s <> Undef.
Proof. exact generic_defined. Qed.
Print Assumptions C15_defined.

(** C15, expectation refuted: parsing user text never panics. *)
Theorem C15_parse_total_refuted :
  exists s, valid_str s /\ (forall p, generic_from p s = Panic).
Proof.
  exists (lit "m/44'/60'/0'/0/1" ++ [0x2032]).
  split; [repeat constructor|intros []; vm_compute; reflexivity].
Qed.
Print Assumptions C15_parse_total_refuted.

(** C16.  When an apostrophe means hardened. *)
Theorem C16_hardened_mark : forall (p : profile) (s : str) (k : KeyPath) ts i t n,
  generic_from p s = Ok k -> path_parts s (lit "m" :: ts) ->
  nth_error ts i = Some (t ++ lit "'") -> number t n ->
  exists v, nth_error (path_values k) i = Some v /\
    (n < 2 ^ 31 -> v = n + 2 ^ 31) /\
    (2 ^ 31 <= n -> v = n - 2 ^ 31 /\ v < 2 ^ 31).
Proof. exact marked_value. Qed.
Print Assumptions C16_hardened_mark.

(** C16, expectation refuted: an apostrophe always gives a hardened index. *)
Theorem C16_mark_always_hardened_refuted :
  exists s k, generic_from Release s = Ok k /\
    s = lit "m/2147483692'/60'/0'/0/0" /\ purpose k = 44.
Proof.
  exists (lit "m/2147483692'/60'/0'/0/0"),
    {| purpose := 44; coin := 0x8000003C; account := 0x80000000; change := 0; address := 0 |}.
  split; [|split]; vm_compute; reflexivity.
Qed.
Print Assumptions C16_mark_always_hardened_refuted.

(** C17.  The constructors of the three networks. *)
Theorem C17_constructors : forall p : profile,
  (forall testnet pu con,
     In (pu, con) [(0x8000002C, btc_bip44); (0x80000031, btc_bip49); (0x80000054, btc_bip84)] ->
     forall a c d k, con p testnet a c d = Ok k <->
       a < 2 ^ 31 /\ (c = 0 \/ c = 1) /\ d < 2 ^ 31 /\
       path_values k = [pu; if testnet : bool then 2 ^ 31 + 1 else 2 ^ 31; a + 2 ^ 31; c; d]) /\
  (forall a c d k, ada_new p a c d = Ok k <->
       a < 2 ^ 31 /\ (c = 0 \/ c = 1) /\ d < 2 ^ 31 /\
       path_values k = [2 ^ 31 + 44; 2 ^ 31 + 1815; a + 2 ^ 31; c; d]) /\
  (forall a k, eth_new p a = Ok k <->
       a < 2 ^ 31 /\ path_values k = [2 ^ 31 + 44; 2 ^ 31 + 60; a + 2 ^ 31; 0; 0]) /\
  (forall a k, eth_new_metamask a = Ok k <->
       a < 2 ^ 31 /\ path_values k = [2 ^ 31 + 44; 2 ^ 31 + 60; 2 ^ 31; 0; a]).
Proof. exact constructors_exact. Qed.
Print Assumptions C17_constructors.

Example C17_case : forall p,
  btc_bip84 p true 0x7FFFFFFF 1 5
  = Ok {| purpose := 0x80000054; coin := 0x80000001; account := 0xFFFFFFFF;
          change := 1; address := 5 |}.
Proof. intros []; vm_compute; reflexivity. Qed.

(** C18.  Which error a constructor reports. *)
Theorem C18_constructor_errors : forall p : profile,
  (forall con, In con [btc_bip44 p true; btc_bip49 p true; btc_bip84 p true;
                       btc_bip44 p false; btc_bip49 p false; btc_bip84 p false; ada_new p] ->
   forall a c d,
     (2 ^ 31 <= a -> con a c d = Err (InvalidAccount a)) /\
     (a < 2 ^ 31 -> 2 <= c -> con a c d = Err (InvalidChange c)) /\
     (a < 2 ^ 31 -> c < 2 -> 2 ^ 31 <= d -> con a c d = Err (InvalidAddress c) /\ c <> d)) /\
  (forall con, In con [eth_new p; eth_new_metamask] ->
   forall a, 2 ^ 31 <= a -> con a = Err (InvalidAccount a)).
Proof. exact constructor_errors. Qed.
Print Assumptions C18_constructor_errors.

(** C18, expectation refuted: the address error names the address. *)
Theorem C18_address_error_names_address_refuted :
  exists a c d, ada_new Debug a c d = Err (InvalidAddress c) /\
    btc_bip44 Debug false a c d = Err (InvalidAddress c) /\ c <> d.
Proof. exists 0, 1, (2 ^ 31). repeat split; discriminate. Qed.
Print Assumptions C18_address_error_names_address_refuted.
