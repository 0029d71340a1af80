(** Property C75: key paths of a caller's own type. *)
From Verif Require Import Base Prims Toy KeyPath KeyPathSpec Errors XPrv XPrvSpec Keys KeysSpec FMap Reads ReadsSpec ReadsFacts.

(** C75.  What Bitcoin and Ethereum keys ask a path object, and what they do
    with the answers: the rules are checked on the first answers, the key is
    derived from later ones. *)
Theorem C75_secp : forall (P : prims) (x : XPrv) (K : ObjKey) (n : N), prims_ok P ->
  (K = o_btc_key P x /\ n = 2 ^ 31) \/ (K = o_eth_key P x /\ n = 2 ^ 31 + 60) ->
  forall O : path_object, object_ok O -> exists r h, secp_outcome P n x O r h /\
    o_pub_key K O [] = (rmap (fun z => pub_serialize (secp_pub P (x_key z))) r, h) /\
    (forall msg, o_sign K msg O [] = ((let* z := r in map_err secp_sign_error (xprv_sign P z msg)), h)) /\
    (forall msg sig, o_verify K msg sig O []
       = ((let* z := r in map_err key_of_secp (xpub_verify P (secp_pub P (x_key z)) msg sig)), h)).
Proof. intros P x K n HP. exact (secp_methods P HP x K n). Qed.
Print Assumptions C75_secp.

(** The same for Cardano keys, which look at the length of a signature first. *)
Theorem C75_cardano : forall (P : prims) (x : bytes) (O : path_object), exists r h, ed_outcome P x O r h /\
  o_pub_key (o_ada_key P x) O [] = (rmap (ed_public P) r, h) /\
  (forall msg, o_sign (o_ada_key P x) msg O [] = (rmap (fun z => ed_sign P z msg) r, h)) /\
  (forall msg sig, length sig = 64%nat ->
     o_verify (o_ada_key P x) msg sig O [] = (rmap (fun z => ed_verify P z msg sig) r, h)) /\
  (forall msg sig, length sig <> 64%nat -> snd (o_verify (o_ada_key P x) msg sig O []) = []).
Proof. exact ed_methods. Qed.
Print Assumptions C75_cardano.

(** Objects that always answer the same are the paths of the other
    properties. *)
Theorem C75_constant : forall (P : prims) (x : XPrv) (y : bytes),
  same_answers (btc_key P x) (o_btc_key P x) /\ same_answers (eth_key P x) (o_eth_key P x) /\
  same_answers (ada_key P y) (o_ada_key P y).
Proof. exact keys_same. Qed.
Print Assumptions C75_constant.

(** The rules do not bind an object that changes its answers: any key below
    the stored one can be reached. *)
Theorem C75_anywhere : forall (P : prims) (x : XPrv) (y : bytes) (k : KeyPath), kp_wf k ->
  (exists O, object_ok O /\
     fst (o_pub_key (o_btc_key P x) O [])
     = rmap (fun z => pub_serialize (secp_pub P (x_key z))) (map_err key_of_secp (derive_along P x (path_values k))) /\
     forall msg, fst (o_sign (o_btc_key P x) msg O [])
     = (let* z := map_err key_of_secp (derive_along P x (path_values k)) in map_err secp_sign_error (xprv_sign P z msg))) /\
  (exists O, object_ok O /\
     fst (o_pub_key (o_eth_key P x) O [])
     = rmap (fun z => pub_serialize (secp_pub P (x_key z))) (map_err key_of_secp (derive_along P x [account k; change k; address k])) /\
     forall msg, fst (o_sign (o_eth_key P x) msg O [])
     = (let* z := map_err key_of_secp (derive_along P x [account k; change k; address k]) in
        map_err secp_sign_error (xprv_sign P z msg))) /\
  (exists O, object_ok O /\
     fst (o_pub_key (o_ada_key P y) O []) = Ok (ed_public P (ed_derive_along P y [account k; change k; address k])) /\
     forall msg, fst (o_sign (o_ada_key P y) msg O [])
     = Ok (ed_sign P (ed_derive_along P y [account k; change k; address k]) msg)).
Proof. exact anywhere. Qed.
Print Assumptions C75_anywhere.

(** Expected: the error names the value that was found bad.  It names a later
    answer, which can be good. *)
Theorem C75_names_bad_value_refuted : forall (P : prims) (x : XPrv), exists O, object_ok O /\
  fst (o_pub_key (o_btc_key P x) O []) = Err (InvalidKeyPath (InvalidCoin (2 ^ 31) (2 ^ 31))).
Proof. exact error_value. Qed.
Print Assumptions C75_names_bad_value_refuted.

(** A call asks at most ten questions. *)
Theorem C75_questions : forall (P : prims) (x : XPrv) (y : bytes) (O : path_object) (msg sig : bytes),
  (length (snd (o_pub_key (o_btc_key P x) O [])) <= 10)%nat /\
  (length (snd (o_sign (o_btc_key P x) msg O [])) <= 10)%nat /\
  (length (snd (o_verify (o_btc_key P x) msg sig O [])) <= 10)%nat /\
  (length (snd (o_pub_key (o_eth_key P x) O [])) <= 9)%nat /\
  (length (snd (o_sign (o_eth_key P x) msg O [])) <= 9)%nat /\
  (length (snd (o_verify (o_eth_key P x) msg sig O [])) <= 9)%nat /\
  (length (snd (o_pub_key (o_ada_key P y) O [])) <= 9)%nat /\
  (length (snd (o_sign (o_ada_key P y) msg O [])) <= 9)%nat /\
  (length (snd (o_verify (o_ada_key P y) msg sig O [])) <= 9)%nat.
Proof. exact few_questions. Qed.
Print Assumptions C75_questions.

(** What a key asks next depends only on the answers so far.  So an object
    that panics was asked what any object with the same answers is asked, of
    which [C75_secp] and [C75_cardano] tell the rest. *)
Theorem C75_next : forall (P : prims) (x : XPrv) (y : bytes) (K : ObjKey),
  K = o_btc_key P x \/ K = o_eth_key P x \/ K = o_ada_key P y ->
  in_time (o_pub_key K) /\ (forall msg, in_time (o_sign K msg)) /\ (forall msg sig, in_time (o_verify K msg sig)).
Proof. exact keys_causal. Qed.
Print Assumptions C75_next.

(** A keychain asks nothing when it lacks the network; otherwise it passes the
    object on to the key. *)
Theorem C75_keychain : forall (kc : fmap ObjKey) (n : N),
  (get n kc = None -> forall O msg sig,
     o_kc_pub_key kc n O [] = (Err (KeyDoesNotExist n), []) /\ o_kc_sign kc n msg O [] = (Err (KeyDoesNotExist n), []) /\
     o_kc_verify kc n msg sig O [] = (Err (KeyDoesNotExist n), [])) /\
  (forall K, get n kc = Some K -> forall O msg sig,
     (forall r h, o_pub_key K O [] = (r, h) -> o_kc_pub_key kc n O [] = (map_err (KeyError n) r, h)) /\
     (forall r h, o_sign K msg O [] = (r, h) -> o_kc_sign kc n msg O [] = (map_err (KeyError n) r, h)) /\
     (forall r h, o_verify K msg sig O [] = (r, h) -> o_kc_verify kc n msg sig O [] = (map_err (KeyError n) r, h))).
Proof. exact o_dispatch. Qed.
Print Assumptions C75_keychain.

(** An Ethereum key and an object that shows m/44'/60'/0'/0/0 while it is
    checked and then m/44'/60'/5/7/9': the questions, and the key it gets. *)
Definition two_faced : path_object := fun h g => Some
  match g, Nat.ltb (length h) 5 with
  | GPurpose, _ => 2 ^ 31 + 44
  | GCoin, _ => 2 ^ 31 + 60
  | GAccount, true => 2 ^ 31
  | GChange, true => 0
  | GAddress, true => 0
  | GAccount, false => 5
  | GChange, false => 7
  | GAddress, false => 2 ^ 31 + 9
  end.
Definition some_key : XPrv := {| x_key := 77; x_chaincode := repeat x05 32; x_parent_fingerprint := [x01; x02; x03; x04];
                                 x_depth := x02; x_index := 2 ^ 31 + 60 |}.
Example C75_case : prims_ok toy /\ object_ok two_faced /\
  o_pub_key (o_eth_key toy some_key) two_faced []
  = (rmap (fun z => pub_serialize (secp_pub toy (x_key z))) (map_err key_of_secp (derive_along toy some_key [5; 7; 2 ^ 31 + 9])),
     [GPurpose; GCoin; GAccount; GChange; GAddress; GAccount; GChange; GAddress]) /\
  match derive_along toy some_key [5; 7; 2 ^ 31 + 9] with Ok _ => True | _ => False end /\
  pub_key (eth_key toy some_key)
    {| purpose := 2 ^ 31 + 44; coin := 2 ^ 31 + 60; account := 5; change := 7; address := 2 ^ 31 + 9 |}
  = Err (InvalidKeyPath (InvalidAccount 5)) /\
  o_pub_key (o_eth_key toy some_key) (fun h g => match g with GChange => None | _ => two_faced h g end) []
  = (Panic, [GPurpose; GCoin; GAccount; GChange]).
Proof.
  split; [exact toy_ok|]. split.
  { intros h g n E. unfold two_faced in E.
    destruct g, (Nat.ltb (length h) 5); apply (f_equal (fun o => match o with Some v => v | None => 0 end)) in E;
      rewrite <- E; cbv; discriminate. }
  split; [vm_compute; reflexivity|]. split; [vm_compute; exact I|]. split; vm_compute; reflexivity.
Qed.

(** The same object before a Bitcoin key fails on its coin; an object with
    Cardano's coin gets the Cardano key; a keychain without the network asks
    neither. *)
Definition ada_faced : path_object := fun h g => match g with GCoin => Some (2 ^ 31 + 1815) | _ => two_faced h g end.
Example C75_others_case :
  o_pub_key (o_btc_key toy some_key) two_faced []
  = (Err (InvalidKeyPath (InvalidCoin (2 ^ 31 + 60) (2 ^ 31))), [GCoin; GCoin]) /\
  o_pub_key (o_ada_key toy (repeat x09 96)) ada_faced []
  = (Ok (ed_public toy (ed_derive_along toy (repeat x09 96) [5; 7; 2 ^ 31 + 9])),
     [GPurpose; GCoin; GAccount; GChange; GAddress; GAccount; GChange; GAddress]) /\
  o_kc_pub_key [(2, o_eth_key toy some_key)] 4 two_faced [] = (Err (KeyDoesNotExist 4), []).
Proof. split; [|split]; vm_compute; reflexivity. Qed.

(** An object like [two_faced] until it is asked for the change a second time,
    when it panics: the question was the next one. *)
Definition faints : path_object := fun h g =>
  match g with GChange => if Nat.ltb 5 (length h) then None else two_faced h g | _ => two_faced h g end.
Example C75_next_case :
  o_pub_key (o_eth_key toy some_key) faints []
  = (Panic, [GPurpose; GCoin; GAccount; GChange; GAddress; GAccount] ++ [GChange]) /\
  alike faints two_faced [GPurpose; GCoin; GAccount; GChange; GAddress; GAccount] /\
  ~ alike faints two_faced [GPurpose; GCoin; GAccount; GChange; GAddress; GAccount; GChange] /\
  snd (o_pub_key (o_eth_key toy some_key) two_faced [])
  = [GPurpose; GCoin; GAccount; GChange; GAddress; GAccount] ++ GChange :: [GAddress].
Proof.
  split; [vm_compute; reflexivity|]. split; [|split].
  - intros pre g post E. do 6 (destruct pre as [|? pre]; [injection E as <- _; reflexivity|injection E as <- E]).
    now destruct pre.
  - intros H. specialize (H [GPurpose; GCoin; GAccount; GChange; GAddress; GAccount] GChange [] eq_refl). vm_compute in H. discriminate.
  - vm_compute; reflexivity.
Qed.
