(** Property C72: the values of the bip39 crate. *)
From Coq Require Import Strings.String.
From Verif Require Import Base Str Prims Hex Bip39 Crypt Bip39Spec Toy Values ValuesSpec ValuesFacts.
Open Scope list_scope.

(** C72.  The six variants of [Entropy] are the record of Bip39.v: every
    operation gives the same result, so C04-C06 speak about the enum. *)
Theorem C72_enum :
  (forall e, array_wf e <-> entropy_wf (view e)) /\
  (forall e e', view e = view e' -> e = e') /\
  (forall E, exists e, view e = E) /\
  (forall t bs, rmap view (v_new t bs) = entropy_new t bs) /\
  (forall bs, rmap view (v_from_slice bs) = entropy_from_slice bs) /\
  (forall t r, rmap (fun '(e, r) => (view e, r)) (v_generate t r) = Ok (entropy_generate t r)) /\
  (forall P e, v_checksum P e = checksum P (view e)) /\
  (forall P e, fst (v_to_mnemonics P e) = to_mnemonics P (view e)) /\
  (forall P ms, rmap view (fst (v_from_mnemonics P ms)) = entropy_from_mnemonics P ms).
Proof. exact enum_is_record. Qed.
Print Assumptions C72_enum.

(** A slice becomes the value that holds exactly its bytes, or its size is
    refused; generation takes as many bytes as the type needs from the source
    and no more; 4 bytes give 3 words. *)
Theorem C72_made :
  (forall bs e, v_from_slice bs = Ok e <-> array_wf e /\ v_as_ref e = bs) /\
  (forall bs, ~ entropy_length (List.length bs) -> v_from_slice bs = Err (WrongKeySize (8 * N.of_nat (List.length bs)))) /\
  (forall t r, exists e, array_wf e /\ v_get_type e = t /\ v_as_ref e = List.map r (seq 0 (List.length (v_as_ref e))) /\
     v_generate t r = Ok (e, fun i => r (List.length (v_as_ref e) + i)%nat)) /\
  (forall e, array_wf e -> entropy_length (List.length (v_as_ref e)) /\
     mnemonic_count (v_get_type e) = words_for (List.length (v_as_ref e))).
Proof. exact values_made. Qed.
Print Assumptions C72_made.

(** [Display] and [Debug] print all the bytes in hexadecimal; the text reads
    back as the same value, and no two values print alike. *)
Theorem C72_shown :
  (forall e, exists t, v_display e = Ok t /\ v_debug e = Ok t /\ hex_text (v_as_ref e) t) /\
  (forall e t, array_wf e -> v_display e = Ok t ->
     exists b, decode (List.map n2b t) = Ok b /\ v_from_slice b = Ok e) /\
  (forall e e', array_wf e -> array_wf e' -> v_display e = v_display e' -> e = e') /\
  (forall s, List.length s = 64%nat -> exists t, seed_display s = Ok t /\ seed_debug s = Ok t /\
     hex_text s t /\ List.length t = 128%nat /\
     exists b, decode (List.map n2b t) = Ok b /\ seed_from_slice b = Ok s) /\
  (forall s s', seed_display s = seed_display s' -> s = s').
Proof. exact values_shown. Qed.
Print Assumptions C72_shown.

(** The derived orders are total and follow the number of words, then the
    value as a number; equality is that of the values; 18 words is the
    default. *)
Theorem C72_order :
  total_order array_wf v_cmp /\
  (forall a b, array_wf a -> array_wf b -> (v_cmp a b = Lt <-> below a b)) /\
  (forall a b, v_eqb a b = true <-> a = b) /\
  (forall a b, seed_eqb a b = true <-> a = b) /\
  total_order (fun _ => True) type_cmp /\
  (forall a b, type_cmp a b = Lt <-> (mnemonic_count a < mnemonic_count b)%nat) /\
  mnemonic_count type_default = 18%nat.
Proof. exact values_ordered. Qed.
Print Assumptions C72_order.

(** Dropping a value overwrites all its bytes with zeros. *)
Theorem C72_drop :
  (forall e, v_get_type (v_drop e) = v_get_type e /\ zeros (v_as_ref (v_drop e)) /\
     List.length (v_as_ref (v_drop e)) = List.length (v_as_ref e)) /\
  (forall s, List.length s = 64%nat -> exists z, seed_drop s = Ok z /\ zeros z /\ List.length z = 64%nat).
Proof. exact values_dropped. Qed.
Print Assumptions C72_drop.

(** But going to words and back frees vectors that still hold the entropy. *)
Theorem C72_left :
  (forall P e, exposes (snd (v_to_mnemonics P e)) (v_as_ref e)) /\
  (forall P ms e, fst (v_from_mnemonics P ms) = Ok e -> exposes (snd (v_from_mnemonics P ms)) (v_as_ref e)).
Proof. exact values_left. Qed.
Print Assumptions C72_left.

(** C72, expectation refuted: no memory freed while making the words of an
    entropy holds that entropy. *)
Theorem C72_left_refuted : exists P e, array_wf e /\ ~ zeros (v_as_ref e) /\
  (exists ms, fst (v_to_mnemonics P e) = Ok ms) /\ exposes (snd (v_to_mnemonics P e)) (v_as_ref e).
Proof. exact values_left_refuted. Qed.
Print Assumptions C72_left_refuted.

(** The source of a bip39 error is the dictionary's error, which names the
    word; texts of the errors that C64 does not cover. *)
Theorem C72_errors :
  (forall e w, cause e = Some w <-> e = LanguageError w) /\
  (forall w, show_dictionary w = dictionary_text w) /\
  (forall e, show_hex e = hex_error_text e) /\
  (forall e, show_decrypt e = decrypt_error_text e).
Proof. exact value_errors. Qed.
Print Assumptions C72_errors.

Example C72_case :
  let e := Entropy9 [x00; x01; x02; x03; x04; x05; x06; x07; x08; x09; x0a; xff] in
  let e' := Entropy12 (repeat x00 16) in
  array_wf e /\ array_wf e' /\ below e e' /\ v_cmp e e' = Lt /\
  v_from_slice (v_as_ref e) = Ok e /\
  v_display e = Ok (lit "000102030405060708090aff") /\
  v_drop e = Entropy9 (repeat x00 12) /\
  (let '(w, freed) := v_to_mnemonics toy e in
   match w with Ok ms => List.length ms = 9%nat /\ fst (v_from_mnemonics toy ms) = Ok e | _ => False end /\
   List.map (@List.length byte) freed = [44%nat]) /\
  show_dictionary (lit "foo") = lit "Mnemonic word not found in dictionary ""foo""" /\
  v_from_slice (repeat x00 13) = Err (WrongKeySize 104).
Proof.
  split; [reflexivity|]. split; [reflexivity|]. split; [left; cbn; lia|].
  do 3 (split; [vm_compute; reflexivity|]). split; [reflexivity|].
  split; [vm_compute; auto|]. split; reflexivity.
Qed.
