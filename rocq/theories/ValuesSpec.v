(** What values of the bip39 crate are, independent of how they are printed,
    compared and dropped. *)
From Coq Require Import Strings.String.
From Verif Require Import Base Str Bip39 Crypt Hex Bip39Spec HexSpec TextSpec Values.
Open Scope list_scope.

(** The number of words that [n] bytes of entropy give: 3 words for every 4
    bytes. *)
Definition words_for (n : nat) : nat := (3 * n / 4)%nat.

(** The record that stands for the value in Bip39.v. *)
Definition view (e : entropy) : Entropy := {| e_type := v_get_type e; e_bytes := v_as_ref e |}.

(** A total order on the values that [ok] describes. *)
Definition total_order {A} (ok : A -> Prop) (cmp : A -> A -> comparison) : Prop :=
  forall x y z, ok x -> ok y -> ok z ->
  (cmp x y = Eq <-> x = y) /\
  (cmp x y = Lt <-> cmp y x = Gt) /\
  (cmp x y = Lt -> cmp y z = Lt -> cmp x z = Lt).

(** Every entropy value is below another when it has fewer words, or as many
    words and, as a number, is smaller. *)
Definition below (a b : entropy) : Prop :=
  (List.length (v_as_ref a) < List.length (v_as_ref b))%nat \/
  List.length (v_as_ref a) = List.length (v_as_ref b) /\ of_be (v_as_ref a) < of_be (v_as_ref b).

(** [t] is the lower-case hexadecimal text of [b]. *)
Definition hex_text (b : bytes) (t : str) : Prop := t = List.map b2n (hex_of b).

Definition zeros (b : bytes) : Prop := Forall (fun x => x = x00) b.

(** A freed block of memory that begins with the secret. *)
Definition exposes (freed : list bytes) (secret : bytes) : Prop :=
  exists rest, In (secret ++ rest) freed.

Definition dictionary_text (w : str) : str := TextSpec.fill "Mnemonic word not found in dictionary ""{}""" [w].
Definition hex_error_text (e : hex_error) : str :=
  match e with UnknownSymbol i => TextSpec.fill "Unknown symbol at byte index {}" [dec i] end.
Definition decrypt_error_text (e : decrypt_error) : str :=
  match e with
  | DNotEnoughData => TextSpec.fill "Not enough data for decryption." []
  | DDecryptionFailed => TextSpec.fill "Decryption failed. Check your key" []
  end.
