(** Which JSON documents are wallet data, and of which wallet. *)
From Coq Require Import Strings.String.
From Verif Require Import Base Str CodingSpec Dict FMap Base64 Json Data JsonSpec.
Open Scope list_scope.

Section Config.
Variable C : data_config.

(** An unsigned integer. *)
Definition uint_text (max n : N) (t : bytes) : Prop :=
  n <= max /\
  ((exists s, numeral n s /\ utf8_text s t) \/
   (minus_zero (json_cfg C) = true /\ n = 0 /\ t = blit "-0")).
(** Bytes as a string of base64. *)
Definition bytes_text (b t : bytes) : Prop :=
  exists s q, string_text s t /\ utf8_text s q /\
    b64_text (b64_any_trailing_bits (b64_cfg C)) (b64_short_padding (b64_cfg C)) b q.
Definition option_text {A} (Q : A -> bytes -> Prop) (o : option A) (t : bytes) : Prop :=
  match o with None => t = blit "null" | Some a => Q a t end.
Definition names : list (Language * str) :=
  [(English, lit "English"); (French, lit "French"); (Japanese, lit "Japanese"); (Korean, lit "Korean");
   (ChineseSimplified, lit "ChineseSimplified"); (ChineseTraditional, lit "ChineseTraditional");
   (Italian, lit "Italian"); (Spanish, lit "Spanish")].
Definition language_text (l : Language) (t : bytes) : Prop :=
  exists name, In (l, name) names /\ (string_text name t \/ object_text [(name, blit "null")] t).
(** A key of a network, and all keys: of several for one network the last
    counts. *)
Definition entry_doc (e : N * bytes) (t : bytes) : Prop :=
  exists a b, array_text [a; b] t /\ uint_text u32_max (fst e) a /\ bytes_text (snd e) b.
Definition keys_text (m : fmap bytes) (t : bytes) : Prop :=
  exists es ts, array_text ts t /\ Forall2 entry_doc es ts /\ wf_map m /\
    forall n b, get n m = Some b <->
      exists pre post, es = pre ++ (n, b) :: post /\ ~ In n (List.map fst post).

(** The members of an object with a given name: at most one, with a value that
    [Q] understands. *)
Definition field {A} (ms : list (str * bytes)) (name : str) (Q : A -> bytes -> Prop) (o : option A) : Prop :=
  match o with
  | None => ~ In name (List.map fst ms)
  | Some a => exists pre v post, ms = pre ++ (name, v) :: post /\
      ~ In name (List.map fst pre) /\ ~ In name (List.map fst post) /\ Q a v
  end.
(** Members with other names. *)
Definition others_ignored (known : list str) (ms : list (str * bytes)) : Prop :=
  forall k v, In (k, v) ms -> ~ In k known -> any_value (max_ignored_depth (json_cfg C)) v.

(** A nullable member that may also be missing. *)
Definition nullable {A} (ms : list (str * bytes)) (name : str) (Q : A -> bytes -> Prop) (o : option A) : Prop :=
  field ms name (option_text Q) (Some o) \/ (o = None /\ field ms name (option_text Q) None).

Definition v1_doc_text (m : fmap bytes) (t : bytes) : Prop :=
  (exists ms, object_text ms t /\ others_ignored [lit "keys"] ms /\ field ms (lit "keys") keys_text (Some m)) \/
  (exists v, array_text [v] t /\ keys_text m v).

Definition v2_doc_text (w : wallet) (t : bytes) : Prop :=
  (exists ms, object_text ms t /\
     others_ignored [lit "seed"; lit "mnemonic"; lit "dictionary"; lit "keys"] ms /\
     field ms (lit "seed") (option_text bytes_text) (Some (w_seed w)) /\
     nullable ms (lit "mnemonic") string_text (w_mnemonic w) /\
     nullable ms (lit "dictionary") language_text (w_dictionary w) /\
     field ms (lit "keys") keys_text (Some (w_keys w))) \/
  (exists a b c d, array_text [a; b; c; d] t /\ option_text bytes_text (w_seed w) a /\
     option_text string_text (w_mnemonic w) b /\ option_text language_text (w_dictionary w) c /\
     keys_text (w_keys w) d).

(** The envelope around a document: version number and content. *)
Definition envelope_text (n : N) (d t : bytes) : Prop :=
  (exists ms, object_text ms t /\ others_ignored [lit "version"; lit "data"] ms /\
     field ms (lit "version") (uint_text u16_max) (Some n) /\ field ms (lit "data") bytes_text (Some d)) \/
  (exists a b, array_text [a; b] t /\ uint_text u16_max n a /\ bytes_text d b).

(** A whole input: a text with white space around it. *)
Definition whole (Q : bytes -> Prop) (l : bytes) : Prop :=
  exists w v w', l = w ++ v ++ w' /\ ws w /\ ws w' /\ Q v.

End Config.
