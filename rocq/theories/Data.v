(** Model of keychain/src/data.rs. *)
From Coq Require Import Strings.String.
From Verif Require Import Base Str Bip39 Dict KeyPath Errors FMap Base64 Json.
Open Scope list_scope.

(** Details of serde_json and base64 left open. *)
Record data_config := {
  json_cfg : json_config;
  b64_cfg : b64_config
}.

(** [enum Version], data.rs:11-14 *)
Inductive version := V1 | V2.
Definition version_num (v : version) : N := match v with V1 => 1 | V2 => 2 end.

(** [WalletDataV1], data.rs:17-20: the keys only. *)
Definition wallet_v1 := fmap bytes.

(** [WalletDataV2], data.rs:23-30 *)
Record wallet := {
  w_seed : option bytes;
  w_mnemonic : option str;
  w_dictionary : option Language;
  w_keys : fmap bytes
}.

(** [VersionedData], data.rs:39-43 *)
Record versioned := {
  v_version : version;
  v_data : bytes
}.

(** [WalletDataV2::from_v1], data.rs:33-35 *)
Definition from_v1 (v1 : wallet_v1) : wallet :=
  {| w_seed := None; w_mnemonic := None; w_dictionary := None; w_keys := v1 |}.

(** Variant names of [Language] (derived [Serialize], mnemonic.rs:7-17) *)
Definition language_name (l : Language) : str :=
  lit match l with
  | English => "English" | French => "French" | Japanese => "Japanese"
  | Korean => "Korean" | ChineseSimplified => "ChineseSimplified"
  | ChineseTraditional => "ChineseTraditional" | Italian => "Italian"
  | Spanish => "Spanish"
  end.
Definition language_of_name (s : str) : option Language :=
  find (fun l => str_eqb (language_name l) s) all_languages.

(** * Serialisation *)

(** [Base64::serialize], data.rs:75 *)
Definition print_b64 (b : bytes) : bytes := print_str (b64_encode b).

Definition print_opt {A} (p : A -> bytes) (o : option A) : bytes :=
  match o with Some a => p a | None => blit "null" end.

(** [se_key_map], data.rs:95-100, for the entries in iteration order *)
Definition print_key_map (entries : list (N * bytes)) : bytes :=
  print_seq (List.map (fun '(n, k) => print_seq [print_num n; print_b64 k]) entries).

(** Derived [Serialize] of [WalletDataV1] (data.rs:16-20; the code never
    writes version 1) and of [WalletDataV2] (data.rs:22-30) *)
Definition print_v1 (o : order) (w : wallet_v1) : bytes :=
  print_struct [print_field (blit "keys") (print_key_map (o _ w))].
Definition print_v2 (o : order) (w : wallet) : bytes :=
  print_struct
    [print_field (blit "seed") (print_opt print_b64 (w_seed w));
     print_field (blit "mnemonic") (print_opt (fun s => print_str (utf8 s)) (w_mnemonic w));
     print_field (blit "dictionary")
       (print_opt (fun l => print_str (utf8 (language_name l))) (w_dictionary w));
     print_field (blit "keys") (print_key_map (o _ (w_keys w)))].

(** [VersionedData::new], data.rs:46-48.  [serde_json::to_vec] does not fail
    on these types. *)
Definition versioned_new (o : order) (w : wallet) : versioned :=
  {| v_version := V2; v_data := print_v2 o w |}.

(** [VersionedData::to_bytes], data.rs:54-56 *)
Definition versioned_to_bytes (v : versioned) : bytes :=
  print_struct
    [print_field (blit "version") (print_num (version_num (v_version v)));
     print_field (blit "data") (print_b64 (v_data v))].

(** * Deserialisation *)
Section Parse.
Variable C : data_config.

(** Every field at most once. *)
Definition once {A} (o : option A) (p : parser A) : parser A := fun l =>
  match o with Some _ => bad | None => p l end.

(** [Base64::deserialize], data.rs:75 *)
Definition parse_b64 : parser bytes := fun l =>
  let* '(s, l) := parse_str l in
  match b64_decode (b64_cfg C) (utf8 s) with
  | Some b => Ok (b, l)
  | None => bad
  end.

(** An unknown field: its value is skipped. *)
Definition ignored {A} (a : A) : parser A := fun l =>
  let* l := ignore_value (json_cfg C) l in Ok (a, l).

(** Derived [Deserialize] of [Language]: the variant name, or an object with
    that name and [null]. *)
Definition parse_variant : parser Language := fun l =>
  let* '(s, l) := parse_str l in
  match language_of_name s with
  | Some lang => Ok (lang, l)
  | None => Err (DUnknownVariant s)
  end.
Definition parse_language : parser Language := fun l =>
  match skip_ws l with
  | b :: r =>
    if byte_eqb b "{"%byte then
      let* '(lang, r) := parse_variant r in
      let* '(_, r) := expect ":"%byte r in
      let* '(_, r) := parse_null r in
      let* '(_, r) := expect "}"%byte r in
      Ok (lang, r)
    else if byte_eqb b """"%byte then parse_variant l
    else bad
  | [] => bad
  end.

(** One [(Network, DeVecWrapper)] and [de_key_map], data.rs:102-110 *)
Definition parse_entry : parser (N * bytes) := fun l =>
  let* '(_, l) := expect "["%byte l in
  let* '(n, l) := seq_elem true (parse_uint (json_cfg C) u32_max) l in
  let* '(k, l) := seq_elem false parse_b64 l in
  let* '(_, l) := expect "]"%byte l in
  Ok ((n, k), l).
Definition parse_key_map : parser (fmap bytes) := fun l =>
  let* '(es, l) := parse_vec parse_entry l in
  Ok (of_list es, l).

(** Derived [Deserialize] of [WalletDataV1] *)
Definition v1_field (s : option (fmap bytes)) (k : str) : parser (option (fmap bytes)) := fun l =>
  if str_eqb k (lit "keys") then
    let* '(m, l) := once s parse_key_map l in Ok (Some m, l)
  else ignored s l.
Definition parse_v1 : parser wallet_v1 :=
  parse_struct v1_field None
    (fun s => ok_or s DMalformed)
    (fun l => seq_elem true parse_key_map l).

(** Derived [Deserialize] of [WalletDataV2]: [seed] and [keys] must be present
    (they use [deserialize_with]); a missing [mnemonic] or [dictionary] is
    [None]. *)
Record v2_state := {
  s_seed : option (option bytes);
  s_mnemonic : option (option str);
  s_dictionary : option (option Language);
  s_keys : option (fmap bytes)
}.
Definition v2_init : v2_state :=
  {| s_seed := None; s_mnemonic := None; s_dictionary := None; s_keys := None |}.
Definition v2_field (s : v2_state) (k : str) : parser v2_state := fun l =>
  if str_eqb k (lit "seed") then
    let* '(x, l) := once (s_seed s) (parse_option parse_b64) l in
    Ok ({| s_seed := Some x; s_mnemonic := s_mnemonic s;
           s_dictionary := s_dictionary s; s_keys := s_keys s |}, l)
  else if str_eqb k (lit "mnemonic") then
    let* '(x, l) := once (s_mnemonic s) (parse_option parse_str) l in
    Ok ({| s_seed := s_seed s; s_mnemonic := Some x;
           s_dictionary := s_dictionary s; s_keys := s_keys s |}, l)
  else if str_eqb k (lit "dictionary") then
    let* '(x, l) := once (s_dictionary s) (parse_option parse_language) l in
    Ok ({| s_seed := s_seed s; s_mnemonic := s_mnemonic s;
           s_dictionary := Some x; s_keys := s_keys s |}, l)
  else if str_eqb k (lit "keys") then
    let* '(x, l) := once (s_keys s) parse_key_map l in
    Ok ({| s_seed := s_seed s; s_mnemonic := s_mnemonic s;
           s_dictionary := s_dictionary s; s_keys := Some x |}, l)
  else ignored s l.
Definition or_none {A} (o : option (option A)) : option A :=
  match o with Some x => x | None => None end.
Definition v2_finish (s : v2_state) : res data_error wallet :=
  let* seed := ok_or (s_seed s) DMalformed in
  let* keys := ok_or (s_keys s) DMalformed in
  Ok {| w_seed := seed; w_mnemonic := or_none (s_mnemonic s);
        w_dictionary := or_none (s_dictionary s); w_keys := keys |}.
Definition v2_positional : parser wallet := fun l =>
  let* '(seed, l) := seq_elem true (parse_option parse_b64) l in
  let* '(mnemonic, l) := seq_elem false (parse_option parse_str) l in
  let* '(dictionary, l) := seq_elem false (parse_option parse_language) l in
  let* '(keys, l) := seq_elem false parse_key_map l in
  Ok ({| w_seed := seed; w_mnemonic := mnemonic;
         w_dictionary := dictionary; w_keys := keys |}, l).
Definition parse_v2 : parser wallet :=
  parse_struct v2_field v2_init v2_finish v2_positional.

(** [Version] as a [u16] ([Deserialize_repr]), data.rs:9-14 *)
Definition parse_version : parser version := fun l =>
  let* '(n, l) := parse_uint (json_cfg C) u16_max l in
  if n =? 1 then Ok (V1, l)
  else if n =? 2 then Ok (V2, l)
  else bad.

(** Derived [Deserialize] of [VersionedData] *)
Definition vd_field (s : option version * option bytes) (k : str)
  : parser (option version * option bytes) := fun l =>
  if str_eqb k (lit "version") then
    let* '(x, l) := once (fst s) parse_version l in Ok ((Some x, snd s), l)
  else if str_eqb k (lit "data") then
    let* '(x, l) := once (snd s) parse_b64 l in Ok ((fst s, Some x), l)
  else ignored s l.
Definition vd_finish (s : option version * option bytes) : res data_error versioned :=
  let* v := ok_or (fst s) DMalformed in
  let* d := ok_or (snd s) DMalformed in
  Ok {| v_version := v; v_data := d |}.
Definition vd_positional : parser versioned := fun l =>
  let* '(v, l) := seq_elem true parse_version l in
  let* '(d, l) := seq_elem false parse_b64 l in
  Ok ({| v_version := v; v_data := d |}, l).
Definition parse_versioned : parser versioned :=
  parse_struct vd_field (None, None) vd_finish vd_positional.

(** [VersionedData::from_bytes], data.rs:50-52 *)
Definition versioned_from_bytes (b : bytes) : res data_error versioned :=
  from_slice parse_versioned b.

(** [VersionedData::get_data], data.rs:58-66 *)
Definition get_data (v : versioned) : res data_error wallet :=
  match v_version v with
  | V1 => let* v1 := from_slice parse_v1 (v_data v) in Ok (from_v1 v1)
  | V2 => from_slice parse_v2 (v_data v)
  end.

End Parse.
