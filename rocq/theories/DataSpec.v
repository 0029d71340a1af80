(** Wallet data and its text format, stated without the printer and parser. *)
From Coq Require Import Strings.String.
From Verif Require Import Base Str Dict FMap Base64 Data.
Open Scope list_scope.

(** Wallet data that Rust's types allow. *)
Definition wallet_ok (w : wallet) : Prop :=
  wf_map (w_keys w) /\
  Forall (fun e => is_u32 (fst e)) (w_keys w) /\
  match w_mnemonic w with Some s => valid_str s | None => True end.

(** The characters standing for a byte of UTF-8 text inside a JSON string. *)
Definition json_char (b : byte) : bytes :=
  match b with
  | x08 => blit "\b" | x09 => blit "\t" | x0a => blit "\n" | x0c => blit "\f" | x0d => blit "\r"
  | x22 => blit "\""" | x5c => blit "\\"
  | x00 => blit "\u0000" | x01 => blit "\u0001" | x02 => blit "\u0002" | x03 => blit "\u0003"
  | x04 => blit "\u0004" | x05 => blit "\u0005" | x06 => blit "\u0006" | x07 => blit "\u0007"
  | x0b => blit "\u000b" | x0e => blit "\u000e" | x0f => blit "\u000f" | x10 => blit "\u0010"
  | x11 => blit "\u0011" | x12 => blit "\u0012" | x13 => blit "\u0013" | x14 => blit "\u0014"
  | x15 => blit "\u0015" | x16 => blit "\u0016" | x17 => blit "\u0017" | x18 => blit "\u0018"
  | x19 => blit "\u0019" | x1a => blit "\u001a" | x1b => blit "\u001b" | x1c => blit "\u001c"
  | x1d => blit "\u001d" | x1e => blit "\u001e" | x1f => blit "\u001f"
  | _ => [b]
  end.

Definition quoted (b : bytes) : bytes := blit """" ++ b ++ blit """".

Definition seed_text (o : option bytes) : bytes :=
  match o with Some b => quoted (b64_encode b) | None => blit "null" end.
Definition mnemonic_text (o : option str) : bytes :=
  match o with Some s => quoted (flat_map json_char (utf8 s)) | None => blit "null" end.
Definition dictionary_text (o : option Language) : bytes :=
  match o with
  | None => blit "null"
  | Some English => blit """English"""
  | Some French => blit """French"""
  | Some Japanese => blit """Japanese"""
  | Some Korean => blit """Korean"""
  | Some ChineseSimplified => blit """ChineseSimplified"""
  | Some ChineseTraditional => blit """ChineseTraditional"""
  | Some Italian => blit """Italian"""
  | Some Spanish => blit """Spanish"""
  end.
Definition entry_text (e : N * bytes) : bytes :=
  blit "[" ++ utf8 (dec (fst e)) ++ blit "," ++ quoted (b64_encode (snd e)) ++ blit "]".
Fixpoint entries_text (l : list (N * bytes)) : bytes :=
  match l with
  | [] => []
  | [e] => entry_text e
  | e :: l' => entry_text e ++ blit "," ++ entries_text l'
  end.

(** The document of a wallet whose keys are listed in the given order. *)
Definition wallet_text (w : wallet) (entries : list (N * bytes)) : bytes :=
  blit "{""seed"":" ++ seed_text (w_seed w) ++
  blit ",""mnemonic"":" ++ mnemonic_text (w_mnemonic w) ++
  blit ",""dictionary"":" ++ dictionary_text (w_dictionary w) ++
  blit ",""keys"":[" ++ entries_text entries ++ blit "]}".

(** A version-1 document. *)
Definition v1_text (entries : list (N * bytes)) : bytes :=
  blit "{""keys"":[" ++ entries_text entries ++ blit "]}".

(** The envelope with a version number. *)
Definition envelope (n : N) (doc : bytes) : bytes :=
  blit "{""version"":" ++ utf8 (dec n) ++ blit ",""data"":" ++ quoted (b64_encode doc) ++ blit "}".
