(** Model of bip39/src/bip39.rs. *)
From Coq Require Import Strings.String.
From Verif Require Import Base Str Prims Bits.

(** [enum Error], bip39.rs:61-88; [LanguageError] carries the word of
    [dictionary::Error::MnemonicWordNotFoundInDictionary], bip39.rs:863-866 *)
Inductive bip39_error :=
| WrongNumberOfWords (n : N)
| WrongKeySize (n : N)
| MnemonicOutOfBound (n : N)
| LanguageError (w : str)
| InvalidSeedSize (n : N)
| InvalidChecksum (computed found : N).

(** [enum Type], bip39.rs:585-592 *)
Inductive Type_ :=
| Type9Words | Type12Words | Type15Words | Type18Words | Type21Words | Type24Words.

(** [Type::from_word_count], bip39.rs:594-604 *)
Definition from_word_count (len : N) : res bip39_error Type_ :=
  match len with
  | 9 => Ok Type9Words
  | 12 => Ok Type12Words
  | 15 => Ok Type15Words
  | 18 => Ok Type18Words
  | 21 => Ok Type21Words
  | 24 => Ok Type24Words
  | _ => Err (WrongNumberOfWords len)
  end.

(** [Type::from_entropy_size], bip39.rs:606-616 *)
Definition from_entropy_size (len : N) : res bip39_error Type_ :=
  match len with
  | 96 => Ok Type9Words
  | 128 => Ok Type12Words
  | 160 => Ok Type15Words
  | 192 => Ok Type18Words
  | 224 => Ok Type21Words
  | 256 => Ok Type24Words
  | _ => Err (WrongKeySize len)
  end.

(** [Type::to_key_size], bip39.rs:618-627 *)
Definition to_key_size (t : Type_) : nat :=
  match t with
  | Type9Words => 96 | Type12Words => 128 | Type15Words => 160
  | Type18Words => 192 | Type21Words => 224 | Type24Words => 256
  end%nat.

(** [Type::checksum_size_bits], bip39.rs:629-638 *)
Definition checksum_size_bits (t : Type_) : nat :=
  match t with
  | Type9Words => 3 | Type12Words => 4 | Type15Words => 5
  | Type18Words => 6 | Type21Words => 7 | Type24Words => 8
  end%nat.

(** [Type::mnemonic_count], bip39.rs:640-649 *)
Definition mnemonic_count (t : Type_) : nat :=
  match t with
  | Type9Words => 9 | Type12Words => 12 | Type15Words => 15
  | Type18Words => 18 | Type21Words => 21 | Type24Words => 24
  end%nat.

(** [Display for Type], bip39.rs:656-667 *)
Definition type_display (t : Type_) : str :=
  lit match t with
  | Type9Words => "9" | Type12Words => "12" | Type15Words => "15"
  | Type18Words => "18" | Type21Words => "21" | Type24Words => "24"
  end.

(** [FromStr for Type], bip39.rs:668-681; the error is a fixed text. *)
Definition type_from_str (s : str) : res unit Type_ :=
  if str_eqb s (lit "9") then Ok Type9Words
  else if str_eqb s (lit "12") then Ok Type12Words
  else if str_eqb s (lit "15") then Ok Type15Words
  else if str_eqb s (lit "18") then Ok Type18Words
  else if str_eqb s (lit "21") then Ok Type21Words
  else if str_eqb s (lit "24") then Ok Type24Words
  else Err tt.

(** [enum Entropy], bip39.rs:129-136: a type and the byte array of that
    type's size ([entropy_wf]; the Rust types guarantee it). *)
Record Entropy := { e_type : Type_; e_bytes : bytes }.
Definition entropy_wf (e : Entropy) : Prop :=
  length (e_bytes e) = (to_key_size (e_type e) / 8)%nat.

(** [Entropy::new], bip39.rs:179-192: copies the first bytes, indexing
    panics when there are too few. *)
Definition entropy_new (t : Type_) (bs : bytes) : res bip39_error Entropy :=
  let size := (to_key_size t / 8)%nat in
  if (length bs <? size)%nat then Panic
  else Ok {| e_type := t; e_bytes := firstn size bs |}.

(** [Entropy::from_slice], bip39.rs:146-149.  ([len * 8] can not overflow:
    slices are shorter than 2^61.) *)
Definition entropy_from_slice (bs : bytes) : res bip39_error Entropy :=
  let* t := from_entropy_size (N.of_nat (length bs) * 8) in
  entropy_new t bs.

(** [Entropy::generate], bip39.rs:167-177: the whole array is filled. *)
Definition entropy_generate (t : Type_) (r : rng) : Entropy * rng :=
  let '(bs, r) := fill (to_key_size t / 8) r in
  ({| e_type := t; e_bytes := bs |}, r).

(** [Entropy::checksum], bip39.rs:219-227,258-268; [hash()[0]] of a 32-byte array. *)
Definition checksum (P : prims) (e : Entropy) : N :=
  let hash := b2n (hd x00 (sha256 P (e_bytes e))) in
  match e_type e with
  | Type9Words => N.land (N.shiftr hash 5) 7
  | Type12Words => N.land (N.shiftr hash 4) 15
  | Type15Words => N.land (N.shiftr hash 3) 31
  | Type18Words => N.land (N.shiftr hash 2) 63
  | Type21Words => N.land (N.shiftr hash 1) 127
  | Type24Words => hash
  end.

(** [MAX_MNEMONIC_VALUE], bip39.rs:684 *)
Definition MAX_MNEMONIC_VALUE : N := 2047.

(** [MnemonicIndex::new], bip39.rs:716-722.  [struct MnemonicIndex(pub u16)]
    is represented by its number. *)
Definition index_new (m : N) : res bip39_error N :=
  if m <=? MAX_MNEMONIC_VALUE then Ok m else Err (MnemonicOutOfBound m).

(** [struct Mnemonics(Vec<MnemonicIndex>)], bip39.rs:770;
    [Mnemonics::from_mnemonics], bip39.rs:837-840 *)
Definition from_mnemonics (ms : list N) : res bip39_error (list N) :=
  let* _ := from_word_count (N.of_nat (length ms)) in
  Ok ms.

(** [Mnemonics::get_type], bip39.rs:787-789 *)
Definition get_type (ms : list N) : res bip39_error Type_ :=
  unwrap (from_word_count (N.of_nat (length ms))).

(** [Entropy::from_mnemonics], bip39.rs:291-313 *)
Definition entropy_from_mnemonics (P : prims) (ms : list N)
  : res bip39_error Entropy :=
  let* t := get_type ms in
  let* w := unwrap (write_all writer_new ms) in
  let r := to_bytes w in
  let size := (to_key_size t / 8)%nat in
  if (length r <? size)%nat then Panic (* &r[..size] *)
  else
  let* entropy := entropy_new t (firstn size r) in
  match rev r with
  | [] => Ok entropy
  | h :: _ =>
    let h2 := N.shiftr (b2n h) (8 - N.of_nat (checksum_size_bits t)) in
    let cs := checksum P entropy in
    if negb (cs =? h2) then Err (InvalidChecksum cs h2) else Ok entropy
  end.

(** [Entropy::to_mnemonics], bip39.rs:328-357; the [debug_assert!] is
    implied by the [unwrap] after it. *)
Definition to_mnemonics (P : prims) (e : Entropy) : res bip39_error (list N) :=
  let t := e_type e in
  let combined := e_bytes e ++ sha256 P (e_bytes e) in
  let* '(ns, _) := unwrap (read_n (mnemonic_count t) (reader_new combined)) in
  let* ms := unwrap (E := bip39_error) (mapM index_new ns) in
  unwrap (from_mnemonics ms).

(** * Dictionaries *)

(** [DefaultDictionary], bip39.rs:899-902: the array of words
    ([separator()] is a space, bip39.rs:907-909).  Other implementations of
    the [Language] trait are in Lang.v. *)
Notation dict := (list str).
Definition separator : N := 0x20.

(** [DefaultDictionary::lookup_mnemonic], bip39.rs:910-922 with
    [From<dictionary::Error>], bip39.rs:105-109 *)
Definition lookup_mnemonic (d : dict) (w : str) : res bip39_error N :=
  match position w d with
  | None => Err (LanguageError w)
  | Some v => unwrap (index_new (v mod 65536))
  end.

(** [DefaultDictionary::lookup_word], bip39.rs:923-925: [get_unchecked] out
    of bounds is undefined behaviour. *)
Definition lookup_word (d : dict) (m : N) : res bip39_error str :=
  match nth_error d (N.to_nat m) with
  | Some w => Ok w
  | None => Undef
  end.

(** [MnemonicIndex::to_word], bip39.rs:732-737 *)
Definition to_word (d : dict) (m : N) : res bip39_error str :=
  unwrap (lookup_word d m).

(** [MnemonicIndex::from_word], bip39.rs:748-754 *)
Definition from_word (d : dict) (w : str) : res bip39_error N :=
  lookup_mnemonic d w.

(** [Mnemonics::to_string], bip39.rs:794-810 *)
Definition mnemonics_to_string (d : dict) (ms : list N) : res bip39_error str :=
  let* ws := mapM (to_word d) ms in
  Ok (join [separator] ws).

(** [Mnemonics::from_string], bip39.rs:820-829 *)
Definition mnemonics_from_string (d : dict) (s : str) : res bip39_error (list N) :=
  let* ms := mapM (from_word d) (split separator s) in
  from_mnemonics ms.

(** [MnemonicString::new], bip39.rs:548-555 *)
Definition mnemonic_string_new (d : dict) (s : str) : res bip39_error str :=
  let* _ := mnemonics_from_string d s in
  Ok s.

(** * Seeds *)

(** [SEED_SIZE], bip39.rs:401 *)
Definition SEED_SIZE : nat := 64.

(** [Seed::from_slice], bip39.rs:445-452; a [Seed] is its 64 bytes. *)
Definition seed_from_slice (bs : bytes) : res bip39_error bytes :=
  if negb (length bs =? SEED_SIZE)%nat
  then Err (InvalidSeedSize (N.of_nat (length bs)))
  else Ok bs.

(** [Seed::from_mnemonic_string], bip39.rs:478-485 *)
Definition seed_from_mnemonic_string (P : prims) (phrase : str) (password : bytes)
  : bytes :=
  pbkdf2 P (utf8 phrase) (blit "mnemonic" ++ password) 2048 SEED_SIZE.
