(** Model of the values of the bip39 crate in more detail than in Bip39.v:
    the six variants of [Entropy] with their arrays, how values are printed,
    compared and dropped, the vectors that are freed as they are, and the
    errors' sources and texts. *)
From Coq Require Import Strings.String.
From Verif Require Import Base Str Prims Bits Hex Bip39 Crypt.
Open Scope list_scope.

(** [enum Entropy], bip39.rs:128-136; [array_wf] is what the array types say. *)
Inductive entropy :=
| Entropy9 (b : bytes)
| Entropy12 (b : bytes)
| Entropy15 (b : bytes)
| Entropy18 (b : bytes)
| Entropy21 (b : bytes)
| Entropy24 (b : bytes).
Definition array_wf (e : entropy) : Prop :=
  match e with
  | Entropy9 b => List.length b = 12
  | Entropy12 b => List.length b = 16
  | Entropy15 b => List.length b = 20
  | Entropy18 b => List.length b = 24
  | Entropy21 b => List.length b = 28
  | Entropy24 b => List.length b = 32
  end%nat.

(** [Entropy::get_type], bip39.rs:196-206 *)
Definition v_get_type (e : entropy) : Type_ :=
  match e with
  | Entropy9 _ => Type9Words
  | Entropy12 _ => Type12Words
  | Entropy15 _ => Type15Words
  | Entropy18 _ => Type18Words
  | Entropy21 _ => Type21Words
  | Entropy24 _ => Type24Words
  end.

(** [AsRef], [Deref], bip39.rs:369-386 *)
Definition v_as_ref (e : entropy) : bytes :=
  match e with
  | Entropy9 b => b
  | Entropy12 b => b
  | Entropy15 b => b
  | Entropy18 b => b
  | Entropy21 b => b
  | Entropy24 b => b
  end.

(** [Entropy::as_mut], bip39.rs:208-217: the value after the array behind the
    reference has become [b']. *)
Definition v_as_mut (e : entropy) (b' : bytes) : entropy :=
  match e with
  | Entropy9 _ => Entropy9 b'
  | Entropy12 _ => Entropy12 b'
  | Entropy15 _ => Entropy15 b'
  | Entropy18 _ => Entropy18 b'
  | Entropy21 _ => Entropy21 b'
  | Entropy24 _ => Entropy24 b'
  end.

(** The loop [for i in 0..len { e.as_mut()[i] = bytes[i] }] of
    [Entropy::new], bip39.rs:188-190: both indexings may panic. *)
Fixpoint copy_loop {E} (n i : nat) (e : entropy) (bs : bytes) : res E entropy :=
  match n with
  | O => Ok e
  | S n =>
    match nth_error bs i with
    | None => Panic
    | Some x =>
      let a := v_as_ref e in
      if (i <? List.length a)%nat then copy_loop n (S i) (v_as_mut e (firstn i a ++ x :: skipn (S i) a)) bs
      else Panic
    end
  end.

(** [Entropy::new], bip39.rs:179-192 *)
Definition v_zeroed (t : Type_) : entropy :=
  match t with
  | Type9Words => Entropy9 (repeat x00 12)
  | Type12Words => Entropy12 (repeat x00 16)
  | Type15Words => Entropy15 (repeat x00 20)
  | Type18Words => Entropy18 (repeat x00 24)
  | Type21Words => Entropy21 (repeat x00 28)
  | Type24Words => Entropy24 (repeat x00 32)
  end.
Definition v_new (t : Type_) (bs : bytes) : res bip39_error entropy :=
  let e := v_zeroed t in
  copy_loop (List.length (v_as_ref e)) 0 e bs.

(** [Entropy::from_slice], bip39.rs:146-149 *)
Definition v_from_slice (bs : bytes) : res bip39_error entropy :=
  let* t := from_entropy_size (N.of_nat (List.length bs) * 8) in
  v_new t bs.

(** [Entropy::generate], bip39.rs:167-177: [gen] fills the whole array. *)
Definition v_generate (t : Type_) (r : rng) : res bip39_error (entropy * rng) :=
  let* e := v_new t (repeat x00 32) in
  let '(bs, r) := fill (List.length (v_as_ref e)) r in
  Ok (v_as_mut e bs, r).

(** [Entropy::hash], [Entropy::checksum], bip39.rs:219-227,258-268 *)
Definition v_checksum (P : prims) (e : entropy) : N :=
  let hash := b2n (hd x00 (sha256 P (v_as_ref e))) in
  match v_get_type e with
  | Type9Words => N.land (N.shiftr hash 5) 7
  | Type12Words => N.land (N.shiftr hash 4) 15
  | Type15Words => N.land (N.shiftr hash 3) 31
  | Type18Words => N.land (N.shiftr hash 2) 63
  | Type21Words => N.land (N.shiftr hash 1) 127
  | Type24Words => hash
  end.

(** * Dropping *)

(** [securemem::zero], bip39/src/util/securemem.rs:4-12: [write_bytes] over
    the whole slice.  (That the compiler keeps the write is assumed there.) *)
Definition zero (b : bytes) : bytes := repeat x00 (List.length b).

(** [Drop for Entropy], bip39.rs:387-398: the value as it is in memory
    afterwards. *)
Definition v_drop (e : entropy) : entropy :=
  match e with
  | Entropy9 b => Entropy9 (zero b)
  | Entropy12 b => Entropy12 (zero b)
  | Entropy15 b => Entropy15 (zero b)
  | Entropy18 b => Entropy18 (zero b)
  | Entropy21 b => Entropy21 (zero b)
  | Entropy24 b => Entropy24 (zero b)
  end.

(** [Drop for Seed], bip39.rs:513-517: [copy_from_slice] panics when the
    lengths differ. *)
Definition seed_drop (s : bytes) : res bip39_error bytes :=
  if (List.length s =? SEED_SIZE)%nat then Ok (repeat x00 SEED_SIZE) else Panic.

(** * Words, with the vectors that are freed without being overwritten

    The second component of a result lists the contents of the local [Vec]s
    that go out of scope; [Vec]'s destructor frees the memory as it is.
    Memory given back when a vector grows, the [Entropy] value itself and
    arrays on the stack are not in the list. *)

(** [Entropy::to_mnemonics], bip39.rs:328-357 *)
Definition v_to_mnemonics (P : prims) (e : entropy) : res bip39_error (list N) * list bytes :=
  let t := v_get_type e in
  let combined := v_as_ref e ++ sha256 P (v_as_ref e) in
  (let* '(ns, _) := unwrap (read_n (mnemonic_count t) (reader_new combined)) in
   let* ms := unwrap (E := bip39_error) (mapM index_new ns) in
   unwrap (from_mnemonics ms),
   [combined]).

(** [Entropy::from_mnemonics], bip39.rs:291-313; [r.pop()] shortens the vector
    and leaves its memory.  The entropy found with a wrong checksum is
    dropped. *)
Definition v_from_mnemonics (P : prims) (ms : list N) : res bip39_error entropy * list bytes :=
  match (let* t := get_type ms in
         let* w := unwrap (write_all writer_new ms) in
         Ok (t, to_bytes w)) with
  | Ok (t, r) =>
    let size := (to_key_size t / 8)%nat in
    if (List.length r <? size)%nat then (Panic, [r]) (* &r[..size] *)
    else
    let entropy_bytes := firstn size r in
    (let* entropy := v_new t entropy_bytes in
     match rev r with
     | [] => Ok entropy
     | h :: _ =>
       let h2 := N.shiftr (b2n h) (8 - N.of_nat (checksum_size_bits t)) in
       let cs := v_checksum P entropy in
       if negb (cs =? h2) then Err (InvalidChecksum cs h2) else Ok entropy
     end,
     [entropy_bytes; r])
  | Err e => (Err e, [])
  | Panic => (Panic, [])
  | Undef => (Undef, [])
  end.

(** * Printing and comparing *)

(** The text that [hex::encode] gives, written with [write!(f, "{}", ..)];
    its bytes are ASCII. *)
Definition v_hex (b : bytes) : res hex_error str :=
  let* h := encode b in
  Ok (List.map b2n h).

(** [Display for Entropy], [Debug for Entropy], bip39.rs:359-368 *)
Definition v_display (e : entropy) : res hex_error str := v_hex (v_as_ref e).
Definition v_debug (e : entropy) : res hex_error str := v_hex (v_as_ref e).

(** [Debug for Seed], [Display for Seed], bip39.rs:492-501; a [Seed] is its
    64 bytes. *)
Definition seed_debug (s : bytes) : res hex_error str := v_hex s.
Definition seed_display (s : bytes) : res hex_error str := v_hex s.

(** [PartialEq for Seed], bip39.rs:487-491 *)
Definition seed_eqb (a b : bytes) : bool := bytes_eqb a b.

(** Derived [PartialOrd]/[Ord] of arrays: lexicographic. *)
Fixpoint bytes_cmp (a b : bytes) : comparison :=
  match a, b with
  | [], [] => Eq
  | [], _ => Lt
  | _, [] => Gt
  | x :: a, y :: b => match N.compare (b2n x) (b2n y) with Eq => bytes_cmp a b | c => c end
  end.

(** Derived order of [Type], bip39.rs:583-592: that of the variants. *)
Definition type_index (t : Type_) : nat :=
  match t with
  | Type9Words => 0 | Type12Words => 1 | Type15Words => 2
  | Type18Words => 3 | Type21Words => 4 | Type24Words => 5
  end%nat.
Definition type_cmp (a b : Type_) : comparison := Nat.compare (type_index a) (type_index b).

(** [Default for Type], bip39.rs:651-655 *)
Definition type_default : Type_ := Type18Words.

(** Derived [Ord] and [PartialEq] of [Entropy], bip39.rs:128: the variants in
    their order, then the arrays. *)
Definition variant_index (e : entropy) : nat :=
  match e with
  | Entropy9 _ => 0 | Entropy12 _ => 1 | Entropy15 _ => 2
  | Entropy18 _ => 3 | Entropy21 _ => 4 | Entropy24 _ => 5
  end%nat.
Definition v_cmp (a b : entropy) : comparison :=
  match Nat.compare (variant_index a) (variant_index b) with
  | Eq => bytes_cmp (v_as_ref a) (v_as_ref b)
  | c => c
  end.
Definition v_eqb (a b : entropy) : bool :=
  (variant_index a =? variant_index b)%nat && bytes_eqb (v_as_ref a) (v_as_ref b).

(** * Errors *)

(** [cause], bip39.rs:110-117: the dictionary's error, by its word *)
Definition cause (e : bip39_error) : option str :=
  match e with
  | LanguageError w => Some w
  | _ => None
  end.

(** [Display for dictionary::Error], bip39.rs:867-875 *)
Definition show_dictionary (w : str) : str :=
  lit "Mnemonic word not found in dictionary """ ++ w ++ lit """".

(** [Display for hex::Error], bip39/src/util/hex.rs:25-31 *)
Definition show_hex (e : hex_error) : str :=
  match e with UnknownSymbol idx => lit "Unknown symbol at byte index " ++ dec idx end.

(** [Display for DecryptError], keychain/src/crypt.rs:33-40 *)
Definition show_decrypt (e : decrypt_error) : str :=
  match e with
  | DNotEnoughData => lit "Not enough data for decryption."
  | DDecryptionFailed => lit "Decryption failed. Check your key"
  end.
