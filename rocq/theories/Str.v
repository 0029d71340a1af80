(** String operations of the Rust standard library used by the code. *)
From Verif Require Import Base.

(** [str::split] with a one-character separator: always at least one piece,
    empty pieces are kept. *)
Fixpoint split (sep : N) (s : str) : list str :=
  match s with
  | [] => [[]]
  | c :: s' =>
    let ps := split sep s' in
    if c =? sep then [] :: ps
    else match ps with
         | [] => [[c]]
         | p :: ps' => (c :: p) :: ps'
         end
  end.

(** Pieces joined with a separator between them (the loop of
    bip39/src/bip39.rs:798-808). *)
Fixpoint join (sep : str) (ps : list str) : str :=
  match ps with
  | [] => []
  | [p] => p
  | p :: ps' => p ++ sep ++ join sep ps'
  end.

(** [Iterator::position] for equality with a word. *)
Fixpoint position_from (i : N) (w : str) (l : list str) : option N :=
  match l with
  | [] => None
  | x :: l' => if str_eqb x w then Some i else position_from (i + 1) w l'
  end.
Definition position (w : str) (l : list str) : option N := position_from 0 w l.

(** Mapping a fallible function over a list, stopping at the first failure
    ([Iterator::collect] into a [Result], or a loop with [?]). *)
Fixpoint mapM {E A B} (f : A -> res E B) (l : list A) : res E (list B) :=
  match l with
  | [] => Ok []
  | a :: l' =>
    let* b := f a in
    let* bs := mapM f l' in
    Ok (b :: bs)
  end.

(** [str::len]: length in bytes. *)
Definition str_len (s : str) : nat := length (utf8 s).

(** [s.split_at(n)] / the pair [(&s[..n], &s[n..])]: [None] when [n] is out of
    bounds or not on a character boundary, where the slice expressions
    panic. *)
Fixpoint split_at (n : nat) (s : str) : option (str * str) :=
  match n, s with
  | O, _ => Some ([], s)
  | S _, [] => None
  | S _, c :: s' =>
    if Nat.ltb n (len_utf8 c) then None
    else option_map (fun '(a, b) => (c :: a, b)) (split_at (n - len_utf8 c) s')
  end.

(** [&s[n..]] and [&s[..n]] *)
Definition str_from {E} (n : nat) (s : str) : res E str :=
  match split_at n s with Some (_, b) => Ok b | None => Panic end.
Definition str_to {E} (n : nat) (s : str) : res E str :=
  match split_at n s with Some (a, _) => Ok a | None => Panic end.

(** [char::is_whitespace] (Unicode property White_Space). *)
Definition is_whitespace (c : N) : bool :=
  ((0x9 <=? c) && (c <=? 0xD)) || (c =? 0x20) || (c =? 0x85) || (c =? 0xA0)
  || (c =? 0x1680) || ((0x2000 <=? c) && (c <=? 0x200A)) || (c =? 0x2028)
  || (c =? 0x2029) || (c =? 0x202F) || (c =? 0x205F) || (c =? 0x3000).

Fixpoint trim_start (s : str) : str :=
  match s with
  | [] => []
  | c :: s' => if is_whitespace c then trim_start s' else s
  end.

(** [str::trim] *)
Definition trim (s : str) : str := rev (trim_start (rev (trim_start s))).

(** Decimal text of an unsigned integer of at most 64 bits
    ([u32::to_string], [{}]). *)
Fixpoint dec_fuel (k : nat) (n : N) : str :=
  match k with
  | O => []
  | S k' => if n <? 10 then [48 + n] else dec_fuel k' (n / 10) ++ [48 + n mod 10]
  end.
Definition dec (n : N) : str := dec_fuel 20 n.

(** The kinds of [ParseIntError] that unsigned types have *)
Inductive int_error := IntEmpty | IntInvalidDigit | IntPosOverflow.

(** [str::parse::<u32>()]: optional [+], then digits accumulated with checked
    arithmetic; each character is checked to be a digit before it is
    accumulated.  The kind of error of a single [+] is that of the current
    standard library; early versions gave [IntEmpty]. *)
Fixpoint parse_digits (max acc : N) (s : str) : res int_error N :=
  match s with
  | [] => Ok acc
  | c :: s' =>
    if (48 <=? c) && (c <=? 57) then
      let acc' := acc * 10 + (c - 48) in
      if acc' <=? max then parse_digits max acc' s' else Err IntPosOverflow
    else Err IntInvalidDigit
  end.
Definition parse_u32 (s : str) : res int_error N :=
  match s with
  | [] => Err IntEmpty
  | c :: s' =>
    if c =? 43 then
      match s' with [] => Err IntInvalidDigit | _ => parse_digits u32_max 0 s' end
    else parse_digits u32_max 0 s
  end.
