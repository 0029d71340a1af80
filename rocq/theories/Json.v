(** The part of serde_json (and of the code generated by serde's derive
    macros) that keychain/src/data.rs relies on.

    The source of these crates is not part of the repository; this file
    follows their documented behaviour for serde_json 1.0.40.  Error texts and
    positions are not modelled: every rejection is [DMalformed], except
    serde's "unknown variant" (see Data.v). *)
From Verif Require Import Base Str Bip39 KeyPath Errors.
Local Open Scope byte_scope.

(** A parser answers a value and the unread input. *)
Definition parser (A : Type) := bytes -> res data_error (A * bytes).
Definition bad {A} : res data_error A := Err DMalformed.

(** Behaviour of the crate the theorems do not depend on: how deeply nested
    a skipped value may be ([None]: any depth), and whether [-0] is read as
    the integer 0 (or rejected as a float). *)
Record json_config := {
  max_ignored_depth : option nat;
  minus_zero : bool
}.

(** * Printing *)

Definition hex_lower (n : N) : byte :=
  (if n <? 10 then n2b (48 + n) else n2b (87 + n))%N.

(** Escape of one byte of a string ([format_escaped_str]). *)
Definition escape (b : byte) : bytes :=
  if byte_eqb b """" then ["\"; """"]
  else if byte_eqb b "\" then ["\"; "\"]
  else if byte_eqb b x08 then ["\"; "b"]
  else if byte_eqb b x0c then ["\"; "f"]
  else if byte_eqb b x0a then ["\"; "n"]
  else if byte_eqb b x0d then ["\"; "r"]
  else if byte_eqb b x09 then ["\"; "t"]
  else if N.ltb (b2n b) 32 then
    ["\"; "u"; "0"; "0"; hex_lower (b2n b / 16); hex_lower (b2n b mod 16)]
  else [b].

Definition print_str (s : bytes) : bytes := """" :: flat_map escape s ++ [""""].
Definition print_num (n : N) : bytes := utf8 (dec n).

(** Elements with commas between them. *)
Fixpoint commas (l : list bytes) : bytes :=
  match l with
  | [] => []
  | [x] => x
  | x :: l' => x ++ "," :: commas l'
  end.
Definition print_seq (l : list bytes) : bytes := "[" :: commas l ++ ["]"].
Definition print_field (name : bytes) (value : bytes) : bytes :=
  print_str name ++ ":" :: value.
Definition print_struct (l : list bytes) : bytes := "{" :: commas l ++ ["}"].

(** * Tokens *)

Definition is_ws (b : byte) : bool :=
  byte_eqb b " " || byte_eqb b x0a || byte_eqb b x09 || byte_eqb b x0d.
Fixpoint skip_ws (l : bytes) : bytes :=
  match l with
  | b :: r => if is_ws b then skip_ws r else l
  | [] => []
  end.

(** One given character, after white space. *)
Definition expect (c : byte) : parser unit := fun l =>
  match skip_ws l with
  | b :: r => if byte_eqb b c then Ok (tt, r) else bad
  | [] => bad
  end.

(** Exactly the given text. *)
Fixpoint expect_text (t : bytes) : parser unit := fun l =>
  match t with
  | [] => Ok (tt, l)
  | c :: t' =>
    match l with
    | b :: r => if byte_eqb b c then expect_text t' r else bad
    | [] => bad
    end
  end.

Definition is_digit (b : byte) : bool := ((48 <=? b2n b) && (b2n b <=? 57))%N.

Definition hex_digit (b : byte) : option N :=
  (let c := b2n b in
   if (48 <=? c) && (c <=? 57) then Some (c - 48)
   else if (97 <=? c) && (c <=? 102) then Some (c - 87)
   else if (65 <=? c) && (c <=? 70) then Some (c - 55)
   else None)%N.
Definition hex4 (a b c d : byte) : option N :=
  (match hex_digit a, hex_digit b, hex_digit c, hex_digit d with
   | Some w, Some x, Some y, Some z => Some (w * 4096 + x * 256 + y * 16 + z)
   | _, _, _, _ => None
   end)%N.

(** The byte meant by a one-letter escape. *)
Definition simple_escape (e : byte) : option byte :=
  if byte_eqb e """" then Some """"
  else if byte_eqb e "\" then Some "\"
  else if byte_eqb e "/" then Some "/"
  else if byte_eqb e "b" then Some x08
  else if byte_eqb e "f" then Some x0c
  else if byte_eqb e "n" then Some x0a
  else if byte_eqb e "r" then Some x0d
  else if byte_eqb e "t" then Some x09
  else None.

Definition push (pre : bytes) (o : option (bytes * bytes)) : option (bytes * bytes) :=
  option_map (fun '(s, r) => (pre ++ s, r)) o.

Definition low_surrogate (n : N) : bool := ((0xDC00 <=? n) && (n <=? 0xDFFF))%N.
Definition high_surrogate (n : N) : bool := ((0xD800 <=? n) && (n <=? 0xDBFF))%N.

(** A string after its opening quote, with escapes resolved ([parse_str]). *)
Fixpoint str_body (l : bytes) : option (bytes * bytes) :=
  match l with
  | [] => None
  | b :: r =>
    if byte_eqb b """" then Some ([], r)
    else if byte_eqb b "\" then
      match r with
      | [] => None
      | e :: r1 =>
        match simple_escape e with
        | Some c => push [c] (str_body r1)
        | None =>
          if negb (byte_eqb e "u") then None
          else match r1 with
          | h1 :: h2 :: h3 :: h4 :: r5 =>
            match hex4 h1 h2 h3 h4 with
            | None => None
            | Some n =>
              if low_surrogate n then None
              else if high_surrogate n then
                match r5 with
                | e1 :: e2 :: g1 :: g2 :: g3 :: g4 :: r11 =>
                  if byte_eqb e1 "\" && byte_eqb e2 "u" then
                    match hex4 g1 g2 g3 g4 with
                    | None => None
                    | Some n2 =>
                      if low_surrogate n2 then
                        push (utf8_char ((n - 0xD800) * 1024 + (n2 - 0xDC00) + 0x10000)%N)
                             (str_body r11)
                      else None
                    end
                  else None
                | _ => None
                end
              else push (utf8_char n) (str_body r5)
            end
          | _ => None
          end
        end
      end
    else if N.ltb (b2n b) 32 then None
    else push [b] (str_body r)
  end.

(** A string value; the resolved bytes must be UTF-8. *)
Definition parse_str : parser str := fun l =>
  let* '(_, l) := expect """" l in
  match str_body l with
  | None => bad
  | Some (s, r) =>
    match of_utf8 s with
    | Some t => Ok (t, r)
    | None => bad
    end
  end.

Fixpoint digits (acc : N) (l : bytes) : N * bytes :=
  match l with
  | b :: r => if is_digit b then digits (acc * 10 + (b2n b - 48))%N r else (acc, l)
  | [] => (acc, [])
  end.

(** What may not follow an integer: a fraction or an exponent would make it a
    float. *)
Definition no_float (l : bytes) : bool :=
  match l with
  | b :: _ => negb (byte_eqb b "." || byte_eqb b "e" || byte_eqb b "E")
  | [] => true
  end.
Definition integer : parser N := fun l =>
  match l with
  | b :: r =>
    if byte_eqb b "0" then
      match r with
      | d :: _ => if is_digit d || negb (no_float r) then bad else Ok (0%N, r)
      | [] => Ok (0%N, r)
      end
    else if is_digit b then
      let (n, r) := digits 0 (b :: r) in
      if no_float r then Ok (n, r) else bad
    else bad
  | [] => bad
  end.

Section Config.
Variable C : json_config.

(** An unsigned integer of at most [max] ([u16], [u32]). *)
Definition parse_uint (max : N) : parser N := fun l =>
  match skip_ws l with
  | b :: r =>
    if byte_eqb b "-" then
      let* '(n, r) := integer r in
      if (minus_zero C && N.eqb n 0) then Ok (0%N, r) else bad
    else
      let* '(n, r) := integer (b :: r) in
      if N.leb n max then Ok (n, r) else bad
  | [] => bad
  end.

(** [Option<T>]: [null] is [None]. *)
Definition parse_option {A} (p : parser A) : parser (option A) := fun l =>
  match skip_ws l with
  | b :: r =>
    if byte_eqb b "n" then
      let* '(_, r) := expect_text ["u"; "l"; "l"] r in Ok (None, r)
    else let* '(a, r) := p l in Ok (Some a, r)
  | [] => bad
  end.

(** [null] as the content of a unit variant *)
Definition parse_null : parser unit := fun l =>
  match skip_ws l with
  | b :: r => if byte_eqb b "n" then expect_text ["u"; "l"; "l"] r else bad
  | [] => bad
  end.

(** Does another element follow?  ([SeqAccess::next_element]; the closing
    bracket is left unread.) *)
Definition seq_next (first : bool) : parser bool := fun l =>
  match skip_ws l with
  | b :: r =>
    if byte_eqb b "]" then Ok (false, b :: r)
    else if byte_eqb b "," && negb first then
      match skip_ws r with
      | b' :: r' => if byte_eqb b' "]" then bad else Ok (true, b' :: r')
      | [] => bad
      end
    else if first then Ok (true, b :: r)
    else bad
  | [] => bad
  end.

(** One required element. *)
Definition seq_elem {A} (first : bool) (p : parser A) : parser A := fun l =>
  let* '(more, l) := seq_next first l in
  if more then p l else bad.

(** All elements ([Vec<T>]). *)
Fixpoint seq_loop {A} (fuel : nat) (p : parser A) (first : bool) (l : bytes)
  : res data_error (list A * bytes) :=
  match fuel with
  | O => Undef
  | S f =>
    let* '(more, l) := seq_next first l in
    if more then
      let* '(a, l) := p l in
      let* '(t, l) := seq_loop f p false l in
      Ok (a :: t, l)
    else Ok ([], l)
  end.
Definition parse_vec {A} (p : parser A) : parser (list A) := fun l =>
  let* '(_, l) := expect "[" l in
  let* '(t, l) := seq_loop (S (length l)) p true l in
  let* '(_, l) := expect "]" l in
  Ok (t, l).

(** Does another key follow?  ([MapAccess::next_key]; the closing brace and
    the quote of the key are left unread.) *)
Definition map_next (first : bool) : parser bool := fun l =>
  match skip_ws l with
  | b :: r =>
    if byte_eqb b "}" then Ok (false, b :: r)
    else if byte_eqb b "," && negb first then
      match skip_ws r with
      | b' :: r' => if byte_eqb b' """" then Ok (true, b' :: r') else bad
      | [] => bad
      end
    else if first then if byte_eqb b """" then Ok (true, b :: r) else bad
    else bad
  | [] => bad
  end.

(** All members, each handled by [field] with the state so far. *)
Fixpoint map_loop {S} (fuel : nat) (field : S -> str -> parser S) (first : bool) (s : S) (l : bytes)
  : res data_error (S * bytes) :=
  match fuel with
  | O => Undef
  | Datatypes.S f =>
    let* '(more, l) := map_next first l in
    if more then
      let* '(k, l) := parse_str l in
      let* '(_, l) := expect ":" l in
      let* '(s, l) := field s k l in
      map_loop f field false s l
    else Ok (s, l)
  end.

(** A struct: an object handled by [field], then [finish]; or an array
    handled by [positional]. *)
Definition parse_struct {S A} (field : S -> str -> parser S) (init : S)
    (finish : S -> res data_error A) (positional : parser A) : parser A := fun l =>
  match skip_ws l with
  | b :: r =>
    if byte_eqb b "{" then
      let* '(s, r) := map_loop (Datatypes.S (length r)) field true init r in
      let* a := finish s in
      let* '(_, r) := expect "}" r in
      Ok (a, r)
    else if byte_eqb b "[" then
      let* '(a, r) := positional r in
      let* '(_, r) := expect "]" r in
      Ok (a, r)
    else bad
  | [] => bad
  end.

(** * Skipping a value ([Deserializer::ignore_value]) *)

Fixpoint ign_str (l : bytes) : option bytes :=
  match l with
  | [] => None
  | b :: r =>
    if byte_eqb b """" then Some r
    else if byte_eqb b "\" then
      match r with
      | [] => None
      | e :: r1 =>
        match simple_escape e with
        | Some _ => ign_str r1
        | None =>
          if negb (byte_eqb e "u") then None
          else match r1 with
          | h1 :: h2 :: h3 :: h4 :: r5 =>
            match hex4 h1 h2 h3 h4 with
            | None => None
            | Some _ => ign_str r5
            end
          | _ => None
          end
        end
      end
    else if N.ltb (b2n b) 32 then None
    else ign_str r
  end.

Fixpoint skip_digits (l : bytes) : bytes :=
  match l with
  | b :: r => if is_digit b then skip_digits r else l
  | [] => []
  end.
(** At least one digit. *)
Definition some_digits (l : bytes) : option bytes :=
  match l with
  | b :: r => if is_digit b then Some (skip_digits r) else None
  | [] => None
  end.
Definition ign_exponent (l : bytes) : option bytes :=
  match l with
  | b :: r => some_digits (if byte_eqb b "+" || byte_eqb b "-" then r else l)
  | [] => None
  end.
Definition ign_tail (l : bytes) : option bytes :=
  match l with
  | b :: r => if byte_eqb b "e" || byte_eqb b "E" then ign_exponent r else Some l
  | [] => Some []
  end.
Definition ign_fraction (l : bytes) : option bytes :=
  match l with
  | b :: r =>
    if byte_eqb b "." then
      match some_digits r with Some r => ign_tail r | None => None end
    else ign_tail l
  | [] => Some []
  end.
Definition ign_number (l : bytes) : option bytes :=
  match l with
  | b :: r =>
    if byte_eqb b "0" then
      match r with
      | d :: _ => if is_digit d then None else ign_fraction r
      | [] => Some []
      end
    else if is_digit b then ign_fraction (skip_digits r)
    else None
  | [] => None
  end.

(** The remaining depth inside one more bracket. *)
Definition descend (d : option nat) : option (option nat) :=
  match d with
  | None => Some None
  | Some O => None
  | Some (S n) => Some (Some n)
  end.

Definition skipped (o : option bytes) : res data_error bytes := ok_or o DMalformed.

Fixpoint ign_value (fuel : nat) (d : option nat) (l : bytes) : res data_error bytes :=
  match fuel with
  | O => Undef
  | S f =>
    match skip_ws l with
    | [] => bad
    | b :: r =>
      if byte_eqb b "n" then rmap snd (expect_text ["u"; "l"; "l"] r)
      else if byte_eqb b "t" then rmap snd (expect_text ["r"; "u"; "e"] r)
      else if byte_eqb b "f" then rmap snd (expect_text ["a"; "l"; "s"; "e"] r)
      else if byte_eqb b "-" then skipped (ign_number r)
      else if is_digit b then skipped (ign_number (b :: r))
      else if byte_eqb b """" then skipped (ign_str r)
      else if byte_eqb b "[" then
        match descend d with
        | None => bad
        | Some d => ign_seq f d true r
        end
      else if byte_eqb b "{" then
        match descend d with
        | None => bad
        | Some d => ign_map f d true r
        end
      else bad
    end
  end
with ign_seq (fuel : nat) (d : option nat) (first : bool) (l : bytes) : res data_error bytes :=
  match fuel with
  | O => Undef
  | S f =>
    let* '(more, l) := seq_next first l in
    if more then
      let* l := ign_value f d l in
      ign_seq f d false l
    else rmap snd (expect "]" l)
  end
with ign_map (fuel : nat) (d : option nat) (first : bool) (l : bytes) : res data_error bytes :=
  match fuel with
  | O => Undef
  | S f =>
    let* '(more, l) := map_next first l in
    if more then
      match skip_ws l with
      | _ :: r =>
        let* l := skipped (ign_str r) in
        let* '(_, l) := expect ":" l in
        let* l := ign_value f d l in
        ign_map f d false l
      | [] => bad
      end
    else rmap snd (expect "}" l)
  end.

Definition ignore_value (l : bytes) : res data_error bytes :=
  ign_value (2 * length l + 1) (max_ignored_depth C) l.

(** [serde_json::from_slice]: one value and nothing after it. *)
Definition from_slice {A} (p : parser A) (l : bytes) : res data_error A :=
  let* '(a, r) := p l in
  match skip_ws r with
  | [] => Ok a
  | _ => bad
  end.

End Config.
