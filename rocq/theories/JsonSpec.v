(** JSON texts (RFC 8259) as a grammar. *)
From Coq Require Import Strings.String.
From Verif Require Import Base CodingSpec.
Open Scope list_scope.

(** Section 2: insignificant white space. *)
Definition ws (t : bytes) : Prop := Forall (fun b => In b [x20; x09; x0a; x0d]) t.

(** Values [vs] separated by commas, white space anywhere around them. *)
Fixpoint more_elements (vs : list bytes) (t : bytes) : Prop :=
  match vs with
  | [] => ws t
  | v :: vs => exists w w' t', ws w /\ ws w' /\ t = w ++ blit "," ++ w' ++ v ++ t' /\ more_elements vs t'
  end.
Definition elements (vs : list bytes) (t : bytes) : Prop :=
  match vs with
  | [] => ws t
  | v :: vs => exists w t', ws w /\ t = w ++ v ++ t' /\ more_elements vs t'
  end.
(** Section 5: arrays. *)
Definition array_text (vs : list bytes) (t : bytes) : Prop :=
  exists body, elements vs body /\ t = blit "[" ++ body ++ blit "]".

(** Section 7: strings. *)
Definition hexdigit (n : N) (b : byte) : Prop :=
  nth_error (blit "0123456789abcdef") (N.to_nat n) = Some b \/
  nth_error (blit "0123456789ABCDEF") (N.to_nat n) = Some b.
Definition code_unit (n : N) (t : bytes) : Prop :=
  exists a b c d x y z w, t = [x; y; z; w] /\ n = ((a * 16 + b) * 16 + c) * 16 + d /\
    hexdigit a x /\ hexdigit b y /\ hexdigit c z /\ hexdigit d w.
Definition plain (b : byte) : Prop := b <> x22 /\ b <> x5c /\ 0x20 <= b2n b.
Definition escapes : list (byte * byte) :=
  [("""", x22); ("\", x5c); ("/", x2f); ("b", x08); ("f", x0c); ("n", x0a); ("r", x0d); ("t", x09)]%byte.
(** [string_chars t s]: [t] between quotes stands for the bytes [s]. *)
Inductive string_chars : bytes -> bytes -> Prop :=
| chars_end : string_chars [] []
| chars_plain b t s : plain b -> string_chars t s -> string_chars (b :: t) (b :: s)
| chars_escape e c t s : In (e, c) escapes -> string_chars t s -> string_chars (x5c :: e :: t) (c :: s)
| chars_unit n u rep t s : code_unit n u -> utf8_rep n rep -> string_chars t s ->
    string_chars (blit "\u" ++ u ++ t) (rep ++ s)
| chars_pair h l u u' rep t s : code_unit h u -> code_unit l u' ->
    0xD800 <= h < 0xDC00 -> 0xDC00 <= l < 0xE000 ->
    utf8_rep (0x10000 + (h - 0xD800) * 0x400 + (l - 0xDC00)) rep -> string_chars t s ->
    string_chars (blit "\u" ++ u ++ blit "\u" ++ u' ++ t) (rep ++ s).
Definition string_text (s : str) (t : bytes) : Prop :=
  exists body bs, t = [x22] ++ body ++ [x22] /\ string_chars body bs /\ utf8_text s bs.

(** Section 4: objects, as lists of names and value texts. *)
Definition member_text (m : str * bytes) (t : bytes) : Prop :=
  exists q w w', string_text (fst m) q /\ ws w /\ ws w' /\ t = q ++ w ++ blit ":" ++ w' ++ snd m.
Definition object_text (ms : list (str * bytes)) (t : bytes) : Prop :=
  exists ts body, Forall2 member_text ms ts /\ elements ts body /\ t = blit "{" ++ body ++ blit "}".

(** Section 6: numbers. *)
Definition digit (b : byte) : Prop := 48 <= b2n b <= 57.
Definition digits_text (t : bytes) : Prop := t <> [] /\ Forall digit t.
Definition int_text (t : bytes) : Prop := t = blit "0" \/ digits_text t /\ hd x00 t <> x30.
Definition number_text (t : bytes) : Prop :=
  exists sign int frac exp, t = sign ++ int ++ frac ++ exp /\
    (sign = [] \/ sign = blit "-") /\ int_text int /\
    (frac = [] \/ exists ds, frac = blit "." ++ ds /\ digits_text ds) /\
    (exp = [] \/ exists e s ds, exp = e ++ s ++ ds /\ (e = blit "e" \/ e = blit "E") /\
       (s = [] \/ s = blit "+" \/ s = blit "-") /\ digits_text ds).

(** Values whose content is of no interest, nested at most [d] deep ([None]:
    any depth).  In their strings single surrogates and any bytes are let
    through. *)
Inductive loose_chars : bytes -> Prop :=
| loose_end : loose_chars []
| loose_plain b t : plain b -> loose_chars t -> loose_chars (b :: t)
| loose_escape e c t : In (e, c) escapes -> loose_chars t -> loose_chars (x5c :: e :: t)
| loose_unit n u t : code_unit n u -> loose_chars t -> loose_chars (blit "\u" ++ u ++ t).
Definition loose_string (t : bytes) : Prop := exists body, t = [x22] ++ body ++ [x22] /\ loose_chars body.
Definition deeper (d d' : option nat) : Prop :=
  match d, d' with None, None => True | Some n, Some n' => n = S n' | _, _ => False end.
Inductive any_value : option nat -> bytes -> Prop :=
| any_word d t : In t [blit "null"; blit "true"; blit "false"] -> any_value d t
| any_number d t : number_text t -> any_value d t
| any_string d t : loose_string t -> any_value d t
| any_array d d' vs body : deeper d d' -> Forall (any_value d') vs -> elements vs body ->
    any_value d (blit "[" ++ body ++ blit "]")
| any_object d d' vs body : deeper d d' -> Forall (any_member d') vs -> elements vs body ->
    any_value d (blit "{" ++ body ++ blit "}")
with any_member : option nat -> bytes -> Prop :=
| any_pair d q w w' v : loose_string q -> ws w -> ws w' -> any_value d v ->
    any_member d (q ++ w ++ blit ":" ++ w' ++ v).
