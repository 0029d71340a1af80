(** The text grammar of key paths, independent of the parser. *)
From Coq Require Import Strings.String.
From Verif Require Import Base Str KeyPath.

(** Decimal digits and their value. *)
Definition digit (c : N) : Prop := 48 <= c <= 57.
Fixpoint digits_value (ds : str) : N :=
  match ds with
  | [] => 0
  | d :: ds' => (d - 48) * 10 ^ N.of_nat (List.length ds') + digits_value ds'
  end.

(** An unsigned number: optional [+], at least one digit, below 2^32. *)
Definition number (s : str) (n : N) : Prop :=
  exists ds, (s = ds \/ s = lit "+" ++ ds) /\ ds <> [] /\ Forall digit ds /\
    n = digits_value ds /\ n < 2 ^ 32.

(** The digits of a text, after an optional [+], reach 2^32 before anything
    else is found. *)
Definition too_big (s : str) : Prop :=
  exists ds rest, (s = ds ++ rest \/ s = lit "+" ++ ds ++ rest) /\ Forall digit ds /\
    2 ^ 32 <= digits_value ds.

(** Why a text that is not empty is no number. *)
Definition no_number (s : str) (e : int_error) : Prop :=
  match e with
  | IntEmpty => False
  | IntPosOverflow => too_big s
  | IntInvalidDigit => ~ too_big s /\ forall n, ~ number s n
  end.

(** White space, as listed by the Unicode White_Space property. *)
Definition white_space : list N :=
  [0x9; 0xA; 0xB; 0xC; 0xD; 0x20; 0x85; 0xA0; 0x1680;
   0x2000; 0x2001; 0x2002; 0x2003; 0x2004; 0x2005; 0x2006; 0x2007; 0x2008;
   0x2009; 0x200A; 0x2028; 0x2029; 0x202F; 0x205F; 0x3000].
Definition ws (c : N) : Prop := In c white_space.

(** [t] is [s] without leading and trailing white space. *)
Definition trimmed (s t : str) : Prop :=
  exists a b, s = a ++ t ++ b /\ Forall ws a /\ Forall ws b /\
    (forall c t', t = c :: t' -> ~ ws c) /\ (forall c t', t = t' ++ [c] -> ~ ws c).

(** What a trimmed component means. *)
Inductive component (p : profile) (i : N) : str -> res kp_error N -> Prop :=
| comp_empty : component p i [] (Err (EmptyValueAtIndex i))
| comp_only_mark : component p i (lit "'") (Err (EmptyValueAtIndex i))
| comp_wide t c : 0x80 <= c -> component p i (t ++ [c]) Panic
| comp_soft t n : number t n -> component p i t (Ok n)
| comp_hard t n : number t n -> n < 2 ^ 31 ->
    component p i (t ++ lit "'") (Ok (n + 2 ^ 31))
| comp_hard_overflow t n : number t n -> 2 ^ 31 <= n ->
    component p i (t ++ lit "'")
      (match p with Debug => Panic | Release => Ok (n - 2 ^ 31) end)
| comp_bad_soft t c e : c < 0x80 -> c <> 0x27 -> no_number (t ++ [c]) e ->
    component p i (t ++ [c]) (Err (ParseErrorAtIndex i e))
| comp_bad_hard t e : t <> [] -> no_number t e ->
    component p i (t ++ lit "'") (Err (ParseErrorAtIndex i e)).

(** The first outcome that is not [Ok] decides. *)
Inductive components (p : profile) : N -> list str -> res kp_error (list N) -> Prop :=
| comps_nil i : components p i [] (Ok [])
| comps_ok i t ts v vs : component p i t (Ok v) -> components p (i + 1) ts (Ok vs) ->
    components p i (t :: ts) (Ok (v :: vs))
| comps_err i t ts e : component p i t (Err e) -> components p i (t :: ts) (Err e)
| comps_panic i t ts : component p i t Panic -> components p i (t :: ts) Panic
| comps_later_err i t ts v e : component p i t (Ok v) ->
    components p (i + 1) ts (Err e) -> components p i (t :: ts) (Err e)
| comps_later_panic i t ts v : component p i t (Ok v) ->
    components p (i + 1) ts Panic -> components p i (t :: ts) Panic.

(** The text [s] consists of [raws] separated by slashes, whose trimmed forms
    are [ts]. *)
Definition path_parts (s : str) (ts : list str) : Prop :=
  exists raws, raws <> [] /\ Forall (fun r => ~ In 0x2F r) raws /\
    s = List.concat (List.map (fun r => r ++ lit "/") (removelast raws)) ++ last raws [] /\
    Forall2 trimmed raws ts.

Inductive path_outcome (p : profile) (s : str) : res kp_error KeyPath -> Prop :=
| out_count ts : path_parts s ts -> List.length ts <> 6%nat ->
    path_outcome p s (Err (InvalidPartsCount (N.of_nat (List.length ts))))
| out_marker t0 ts : path_parts s (t0 :: ts) -> List.length ts = 5%nat -> t0 <> lit "m" ->
    path_outcome p s (Err (InvalidPathMarker t0))
| out_err ts e : path_parts s (lit "m" :: ts) -> List.length ts = 5%nat ->
    components p 1 ts (Err e) -> path_outcome p s (Err e)
| out_panic ts : path_parts s (lit "m" :: ts) -> List.length ts = 5%nat ->
    components p 1 ts Panic -> path_outcome p s Panic
| out_ok ts pu co ac ch ad : path_parts s (lit "m" :: ts) ->
    components p 1 ts (Ok [pu; co; ac; ch; ad]) ->
    path_outcome p s (Ok {| purpose := pu; coin := co; account := ac;
                            change := ch; address := ad |}).

(** A component that is given a value. *)
Definition accepted (p : profile) (t : str) : Prop :=
  exists t' n, number t' n /\
    (t = t' \/ (t = t' ++ lit "'" /\ (n < 2 ^ 31 \/ p = Release))).

(** The five numbers of a path, in order. *)
Definition path_values (k : KeyPath) : list N :=
  [purpose k; coin k; account k; change k; address k].

(** All five numbers are of type [u32]. *)
Definition kp_wf (k : KeyPath) : Prop := Forall is_u32 (path_values k).
