(** ChaCha20-Poly1305 (RFC 8439) with a 12-byte nonce and empty associated
    data, as cryptoxide's [ChaCha20Poly1305] computes it. *)
From Verif Require Import Base StdHash.

(** * ChaCha20 *)
Definition upd (i : nat) (x : N) (s : list N) : list N := firstn i s ++ [x] ++ skipn (S i) s.
Definition quarter (s : list N) (q : nat * nat * nat * nat) : list N :=
  let '(ia, ib, ic, id_) := q in
  let a := nth ia s 0 in let b := nth ib s 0 in
  let c := nth ic s 0 in let d := nth id_ s 0 in
  let a := plus 32 a b in let d := rotl 32 (N.lxor d a) 16 in
  let c := plus 32 c d in let b := rotl 32 (N.lxor b c) 12 in
  let a := plus 32 a b in let d := rotl 32 (N.lxor d a) 8 in
  let c := plus 32 c d in let b := rotl 32 (N.lxor b c) 7 in
  upd ia a (upd ib b (upd ic c (upd id_ d s))).
Definition quarters : list (nat * nat * nat * nat) :=
  [(0, 4, 8, 12); (1, 5, 9, 13); (2, 6, 10, 14); (3, 7, 11, 15);
   (0, 5, 10, 15); (1, 6, 11, 12); (2, 7, 8, 13); (3, 4, 9, 14)]%nat.
Definition double_round (s : list N) : list N := fold_left quarter quarters s.
Definition chacha_block (key nonce : bytes) (counter : N) : bytes :=
  let s := [0x61707865; 0x3320646e; 0x79622d32; 0x6b206574] ++ List.map of_le (chunks 4 key)
           ++ [mask 32 counter] ++ List.map of_le (chunks 4 nonce) in
  let r := Nat.iter 10 double_round s in
  flat_map (fun i => le 4 (plus 32 (nth i s 0) (nth i r 0))) (seq 0 16).
(** The key stream from block [counter] on, at least [64 * n] bytes. *)
Fixpoint chacha_blocks (key nonce : bytes) (counter : N) (n : nat) : bytes :=
  match n with
  | O => []
  | S n => chacha_block key nonce counter ++ chacha_blocks key nonce (counter + 1) n
  end.
(** Block 0 gives the key of the tag; the data start at block 1. *)
Definition std_chacha_stream (key nonce : bytes) (len : nat) : bytes :=
  firstn len (chacha_blocks key nonce 1 (S (len / 64))).

(** * Poly1305 *)
Definition poly_p : N := 2 ^ 130 - 5.
Definition clamp (r : N) : N := N.land r 0x0ffffffc0ffffffc0ffffffc0fffffff.
Definition poly1305 (key msg : bytes) : bytes :=
  let r := clamp (of_le (firstn 16 key)) in
  let s := of_le (skipn 16 key) in
  let acc := fold_left (fun a block => ((a + of_le (block ++ [x01])) * r) mod poly_p) (chunks 16 msg) 0 in
  le 16 (acc + s).
(** RFC 8439, 2.8 with no associated data: the ciphertext padded to 16, then
    both lengths. *)
Definition std_chacha_tag (key nonce ct : bytes) : bytes :=
  let zeros := ((16 - length ct mod 16) mod 16)%nat in
  poly1305 (firstn 32 (chacha_block key nonce 0))
    (ct ++ repeat x00 zeros ++ le 8 0 ++ le 8 (N.of_nat (length ct))).
