(** The hash functions of the external crates by their standards: SHA-256 and
    SHA-512 (FIPS 180-4), Keccak-256 (the Keccak submission, as used by
    Ethereum), RIPEMD-160, HMAC (RFC 2104) and PBKDF2 (RFC 8018).  The model
    is parametric in these functions (Prims.v); this is the instance that the
    crates are meant to be.  Nothing here is code of the repository. *)
From Verif Require Import Base.

(** * Words of [w] bits *)
Definition mask (w x : N) : N := N.land x (N.ones w).
Definition plus (w x y : N) : N := mask w (x + y).
Definition rotl (w x : N) (n : N) : N := N.lor (mask w (N.shiftl x n)) (N.shiftr x (w - n)).
Definition rotr (w x : N) (n : N) : N := rotl w x (w - n).
Definition flip (w x : N) : N := N.lxor x (N.ones w).

(** Little-endian integers. *)
Fixpoint le (k : nat) (n : N) : bytes :=
  match k with O => [] | S k => n2b n :: le k (n / 256) end.
Fixpoint of_le (bs : bytes) : N :=
  match bs with [] => 0 | b :: bs => b2n b + 256 * of_le bs end.

(** Pieces of [S k] bytes, the last one may be shorter. *)
Fixpoint chunks_from (k i : nat) (cur : bytes) (bs : bytes) : list bytes :=
  match bs with
  | [] => match cur with [] => [] | _ => [rev cur] end
  | b :: bs =>
    match i with
    | O => rev (b :: cur) :: chunks_from k k [] bs
    | S i => chunks_from k i (b :: cur) bs
    end
  end.
Definition chunks (n : nat) (bs : bytes) : list bytes := chunks_from (pred n) (pred n) [] bs.

Definition byte_xor (a b : byte) : byte := n2b (N.lxor (b2n a) (b2n b)).
Fixpoint xors (a b : bytes) : bytes :=
  match a, b with x :: a, y :: b => byte_xor x y :: xors a b | _, _ => [] end.

(** * SHA-2 *)
Definition K256 : list N :=
  [0x428a2f98; 0x71374491; 0xb5c0fbcf; 0xe9b5dba5; 0x3956c25b; 0x59f111f1; 0x923f82a4; 0xab1c5ed5;
   0xd807aa98; 0x12835b01; 0x243185be; 0x550c7dc3; 0x72be5d74; 0x80deb1fe; 0x9bdc06a7; 0xc19bf174;
   0xe49b69c1; 0xefbe4786; 0x0fc19dc6; 0x240ca1cc; 0x2de92c6f; 0x4a7484aa; 0x5cb0a9dc; 0x76f988da;
   0x983e5152; 0xa831c66d; 0xb00327c8; 0xbf597fc7; 0xc6e00bf3; 0xd5a79147; 0x06ca6351; 0x14292967;
   0x27b70a85; 0x2e1b2138; 0x4d2c6dfc; 0x53380d13; 0x650a7354; 0x766a0abb; 0x81c2c92e; 0x92722c85;
   0xa2bfe8a1; 0xa81a664b; 0xc24b8b70; 0xc76c51a3; 0xd192e819; 0xd6990624; 0xf40e3585; 0x106aa070;
   0x19a4c116; 0x1e376c08; 0x2748774c; 0x34b0bcb5; 0x391c0cb3; 0x4ed8aa4a; 0x5b9cca4f; 0x682e6ff3;
   0x748f82ee; 0x78a5636f; 0x84c87814; 0x8cc70208; 0x90befffa; 0xa4506ceb; 0xbef9a3f7; 0xc67178f2].

Definition H256 : list N :=
  [0x6a09e667; 0xbb67ae85; 0x3c6ef372; 0xa54ff53a; 0x510e527f; 0x9b05688c; 0x1f83d9ab; 0x5be0cd19].

Definition K512 : list N :=
  [0x428a2f98d728ae22; 0x7137449123ef65cd; 0xb5c0fbcfec4d3b2f; 0xe9b5dba58189dbbc;
   0x3956c25bf348b538; 0x59f111f1b605d019; 0x923f82a4af194f9b; 0xab1c5ed5da6d8118;
   0xd807aa98a3030242; 0x12835b0145706fbe; 0x243185be4ee4b28c; 0x550c7dc3d5ffb4e2;
   0x72be5d74f27b896f; 0x80deb1fe3b1696b1; 0x9bdc06a725c71235; 0xc19bf174cf692694;
   0xe49b69c19ef14ad2; 0xefbe4786384f25e3; 0x0fc19dc68b8cd5b5; 0x240ca1cc77ac9c65;
   0x2de92c6f592b0275; 0x4a7484aa6ea6e483; 0x5cb0a9dcbd41fbd4; 0x76f988da831153b5;
   0x983e5152ee66dfab; 0xa831c66d2db43210; 0xb00327c898fb213f; 0xbf597fc7beef0ee4;
   0xc6e00bf33da88fc2; 0xd5a79147930aa725; 0x06ca6351e003826f; 0x142929670a0e6e70;
   0x27b70a8546d22ffc; 0x2e1b21385c26c926; 0x4d2c6dfc5ac42aed; 0x53380d139d95b3df;
   0x650a73548baf63de; 0x766a0abb3c77b2a8; 0x81c2c92e47edaee6; 0x92722c851482353b;
   0xa2bfe8a14cf10364; 0xa81a664bbc423001; 0xc24b8b70d0f89791; 0xc76c51a30654be30;
   0xd192e819d6ef5218; 0xd69906245565a910; 0xf40e35855771202a; 0x106aa07032bbd1b8;
   0x19a4c116b8d2d0c8; 0x1e376c085141ab53; 0x2748774cdf8eeb99; 0x34b0bcb5e19b48a8;
   0x391c0cb3c5c95a63; 0x4ed8aa4ae3418acb; 0x5b9cca4f7763e373; 0x682e6ff3d6b2b8a3;
   0x748f82ee5defb2fc; 0x78a5636f43172f60; 0x84c87814a1f0ab72; 0x8cc702081a6439ec;
   0x90befffa23631e28; 0xa4506cebde82bde9; 0xbef9a3f7b2c67915; 0xc67178f2e372532b;
   0xca273eceea26619c; 0xd186b8c721c0c207; 0xeada7dd6cde0eb1e; 0xf57d4f7fee6ed178;
   0x06f067aa72176fba; 0x0a637dc5a2c898a6; 0x113f9804bef90dae; 0x1b710b35131c471b;
   0x28db77f523047d84; 0x32caab7b40c72493; 0x3c9ebe0a15c9bebc; 0x431d67c49c100d4c;
   0x4cc5d4becb3e42b6; 0x597f299cfc657e2a; 0x5fcb6fab3ad6faec; 0x6c44198c4a475817].

Definition H512 : list N :=
  [0x6a09e667f3bcc908; 0xbb67ae8584caa73b; 0x3c6ef372fe94f82b; 0xa54ff53a5f1d36f1;
   0x510e527fade682d1; 0x9b05688c2b3e6c1f; 0x1f83d9abfb41bd6b; 0x5be0cd19137e2179].

(** The parameters in which SHA-256 and SHA-512 differ. *)
Record sha2 := { s_w : N; s_k : list N; s_block : nat; s_len : nat;
  s_A : N * N * N; s_E : N * N * N; s_0 : N * N * N; s_1 : N * N * N }.
Definition sha2_256 : sha2 := {| s_w := 32; s_k := K256; s_block := 64; s_len := 8;
  s_A := (2, 13, 22); s_E := (6, 11, 25); s_0 := (7, 18, 3); s_1 := (17, 19, 10) |}.
Definition sha2_512 : sha2 := {| s_w := 64; s_k := K512; s_block := 128; s_len := 16;
  s_A := (28, 34, 39); s_E := (14, 18, 41); s_0 := (1, 8, 7); s_1 := (19, 61, 6) |}.

Record state8 := { ha : N; hb : N; hc : N; hd_ : N; he : N; hf : N; hg : N; hh : N }.
Definition state_of (l : list N) : state8 :=
  let at_ i := nth i l 0 in
  {| ha := at_ 0%nat; hb := at_ 1%nat; hc := at_ 2%nat; hd_ := at_ 3%nat;
     he := at_ 4%nat; hf := at_ 5%nat; hg := at_ 6%nat; hh := at_ 7%nat |}.
Definition state_bytes (k : nat) (s : state8) : bytes :=
  be k (ha s) ++ be k (hb s) ++ be k (hc s) ++ be k (hd_ s) ++
  be k (he s) ++ be k (hf s) ++ be k (hg s) ++ be k (hh s).

Section S.
Variable p : sha2.
Let w := s_w p.
Definition big_sigma (r : N * N * N) (x : N) : N :=
  let '(a, b, c) := r in N.lxor (N.lxor (rotr w x a) (rotr w x b)) (rotr w x c).
Definition small_sigma (r : N * N * N) (x : N) : N :=
  let '(a, b, c) := r in N.lxor (N.lxor (rotr w x a) (rotr w x b)) (N.shiftr x c).
Definition ch (x y z : N) : N := N.lxor (N.land x y) (N.land (flip w x) z).
Definition maj (x y z : N) : N := N.lxor (N.lxor (N.land x y) (N.land x z)) (N.land y z).

Definition round (s : state8) (k wt : N) : state8 :=
  let t1 := plus w (hh s + big_sigma (s_E p) (he s)) (ch (he s) (hf s) (hg s) + k + wt) in
  let t2 := big_sigma (s_A p) (ha s) + maj (ha s) (hb s) (hc s) in
  {| ha := plus w t1 t2; hb := ha s; hc := hb s; hd_ := hc s;
     he := plus w (hd_ s) t1; hf := he s; hg := hf s; hh := hg s |}.

(** The rounds, with the next sixteen words of the message schedule. *)
Fixpoint rounds (ks : list N) (win : list N) (s : state8) : state8 :=
  match ks with
  | [] => s
  | k :: ks =>
    let at_ i := nth i win 0 in
    let wt := at_ 0%nat in
    let next := plus w (small_sigma (s_1 p) (at_ 14%nat) + at_ 9%nat) (small_sigma (s_0 p) (at_ 1%nat) + wt) in
    rounds ks (tl win ++ [next]) (round s k wt)
  end.
Definition compress (s : state8) (block : bytes) : state8 :=
  let r := rounds (s_k p) (List.map of_be (chunks (N.to_nat (w / 8)) block)) s in
  {| ha := plus w (ha s) (ha r); hb := plus w (hb s) (hb r); hc := plus w (hc s) (hc r); hd_ := plus w (hd_ s) (hd_ r);
     he := plus w (he s) (he r); hf := plus w (hf s) (hf r); hg := plus w (hg s) (hg r); hh := plus w (hh s) (hh r) |}.

(** FIPS 180-4, 5.1: one bit, zeros, the length in bits. *)
Definition pad (m : bytes) : bytes :=
  let used := (length m + 1 + s_len p)%nat in
  let zeros := ((s_block p - used mod s_block p) mod s_block p)%nat in
  m ++ [x80] ++ repeat x00 zeros ++ be (s_len p) (8 * N.of_nat (length m)).
Definition sha2_hash (init : list N) (m : bytes) : bytes :=
  state_bytes (N.to_nat (w / 8)) (fold_left compress (chunks (s_block p) (pad m)) (state_of init)).
End S.

Definition std_sha256 : bytes -> bytes := sha2_hash sha2_256 H256.
Definition std_sha512 : bytes -> bytes := sha2_hash sha2_512 H512.

(** * HMAC and PBKDF2 with SHA-512 *)
Definition hmac (hash : bytes -> bytes) (block : nat) (key msg : bytes) : bytes :=
  let key := if (block <? length key)%nat then hash key else key in
  let key := key ++ repeat x00 (block - length key) in
  let padded b := List.map (byte_xor b) key in
  hash (padded x5c ++ hash (padded x36 ++ msg)).
Definition std_hmac_sha256 : bytes -> bytes -> bytes := hmac std_sha256 64.
Definition std_hmac_sha512 : bytes -> bytes -> bytes := hmac std_sha512 128.

(** RFC 8018, 5.2: block [i] is the exclusive or of [c] iterates. *)
Definition pbkdf2_block (prf : bytes -> bytes) (salt : bytes) (c i : N) : bytes :=
  let u1 := prf (salt ++ be 4 i) in
  snd (N.iter (c - 1) (fun '(u, acc) => let u := prf u in (u, xors acc u)) (u1, u1)).
Fixpoint pbkdf2_blocks (prf : bytes -> bytes) (salt : bytes) (c : N) (i : N) (n : nat) : bytes :=
  match n with
  | O => []
  | S n => pbkdf2_block prf salt c i ++ pbkdf2_blocks prf salt c (i + 1) n
  end.
Definition std_pbkdf2 (password salt : bytes) (c : N) (len : nat) : bytes :=
  firstn len (pbkdf2_blocks (std_hmac_sha512 password) salt c 1 (S (len / 64))).

(** * Keccak-256 *)
(** Lane (x, y) is number x + 5 * y of the state. *)
Definition lane (s : list N) (x y : nat) : N := nth (x mod 5 + 5 * (y mod 5)) s 0.
Definition lanes (f : nat -> nat -> N) : list N :=
  flat_map (fun y => List.map (fun x => f x y) [0; 1; 2; 3; 4]%nat) [0; 1; 2; 3; 4]%nat.
Definition theta (s : list N) : list N :=
  let c := List.map (fun x => fold_left (fun a y => N.lxor a (lane s x y)) [0; 1; 2; 3; 4]%nat 0) [0; 1; 2; 3; 4]%nat in
  let c x := nth (x mod 5) c 0 in
  lanes (fun x y => N.lxor (lane s x y) (N.lxor (c (x + 4)%nat) (rotl 64 (c (x + 1)%nat) 1))).
Definition rho_offsets : list N :=
  [0; 1; 62; 28; 27; 36; 44; 6; 55; 20; 3; 10; 43; 25; 39; 41; 45; 15; 21; 8; 18; 2; 61; 56; 14].
(** B[y, 2x+3y] = rot(A[x, y]): lane (x', y') comes from ((x' + 3 y') mod 5, x'). *)
Definition rho_pi (s : list N) : list N :=
  lanes (fun x y => let x' := ((x + 3 * y) mod 5)%nat in
    rotl 64 (lane s x' x) (nth (x' + 5 * x) rho_offsets 0)).
Definition chi (s : list N) : list N :=
  lanes (fun x y => N.lxor (lane s x y) (N.land (flip 64 (lane s (x + 1) y)) (lane s (x + 2) y))).
Definition round_constants : list N :=
  [0x0000000000000001; 0x0000000000008082; 0x800000000000808a; 0x8000000080008000;
   0x000000000000808b; 0x0000000080000001; 0x8000000080008081; 0x8000000000008009;
   0x000000000000008a; 0x0000000000000088; 0x0000000080008009; 0x000000008000000a;
   0x000000008000808b; 0x800000000000008b; 0x8000000000008089; 0x8000000000008003;
   0x8000000000008002; 0x8000000000000080; 0x000000000000800a; 0x800000008000000a;
   0x8000000080008081; 0x8000000000008080; 0x0000000080000001; 0x8000000080008008].
Definition iota (rc : N) (s : list N) : list N :=
  match s with a :: s => N.lxor a rc :: s | [] => [] end.
Definition keccak_f (s : list N) : list N :=
  fold_left (fun s rc => iota rc (chi (rho_pi (theta s)))) round_constants s.
Definition absorb (s : list N) (block : bytes) : list N :=
  let ws := List.map of_le (chunks 8 block) in
  keccak_f (List.map (fun i => N.lxor (nth i s 0) (nth i ws 0)) (seq 0 25)).
(** Rate 136 bytes, padding 0x01 .. 0x80. *)
Definition keccak_pad (m : bytes) : bytes :=
  let z := (135 - length m mod 136)%nat in
  match z with
  | O => m ++ [x81]
  | S z => m ++ [x01] ++ repeat x00 z ++ [x80]
  end.
Definition std_keccak256 (m : bytes) : bytes :=
  let s := fold_left absorb (chunks 136 (keccak_pad m)) (repeat 0 25) in
  le 8 (nth 0 s 0) ++ le 8 (nth 1 s 0) ++ le 8 (nth 2 s 0) ++ le 8 (nth 3 s 0).

(** * RIPEMD-160 *)
Record state5 := { ra : N; rb : N; rc : N; rd : N; re : N }.
Definition rip_f (j : nat) (x y z : N) : N :=
  match j with
  | 0%nat => N.lxor (N.lxor x y) z
  | 1%nat => N.lor (N.land x y) (N.land (flip 32 x) z)
  | 2%nat => N.lxor (N.lor x (flip 32 y)) z
  | 3%nat => N.lor (N.land x z) (N.land y (flip 32 z))
  | _ => N.lxor x (N.lor y (flip 32 z))
  end.
Definition rip_k : list N := [0; 0x5a827999; 0x6ed9eba1; 0x8f1bbcdc; 0xa953fd4e].
Definition rip_k' : list N := [0x50a28be6; 0x5c4dd124; 0x6d703ef3; 0x7a6d76e9; 0].
Definition rip_r : list (list nat) :=
  [[0; 1; 2; 3; 4; 5; 6; 7; 8; 9; 10; 11; 12; 13; 14; 15];
   [7; 4; 13; 1; 10; 6; 15; 3; 12; 0; 9; 5; 2; 14; 11; 8];
   [3; 10; 14; 4; 9; 15; 8; 1; 2; 7; 0; 6; 13; 11; 5; 12];
   [1; 9; 11; 10; 0; 8; 12; 4; 13; 3; 7; 15; 14; 5; 6; 2];
   [4; 0; 5; 9; 7; 12; 2; 10; 14; 1; 3; 8; 11; 6; 15; 13]]%nat.
Definition rip_r' : list (list nat) :=
  [[5; 14; 7; 0; 9; 2; 11; 4; 13; 6; 15; 8; 1; 10; 3; 12];
   [6; 11; 3; 7; 0; 13; 5; 10; 14; 15; 8; 12; 4; 9; 1; 2];
   [15; 5; 1; 3; 7; 14; 6; 9; 11; 8; 12; 2; 10; 0; 4; 13];
   [8; 6; 4; 1; 3; 11; 15; 0; 5; 12; 2; 13; 9; 7; 10; 14];
   [12; 15; 10; 4; 1; 5; 8; 7; 6; 2; 13; 14; 0; 3; 9; 11]]%nat.
Definition rip_s : list (list N) :=
  [[11; 14; 15; 12; 5; 8; 7; 9; 11; 13; 14; 15; 6; 7; 9; 8];
   [7; 6; 8; 13; 11; 9; 7; 15; 7; 12; 15; 9; 11; 7; 13; 12];
   [11; 13; 6; 7; 14; 9; 13; 15; 14; 8; 13; 6; 5; 12; 7; 5];
   [11; 12; 14; 15; 14; 15; 9; 8; 9; 14; 5; 6; 8; 6; 5; 12];
   [9; 15; 5; 11; 6; 8; 13; 12; 5; 12; 13; 14; 11; 8; 5; 6]].
Definition rip_s' : list (list N) :=
  [[8; 9; 9; 11; 13; 15; 15; 5; 7; 7; 8; 11; 14; 14; 12; 6];
   [9; 13; 15; 7; 12; 8; 9; 11; 7; 7; 12; 7; 6; 15; 13; 11];
   [9; 7; 15; 11; 8; 6; 6; 14; 12; 13; 5; 14; 13; 13; 7; 5];
   [15; 5; 8; 11; 14; 14; 6; 14; 6; 9; 12; 9; 12; 5; 15; 8];
   [8; 5; 12; 9; 12; 5; 14; 6; 8; 13; 6; 5; 15; 13; 11; 11]].
Definition rip_step (f : nat) (k : N) (ws : list N) (s : state5) (rs : nat * N) : state5 :=
  let '(r, sh) := rs in
  let t := plus 32 (rotl 32 (mask 32 (ra s + rip_f f (rb s) (rc s) (rd s) + nth r ws 0 + k)) sh) (re s) in
  {| ra := re s; rb := t; rc := rb s; rd := rotl 32 (rc s) 10; re := rd s |}.
Definition rip_line (fs : list nat) (ks : list N) (rs : list (list nat)) (ss : list (list N)) (ws : list N) (s : state5) : state5 :=
  fold_left (fun s '(f, (k, (r, sh))) => fold_left (rip_step f k ws) (combine r sh) s)
    (combine fs (combine ks (combine rs ss))) s.
Definition rip_compress (s : state5) (block : bytes) : state5 :=
  let ws := List.map of_le (chunks 4 block) in
  let l := rip_line [0; 1; 2; 3; 4]%nat rip_k rip_r rip_s ws s in
  let r := rip_line [4; 3; 2; 1; 0]%nat rip_k' rip_r' rip_s' ws s in
  {| ra := mask 32 (rb s + rc l + rd r); rb := mask 32 (rc s + rd l + re r); rc := mask 32 (rd s + re l + ra r);
     rd := mask 32 (re s + ra l + rb r); re := mask 32 (ra s + rb l + rc r) |}.
Definition rip_pad (m : bytes) : bytes :=
  let used := (length m + 9)%nat in
  m ++ [x80] ++ repeat x00 ((64 - used mod 64) mod 64) ++ le 8 (8 * N.of_nat (length m)).
Definition std_ripemd160 (m : bytes) : bytes :=
  let s := fold_left rip_compress (chunks 64 (rip_pad m))
    {| ra := 0x67452301; rb := 0xefcdab89; rc := 0x98badcfe; rd := 0x10325476; re := 0xc3d2e1f0 |} in
  le 4 (ra s) ++ le 4 (rb s) ++ le 4 (rc s) ++ le 4 (rd s) ++ le 4 (re s).
