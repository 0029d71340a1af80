(** The groups of secp256k1 and ed25519 and their signatures, by relations on
    numbers, from SEC 1 and SEC 2 and from RFC 8032.  Nothing here computes a
    point: a sum is a point that satisfies the equations. *)
From Verif Require Import Base.
Open Scope N_scope.

(** * secp256k1 *)
Definition secp_field : N := 2 ^ 256 - 2 ^ 32 - 977.
Definition secp_order : N :=
  115792089237316195423570985008687907852837564279074904382605163141518161494337.
Definition secp_generator : N * N :=
  (55066263022277343669578718895168534326250603453777594175500187360389116729240,
   32670510020758816978083085130507043184471273380659243275938904335757337482424).

(** [None] is the point at infinity. *)
Definition secp_on (q : option (N * N)) : Prop :=
  match q with
  | None => True
  | Some (x, y) =>
    x < secp_field /\ y < secp_field /\ (y ^ 2) mod secp_field = (x ^ 3 + 7) mod secp_field
  end.

(** The line of slope [l] through (x1, y1) and a point with x2 meets the curve
    again in the reflection of (x3, y3). *)
Definition secp_line (l x1 y1 x2 x3 y3 : N) : Prop :=
  x3 < secp_field /\ y3 < secp_field /\
  (x3 + x1 + x2) mod secp_field = (l ^ 2) mod secp_field /\
  (y3 + y1 + l * x3) mod secp_field = (l * x1) mod secp_field.
Inductive secp_sum : option (N * N) -> option (N * N) -> option (N * N) -> Prop :=
  | sum_left q : secp_sum None q q
  | sum_right q : secp_sum q None q
  | sum_opposite x y y' : (y + y') mod secp_field = 0 -> secp_sum (Some (x, y)) (Some (x, y')) None
  | sum_tangent l x y x3 y3 : y <> 0 -> (l * (2 * y)) mod secp_field = (3 * x ^ 2) mod secp_field ->
      secp_line l x y x x3 y3 -> secp_sum (Some (x, y)) (Some (x, y)) (Some (x3, y3))
  | sum_chord l x1 y1 x2 y2 x3 y3 : x1 <> x2 -> (l * x2 + y1) mod secp_field = (l * x1 + y2) mod secp_field ->
      secp_line l x1 y1 x2 x3 y3 -> secp_sum (Some (x1, y1)) (Some (x2, y2)) (Some (x3, y3)).
(** [secp_times k q r]: r is q added k times. *)
Inductive secp_times : N -> option (N * N) -> option (N * N) -> Prop :=
  | times_none q : secp_times 0 q None
  | times_more k q r s : secp_times k q r -> secp_sum q r s -> secp_times (N.succ k) q s.

(** SEC 1, 4.1.4: (r, s) is a signature over the number [e] by the key [q]. *)
Definition ecdsa_valid (e r s : N) (q : N * N) : Prop :=
  0 < r < secp_order /\ 0 < s < secp_order /\
  exists w a b x y,
    (w * s) mod secp_order = 1 /\
    secp_times ((e * w) mod secp_order) (Some secp_generator) a /\
    secp_times ((r * w) mod secp_order) (Some q) b /\
    secp_sum a b (Some (x, y)) /\ x mod secp_order = r.
(** SEC 1, 4.1.3: (r, s) is made with the nonce [k] from the secret [d]; the
    recovery number tells the parity of y and whether x is reduced. *)
Definition ecdsa_with (e d k r s v : N) : Prop :=
  exists x y,
    0 < k < secp_order /\ secp_times k (Some secp_generator) (Some (x, y)) /\
    r = x mod secp_order /\ (s * k) mod secp_order = (e + r * d) mod secp_order /\
    v = y mod 2 + (if secp_order <=? x then 2 else 0).
Definition ecdsa_made (e d r s v : N) : Prop := exists k, ecdsa_with e d k r s v.
(** The nonce gives a signature: neither r nor s is zero. *)
Definition ecdsa_usable (e d k : N) : Prop :=
  exists x y,
    0 < k < secp_order /\ secp_times k (Some secp_generator) (Some (x, y)) /\
    x mod secp_order <> 0 /\ (e + x mod secp_order * d) mod secp_order <> 0.
(** RFC 6979, 3.2, with a hash as long as the order: [rfc6979 mac x h j k v],
    the candidate number [j] for the secret [x] and the hash [h] is [v], and
    [k] the key of the generator then. *)
Inductive rfc6979 (mac : bytes -> bytes -> bytes) (x h : bytes) : nat -> bytes -> bytes -> Prop :=
  | rfc6979_first k0 v0 k1 v1 k2 v2 :
      v0 = repeat x01 32 -> k0 = repeat x00 32 ->
      k1 = mac k0 (v0 ++ [x00] ++ x ++ h) -> v1 = mac k1 v0 ->
      k2 = mac k1 (v1 ++ [x01] ++ x ++ h) -> v2 = mac k2 v1 ->
      rfc6979 mac x h 0 k2 (mac k2 v2)
  | rfc6979_next j k v k' v' :
      rfc6979 mac x h j k v -> k' = mac k (v ++ [x00]) -> v' = mac k' v ->
      rfc6979 mac x h (S j) k' (mac k' v').

(** * ed25519 *)
Definition ed_field : N := 2 ^ 255 - 19.
Definition ed_order : N := 2 ^ 252 + 27742317777372353535851937790883648493.
(** -x^2 + y^2 = 1 - (121665 / 121666) x^2 y^2 *)
Definition ed_on (q : N * N) : Prop :=
  let '(x, y) := q in
  x < ed_field /\ y < ed_field /\
  (121666 * y ^ 2 + 121665 * x ^ 2 * y ^ 2) mod ed_field = (121666 + 121666 * x ^ 2) mod ed_field.
Definition ed_sum (q r s : N * N) : Prop :=
  let '(x1, y1) := q in
  let '(x2, y2) := r in
  let '(x3, y3) := s in
  let t := 121665 * x1 * x2 * y1 * y2 in
  x3 < ed_field /\ y3 < ed_field /\
  (121666 * x3) mod ed_field = (121666 * (x1 * y2 + x2 * y1) + t * x3) mod ed_field /\
  (121666 * y3 + t * y3) mod ed_field = (121666 * (y1 * y2 + x1 * x2)) mod ed_field.
Inductive ed_times : N -> N * N -> N * N -> Prop :=
  | ed_times_none q : ed_times 0 q (0, 1)
  | ed_times_more k q r s : ed_times k q r -> ed_sum q r s -> ed_times (N.succ k) q s.
(** The base point is the one with y = 4/5 and an even x. *)
Definition ed_generator (b : N * N) : Prop :=
  ed_on b /\ (5 * snd b) mod ed_field = 4 /\ fst b mod 2 = 0.

(** Little-endian numbers; a point is y with the parity of x in the top bit. *)
Fixpoint little (b : bytes) : N :=
  match b with [] => 0 | c :: b => b2n c + 256 * little b end.
Definition ed_encodes (b : bytes) (q : N * N) : Prop :=
  length b = 32%nat /\ little b = snd q + 2 ^ 255 * (fst q mod 2).
(** RFC 8032, 5.1.7, without the cofactor: the signature is the encoding of a
    point R and a number S below the order with S B = R + h A, where [pk]
    encodes A and [h] is the hash. *)
Definition eddsa_valid (h : bytes -> bytes) (a : N * N) (pk m sg : bytes) : Prop :=
  length sg = 64%nat /\ little (skipn 32 sg) < ed_order /\
  exists b r u v,
    ed_generator b /\ ed_encodes (firstn 32 sg) r /\ ed_on r /\
    ed_times (little (h (firstn 32 sg ++ pk ++ m))) a u /\
    ed_times (little (skipn 32 sg)) b v /\ ed_sum r u v.

(** RFC 8032, 5.1.6, for an extended key: the secret number, the secret bytes
    that the nonce is made of. *)
Definition eddsa_made (h : bytes -> bytes) (a : N) (prefix pk m sg : bytes) : Prop :=
  let n := little (h (prefix ++ m)) mod ed_order in
  exists b r, ed_generator b /\ ed_times n b r /\ length sg = 64%nat /\ ed_encodes (firstn 32 sg) r /\
    little (skipn 32 sg) = (n + little (h (firstn 32 sg ++ pk ++ m)) * a) mod ed_order.

(** BIP32-Ed25519 (as in Cardano): the keyed hash for a child.  For an index of
    2^31 or more it is over the first 64 bytes of the key, otherwise over the
    public key. *)
Definition ed_hash (mac : bytes -> bytes -> bytes) (hard soft : byte) (x pk : bytes) (i : N) : bytes :=
  mac (slice 64 96 x) ((if 2 ^ 31 <=? i then hard :: firstn 64 x else soft :: pk) ++ rev (be 4 i)).
(** A child's secret is the parent's plus eight times the first 28 bytes. *)
Definition ed_tweak (mac : bytes -> bytes -> bytes) (x pk : bytes) (i : N) : N :=
  little (firstn 28 (ed_hash mac x00 x02 x pk i)).
Definition ed_child (mac : bytes -> bytes -> bytes) (x pk : bytes) (i : N) (y : bytes) : Prop :=
  length y = 96%nat /\
  little (firstn 32 y) = (little (firstn 32 x) + 8 * ed_tweak mac x pk i) mod 2 ^ 256 /\
  little (slice 32 64 y) = (little (slice 32 64 x) + little (slice 32 64 (ed_hash mac x00 x02 x pk i))) mod 2 ^ 256 /\
  slice 64 96 y = skipn 32 (ed_hash mac x01 x03 x pk i).
