(** A deliberately simple instance of the external primitives, used only to
    show that hypotheses about them can be met. *)
From Verif Require Import Base BaseFacts Prims.

Definition pad_to (k : nat) (bs : bytes) : bytes := firstn k (bs ++ repeat x00 k).

Lemma pad_to_length k bs : length (pad_to k bs) = k.
Proof.
  unfold pad_to. rewrite firstn_length, app_length, repeat_length. lia.
Qed.

Definition mix (b : bytes) : N :=
  fold_left (fun a x => 3 * N.land a 0xFFFFFFFF + b2n x) b 1.

Definition toy : prims := {|
  sha256 m := be 32 (of_be m);
  sha512 m := be 64 (of_be m);
  keccak256 m := be 32 (of_be m);
  ripemd160 m := be 20 (of_be m);
  hmac_sha512 k m := be 32 (of_be m) ++ be 32 (of_be k);
  pbkdf2 p s _ l := pad_to l (p ++ s);
  chacha_stream k n l := pad_to l (k ++ n);
  chacha_tag k n c := be 16 (mix k + mix n + mix c);
  secp_pub k := (k mod 2 ^ 256, 7);
  secp_sign m k := Some (of_be m mod secp_n, k mod secp_n, 1);
  secp_verify m r s pk := (r =? of_be m mod secp_n) && (s =? fst pk mod secp_n);
  ed_derive k i := pad_to 92 k ++ be 4 i;
  ed_public k := pad_to 64 k;
  ed_sign k m := be 32 (of_be k) ++ be 32 (of_be m);
  ed_verify k m s := bytes_eqb s (be 32 (of_be k) ++ be 32 (of_be m))
|}.

Lemma toy_ok : prims_ok toy.
Proof.
  split; cbn [toy sha256 sha512 keccak256 ripemd160 hmac_sha512 pbkdf2 chacha_stream
    chacha_tag secp_pub secp_sign ed_derive ed_public ed_sign fst snd]; intros;
    rewrite ?app_length, ?be_length, ?pad_to_length; try reflexivity.
  - split; [apply N.mod_lt; discriminate|reflexivity].
  - injection H as <- <- <-. repeat split; try (apply N.mod_lt; discriminate).
Qed.

Lemma toy_secp : secp_correct toy.
Proof.
  intros m k r s v Hk H.
  cbn [toy secp_sign secp_verify secp_pub fst] in *.
  injection H as <- <- <-.
  rewrite (N.mod_small k (2 ^ 256)).
  - now rewrite !N.eqb_refl.
  - eapply N.lt_trans; [apply Hk|]. reflexivity.
Qed.

Lemma toy_ed : ed_correct toy.
Proof. intros k m. cbn [toy ed_verify ed_sign]. apply bytes_eqb_refl. Qed.

(** Like [toy], but the HMAC of a message ending in 7fffffff is the group
    order minus one, so that deriving soft child 2^31-1 of secret 1 sums to
    zero. *)
Definition toy_zero : prims := {|
  sha256 := sha256 toy;
  sha512 := sha512 toy;
  keccak256 := keccak256 toy;
  ripemd160 := ripemd160 toy;
  hmac_sha512 k m :=
    be 32 (if of_be m mod 2 ^ 32 =? 0x7FFFFFFF then secp_n - 1 else 5) ++ be 32 (of_be k);
  pbkdf2 := pbkdf2 toy;
  chacha_stream := chacha_stream toy;
  chacha_tag := chacha_tag toy;
  secp_pub := secp_pub toy;
  secp_sign := secp_sign toy;
  secp_verify := secp_verify toy;
  ed_derive := ed_derive toy;
  ed_public := ed_public toy;
  ed_sign := ed_sign toy;
  ed_verify := ed_verify toy
|}.

Lemma toy_zero_ok : prims_ok toy_zero.
Proof.
  destruct toy_ok. split; assumption.
Qed.

(** Like [toy], but the left half of the HMAC of a message ending in the
    byte 8 is the group order, which is not a valid secret. *)
Definition toy_left : prims := {|
  sha256 := sha256 toy;
  sha512 := sha512 toy;
  keccak256 := keccak256 toy;
  ripemd160 := ripemd160 toy;
  hmac_sha512 k m :=
    be 32 (if of_be m mod 2 ^ 8 =? 8 then secp_n else 5) ++ be 32 (of_be k);
  pbkdf2 := pbkdf2 toy;
  chacha_stream := chacha_stream toy;
  chacha_tag := chacha_tag toy;
  secp_pub := secp_pub toy;
  secp_sign := secp_sign toy;
  secp_verify := secp_verify toy;
  ed_derive := ed_derive toy;
  ed_public := ed_public toy;
  ed_sign := ed_sign toy;
  ed_verify := ed_verify toy
|}.

Lemma toy_left_ok : prims_ok toy_left.
Proof.
  destruct toy_ok. split; assumption.
Qed.
