(** Properties C01-C03: the 11-bit reader and writer. *)
From Verif Require Import Base Bits BitsSpec BitsFacts.

(** C01.  The bytes are the 11-bit groups in order, most significant bit
    first, padded with fewer than eight zero bits; writing never panics. *)
Theorem C01_writer_layout : forall es : list N,
  exists w k, write_all writer_new es = Ok w /\ (k < 8)%nat /\
    bytes_bits (to_bytes w) = groups_bits es ++ repeat false k.
Proof. exact write_all_new. Qed.
Print Assumptions C01_writer_layout.

Example C01_case :
  write_all writer_new [0x7ff; 1; 0xffff] =
  Ok {| w_buffer := [xff; xe0; x07; xff; x80]; w_state := S3 |}.
Proof. reflexivity. Qed.

(** C02.  [k] reads succeed exactly when the buffer holds [11 * k] bits; they
    return those bits, below 2048, and [size] is the number of reads left. *)
Theorem C02_reader_groups : forall (bs : bytes) (k : nat),
  ((11 * k <= 8 * length bs)%nat ->
   exists vs r, read_n k (reader_new bs) = Ok (vs, r) /\
     length vs = k /\
     groups_bits vs = firstn (11 * k) (bytes_bits bs) /\
     Forall (fun v => v < 2048) vs /\
     size r = Ok ((8 * N.of_nat (length bs) - 11 * N.of_nat k) / 11)) /\
  ((8 * length bs < 11 * k)%nat -> read_n k (reader_new bs) = Panic).
Proof. exact reader_spec. Qed.
Print Assumptions C02_reader_groups.

Example C02_case_ok : (11 * 2 <= 8 * length [xff; xe0; x07; xff])%nat.
Proof. cbn. lia. Qed.
Example C02_case_panic : (8 * length [xff; xe0] < 11 * 2)%nat.
Proof. cbn. lia. Qed.

(** C03.  Reading back what was written gives the low 11 bits of each value. *)
Theorem C03_read_back : forall es : list N,
  exists w r, write_all writer_new es = Ok w /\
    read_n (length es) (reader_new (to_bytes w))
    = Ok (List.map (fun e => e mod 2048) es, r).
Proof. exact read_back. Qed.
Print Assumptions C03_read_back.

Example C03_case :
  List.map (fun e => e mod 2048) [2047; 2048; 5] = [2047; 0; 5].
Proof. reflexivity. Qed.
