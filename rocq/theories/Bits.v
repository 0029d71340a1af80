(** Model of bip39/src/util/bits.rs. *)
From Verif Require Import Base.

(** [NUM_BITS_PER_BLOCK], bits.rs:1 *)
Definition NUM_BITS_PER_BLOCK : N := 11.

(** [enum State], bits.rs:3-13 *)
Inductive State := S0 | S1 | S2 | S3 | S4 | S5 | S6 | S7.

(** [State::index], bits.rs:15-26 *)
Definition state_index (s : State) : N :=
  match s with
  | S0 => 0 | S1 => 3 | S2 => 6 | S3 => 1
  | S4 => 4 | S5 => 7 | S6 => 2 | S7 => 5
  end.

(** * [BitWriterBy11], bits.rs:29-135 *)
Record writer := { w_buffer : bytes; w_state : State }.

(** [BitWriterBy11::new], bits.rs:35-37 *)
Definition writer_new : writer := {| w_buffer := []; w_state := S0 |}.

(** [BitWriterBy11::to_bytes], bits.rs:39-41 *)
Definition to_bytes (w : writer) : bytes := w_buffer w.

(** u16 shift left: bits above 16 are lost. *)
Definition shl16 (e k : N) : N := N.shiftl e k mod 65536.

(** [if let Some(last) = self.buffer.last_mut() { *last |= x as u8 } else
    { unreachable!() }], bits.rs:55-59 and repeated. *)
Definition or_last (buf : bytes) (x : N) : res unit bytes :=
  match rev buf with
  | [] => Panic
  | last :: init => Ok (rev init ++ [n2b (N.lor (b2n last) (b2n (n2b x)))])
  end.

(** [BitWriterBy11::write], bits.rs:43-134; [e] is a u16. *)
Definition write (w : writer) (e : N) : res unit writer :=
  let buf := w_buffer w in
  match w_state w with
  | S0 =>
    let x := N.land (N.shiftr e 3) 0xff in
    let y := N.land (shl16 e 5) 0xe0 in
    Ok {| w_buffer := buf ++ [n2b x; n2b y]; w_state := S1 |}
  | S1 =>
    let x := N.land (N.shiftr e 6) 0x1f in
    let y := N.land (shl16 e 2) 0xfc in
    let* buf := or_last buf x in
    Ok {| w_buffer := buf ++ [n2b y]; w_state := S2 |}
  | S2 =>
    let x := N.land (N.shiftr e 9) 0x03 in
    let y := N.land (N.shiftr e 1) 0xff in
    let z := N.land (shl16 e 7) 0x80 in
    let* buf := or_last buf x in
    Ok {| w_buffer := buf ++ [n2b y; n2b z]; w_state := S3 |}
  | S3 =>
    let x := N.land (N.shiftr e 4) 0x7f in
    let y := N.land (shl16 e 4) 0xf0 in
    let* buf := or_last buf x in
    Ok {| w_buffer := buf ++ [n2b y]; w_state := S4 |}
  | S4 =>
    let x := N.land (N.shiftr e 7) 0x0f in
    let y := N.land (shl16 e 1) 0xfe in
    let* buf := or_last buf x in
    Ok {| w_buffer := buf ++ [n2b y]; w_state := S5 |}
  | S5 =>
    let x := N.land (N.shiftr e 10) 0x01 in
    let y := N.land (N.shiftr e 2) 0xff in
    let z := N.land (shl16 e 6) 0xc0 in
    let* buf := or_last buf x in
    Ok {| w_buffer := buf ++ [n2b y; n2b z]; w_state := S6 |}
  | S6 =>
    let x := N.land (N.shiftr e 5) 0x3f in
    let y := N.land (shl16 e 3) 0xf8 in
    let* buf := or_last buf x in
    Ok {| w_buffer := buf ++ [n2b y]; w_state := S7 |}
  | S7 =>
    let x := N.land (N.shiftr e 8) 0x07 in
    let y := N.land e 0xff in
    let* buf := or_last buf x in
    Ok {| w_buffer := buf ++ [n2b y]; w_state := S0 |}
  end.

(** A sequence of writes, as in the loop of bip39.rs:296-298. *)
Fixpoint write_all (w : writer) (es : list N) : res unit writer :=
  match es with
  | [] => Ok w
  | e :: es => let* w := write w e in write_all w es
  end.

(** * [BitReaderBy11], bits.rs:137-221 *)
Record reader := { r_buffer : bytes; r_state : State }.

(** [BitReaderBy11::new], bits.rs:143-145 *)
Definition reader_new (bs : bytes) : reader :=
  {| r_buffer := bs; r_state := S0 |}.

(** [BitReaderBy11::size], bits.rs:147-149.  The usize subtraction panics on
    underflow in debug builds; a release build would wrap, which this model
    also reports as [Panic] (it is proved never to happen). *)
Definition size (r : reader) : res unit N :=
  let total := N.of_nat (length (r_buffer r)) * 8 in
  if total <? state_index (r_state r) then Panic
  else Ok ((total - state_index (r_state r)) / NUM_BITS_PER_BLOCK).

(** The arms of [read] that look at two bytes and then drop [drop] bytes,
    bits.rs:153-168,178-193,203-218; [f x y] is the returned expression. *)
Definition read2 (r : reader) (mx my : N) (next : State) (drop : nat)
           (f : N -> N -> N) : res unit (N * reader) :=
  match r_buffer r with
  | b0 :: b1 :: _ =>
    let x := N.land (b2n b0) mx in
    let y := N.land (b2n b1) my in
    Ok (f x y, {| r_buffer := skipn drop (r_buffer r); r_state := next |})
  | _ => Panic
  end.

(** The arms of [read] that look at three bytes, bits.rs:169-177,194-202. *)
Definition read3 (r : reader) (mx my mz : N) (next : State) (drop : nat)
           (f : N -> N -> N -> N) : res unit (N * reader) :=
  match r_buffer r with
  | b0 :: b1 :: b2 :: _ =>
    let x := N.land (b2n b0) mx in
    let y := N.land (b2n b1) my in
    let z := N.land (b2n b2) mz in
    Ok (f x y z, {| r_buffer := skipn drop (r_buffer r); r_state := next |})
  | _ => Panic
  end.

(** [BitReaderBy11::read], bits.rs:151-220.  The [assert!]s are the length
    patterns of [read2]/[read3]. *)
Definition read (r : reader) : res unit (N * reader) :=
  match r_state r with
  | S0 => read2 r 0xff 0xe0 S1 1 (fun x y => N.lor (shl16 x 3) (N.shiftr y 5))
  | S1 => read2 r 0x1f 0xfc S2 1 (fun x y => N.lor (shl16 x 6) (N.shiftr y 2))
  | S2 => read3 r 0x03 0xff 0x80 S3 2
            (fun x y z => N.lor (N.lor (shl16 x 9) (shl16 y 1)) (N.shiftr z 7))
  | S3 => read2 r 0x7f 0xf0 S4 1 (fun x y => N.lor (shl16 x 4) (N.shiftr y 4))
  | S4 => read2 r 0x0f 0xfe S5 1 (fun x y => N.lor (shl16 x 7) (N.shiftr y 1))
  | S5 => read3 r 0x01 0xff 0xc0 S6 2
            (fun x y z => N.lor (N.lor (shl16 x 10) (shl16 y 2)) (N.shiftr z 6))
  | S6 => read2 r 0x3f 0xf8 S7 1 (fun x y => N.lor (shl16 x 5) (N.shiftr y 3))
  | S7 => read2 r 0x07 0xff S0 2 (fun x y => N.lor (shl16 x 8) y)
  end.

(** [k] consecutive reads, as in the loop of bip39.rs:338-341. *)
Fixpoint read_n (k : nat) (r : reader) : res unit (list N * reader) :=
  match k with
  | O => Ok ([], r)
  | S k =>
    let* '(n, r) := read r in
    let* '(ns, r) := read_n k r in
    Ok (n :: ns, r)
  end.
