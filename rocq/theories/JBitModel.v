(** Bit-level access to JPEG entropy-coded segments: the writer's BitWriter
    (c/dec/jpeg_data_writer.cc:39-183) and the reader's BitReaderState
    (c/enc/jpeg_data_reader.cc:422-525). *)
From Verif Require Import Base.

(** * Specification vocabulary *)

(** The [n] low bits of [v], most significant first (the order of JPEG scan data). *)
Definition mbits (n : nat) (v : Z) : list bool := rev (bits_of n v).

(** The number whose binary digits are [l], most significant first. *)
Definition mval (l : list bool) : Z := val_of (rev l).

(** Bits of a byte string, most significant bit of each byte first. *)
Definition byte_bits (l : list Z) : list bool := flat_map (mbits 8) l.

(** A zero byte is inserted after every 0xFF byte. *)
Definition stuff (l : list Z) : list Z :=
  flat_map (fun b => if b =? 255 then [255; 0] else [b]) l.

(** * The writer *)

(** Outcome of a step: [None] is undefined behaviour (a store past the chunk or a shift
    by an invalid amount). *)

(** serialization_state.h, BitWriter: chunks already moved to the output queue, the
    bytes of the current chunk, the 64-bit buffer, its number of free bits, and the
    health flag. *)
Record bitw := mkBW {
  bw_chunks : list (list Z); bw_cur : list Z; bw_buf : Z; bw_free : Z; bw_ok : bool }.

(** jpeg_data_writer.cc:41, kBitWriterChunkSize. *)
Definition chunk_size : Z := 16384.

(** jpeg_data_writer.cc:52-60, BitWriterInit. *)
Definition bw_init : bitw := mkBW [] [] 0 64 true.

(** jpeg_data_writer.cc:62-74, SwapBuffer and Reserve. *)
Definition bw_reserve (n : Z) (s : bitw) : bitw :=
  if chunk_size <? Z.of_nat (length (bw_cur s)) + n
  then mkBW (bw_chunks s ++ [bw_cur s]) [] (bw_buf s) (bw_free s) (bw_ok s)
  else s.

(** A store to [bw->data\[bw->pos++\]]. *)
Definition bw_put (b : Z) (s : bitw) : option bitw :=
  if Z.of_nat (length (bw_cur s)) <? chunk_size
  then Some (mkBW (bw_chunks s) (bw_cur s ++ [b]) (bw_buf s) (bw_free s) (bw_ok s))
  else None.

(** jpeg_data_writer.cc:82-85, EmitByte. *)
Definition bw_emit (b : Z) (s : bitw) : option bitw :=
  let? s1 := bw_put b s in
  if b =? 255 then bw_put 0 s1 else Some s1.

(** jpeg_data_writer.cc:48-50, HasZeroByte, on unsigned 64-bit numbers. *)
Definition has_zero_byte (x : Z) : bool :=
  negb (Z.land (Z.land ((x - 72340172838076673) mod 2 ^ 64) (2 ^ 64 - 1 - x))
          9259542123273814144 =? 0).

(** Byte at bit position [sh] of the buffer. *)
Definition buf_byte (buf sh : Z) : Z := Z.land (Z.shiftr buf sh) 255.

(** The stores of one branch of DischargeBitBuffer, in order. *)
Definition bw_bytes (put : Z -> bitw -> option bitw) (buf : Z) (s : bitw) : option bitw :=
  let? s := put (buf_byte buf 56) s in
  let? s := put (buf_byte buf 48) s in
  let? s := put (buf_byte buf 40) s in
  let? s := put (buf_byte buf 32) s in
  let? s := put (buf_byte buf 24) s in
  put (buf_byte buf 16) s.

(** jpeg_data_writer.cc:87-117, DischargeBitBuffer. *)
Definition bw_discharge (s : bitw) : option bitw :=
  let s := bw_reserve 12 s in
  let buf := bw_buf s in
  let? s :=
    (if has_zero_byte (Z.lor (2 ^ 64 - 1 - buf) 65535)
     then bw_bytes bw_emit buf s
     else bw_bytes bw_put buf s) in
  Some (mkBW (bw_chunks s) (bw_cur s) (Z.shiftl buf 48 mod 2 ^ 64) (bw_free s + 48) (bw_ok s)).

(** jpeg_data_writer.cc:119-131, WriteBits.  A shift by a negative amount or by 64 and
    more is undefined. *)
Definition bw_write (n v : Z) (s : bitw) : option bitw :=
  if n =? 0 then Some (mkBW (bw_chunks s) (bw_cur s) (bw_buf s) (bw_free s) false)
  else
    let free := bw_free s - n in
    if (free <? 0) || (64 <=? free) then None
    else
      let s1 := mkBW (bw_chunks s) (bw_cur s)
                  (Z.lor (bw_buf s) (Z.shiftl v free mod 2 ^ 64)) free (bw_ok s) in
      if free <=? 16 then bw_discharge s1 else Some s1.

(** jpeg_data_writer.cc:133-138, EmitMarker. *)
Definition bw_marker (m : Z) (s : bitw) : option bitw :=
  let s := bw_reserve 2 s in
  let? s := bw_put 255 s in
  bw_put m s.

(** jpeg_data_writer.cc:149-155: [n] recorded padding bits collected into a pattern; the
    inner [None] is the failure return. *)
Fixpoint pad_pattern (n : nat) (pat : Z) (src : list Z) : option (Z * list Z) :=
  match n with
  | O => Some (pat, src)
  | S n' =>
      match src with
      | [] => None
      | b :: r => pad_pattern n' (Z.lor (Z.shiftl pat 1 mod 256) (if b =? 0 then 0 else 1)) r
      end
  end.

(** jpeg_data_writer.cc:161-166, the loop that empties the whole bytes of the buffer (at
    most 8 iterations). *)
Fixpoint bw_drain (fuel : nat) (s : bitw) : option bitw :=
  match fuel with
  | O => Some s
  | S f =>
      if bw_free s <=? 56 then
        let? s1 := bw_emit (buf_byte (bw_buf s) 56) s in
        bw_drain f (mkBW (bw_chunks s1) (bw_cur s1) (Z.shiftl (bw_buf s) 8 mod 2 ^ 64)
                      (bw_free s + 8) (bw_ok s1))
      else Some s
  end.

(** What a call can do: undefined behaviour, report failure, or succeed. *)
Inductive wres (A : Type) := WOk (a : A) | WFail | WUB.
Arguments WOk {A}. Arguments WFail {A}. Arguments WUB {A}.

(** jpeg_data_writer.cc:140-174, JumpToByteBoundary.  [pads] is [None] for the null
    pointer, otherwise the recorded padding bits still to be used. *)
Definition bw_jump (pads : option (list Z)) (s : bitw) : wres (bitw * option (list Z)) :=
  let n_bits := Z.to_nat (Z.land (bw_free s) 7) in
  match (match pads with
         | None => Some (Z.shiftl 1 (Z.of_nat n_bits) - 1, None)
         | Some src =>
             match pad_pattern n_bits 0 src with
             | None => None
             | Some (p, src') => Some (p, Some src')
             end
         end) with
  | None => WFail
  | Some (pattern, pads') =>
      match (let? s1 := bw_drain 8 (bw_reserve 16 s) in
             let? s2 :=
               (if bw_free s1 <? 64 then
                  let mask := Z.shiftr 255 (64 - bw_free s1) in
                  let c := Z.lor (Z.land (Z.shiftr (bw_buf s1) 56) (Z.lnot mask)) pattern in
                  (* EmitByte stores the low 8 bits; c is below 256 here *)
                  bw_emit c s1
                else Some s1) in
             Some (mkBW (bw_chunks s2) (bw_cur s2) 0 64 (bw_ok s2))) with
      | None => WUB
      | Some s' => WOk (s', pads')
      end
  end.

(** jpeg_data_writer.cc:176-183, BitWriterFinish: the output of the segment. *)
Definition bw_finish (s : bitw) : list Z :=
  concat (bw_chunks s) ++ bw_cur s.

(** The calls made on a BitWriter while a scan is written. *)
Inductive wop := WBitsOp (n v : Z) | WJumpOp | WMarkerOp (m : Z).

Fixpoint bw_run (ops : list wop) (pads : option (list Z)) (s : bitw)
  : wres (bitw * option (list Z)) :=
  match ops with
  | [] => WOk (s, pads)
  | WBitsOp n v :: r =>
      match bw_write n v s with None => WUB | Some s' => bw_run r pads s' end
  | WJumpOp :: r =>
      match bw_jump pads s with
      | WOk (s', pads') => bw_run r pads' s'
      | WFail => WFail
      | WUB => WUB
      end
  | WMarkerOp m :: r =>
      match bw_marker m s with None => WUB | Some s' => bw_run r pads s' end
  end.

(** * The reader *)

(** Reader outcomes: a value, a reported error, or undefined behaviour. *)
Inductive jres (A : Type) := JOk (a : A) | JErr | JUB.
Arguments JOk {A}. Arguments JErr {A}. Arguments JUB {A}.

Definition jbind {A B} (o : jres A) (f : A -> jres B) : jres B :=
  match o with JOk a => f a | JErr => JErr | JUB => JUB end.
Notation "'let*' x ':=' a 'in' b" := (jbind a (fun x => b))
  (at level 200, x pattern, a at level 100, b at level 200).

(** An array access; outside the array it is undefined behaviour. *)
Definition aget {A} (l : list A) (i : Z) : jres A :=
  if i <? 0 then JUB
  else match nth_error l (Z.to_nat i) with Some a => JOk a | None => JUB end.

(** jpeg_data_reader.cc:518-525, BitReaderState ([data] and [len] are parameters of the
    functions below). *)
Record bitr := mkBR { br_pos : Z; br_val : Z; br_left : Z; br_next : Z }.

(** jpeg_data_reader.cc:437-454, GetNextByte. *)
Definition get_byte (data : list Z) (s : bitr) : jres (Z * bitr) :=
  if br_next s <=? br_pos s then
    JOk (0, mkBR (br_pos s + 1) (br_val s) (br_left s) (br_next s))
  else
    let* c := aget data (br_pos s) in
    let pos := br_pos s + 1 in
    if c =? 255 then
      let* escape := aget data pos in
      if escape =? 0 then JOk (c, mkBR (pos + 1) (br_val s) (br_left s) (br_next s))
      else JOk (c, mkBR pos (br_val s) (br_left s) (pos - 1))
    else JOk (c, mkBR pos (br_val s) (br_left s) (br_next s)).

(** jpeg_data_reader.cc:456-464, FillBitWindow; the inner loop runs at most 8 times when
    the number of buffered bits is not negative. *)
Fixpoint fill_loop (fuel : nat) (data : list Z) (s : bitr) : jres bitr :=
  match fuel with
  | O => if br_left s <=? 56 then JUB else JOk s
  | S f =>
      if br_left s <=? 56 then
        let* (b, s1) := get_byte data s in
        fill_loop f data
          (mkBR (br_pos s1) (Z.lor (Z.shiftl (br_val s) 8 mod 2 ^ 64) b) (br_left s + 8)
             (br_next s1))
      else JOk s
  end.
Definition fill (data : list Z) (s : bitr) : jres bitr :=
  if br_left s <=? 16 then fill_loop 8 data s else JOk s.

(** jpeg_data_reader.cc:430-435 (423-435), Reset and the constructor.  [len_ - 2] is
    computed in size_t; ReadJpeg has checked that the length is at least 2. *)
Definition br_reset (data : list Z) (pos : Z) : jres bitr :=
  fill data (mkBR pos 0 0 (Z.of_nat (length data) - 2)).

(** [(val_ >> sh) & mask(n)]; a negative shift amount is undefined. *)
Definition br_field (s : bitr) (n : Z) : jres Z :=
  let sh := br_left s - n in
  if (sh <? 0) || (64 <=? sh) then JUB
  else JOk (Z.land (Z.shiftr (br_val s) sh) (Z.shiftl 1 n - 1)).

(** jpeg_data_reader.cc:466-472, ReadBits. *)
Definition br_read (data : list Z) (n : Z) (s : bitr) : jres (Z * bitr) :=
  let* s1 := fill data s in
  let* v := br_field s1 n in
  JOk (v, mkBR (br_pos s1) (br_val s1) (br_left s1 - n) (br_next s1)).

(** jpeg_data_reader.cc:476-480, IsUnhealthy. *)
Definition br_unhealthy (s : bitr) : bool := br_next s + 32 <? br_pos s.

(** jpeg_data_reader.cc:486-497, the padding bits in FinishStream: whether one of them is
    zero, and the bits in the order they are recorded. *)
Definition pad_seen (s : bitr) : jres (bool * list Z) :=
  let n := Z.land (br_left s) 7 in
  if 0 <? n then
    let* p := br_field s n in
    JOk (negb (p =? Z.shiftl 1 n - 1),
         map (fun i => Z.land (Z.shiftr p (Z.of_nat i)) 1) (rev (seq 0 (Z.to_nat n))))
  else JOk (false, []).

(** jpeg_data_reader.cc:499-508, giving back unused bytes. *)
Fixpoint give_back (data : list Z) (next : Z) (n : nat) (pos : Z) : jres Z :=
  match n with
  | O => JOk pos
  | S n' =>
      let pos := pos - 1 in
      let* pos' :=
        (if pos <? next then
           let* a := aget data pos in
           if a =? 0 then
             let* b := aget data (pos - 1) in
             JOk (if b =? 255 then pos - 1 else pos)
           else JOk pos
         else JOk pos) in
      give_back data next n' pos'
  end.

(** jpeg_data_reader.cc:486-516, FinishStream: new padding flag, padding bits seen and
    the position where parsing continues. *)
Definition br_finish (data : list Z) (s : bitr) : jres (bool * list Z * Z) :=
  let* (z, bits) := pad_seen s in
  let* pos := give_back data (br_next s) (Z.to_nat (Z.shiftr (br_left s) 3)) (br_pos s) in
  if br_next s <? pos then JErr else JOk (z, bits, pos).
