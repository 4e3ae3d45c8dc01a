(** Model of bit-level I/O: WriteBits/Storage (c/enc/write_bits.h, .cc),
    BrunsliBitReader (c/dec/bit_reader.h, .cc) and the way the section decoders
    suspend and resume it (c/dec/brunsli_decode.cc:1374-1406). *)
From Verif Require Import Base.

(** * Writer *)

(** class Storage (write_bits.h:19-39): byte array and number of bits written. *)
Record storage := mkSt { st_data : list Z; st_pos : nat }.

(** write_bits.cc:12-16, constructor: [data[0] = 0]; needs length > 0. *)
Definition storage_init (data : list Z) : option storage :=
  match data with [] => None | _ :: r => Some (mkSt (0 :: r) 0) end.

(** The [k] low bytes of [v], little endian (BRUNSLI_UNALIGNED_STORE64LE). *)
Fixpoint le_bytes (k : nat) (v : Z) : list Z :=
  match k with O => [] | S k' => v mod 256 :: le_bytes k' (v / 256) end.

(** write_bits.h:54-73, WriteBits, little-endian branch.  [None] models a
    store outside of the array (undefined behaviour). *)
Definition write_bits (n : nat) (bits : Z) (s : storage) : option storage :=
  let p := (st_pos s / 8)%nat in
  if (p + 8 <=? length (st_data s))%nat then
    let v := Z.lor (nth p (st_data s) 0) (Z.shiftl bits (Z.of_nat (st_pos s mod 8)) mod 2 ^ 64) in
    Some (mkSt (firstn p (st_data s) ++ le_bytes 8 v ++ skipn (p + 8) (st_data s)) (st_pos s + n))
  else None.

(** write_bits.h:26-28 and the sections' use of it: bytes used, output. *)
Definition storage_used (s : storage) : nat := ((st_pos s + 7) / 8)%nat.
Definition storage_out (s : storage) : list Z := firstn (storage_used s) (st_data s).

(** write_bits.cc:18-23, AppendBytes (requires a byte-aligned position). *)
Definition append_bytes (src : list Z) (s : storage) : option storage :=
  let p := (st_pos s / 8)%nat in
  if ((st_pos s mod 8 =? 0) && (p + length src <=? length (st_data s)))%nat then
    Some (mkSt (firstn p (st_data s) ++ src ++ skipn (p + length src) (st_data s)) (st_pos s + 8 * length src))
  else None.

Fixpoint write_fields (l : list (nat * Z)) (s : storage) : option storage :=
  match l with
  | [] => Some s
  | (n, v) :: r => match write_bits n v s with Some s' => write_fields r s' | None => None end
  end.

(** * Reader *)

(** bit_reader.h:17-36, struct BrunsliBitReader; [next_]/[end_] are an index
    into the current chunk and its length. *)
Record breader := mkBR {
  br_chunk : list Z; br_next : nat;
  br_nbits : nat; br_bits : Z; br_debt : nat;
  br_healthy : bool; br_opt : bool }.

(** bit_reader.cc:13-19 Init and 21-26 Resume. *)
Definition br_init : breader := mkBR [] 0 0 0 0 true false.
Definition br_resume (b : breader) (chunk : list Z) : breader :=
  mkBR chunk 0 (br_nbits b) (br_bits b) (br_debt b) (br_healthy b) false.
(** bit_reader.cc:87-89. *)
Definition br_set_optimistic (b : breader) (o : bool) : breader :=
  mkBR (br_chunk b) (br_next b) (br_nbits b) (br_bits b) (br_debt b) (br_healthy b) (o || br_opt b).

(** bit_reader.h:73-91 OweByte / MaybeFetchByte. *)
Definition br_fetch (n : nat) (b : breader) : breader :=
  if (br_nbits b <? n)%nat then
    match nth_error (br_chunk b) (br_next b) with
    | None => mkBR (br_chunk b) (br_next b) (br_nbits b + 8) (br_bits b) (br_debt b + 1)
                   (br_healthy b) (br_opt b)
    | Some x => mkBR (br_chunk b) (br_next b + 1) (br_nbits b + 8)
                     (Z.lor (br_bits b) (Z.shiftl x (Z.of_nat (br_nbits b)) mod 2 ^ 32))
                     (br_debt b) (br_healthy b) (br_opt b)
    end
  else b.

(** bit_reader.h:108-117, Get: bytes fetched, then the value masked. *)
Definition br_load (n : nat) (b : breader) : breader :=
  let b := br_fetch n b in
  if (8 <? n)%nat then
    let b := br_fetch n b in
    if (16 <? n)%nat then br_fetch n b else b
  else b.
Definition br_get (n : nat) (b : breader) : Z := Z.land (br_bits b) (2 ^ Z.of_nat n - 1).

(** bit_reader.h:119-124, Drop. *)
Definition br_drop (n : nat) (b : breader) : breader :=
  mkBR (br_chunk b) (br_next b) (br_nbits b - n) (Z.shiftr (br_bits b) (Z.of_nat n))
       (br_debt b) (br_healthy b) (br_opt b).

(** bit_reader.cc:35-47, Unload: first cancel debt, then return bytes. *)
Definition br_unload (b : breader) : breader :=
  let c := Nat.min (br_debt b) (br_nbits b / 8) in
  let nb := (br_nbits b - 8 * c)%nat in
  let r := (nb / 8)%nat in
  let nb' := (nb - 8 * r)%nat in
  mkBR (br_chunk b) (br_next b - r) nb' (Z.land (br_bits b) (2 ^ Z.of_nat nb' - 1))
       (br_debt b - c) (br_healthy b) (br_opt b).

(** bit_reader.cc:49-55 Suspend: number of unused bytes of the chunk. *)
Definition br_suspend (b : breader) : breader * nat :=
  let b' := br_unload b in (b', (length (br_chunk b') - br_next b')%nat).

(** bit_reader.cc:81-84. *)
Definition br_is_healthy (b : breader) : bool * breader :=
  let b' := br_unload b in ((br_debt b' =? 0)%nat && br_healthy b', b').

(** bit_reader.cc:57-69, Finish. *)
Definition br_finish (b : breader) : breader :=
  if (8 <=? br_nbits b)%nat then
    mkBR (br_chunk b) (br_next b) (br_nbits b) (br_bits b) (br_debt b) false (br_opt b)
  else if (0 <? br_nbits b)%nat then
    let pad := br_get (br_nbits b) b in
    let b' := br_drop (br_nbits b) b in
    mkBR (br_chunk b') (br_next b') (br_nbits b') (br_bits b') (br_debt b')
         (if pad =? 0 then br_healthy b' else false) (br_opt b')
  else b.

(** bit_reader.cc:91-98, CanRead. *)
Definition br_can_read (n : nat) (b : breader) : bool :=
  if br_opt b then true
  else if negb (br_debt b =? 0)%nat then false
  else if (n <=? br_nbits b)%nat then true
  else (br_next b + (n - br_nbits b + 7) / 8 <=? length (br_chunk b))%nat.

(** * Decoder programs *)

(** A section decoder as a program over the bit reader.
    [Take n f k]: [v = Get(n)], then [Drop(f v)], continue with [k v] (a plain
      Read is [f v = n]; table lookups peek and drop fewer bits);
    [Need n p]: [if (!CanRead(n)) return NOT_ENOUGH_DATA;] re-entered at the
      same place on the next call;
    [Chk p]: [if (!IsHealthy()) return INVALID_BRN]. *)
Inductive prog (A : Type) : Type :=
| Ret (a : A)
| Fail
| Take (n : nat) (f : Z -> nat) (k : Z -> prog A)
| Need (n : nat) (p : prog A)
| Chk (p : prog A).
Arguments Ret {A} a.
Arguments Fail {A}.
Arguments Take {A} n f k.
Arguments Need {A} n p.
Arguments Chk {A} p.

Fixpoint bind {A B} (p : prog A) (g : A -> prog B) : prog B :=
  match p with
  | Ret a => g a
  | Fail => Fail
  | Take n f k => Take n f (fun v => bind (k v) g)
  | Need n p => Need n (bind p g)
  | Chk p => Chk (bind p g)
  end.
Notation "'let!' x ':=' a 'in' b" := (bind a (fun x => b))
  (at level 200, x pattern, a at level 100, b at level 200).

Definition Read {A} (n : nat) (k : Z -> prog A) : prog A := Take n (fun _ => n) k.
Definition rd (n : nat) : prog Z := Read n Ret.
Definition need (n : nat) : prog unit := Need n (Ret tt).

(** Outcome of one call of a section decoder. *)
Inductive step_result (A : Type) : Type :=
| Done (a : A) (b : breader)
| Failed
| More (p : prog A) (b : breader).
Arguments Done {A} a b.
Arguments Failed {A}.
Arguments More {A} p b.

Fixpoint mrun {A} (p : prog A) (b : breader) : step_result A :=
  match p with
  | Ret a => Done a b
  | Fail => Failed
  | Take n f k => let b1 := br_load n b in let v := br_get n b1 in mrun (k v) (br_drop (f v) b1)
  | Need n q => if br_can_read n b then mrun q b else More p b
  | Chk q => let '(h, b') := br_is_healthy b in if h then mrun q b' else Failed
  end.

(** The section as seen by the caller.  [sec] are all bytes of the section
    payload; a call sees [sec[pos, avail)].  [lenient] is true for the histogram section, which
    switches the reader to optimistic mode once the end of the section is available
    (brunsli_decode.cc:1815-1819); in the other sections CheckBoundary
    (1374-1381) turns NOT_ENOUGH_DATA at the end of the section into
    INVALID_BRN.  Result: value and number of whole bytes consumed. *)
Inductive sec_result (A : Type) : Type :=
| SDone (a : A) (consumed : nat)
| SFail
| SMore (p : prog A) (b : breader) (pos : nat).
Arguments SDone {A} a consumed.
Arguments SFail {A}.
Arguments SMore {A} p b pos.

(** One call of the section decoder: PrepareBitReader, run, SuspendBitReader,
    and at the end Finish / IsHealthy. *)
Definition section_call {A} (lenient : bool) (sec : list Z) (p : prog A) (b : breader) (pos avail : nat)
  : sec_result A :=
  let chunk := firstn (avail - pos) (skipn pos sec) in
  let last := (length sec <=? avail)%nat in
  let b := br_set_optimistic (br_resume b chunk) (lenient && last) in
  match mrun p b with
  | Failed => SFail
  | More q b' =>
      let '(b'', unused) := br_suspend b' in
      if last then SFail else SMore q b'' (pos + (length chunk - unused))
  | Done a b' =>
      let '(b'', unused) := br_suspend b' in
      let '(h, _) := br_is_healthy (br_finish b'') in
      if h then SDone a (pos + (length chunk - unused)) else SFail
  end.

(** Calls with growing availability. *)
Fixpoint section_calls {A} (lenient : bool) (sec : list Z) (p : prog A) (b : breader) (pos : nat)
  (avails : list nat) : sec_result A :=
  match avails with
  | [] => SMore p b pos
  | av :: r =>
      match section_call lenient sec p b pos av with
      | SMore q b' pos' => section_calls lenient sec q b' pos' r
      | x => x
      end
  end.

(** * Specification *)

(** Meaning of a program on the whole bit string of the section. *)
Definition peek (n : nat) (l : list bool) : Z := val_of (firstn n (l ++ repeat false n)).

Fixpoint arun {A} (strict : bool) (p : prog A) (l : list bool) : option (A * list bool) :=
  match p with
  | Ret a => Some (a, l)
  | Fail => None
  | Take n f k =>
      let v := peek n l in
      if (f v <=? length l)%nat then arun strict (k v) (skipn (f v) l) else None
  | Need n q => if (strict && (length l <? n)%nat) then None else arun strict q l
  | Chk q => arun strict q l
  end.

(** A whole section: the bits left in the last used byte must be zero. *)
Definition asection {A} (strict : bool) (p : prog A) (sec : list Z) : option (A * nat) :=
  match arun strict p (bits_of_bytes sec) with
  | Some (a, rest) =>
      let pad := (length rest mod 8)%nat in
      if forallb negb (firstn pad rest) then Some (a, (length sec - length rest / 8)%nat) else None
  | None => None
  end.

(** Static condition: a program never looks further than it asked for by
    [Need]; [b] is the number of bits known to be available. *)
Fixpoint bok {A} (b : nat) (p : prog A) : Prop :=
  match p with
  | Ret _ => True
  | Fail => True
  | Take n f k => (n <= b)%nat /\ (n <= 24)%nat /\
                  forall v, 0 <= v < 2 ^ Z.of_nat n -> (f v <= n)%nat /\ bok (b - f v) (k v)
  | Need n q => bok (Nat.max b n) q
  | Chk q => bok b q
  end.
