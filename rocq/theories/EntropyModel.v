(** Model of the interleaved entropy coding layer:
    encoder: class DataStream (c/enc/brunsli_encode.cc:603-720), ANSCoder
    (c/enc/ans_encode.h:38-66), ANSBuildInfoTable (c/enc/ans_encode.cc:17-40);
    decoder: WordSource, BitSource (c/dec/brunsli_input.h), ANSDecodingData,
    ANSDecoder (c/dec/ans_decode.{h,cc}), BinaryArithmeticDecoder
    (c/dec/arith_decode.h). *)
From Verif Require Import Base.

(** * Items coded in a data section *)

(** One call of AddBit (with the probability P(bit=0)*256 at the time of the
    call), AddCode (with the frequency table that the context selects) or
    AddBits. *)
Inductive item :=
| IBit (prob : Z) (bit : bool)
| ISym (counts : list Z) (sym : Z)
| IBits (n : nat) (v : Z).

(** * Encoder *)

(** c/enc/brunsli_encode.h, struct CodeWord {context, code, nbits, value}; the
    context is represented by the frequency table it selects in
    EntropyCodes::GetANSTable (brunsli_encode.cc:598-601). *)
Record code_word := mkCW { cw_counts : list Z; cw_code : Z; cw_nbits : Z; cw_value : Z }.
Definition cw_default : code_word := mkCW [] 0 0 0.

(** DataStream fields; [code_words_] is represented by its used prefix
    [0, pos_), so pos_ = length ds_cws. *)
Record dstream := mkDS {
  ds_cws : list code_word;
  ds_bw_pos : nat; ds_ac_pos0 : nat; ds_ac_pos1 : nat;
  ds_low : Z; ds_high : Z;
  ds_bw_val : Z; ds_bw_bitpos : Z }.

(** brunsli_encode.cc:603-611, constructor: pos_=3, the first three slots are
    reserved for the bit writer and the arithmetic coder. *)
Definition ds_init : dstream :=
  mkDS [cw_default; cw_default; cw_default] 0 1 2 0 (2 ^ 32 - 1) 0 0.

(** brunsli_encode.cc:627-638, AddCode (histogram statistics are modelled
    separately). *)
Definition add_code (counts : list Z) (sym : Z) (d : dstream) : dstream :=
  mkDS (ds_cws d ++ [mkCW counts sym 0 0]) (ds_bw_pos d) (ds_ac_pos0 d) (ds_ac_pos1 d)
       (ds_low d) (ds_high d) (ds_bw_val d) (ds_bw_bitpos d).

(** brunsli_encode.cc:640-656, AddBits. *)
Definition add_bits (n : nat) (bits : Z) (d : dstream) : dstream :=
  let val := Z.lor (ds_bw_val d) (Z.shiftl bits (ds_bw_bitpos d)) mod 2 ^ 32 in
  let bitpos := ds_bw_bitpos d + Z.of_nat n in
  if 16 <? bitpos then
    mkDS (upd (ds_cws d) (ds_bw_pos d) (mkCW [] 0 16 (Z.land val 65535)) ++ [cw_default])
         (length (ds_cws d)) (ds_ac_pos0 d) (ds_ac_pos1 d)
         (ds_low d) (ds_high d) (Z.shiftr val 16) (bitpos - 16)
  else
    mkDS (ds_cws d) (ds_bw_pos d) (ds_ac_pos0 d) (ds_ac_pos1 d)
         (ds_low d) (ds_high d) val bitpos.

(** Interval narrowing shared by brunsli_encode.cc:678-685 and
    arith_decode.h:36-46: [split] and the two updates, on uint32. *)
Definition arith_split (low high prob : Z) : Z :=
  let diff := (high - low) mod 2 ^ 32 in
  (low + Z.shiftr (diff * prob) 8) mod 2 ^ 32.

(** Set value/nbits of a slot: [code_words_[i].value = v; .nbits = 16]. *)
Definition set_word (cws : list code_word) (i : nat) (v : Z) : list code_word :=
  match nth_error cws i with
  | Some w => upd cws i (mkCW (cw_counts w) (cw_code w) 16 v)
  | None => cws
  end.

(** brunsli_encode.cc:674-697, AddBit (probability update is modelled by the
    caller, [prob] is the value of get_proba() before the update). *)
Definition add_bit (prob : Z) (bit : bool) (d : dstream) : dstream :=
  let split := arith_split (ds_low d) (ds_high d) prob in
  let low := if bit then (split + 1) mod 2 ^ 32 else ds_low d in
  let high := if bit then ds_high d else split in
  if Z.shiftr (Z.lxor low high) 16 =? 0 then
    mkDS (set_word (ds_cws d) (ds_ac_pos0 d) (Z.shiftr high 16) ++ [cw_default])
         (ds_bw_pos d) (ds_ac_pos1 d) (length (ds_cws d))
         (Z.shiftl low 16 mod 2 ^ 32) (Z.lor (Z.shiftl high 16 mod 2 ^ 32) 65535)
         (ds_bw_val d) (ds_bw_bitpos d)
  else
    mkDS (ds_cws d) (ds_bw_pos d) (ds_ac_pos0 d) (ds_ac_pos1 d) low high
         (ds_bw_val d) (ds_bw_bitpos d).

Definition add_item (d : dstream) (it : item) : dstream :=
  match it with
  | IBit p b => add_bit p b d
  | ISym c s => add_code c s d
  | IBits n v => add_bits n v d
  end.

(** ans_encode.cc:17-40, ANSBuildInfoTable: freq_ and start_ of symbol [s]. *)
Definition ans_freq (counts : list Z) (s : Z) : Z := nth (Z.to_nat s) counts 0.
Definition ans_start (counts : list Z) (s : Z) : Z := sumZ (firstn (Z.to_nat s) counts).

(** ans_encode.h:42-60, ANSCoder::PutSymbol (the variant without
    multiplication by reciprocal, which is the one compiled).  Returns the new
    state, the bits and nbits.  Division by a zero frequency is undefined
    behaviour; see [items_ok] for the guard. *)
Definition ans_put (state freq start : Z) : Z * Z * Z :=
  let '(bits, state, nbits) :=
    if freq <=? Z.shiftr state 22
    then (Z.land state 65535, Z.shiftr state 16, 16) else (0, state, 0) in
  ((Z.shiftl (state / freq) 10 mod 2 ^ 32 + state mod freq + start) mod 2 ^ 32, bits, nbits).

(** BRUNSLI_ANS_SIGNATURE << 16 (ans_params.h:16, ans_encode.h:40). *)
Definition ans_signature_state : Z := 19 * 2 ^ 16.

(** brunsli_encode.cc:658-672: FlushArithmeticCoder and FlushBitWriter. *)
Definition flush_bit_writer (d : dstream) : list code_word :=
  set_word (ds_cws d) (ds_bw_pos d) (Z.land (ds_bw_val d) 65535).
Definition flush_arith (d : dstream) (cws : list code_word) : list code_word :=
  let c1 := match nth_error cws (ds_ac_pos0 d) with
            | Some w => upd cws (ds_ac_pos0 d) (mkCW (cw_counts w) (cw_code w) 16 (Z.shiftr (ds_high d) 16))
            | None => cws end in
  match nth_error c1 (ds_ac_pos1 d) with
  | Some w => upd c1 (ds_ac_pos1 d) (mkCW (cw_counts w) (cw_code w) 16 (Z.land (ds_high d) 65535))
  | None => c1 end.

(** brunsli_encode.cc:703-710: the reverse pass; [for i = pos_-1 downto 0],
    words with nbits == 0 are ANS coded. Returns the final ANS state and the
    words updated in place. *)
Fixpoint ans_pass (cws : list code_word) : Z * list code_word :=
  match cws with
  | [] => (ans_signature_state, [])
  | w :: r =>
      let '(state, r') := ans_pass r in
      if cw_nbits w =? 0 then
        let '(state', bits, nbits) :=
          ans_put state (ans_freq (cw_counts w) (cw_code w)) (ans_start (cw_counts w) (cw_code w)) in
        (state', mkCW (cw_counts w) (cw_code w) nbits bits :: r')
      else (state, w :: r')
  end.

(** brunsli_encode.cc:699-720, EncodeCodeWords: the 16-bit words written (each
    stored as little endian, value truncated to 16 bits). *)
Definition encode_code_words (d : dstream) : list Z :=
  let cws := flush_arith d (flush_bit_writer d) in
  let '(state, cws') := ans_pass cws in
  (Z.shiftr state 16 mod 2 ^ 16) :: (state mod 2 ^ 16) ::
  map (fun w => cw_value w mod 2 ^ 16) (filter (fun w => negb (cw_nbits w =? 0)) cws').

(** Whole section payload for a list of items. *)
Definition encode_items (l : list item) : list Z :=
  encode_code_words (fold_left add_item l ds_init).

(** Little-endian serialisation of words. *)
Fixpoint words_to_bytes (ws : list Z) : list Z :=
  match ws with
  | [] => []
  | w :: r => (w mod 256) :: (w / 256 mod 256) :: words_to_bytes r
  end.

(** * Decoder *)

(** brunsli_input.h:22-61, WordSource: the remaining words of the section
    and the error flag. [ws_of_bytes] drops an odd trailing byte (len & ~1). *)
Fixpoint bytes_to_words (l : list Z) : list Z :=
  match l with
  | a :: b :: r => (a + 256 * b) :: bytes_to_words r
  | _ => []
  end.

Record wsrc := mkWS { ws_words : list Z; ws_error : bool }.

(** brunsli_input.h:30-41, GetNextWord. *)
Definition next_word (w : wsrc) : Z * wsrc :=
  match ws_words w with
  | x :: r => (x, mkWS r (ws_error w))
  | [] => (0, mkWS [] true)
  end.

(** ans_decode.cc:16-26, ANSDecodingData::Init: entries (symbol, freq, offset)
    in slot order; the table is complete iff its length is 1024. *)
Fixpoint ans_map_from (i : Z) (counts : list Z) : list (Z * Z * Z) :=
  match counts with
  | [] => []
  | c :: r => map (fun j => (i, c, Z.of_nat j)) (seq 0 (Z.to_nat c)) ++ ans_map_from (i + 1) r
  end.
Definition ans_map (counts : list Z) : list (Z * Z * Z) := ans_map_from 0 counts.
Definition ans_init_ok (counts : list Z) : bool := Z.of_nat (length (ans_map counts)) =? 1024.

(** Decoder state: ANSDecoder::state_, BitSource {val_, bit_pos_},
    BinaryArithmeticDecoder {low_, high_, value_} and the word source. *)
Record dstate := mkD {
  d_ans : Z; d_val : Z; d_bitpos : Z;
  d_low : Z; d_high : Z; d_value : Z; d_src : wsrc }.

(** EnsureSubdecodersInitialized (brunsli_decode.cc:597-605): ANS init (two words),
    bit source (one word), arithmetic decoder (two words). *)
Definition d_init (src : wsrc) : dstate :=
  let '(a0, src) := next_word src in
  let '(a1, src) := next_word src in
  let '(b, src) := next_word src in
  let '(v0, src) := next_word src in
  let '(v1, src) := next_word src in
  mkD (Z.lor (Z.shiftl a0 16 mod 2 ^ 32) a1) b 0
      0 (2 ^ 32 - 1) (Z.lor (Z.shiftl v0 16 mod 2 ^ 32) v1) src.

(** arith_decode.h:32-56, ReadBit. *)
Definition read_bit (prob : Z) (d : dstate) : bool * dstate :=
  let split := arith_split (d_low d) (d_high d) prob in
  let bit := split <? d_value d in
  let low := if bit then (split + 1) mod 2 ^ 32 else d_low d in
  let high := if bit then d_high d else split in
  if Z.shiftr (Z.lxor low high) 16 =? 0 then
    let '(w, src) := next_word (d_src d) in
    (bit, mkD (d_ans d) (d_val d) (d_bitpos d)
              (Z.shiftl low 16 mod 2 ^ 32) (Z.lor (Z.shiftl high 16 mod 2 ^ 32) 65535)
              (Z.lor (Z.shiftl (d_value d) 16 mod 2 ^ 32) w) src)
  else (bit, mkD (d_ans d) (d_val d) (d_bitpos d) low high (d_value d) (d_src d)).

(** ans_decode.h:42-51, ReadSymbol; [None] when the table is not complete and the slot is
    missing (would read uninitialised memory). *)
Definition read_symbol (counts : list Z) (d : dstate) : option (Z * dstate) :=
  let res := Z.land (d_ans d) 1023 in
  match nth_error (ans_map counts) (Z.to_nat res) with
  | None => None
  | Some (sym, freq, off) =>
      let st := (freq * Z.shiftr (d_ans d) 10 + off) mod 2 ^ 32 in
      if st <? 2 ^ 16 then
        let '(w, src) := next_word (d_src d) in
        Some (sym, mkD (Z.lor (Z.shiftl st 16 mod 2 ^ 32) w) (d_val d) (d_bitpos d)
                       (d_low d) (d_high d) (d_value d) src)
      else Some (sym, mkD st (d_val d) (d_bitpos d) (d_low d) (d_high d) (d_value d) (d_src d))
  end.

(** brunsli_input.h:71-83, BitSource::ReadBits. *)
Definition read_bits (n : nat) (d : dstate) : Z * dstate :=
  let '(val, src) :=
    if 16 <? d_bitpos d + Z.of_nat n then
      let '(w, src) := next_word (d_src d) in
      (Z.lor (d_val d) (Z.shiftl w 16 mod 2 ^ 32), src)
    else (d_val d, d_src d) in
  let result := Z.land (Z.shiftr val (d_bitpos d)) (2 ^ Z.of_nat n - 1) in
  let bitpos := d_bitpos d + Z.of_nat n in
  if 16 <? bitpos then
    (result, mkD (d_ans d) (Z.shiftr val 16) (bitpos - 16) (d_low d) (d_high d) (d_value d) src)
  else
    (result, mkD (d_ans d) val bitpos (d_low d) (d_high d) (d_value d) src).

(** FinalizeSubdecoders (brunsli_decode.cc:607-613): ANS CheckCRC and
    BitSource::Finish (brunsli_input.h:85-92). *)
Definition d_finalize (d : dstate) : bool :=
  (d_ans d =? ans_signature_state) &&
  (Z.land (Z.shiftr (d_val d) (d_bitpos d)) (2 ^ (16 - d_bitpos d) - 1) =? 0).

(** Decoders as programs asking for items; later requests may depend on the
    answers to earlier ones in any way. *)
Inductive eprog (A : Type) : Type :=
| ERet (a : A)
| EFail
| EBit (prob : Z) (k : bool -> eprog A)
| ESym (counts : list Z) (k : Z -> eprog A)
| EBits (n : nat) (k : Z -> eprog A).
Arguments ERet {A} a.
Arguments EFail {A}.
Arguments EBit {A} prob k.
Arguments ESym {A} counts k.
Arguments EBits {A} n k.

Fixpoint ebind {A B} (p : eprog A) (f : A -> eprog B) : eprog B :=
  match p with
  | ERet a => f a
  | EFail => EFail
  | EBit q k => EBit q (fun b => ebind (k b) f)
  | ESym c k => ESym c (fun s => ebind (k s) f)
  | EBits n k => EBits n (fun v => ebind (k v) f)
  end.

(** Running a program on the real decoder state. *)
Fixpoint erun {A} (p : eprog A) (d : dstate) : option (A * dstate) :=
  match p with
  | ERet a => Some (a, d)
  | EFail => None
  | EBit q k => let '(b, d') := read_bit q d in erun (k b) d'
  | ESym c k => match read_symbol c d with Some (s, d') => erun (k s) d' | None => None end
  | EBits n k => let '(v, d') := read_bits n d in erun (k v) d'
  end.

(** Decoding of a whole section payload (words), with the end-of-section checks
    of DecodeDCDataSection / DecodeACDataSection (brunsli_decode.cc:1932-1976):
    no read past the end, subdecoder checks, all words used. *)
Definition edecode {A} (p : eprog A) (words : list Z) : option A :=
  match erun p (d_init (mkWS words false)) with
  | Some (a, d) =>
      if negb (ws_error (d_src d)) && d_finalize d &&
         match ws_words (d_src d) with [] => true | _ => false end
      then Some a else None
  | None => None
  end.

(** * Specification: what a program means on a list of items *)

(** The program consumes exactly the given items, in order, each request
    matching the kind and parameters of the item. *)
Fixpoint eaccept {A} (p : eprog A) (l : list item) : option (A * list item) :=
  match p with
  | ERet a => Some (a, l)
  | EFail => None
  | EBit q k => match l with
                | IBit q' b :: r => if q =? q' then eaccept (k b) r else None
                | _ => None end
  | ESym c k => match l with
                | ISym c' s :: r => if list_eqb c c' then eaccept (k s) r else None
                | _ => None end
  | EBits n k => match l with
                 | IBits n' v :: r => if Nat.eqb n n' then eaccept (k v) r else None
                 | _ => None end
  end.

(** Codable items: 8-bit probabilities; symbols with positive frequency in a
    table of 1..18 (any number of) counts summing to 1024; raw fields of at
    most 16 bits. *)
Definition counts_ok (counts : list Z) : Prop :=
  Forall (fun c => 0 <= c) counts /\ sumZ counts = 1024.
Definition item_ok (it : item) : Prop :=
  match it with
  | IBit p _ => 0 <= p <= 255
  | ISym c s => counts_ok c /\ 0 <= s /\ 0 < ans_freq c s
  | IBits n v => (n <= 16)%nat /\ 0 <= v < 2 ^ Z.of_nat n
  end.
Definition items_ok (l : list item) : Prop := Forall item_ok l.
