(** Integer codes: base-128 lengths of the container (byte level) and the
    bit-level variable-length codes of the internals sections. *)
From Verif Require Import Base BitModel.

(** * Base 128 *)

(** c/enc/brunsli_encode.cc:89-93, Base128Size ([val] is a 64-bit size_t, so 10
    iterations are enough). *)
Fixpoint base128_size_loop (fuel : nat) (v : Z) : nat :=
  match fuel with
  | O => 1%nat
  | S f => if 128 <=? v then S (base128_size_loop f (Z.shiftr v 7)) else 1%nat
  end.
Definition base128_size (v : Z) : nat := base128_size_loop 10 v.

(** c/enc/brunsli_encode.cc:95-102, EncodeBase128. *)
Fixpoint encode_base128_loop (fuel : nat) (v : Z) : list Z :=
  match fuel with
  | O => []
  | S f =>
      let b := Z.lor (Z.land v 127) (if 128 <=? v then 128 else 0) in
      let v' := Z.shiftr v 7 in
      b :: (if 0 <? v' then encode_base128_loop f v' else [])
  end.
Definition encode_base128 (v : Z) : list Z := encode_base128_loop 10 v.

(** c/enc/brunsli_encode.cc:104-109, EncodeBase128Fix, [len - i] = [n]. *)
Fixpoint encode_base128_fix (v : Z) (n : nat) : list Z :=
  match n with
  | O => []
  | S m =>
      Z.lor (Z.land v 127) (match m with O => 0 | S _ => 128 end)
        :: encode_base128_fix (Z.shiftr v 7) m
  end.

(** c/dec/brunsli_decode.cc:1016-1032, DecodeBase128 on the available bytes.
    [BNeed] = NOT_ENOUGH_DATA (nothing is consumed), [BBad] = INVALID_BRN;
    size_t has 64 bits, so "fit" always holds. *)
Inductive b128_result := BOk (v : Z) (rest : list Z) | BNeed | BBad.
Fixpoint decode_base128_loop (fuel i : nat) (v : Z) (l : list Z) : b128_result :=
  match fuel with
  | O => BBad
  | S f =>
      match l with
      | [] => BNeed
      | b :: r =>
          let v' := Z.lor v (Z.shiftl (Z.land b 127) (Z.of_nat (i * 7)) mod 2 ^ 64) in
          if Z.land b 128 =? 0 then BOk v' r else decode_base128_loop f (S i) v' r
      end
  end.
Definition decode_base128 (l : list Z) : b128_result := decode_base128_loop 9 0 0 l.

(** * Bit-level codes.  Encoders return the list of WriteBits calls. *)

(** c/enc/brunsli_encode.cc:217-230, EncodeVarint; [rem = max_bits - b]. *)
Fixpoint encode_varint (n : Z) (rem : nat) : list (nat * Z) :=
  match rem with
  | O => []
  | S r =>
      if n =? 0 then [(1%nat, 0)]
      else (match r with O => [] | S _ => [(1%nat, 1)] end)
             ++ (1%nat, Z.land n 1) :: encode_varint (Z.shiftr n 1) r
  end.

(** c/dec/brunsli_decode.cc:99-137, DecodeVarint; [rem = max_bits - i]. *)
Fixpoint decode_varint_loop (rem i : nat) (v : Z) : prog Z :=
  match rem with
  | O => Ret v
  | S r =>
      let data := Need 1 (Read 1 (fun b =>
        decode_varint_loop r (S i) (Z.lor v (Z.shiftl b (Z.of_nat i) mod 2 ^ 64)))) in
      match r with
      | O => data
      | S _ => Need 1 (Read 1 (fun c => if c =? 0 then Ret v else data))
      end
  end.
Definition decode_varint (max_bits : nat) : prog Z := decode_varint_loop max_bits 0 0.

(** c/enc/brunsli_encode.cc:234-243, EncodeLimitedVarint. *)
Fixpoint encode_limited_varint (bits : Z) (nbits max_symbols : nat) : list (nat * Z) :=
  match max_symbols with
  | O => []
  | S m =>
      (1%nat, if bits =? 0 then 0 else 1) ::
      if bits =? 0 then []
      else (nbits, Z.land bits (2 ^ Z.of_nat nbits - 1))
             :: encode_limited_varint (Z.shiftr bits (Z.of_nat nbits)) nbits m
  end.

(** c/dec/brunsli_decode.cc:139-174, DecodeLimitedVarint<kChunkSize>. *)
Fixpoint decode_limited_varint_loop (k rem i : nat) (v : Z) : prog Z :=
  match rem with
  | O => Ret v
  | S r =>
      Need 1 (Read 1 (fun c =>
        if c =? 0 then Ret v
        else Need k (Read k (fun b =>
          decode_limited_varint_loop k r (S i) (Z.lor v (Z.shiftl b (Z.of_nat (i * k)) mod 2 ^ 64))))))
  end.
Definition decode_limited_varint (k max_symbols : nat) : prog Z := decode_limited_varint_loop k max_symbols 0 0.

(** c/enc/context_map_encode.cc:25-34, StoreVarLenUint8. *)
Definition encode_var_len_uint8 (n : Z) : list (nat * Z) :=
  if n =? 0 then [(1%nat, 0)]
  else
    let nbits := Z.log2 n in
    [(1%nat, 1); (3%nat, nbits); (Z.to_nat nbits, n - Z.shiftl 1 nbits)].

(** c/dec/brunsli_decode.cc:87-97, DecodeVarLenUint8 (no CanRead of its own). *)
Definition decode_var_len_uint8 : prog Z :=
  Read 1 (fun c =>
    if c =? 0 then Ret 0
    else Read 3 (fun nbits =>
      if nbits =? 0 then Ret 1
      else Read (Z.to_nat nbits) (fun v => Ret (v + Z.shiftl 1 nbits)))).
