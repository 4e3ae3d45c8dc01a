(** The encoder as a whole (c/enc/brunsli_encode.cc): the choices made from the coefficients, then
    the sections put one after the other. *)
From Verif Require Import Base JpegModel CtxTables BitModel CodesModel LehmerModel EntropyModel QuantModel InternalsModel MetaModel HeaderModel
  BitProofs Stream HSecModel CoefModel ClusterModel.

(** * Choices *)

(** brunsli_encode.cc:1013-1016: blocks 0, 5, 10, ... *)
Fixpoint every_fifth (skip : nat) (l : list block) : list block :=
  match l with
  | [] => []
  | b :: r => match skip with O => b :: every_fifth 4 r | S k => every_fifth k r end
  end.
Definition count_zeros (l : list block) (k : nat) : Z := Z.of_nat (length (filter (fun b => nth k b 0 =? 0) l)).

(** brunsli_encode.cc:1000-1024, SampleNumNonZeros: num_zeros and the result.  [l]: the blocks of
    the component.  The sum of the loop 1020 is taken over all 64 positions before position 0 is cleared. *)
Definition sample_zeros (l : list block) : list Z :=
  if (length l <? 1024)%nat then repeat 0 64
  else map (fun k => if (k =? 0)%nat then 0 else count_zeros (every_fifth 0 l) k) (seq 0 64).
Definition sample_nonzeros (l : list block) : Z :=
  if (length l <? 1024)%nat then 64 * Z.of_nat (length l)
  else 5 * (64 * Z.of_nat (length (every_fifth 0 l)) - sumZ (map (count_zeros (every_fifth 0 l)) (seq 0 64))).

(** brunsli_encode.cc:1026-1035, SelectContextBits; the argument is cut to 32 bits, its
    logarithm is undefined for 0. *)
Definition kContextBits : list Z :=
  [0; 0; 0; 0; 0; 0; 0; 0; 0; 0; 0; 0; 1; 1; 2; 2; 3; 3; 3; 3; 4; 4; 4; 4; 5; 5; 5; 6; 6; 6; 6; 6; 6].
Definition select_context_bits (num_symbols : Z) : option Z :=
  let n := num_symbols mod 2 ^ 32 in
  if n <=? 0 then None else nth_error kContextBits (Z.to_nat (Z.log2 n)).

(** brunsli_encode.cc:538-552, ComputeCoeffOrder.  std::stable_sort is written as an insertion
    sort; the result of a stable sort does not depend on the algorithm.  The pairs carry the
    natural position itself instead of its index. *)
Fixpoint insert_pos (x : Z * Z) (l : list (Z * Z)) : list (Z * Z) :=
  match l with
  | [] => [x]
  | y :: r => if snd y <? snd x then y :: insert_pos x r else x :: l
  end.
Fixpoint stable_sort (l : list (Z * Z)) : list (Z * Z) :=
  match l with [] => [] | x :: r => insert_pos x (stable_sort r) end.
Definition coeff_order (num_zeros : list Z) : list Z :=
  map fst (stable_sort (map (fun k => (k, nth (Z.to_nat k) num_zeros 0)) kNaturalOrder)).

(** brunsli_encode.cc:1064-1084, CalculateMeta, with the context choices of 1437-1454.  A quantisation
    table that does not exist: false.  Fewer coefficients than blocks would be read beyond the vector: also [None]. *)
Fixpoint enc_metas (j : jpeg) (off : Z) (cs : list component) : option (list cmeta) :=
  match cs with
  | [] => Some []
  | c :: r =>
      if c_quant c <? 0 then None else
      let? q := nth_error (j_quant j) (Z.to_nat (c_quant c)) in
      let w := Z.to_nat (j_mcu_cols j * c_h c) in
      let h := Z.to_nat (j_mcu_rows j * c_v c) in
      if (length (c_coeffs c) <? w * h)%nat then None else
      let? bits := select_context_bits (sample_nonzeros (firstn (w * h) (c_coeffs c)) + 1) in
      let? t := enc_metas j (off + Z.of_nat (scheme_size bits)) r in
      Some (mkCM w h (Z.to_nat (c_v c)) off bits (q_values q) :: t)
  end.

(** brunsli_encode.cc:1203: the order of each component. *)
Definition enc_orders (j : jpeg) : list (list Z) :=
  map (fun c => coeff_order (sample_zeros (firstn (Z.to_nat (j_mcu_cols j * c_h c) * Z.to_nat (j_mcu_rows j * c_v c)) (c_coeffs c)))) (j_comps j).

(** * Sections *)

(** brunsli_encode.cc:295-509: what EncodeAuxData reads from the JPEGData. *)
Definition internals_of (j : jpeg) : internals :=
  mkInt (j_markers j) (j_restart j) (j_huff j) (j_scans j) (map (fun q => (q_index q, q_last q, q_precision q)) (j_quant j))
    (map c_id (j_comps j)) (j_zero_pad j) (j_padding j).

(** brunsli_encode.cc:51-69, EstimateAuxDataSize (size_t arithmetic, taken not to overflow). *)
Definition aux_estimate (j : jpeg) : Z :=
  Z.of_nat (length (j_markers j)) + 272 * Z.of_nat (length (j_huff j)) + 7 * Z.of_nat (length (j_scans j)) + 16 +
  sumZ (map (fun s => 7 * Z.of_nat (length (si_resets s)) + 7 * Z.of_nat (length (si_zero_runs s))) (j_scans j)) +
  Z.shiftr ((if j_zero_pad j then Z.of_nat (length (j_padding j)) else 0) + 43) 3 +
  sumZ (map (fun s => 5 + Z.of_nat (length s)) (j_inter j)).

(** What is not modelled: floating point costs and roundings, and Brotli. *)
Record oracle := mkOracle {
  or_costs : costs;                           (* clustering, cluster.h *)
  or_round : nat -> choices;                  (* normalisation of the histogram of cluster i *)
  or_compress : list Z -> option (list Z) }.  (* BrotliEncoderCompress *)

(** brunsli_encode.cc:603-720 and 941-964: a word section. *)
Definition words_section (cmap : list nat) (tables : list (list Z)) (head : list item) (its : list citem) : list Z :=
  words_to_bytes (encode_items (head ++ map (resolve (map Z.of_nat cmap) tables) its)).

(** brunsli_encode.cc:1359-1418, BrunsliSerialize with skip_sections = 0.  [len] is the capacity of
    the buffer: the sizes of the length fields depend on it.  A stream that does not fit gives [None], whether the
    code notices it (795, Brotli) or runs over the end. *)
Definition serialize_sections (O : oracle) (j : jpeg) (len : Z) (schemes : list Z) (cmap : list nat) (clusters : list (list Z))
    (dcits : list citem) (head : list item) (acits : list citem) : option (list Z) :=
  let? header := encode_header (j_width j) (j_height j) (j_version j) (map (fun c => (c_h c, c_v c)) (j_comps j)) in
  let? s2 := encode_section 2 1 header in
  let o2 := signature ++ s2 in
  let? aux := encode_aux (j_width j) (j_height j) (internals_of j) (j_inter j) in
  let? s4 := encode_section 4 (base128_size (aux_estimate j)) aux in
  let o4 := o2 ++ s4 in
  let? md := encode_metadata (or_compress O) (j_app j) (j_com j) (j_tail j) in
  let? s3 := encode_section 3 (base128_size (len - Z.of_nat (length o4))) md in
  let o3 := o4 ++ s3 in
  let? quant := encode_quant_tables (map q_values (j_quant j)) (map c_quant (j_comps j)) in
  let? s5 := encode_section 5 2 (pack (fields_bits quant)) in
  let o5 := o3 ++ s5 in
  let? h := encode_histogram_section (or_round O) schemes cmap clusters in
  let? s6 := encode_section 6 (base128_size (len - Z.of_nat (length o5))) (pack (fields_bits (snd h))) in
  let o6 := o5 ++ s6 in
  let? s7 := encode_section 7 (base128_size (len - Z.of_nat (length o6))) (words_section cmap (fst h) [] dcits) in
  let o7 := o6 ++ s7 in
  let? s8 := encode_section 8 (base128_size (len - Z.of_nat (length o7))) (words_section cmap (fst h) head acits) in
  let o8 := o7 ++ s8 in
  if len <? Z.of_nat (length o8) then None else Some o8.

(** brunsli_encode.cc:1427-1477, BrunsliEncodeJpeg.  Without components EncodeDC would read
    meta\[0\] of an empty vector. *)
Definition brunsli_encode_jpeg (O : oracle) (j : jpeg) (len : Z) : option (list Z) :=
  if (length (j_comps j) =? 0)%nat then None else
  let legacy := negb (Z.testbit (j_version j) 1) in
  let? ms := enc_metas j (Z.of_nat (length (j_comps j))) (j_comps j) in
  let planes := map c_coeffs (j_comps j) in
  let? dc := encode_dc ms planes in
  let? ac := encode_ac legacy ms (enc_orders j) planes (snd dc) in
  let bands := contexts_of (map cm_bits ms) in
  let? ec := entropy_codes (or_costs O) (fst dc ++ snd ac) bands (0%nat :: map (fun m => Z.to_nat (cm_off m)) ms) in
  serialize_sections O j len (map cm_bits ms) (snd ec) (fst ec) (fst dc) (fst ac) (snd ac).
