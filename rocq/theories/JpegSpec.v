(** Specification used by C01: the parsed JPEGs the container format can describe. *)
From Verif Require Import Base JpegModel HeaderModel HeaderProofs PropsHeader InternalsModel InternalsProofs InternalsProofs2 MetaProofs QuantProofs CoefModel DCProofs Encoder.

(** The block grid a JPEGData declares. *)
Definition grid_of (j : jpeg) : grid :=
  mkGrid (j_max_h j) (j_max_v j) (j_mcu_rows j) (j_mcu_cols j) (map (fun c => (c_wb c, c_hb c)) (j_comps j)).

Record jpeg_ok (j : jpeg) : Prop := {
  (* 1..65535 pixels each way, 1..4 components, factors 1..15, the block grid that follows from them *)
  jo_picture : picture_ok (j_width j) (j_height j) (j_version j) (map (fun c => (c_h c, c_v c)) (j_comps j)) (grid_of j);
  (* marker list, Huffman tables, scan scripts, table headers, ids, padding bits: what JPEG and the format's limits allow *)
  jo_internals : internals_ok (j_width j) (j_height j) (internals_of j);
  (* one byte string per 0xFF entry of the marker list *)
  jo_inter : length (j_inter j) = count_marker 255 (j_markers j) /\ Forall (fun s => bytes s /\ Z.of_nat (length s) < 2 ^ 63) (j_inter j);
  (* APP and COM segments: marker byte, big-endian length, payload *)
  jo_app : Forall (segment_ok 224 239) (j_app j);
  jo_com : Forall (segment_ok 254 254) (j_com j);
  jo_tail : bytes (j_tail j);
  jo_size : Z.of_nat (length (concat (j_app j ++ j_com j ++ [j_tail j]))) < 2 ^ 62;
  (* quantisation tables: 64 values in 1..65535, in 1..255 if declared 8-bit *)
  jo_quant : Forall (fun q => qvalues_ok (q_precision q) (q_values q)) (j_quant j);
  (* coefficients: as many blocks as the grid says, 16-bit values, AC at most 2054 *)
  jo_coeffs : Forall (fun c => Z.of_nat (length (c_coeffs c)) = c_wb c * c_hb c /\
      Forall (fun b => block_ok b /\ forall v, In v (tl b) -> Z.abs v <= 2054) (c_coeffs c)) (j_comps j) }.

(** The padding bits are only part of the description when one of them is 0 (brunsli_encode.cc:491
    stores them only if [has_zero_padding_bit]; jpeg_data_writer.cc:1045 uses them only then). *)
Definition normal (j : jpeg) : jpeg :=
  mkJpeg (j_width j) (j_height j) (j_version j) (j_max_h j) (j_max_v j) (j_mcu_rows j) (j_mcu_cols j) (j_restart j)
    (j_app j) (j_com j) (j_quant j) (j_huff j) (j_comps j) (j_scans j) (j_markers j) (j_inter j) (j_tail j) (j_zero_pad j)
    (if j_zero_pad j then j_padding j else []).
