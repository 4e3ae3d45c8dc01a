(** Specification used by C51 and C52: what holds of every JPEGData a decoder may hand out. *)
From Verif Require Import Base JpegModel HeaderModel HeaderProofs PropsHeader InternalsModel InternalsProofs InternalsProofs4 MetaShape QuantProofs JpegSpec.

(** One component: a byte as identifier, a table that exists, as many blocks as the grid says, 64
    coefficients each, DC any 16-bit number, AC at most 2054 in magnitude. *)
Definition comp_decoded (tables : nat) (c : component) : Prop :=
  0 <= c_id c < 256 /\ 0 <= c_quant c < Z.of_nat tables /\
  Z.of_nat (length (c_coeffs c)) = c_wb c * c_hb c /\
  Forall (fun b => length b = 64%nat /\ -32768 <= nth 0 b 0 <= 32767 /\ forall v, In v (tl b) -> Z.abs v <= 2054) (c_coeffs c).

Record decoded_ok (j : jpeg) : Prop := {
  (* 1..65535 pixels each way, 1..4 components, factors 1..15, the block grid that follows from them *)
  do_picture : picture_ok (j_width j) (j_height j) (j_version j) (map (fun c => (c_h c, c_v c)) (j_comps j)) (grid_of j);
  do_comps : Forall (comp_decoded (length (j_quant j))) (j_comps j);
  (* 1..4 tables: index 0..3, precision 0 or 1, 64 values in 1..65535, in 1..255 if declared 8-bit *)
  do_quant : (1 <= length (j_quant j) <= 4)%nat /\
    Forall (fun q => 0 <= q_index q < 4 /\ 0 <= q_precision q <= 1 /\ qvalues_ok (q_precision q) (q_values q)) (j_quant j);
  (* markers 0xC0..0xFF, ending with the only EOI *)
  do_markers : markers_ok (j_markers j);
  (* a 16-bit restart interval, zero without a DRI marker *)
  do_restart : 0 <= j_restart j < 65536 /\ (~ In 221 (j_markers j) -> j_restart j = 0);
  (* 1..512 codes without over-subscription and with distinct symbols, grouped into as many
     segments as there are DHT markers *)
  do_huff : Forall huff_valid (j_huff j) /\ (1 <= length (j_huff j) <= 512)%nat /\
    length (filter hc_last (j_huff j)) = count_marker 196 (j_markers j);
  (* one scan script for each SOS marker *)
  do_scans : Forall scan_valid (j_scans j) /\ length (j_scans j) = count_marker 218 (j_markers j);
  (* one byte string for each 0xFF entry *)
  do_inter : length (j_inter j) = count_marker 255 (j_markers j);
  (* APP and COM segments: marker byte, length field that agrees with the length *)
  do_app : Forall (seg_shape 224 239) (j_app j);
  do_com : Forall (seg_shape 254 254) (j_com j);
  (* a bounded number of padding bits, present only if one of them may be 0 *)
  do_padding : Forall (fun v => 0 <= v < 2) (j_padding j) /\
    Z.of_nat (length (j_padding j)) <= padding_bits_limit (j_width j) (j_height j) (length (j_comps j)) /\
    (j_zero_pad j = true <-> j_padding j <> []) }.
