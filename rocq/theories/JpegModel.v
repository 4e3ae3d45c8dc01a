(** The parsed JPEG representation shared by encoder and decoder
    (c/include/brunsli/jpeg_data.h). *)
From Verif Require Import Base.

(** jpeg_data.h:128-138, JPEGQuantTable ([values] has 64 entries). *)
Record qtable := mkQT { q_values : list Z; q_precision : Z; q_index : Z; q_last : bool }.

(** jpeg_data.h:141-151, JPEGHuffmanCode ([counts]: 17 entries, [values]: 257). *)
Record huffcode := mkHC { hc_counts : list Z; hc_values : list Z; hc_slot : Z; hc_last : bool }.

(** jpeg_data.h:154-158, JPEGComponentScanInfo. *)
Record compscan := mkCS { cs_comp : Z; cs_dc : Z; cs_ac : Z }.

(** jpeg_data.h:161-189, JPEGScanInfo.  The fixed array of four components with its
    count is a list. *)
Record scaninfo := mkSI {
  si_ss : Z; si_se : Z; si_ah : Z; si_al : Z;
  si_comps : list compscan;
  si_resets : list Z;
  si_zero_runs : list (Z * Z) }.

(** jpeg_data.h:194-219, JPEGComponent.  [num_blocks] is the product of the two
    dimensions and not kept; coefficients are a list of blocks of 64, natural order. *)
Record component := mkComp {
  c_id : Z; c_h : Z; c_v : Z; c_quant : Z; c_wb : Z; c_hb : Z; c_coeffs : list (list Z) }.

(** jpeg_data.h:222-262, JPEGData, without the pointer to the original file. *)
Record jpeg := mkJpeg {
  j_width : Z; j_height : Z; j_version : Z;
  j_max_h : Z; j_max_v : Z; j_mcu_rows : Z; j_mcu_cols : Z;
  j_restart : Z;
  j_app : list (list Z); j_com : list (list Z);
  j_quant : list qtable; j_huff : list huffcode;
  j_comps : list component; j_scans : list scaninfo;
  j_markers : list Z; j_inter : list (list Z); j_tail : list Z;
  j_zero_pad : bool; j_padding : list Z }.
