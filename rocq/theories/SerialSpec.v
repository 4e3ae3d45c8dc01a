(** Specification used by C55: when what the parser has filled in so far agrees with the
    final image as far as the serializer may rely on it. *)
From Verif Require Import Base JpegModel JBitModel JScanModel SerialModel.

(** Everything but the coefficients. *)
Definition comp_frame (c : component) : component := mkComp (c_id c) (c_h c) (c_v c) (c_quant c) (c_wb c) (c_hb c) [].
Definition frame (j : jpeg) : jpeg :=
  mkJpeg (j_width j) (j_height j) (j_version j) (j_max_h j) (j_max_v j) (j_mcu_rows j) (j_mcu_cols j) (j_restart j)
    (j_app j) (j_com j) (j_quant j) (j_huff j) (map comp_frame (j_comps j)) (j_scans j) (j_markers j) (j_inter j) (j_tail j)
    (j_zero_pad j) (j_padding j).

(** The blocks below number [n] are there, with the final DC coefficients, or with all
    final coefficients if [full]. *)
Definition ready (full : bool) (n : Z) (c C : component) : Prop :=
  forall i B, 0 <= i < n -> nth_error (c_coeffs C) (Z.to_nat i) = Some B ->
  exists b, nth_error (c_coeffs c) (Z.to_nat i) = Some b /\ (if full then b = B else nth_error b 0 = nth_error B 0).

(** A view of the parser once the DC section has been announced.  All but the coefficients
    is final.  Until the AC section is announced, the DC coefficients above MCU row [v_row]
    are final; from then on all DC coefficients are, and above MCU row [v_row] all coefficients. *)
Definition consistent (J : jpeg) (v : view) : Prop :=
  v_done v || v_dc v || v_ac v = true /\
  frame (v_jpeg v) = frame J /\
  (v_done v = true -> v_jpeg v = J) /\
  (v_done v = false -> 0 <= v_row v /\ v_row v * (8 * j_max_v J) < j_height J /\
    Forall2 (fun c C => if v_ac v
               then ready false (Z.of_nat (length (c_coeffs C))) c C /\ ready true (v_row v * c_v C * c_wb C) c C
               else ready false (v_row v * c_v C * c_wb C) c C) (j_comps (v_jpeg v)) (j_comps J)).

(** The serializer does not start on such a view. *)
Definition waiting (v : view) : Prop := v_done v = false /\ v_dc v = false /\ v_ac v = false.

(** The block grid is the one of the picture size (the width of the components in blocks). *)
Definition shaped (J : jpeg) : Prop :=
  0 < j_max_h J /\ 0 < j_max_v J /\ 0 <= j_width J /\
  Forall (fun c => 0 < c_h c /\ 0 < c_v c /\ c_wb c = div_ceil (j_width J) (8 * j_max_h J) * c_h c) (j_comps J).

(** The finished parser. *)
Definition done_view (J : jpeg) : view := mkView true true true 0 J None.
