(** Whole JPEG files: ReadJpeg (c/enc/jpeg_data_reader.cc:980-1164) and WriteJpeg
    (c/dec/jpeg_data_writer.cc:876-1093).  The logged messages and the error codes in
    [jpg->error] are not modelled: every failure is [JErr]. *)
From Verif Require Import Base JpegModel LehmerModel JBitModel JHuffModel JScanModel JSegModel.

(** * Reader *)

(** jpeg_data_reader.h:20-24, JpegReadMode. *)
Inductive rmode := RHeader | RTables | RAll.
Definition is_all (m : rmode) : bool := match m with RAll => true | _ => false end.
Definition is_tables (m : rmode) : bool := match m with RTables => true | _ => false end.
Definition is_header (m : rmode) : bool := match m with RHeader => true | _ => false end.

(** jpeg_data.h:213-225: a fresh JPEGData. *)
Definition empty_jpeg : jpeg := mkJpeg 0 0 2 1 1 0 0 0 [] [] [] [] [] [] [] [] [] false [].

(** The fields that the segments change. *)
Definition set_quant (j : jpeg) (q : list qtable) : jpeg :=
  mkJpeg (j_width j) (j_height j) (j_version j) (j_max_h j) (j_max_v j) (j_mcu_rows j) (j_mcu_cols j) (j_restart j)
    (j_app j) (j_com j) q (j_huff j) (j_comps j) (j_scans j) (j_markers j) (j_inter j) (j_tail j) (j_zero_pad j) (j_padding j).
Definition set_huff (j : jpeg) (h : list huffcode) : jpeg :=
  mkJpeg (j_width j) (j_height j) (j_version j) (j_max_h j) (j_max_v j) (j_mcu_rows j) (j_mcu_cols j) (j_restart j)
    (j_app j) (j_com j) (j_quant j) h (j_comps j) (j_scans j) (j_markers j) (j_inter j) (j_tail j) (j_zero_pad j) (j_padding j).
Definition set_restart (j : jpeg) (r : Z) : jpeg :=
  mkJpeg (j_width j) (j_height j) (j_version j) (j_max_h j) (j_max_v j) (j_mcu_rows j) (j_mcu_cols j) r
    (j_app j) (j_com j) (j_quant j) (j_huff j) (j_comps j) (j_scans j) (j_markers j) (j_inter j) (j_tail j) (j_zero_pad j) (j_padding j).
Definition add_app (j : jpeg) (s : list Z) : jpeg :=
  mkJpeg (j_width j) (j_height j) (j_version j) (j_max_h j) (j_max_v j) (j_mcu_rows j) (j_mcu_cols j) (j_restart j)
    (j_app j ++ [s]) (j_com j) (j_quant j) (j_huff j) (j_comps j) (j_scans j) (j_markers j) (j_inter j) (j_tail j) (j_zero_pad j) (j_padding j).
Definition add_com (j : jpeg) (s : list Z) : jpeg :=
  mkJpeg (j_width j) (j_height j) (j_version j) (j_max_h j) (j_max_v j) (j_mcu_rows j) (j_mcu_cols j) (j_restart j)
    (j_app j) (j_com j ++ [s]) (j_quant j) (j_huff j) (j_comps j) (j_scans j) (j_markers j) (j_inter j) (j_tail j) (j_zero_pad j) (j_padding j).
Definition add_marker (j : jpeg) (m : Z) : jpeg :=
  mkJpeg (j_width j) (j_height j) (j_version j) (j_max_h j) (j_max_v j) (j_mcu_rows j) (j_mcu_cols j) (j_restart j)
    (j_app j) (j_com j) (j_quant j) (j_huff j) (j_comps j) (j_scans j) (j_markers j ++ [m]) (j_inter j) (j_tail j) (j_zero_pad j) (j_padding j).
Definition add_inter (j : jpeg) (s : list Z) : jpeg :=
  mkJpeg (j_width j) (j_height j) (j_version j) (j_max_h j) (j_max_v j) (j_mcu_rows j) (j_mcu_cols j) (j_restart j)
    (j_app j) (j_com j) (j_quant j) (j_huff j) (j_comps j) (j_scans j) (j_markers j) (j_inter j ++ [s]) (j_tail j) (j_zero_pad j) (j_padding j).
Definition set_tail (j : jpeg) (s : list Z) : jpeg :=
  mkJpeg (j_width j) (j_height j) (j_version j) (j_max_h j) (j_max_v j) (j_mcu_rows j) (j_mcu_cols j) (j_restart j)
    (j_app j) (j_com j) (j_quant j) (j_huff j) (j_comps j) (j_scans j) (j_markers j) (j_inter j) s (j_zero_pad j) (j_padding j).
Definition set_comps (j : jpeg) (l : list component) : jpeg :=
  mkJpeg (j_width j) (j_height j) (j_version j) (j_max_h j) (j_max_v j) (j_mcu_rows j) (j_mcu_cols j) (j_restart j)
    (j_app j) (j_com j) (j_quant j) (j_huff j) l (j_scans j) (j_markers j) (j_inter j) (j_tail j) (j_zero_pad j) (j_padding j).
(** The scan just read with its reset points and extra zero runs, the coefficients and padding bits. *)
Definition add_scan (j : jpeg) (si : scaninfo) (r : rscan) : jpeg :=
  mkJpeg (j_width j) (j_height j) (j_version j) (j_max_h j) (j_max_v j) (j_mcu_rows j) (j_mcu_cols j) (j_restart j)
    (j_app j) (j_com j) (j_quant j) (j_huff j) (rs_comps r)
    (j_scans j ++ [mkSI (si_ss si) (si_se si) (si_ah si) (si_al si) (si_comps si) (rs_resets r) (rs_zruns r)])
    (j_markers j) (j_inter j) (j_tail j) (rs_zero_pad r) (rs_padding r).

(** The local variables of ReadJpeg (1034-1042). *)
Record rfile := mkRF {
  rf_j : jpeg; rf_dcl : list (list (Z * Z)); rf_acl : list (list (Z * Z));
  rf_sof : bool; rf_dri : bool; rf_masks : list (list Z); rf_prog : bool }.
Definition with_j (st : rfile) (j : jpeg) : rfile :=
  mkRF j (rf_dcl st) (rf_acl st) (rf_sof st) (rf_dri st) (rf_masks st) (rf_prog st).

(** jpeg_data_reader.cc:1003-1017: kIsValidMarker for markers from 0xc0 on. *)
Definition valid_marker (m : Z) : bool :=
  between m 192 194 || (m =? 196) || between m 208 215 || between m 217 219 || (m =? 221) || between m 224 239 || (m =? 254).

(** jpeg_data_reader.cc:1003-1017, FindNextMarker: the number of bytes skipped. *)
Fixpoint find_marker (fuel : nat) (data : list Z) (pos skipped : Z) : jres Z :=
  match fuel with
  | O => JUB
  | S f =>
      if pos + 1 <? Z.of_nat (length data) then
        let* a := aget data pos in
        let* b := aget data (pos + 1) in
        if negb (a =? 255) || negb (valid_marker b) then find_marker f data (pos + 1) (skipped + 1)
        else JOk skipped
      else JOk skipped
  end.

(** jpeg_data_reader.cc:49-56, EXPECT_MARKER, and the marker byte. *)
Definition expect_marker (data : list Z) (pos : Z) : jres Z :=
  guard (has_len data pos 2) (
  let* a := aget data pos in
  guard (a =? 255) (aget data (pos + 1))).

(** jpeg_data_reader.cc:827-978, ProcessScan. *)
Definition read_scan (data : list Z) (pos : Z) (st : rfile) : jres (rfile * Z) :=
  let j := rf_j st in
  let* (si, pos) := read_sos data pos j in
  let p := scan_params (rf_prog st) si (j_restart j) in
  let* masks := prog_check p (si_comps si) (rf_masks st) in
  let* (r, pos) := read_scan_data data (rf_dcl st) (rf_acl st) j p pos in
  JOk (mkRF (add_scan j si r) (rf_dcl st) (rf_acl st) (rf_sof st) (rf_dri st) masks (rf_prog st), pos).

(** jpeg_data_reader.cc:1058-1129: the switch over the markers. *)
Definition read_segment (mode : rmode) (data : list Z) (marker pos : Z) (st : rfile) : jres (rfile * Z) :=
  let j := rf_j st in
  if between marker 192 194 then
    let* (j, pos) := read_sof (is_all mode) data pos j in
    JOk (mkRF j (rf_dcl st) (rf_acl st) true (rf_dri st) (rf_masks st) (marker =? 194), pos)
  else if marker =? 196 then
    let* (t, pos) := read_dht (is_all mode) data pos (mkTB (rf_dcl st) (rf_acl st) (j_huff j)) in
    JOk (mkRF (set_huff j (tb_huff t)) (tb_dc t) (tb_ac t) (rf_sof st) (rf_dri st) (rf_masks st) (rf_prog st), pos)
  else if between marker 208 215 then JOk (st, pos)
  else if marker =? 217 then JOk (st, pos)
  else if marker =? 218 then (if is_all mode then read_scan data pos st else JOk (st, pos))
  else if marker =? 219 then
    let* (q, pos) := read_dqt data pos (j_quant j) in
    JOk (with_j st (set_quant j q), pos)
  else if marker =? 221 then
    let* (r, pos) := read_dri data pos (rf_dri st) in
    JOk (mkRF (set_restart j r) (rf_dcl st) (rf_acl st) (rf_sof st) true (rf_masks st) (rf_prog st), pos)
  else if between marker 224 239 then
    (if is_tables mode then JOk (st, pos)
     else let* (s, pos) := read_blob data pos in JOk (with_j st (add_app j s), pos))
  else if marker =? 254 then
    (if is_tables mode then JOk (st, pos)
     else let* (s, pos) := read_blob data pos in JOk (with_j st (add_com j s), pos))
  else JErr.

(** jpeg_data_reader.cc:1045-1057: data in front of the next marker. *)
Definition read_inter (data : list Z) (pos : Z) (st : rfile) : jres (rfile * Z) :=
  let* n := find_marker (S (length data)) data pos 0 in
  if 0 <? n then
    let* s := slice data pos n in
    JOk (with_j st (add_inter (add_marker (rf_j st) 255) s), pos + n)
  else JOk (st, pos).

(** jpeg_data_reader.cc:1043-1138: the do-while loop. *)
Fixpoint read_loop (fuel : nat) (mode : rmode) (data : list Z) (pos : Z) (st : rfile) : jres (rfile * Z) :=
  match fuel with
  | O => JUB
  | S f =>
      let* (st, pos) := read_inter data pos st in
      let* marker := expect_marker data pos in
      let* (st, pos) := read_segment mode data marker (pos + 2) st in
      let st := with_j st (add_marker (rf_j st) marker) in
      if (is_header mode && rf_sof st) || (marker =? 217) then JOk (st, pos)
      else read_loop f mode data pos st
  end.

(** jpeg_data_reader.cc:982-1001, FixupIndexes. *)
Fixpoint find_quant (idx i : Z) (l : list qtable) : option Z :=
  match l with
  | [] => None
  | q :: l' => if q_index q =? idx then Some i else find_quant idx (i + 1) l'
  end.
Fixpoint fixup (quant : list qtable) (l : list component) : jres (list component) :=
  match l with
  | [] => JOk []
  | c :: l' =>
      match find_quant (c_quant c) 0 quant with
      | None => JErr
      | Some i => let* r := fixup quant l' in
                  JOk (mkComp (c_id c) (c_h c) (c_v c) i (c_wb c) (c_hb c) (c_coeffs c) :: r)
      end
  end.

(** jpeg_data_reader.cc:1021-1164, ReadJpeg. *)
Definition read_jpeg (mode : rmode) (data : list Z) : jres jpeg :=
  let* marker := expect_marker data 0 in
  guard (marker =? 216) (
  let st := mkRF empty_jpeg (repeat lut_init 4) (repeat lut_init 4) false false (repeat (repeat 0 64) 4) false in
  let* (st, pos) := read_loop (S (length data)) mode data 2 st in
  let j := rf_j st in
  guard (rf_sof st) (
  if is_all mode then
    let* j := (if pos <? Z.of_nat (length data) then
                 let* s := slice data pos (Z.of_nat (length data) - pos) in JOk (set_tail j s)
               else JOk j) in
    let* comps := fixup (j_quant j) (j_comps j) in
    guard (negb (Z.of_nat (length (j_huff j)) =? 0)) (
    guard (Z.of_nat (length (j_huff j)) <? 512) (JOk (set_comps j comps)))
  else JOk j)).

(** * Writer *)

(** SerializationState (serialization_state.h): the indices into the vectors of the JPEGData are
    kept as the lists of what is still to come. *)
Record wfile := mkWF {
  wf_huff : list huffcode; wf_quant : list qtable; wf_app : list (list Z); wf_com : list (list Z);
  wf_inter : list (list Z); wf_scans : list scaninfo; wf_tabs : wtables; wf_dri : bool; wf_prog : bool;
  wf_pads : option (list Z) }.

(** jpeg_data_writer.cc:697-874, EncodeScan with all coefficients present; [scan_info\[scan_index\]] is not checked. *)
Definition write_scan (j : jpeg) (w : wfile) : jres (list Z * wfile) :=
  match wf_scans w with
  | [] => JUB
  | si :: l =>
      let restart := if wf_dri w then j_restart j else 0 in
      let* head := write_sos j si in
      let* (body, pads) := write_scan_data j (wt_dc (wf_tabs w)) (wt_ac (wf_tabs w)) (wf_prog w) si restart (wf_pads w) in
      JOk (head ++ body, mkWF (wf_huff w) (wf_quant w) (wf_app w) (wf_com w) (wf_inter w) l (wf_tabs w) (wf_dri w) (wf_prog w) pads)
  end.

(** jpeg_data_writer.cc:876-943, SerializeSection. *)
Definition write_section (j : jpeg) (marker : Z) (w : wfile) : jres (list Z * wfile) :=
  if between marker 192 194 || between marker 201 202 then
    let* out := write_sof j marker in
    JOk (out, mkWF (wf_huff w) (wf_quant w) (wf_app w) (wf_com w) (wf_inter w) (wf_scans w) (wf_tabs w) (wf_dri w)
               (if marker <=? 194 then marker =? 194 else wf_prog w) (wf_pads w))
  else if marker =? 196 then
    let* (out, s) := write_dht (wf_huff w) (wf_tabs w) in
    JOk (out, mkWF (fst s) (wf_quant w) (wf_app w) (wf_com w) (wf_inter w) (wf_scans w) (snd s) (wf_dri w) (wf_prog w) (wf_pads w))
  else if between marker 208 215 then JOk ([255; marker], w)
  else if marker =? 217 then JOk ([255; 217] ++ j_tail j, w)
  else if marker =? 218 then write_scan j w
  else if marker =? 219 then
    let* (out, s) := write_dqt (wf_quant w) in
    JOk (out, mkWF (wf_huff w) s (wf_app w) (wf_com w) (wf_inter w) (wf_scans w) (wf_tabs w) (wf_dri w) (wf_prog w) (wf_pads w))
  else if marker =? 221 then
    JOk (write_dri j, mkWF (wf_huff w) (wf_quant w) (wf_app w) (wf_com w) (wf_inter w) (wf_scans w) (wf_tabs w) true (wf_prog w) (wf_pads w))
  else if between marker 224 239 then
    match wf_app w with
    | [] => JErr
    | s :: l => JOk (255 :: s, mkWF (wf_huff w) (wf_quant w) l (wf_com w) (wf_inter w) (wf_scans w) (wf_tabs w) (wf_dri w) (wf_prog w) (wf_pads w))
    end
  else if marker =? 254 then
    match wf_com w with
    | [] => JErr
    | s :: l => JOk (255 :: s, mkWF (wf_huff w) (wf_quant w) (wf_app w) l (wf_inter w) (wf_scans w) (wf_tabs w) (wf_dri w) (wf_prog w) (wf_pads w))
    end
  else if marker =? 255 then
    match wf_inter w with
    | [] => JErr
    | s :: l => JOk (s, mkWF (wf_huff w) (wf_quant w) (wf_app w) (wf_com w) l (wf_scans w) (wf_tabs w) (wf_dri w) (wf_prog w) (wf_pads w))
    end
  else JErr.

(** jpeg_data_writer.cc:1046-1073, the sections in the order of the markers. *)
Fixpoint write_sections (j : jpeg) (ms : list Z) (w : wfile) : jres (list Z) :=
  match ms with
  | [] => JOk []
  | m :: ms' =>
      let* (out, w) := write_section j m w in
      let* outs := write_sections j ms' w in
      JOk (out ++ outs)
  end.

(** jpeg_data_writer.cc:965-1093, WriteJpeg: everything given to the sink, which accepts all
    of it; delivery in pieces is in OutputModel.  The fallback version (1005-1018) needs the original bytes and is
    in BypassModel. *)
Definition write_jpeg (j : jpeg) : jres (list Z) :=
  if Z.land (j_version j) 1 =? 1 then JErr
  else if Z.of_nat (length (j_markers j)) =? 0 then JErr
  else
    let fresh := repeat (repeat 0 256, repeat 0 256) 4 in
    let w := mkWF (j_huff j) (j_quant j) (j_app j) (j_com j) (j_inter j) (j_scans j) (mkWT fresh fresh) false false
               (if j_zero_pad j then Some (j_padding j) else None) in
    let* outs := write_sections j (j_markers j) w in
    JOk ([255; 216] ++ outs).
