(** SerializeJpeg while the parser is still at work: what it looks at, the scans that are
    written row by row as the coefficients arrive, and the marker writers as an instance of
    the serializer of OutputModel (c/dec/jpeg_data_writer.cc, c/dec/serialization_state.h). *)
From Verif Require Import Base JpegModel JBitModel JHuffModel JSegModel JScanModel JFileModel OutputModel.

(** What the serializer looks at: stage == DONE, HasSection of the tags 7 (DC) and 8 (AC),
    ac_dc.next_mcu_y (state_internal.h:37-46), the JPEGData as filled in so far, and original_jpg. *)
Record view := mkView {
  v_done : bool; v_dc : bool; v_ac : bool; v_row : Z; v_jpeg : jpeg; v_orig : option (list Z) }.

(** serialization_state.h:50-69, EncodeScanState in the stage BODY: the calls collected in
    [sc_w] are those not yet made on the bit writer (none between two calls of the serializer). *)
Record scanst := mkSC { sc_w : wscan; sc_bw : bitw; sc_y : Z }.

(** serialization_state.h:71-98, SerializationState: the numbers of tables, segments and
    scans already written; [sf_pads] is what is left between pad_bits and pad_bits_end;
    [sf_cur] is None in the stage HEAD of the scan state. *)
Record sfile := mkSF {
  sf_dht : nat; sf_dqt : nat; sf_app : nat; sf_com : nat; sf_inter : nat; sf_scan : nat;
  sf_tabs : wtables; sf_dri : bool; sf_prog : bool; sf_pads : option (list Z); sf_cur : option scanst }.

(** The vectors of the JPEGData behind the indices, for the marker writers of JFileModel, and back. *)
Definition wfile_of (j : jpeg) (s : sfile) : wfile :=
  mkWF (skipn (sf_dht s) (j_huff j)) (skipn (sf_dqt s) (j_quant j)) (skipn (sf_app s) (j_app j)) (skipn (sf_com s) (j_com j))
    (skipn (sf_inter s) (j_inter j)) (skipn (sf_scan s) (j_scans j)) (sf_tabs s) (sf_dri s) (sf_prog s) (sf_pads s).
Definition sfile_of (j : jpeg) (w : wfile) : sfile :=
  mkSF (length (j_huff j) - length (wf_huff w)) (length (j_quant j) - length (wf_quant w)) (length (j_app j) - length (wf_app w))
    (length (j_com j) - length (wf_com w)) (length (j_inter j) - length (wf_inter w)) (length (j_scans j) - length (wf_scans w))
    (wf_tabs w) (wf_dri w) (wf_prog w) (wf_pads w) None.

(** jpeg_data_writer.cc:1043-1048: the state at the start. *)
Definition sfile_init (j : jpeg) : sfile :=
  mkSF 0 0 0 0 0 0 (mkWT (repeat (repeat 0 256, repeat 0 256) 4) (repeat (repeat 0 256, repeat 0 256) 4)) false false
    (if j_zero_pad j then Some (j_padding j) else None) None.

(** The MCUs of the rows from [a] to [b] (excluded). *)
Definition mcus_between (a b cols : Z) : list (Z * Z) :=
  flat_map (fun i => map (fun x => (a + i, x)) (iotaZ cols)) (iotaZ (b - a)).

Definition drop_ops (w : wscan) : wscan :=
  mkWS (mkWC [] (wc_eob (ws_c w)) (wc_tab (ws_c w)) (wc_rb (ws_c w)) (wc_rbn (ws_c w)))
    (ws_last w) (ws_bsi w) (ws_togo w) (ws_next w) (ws_nr w) (ws_resets w) (ws_zruns w).

(** Calls on the bit writer. *)
Definition run_ops (ops : list wop) (pads : option (list Z)) (bw : bitw) : jres (bitw * option (list Z)) :=
  match bw_run ops pads bw with WOk r => JOk r | WFail => JErr | WUB => JUB end.

(** jpeg_data_writer.cc:723-738, the scan header and the initial scan state. *)
Definition scan_head (j : jpeg) (si : scaninfo) (restart : Z) : jres (list Z * scanst) :=
  let* head := write_sos j si in
  let '(nr, resets) := pop_reset (si_resets si) in
  JOk (head, mkSC (mkWS (mkWC [] 0 ([], []) [] 0) (repeat 0 4) 0 restart 0 nr resets (si_zero_runs si)) bw_init 0).

(** jpeg_data_writer.cc:780-839, the rows up to [last]. *)
Definition scan_rows (j : jpeg) (t : wtables) (progressive : bool) (p : scanpar) (cols last : Z)
    (pads : option (list Z)) (sc : scanst) : jres (scanst * option (list Z)) :=
  let* w := write_mcus (j_comps j) (wt_dc t) (wt_ac t) (scan_mode progressive p) p (mcus_between (sc_y sc) last cols) (sc_w sc) in
  let* (bw, pads) := run_ops (wc_ops (ws_c w)) pads (sc_bw sc) in
  JOk (mkSC (drop_ops w) bw (Z.max (sc_y sc) last), pads).

(** jpeg_data_writer.cc:844-849: the end of the scan. *)
Definition scan_end (pads : option (list Z)) (sc : scanst) : jres (bitw * option (list Z)) :=
  let* st := flush (ws_c (sc_w sc)) in
  run_ops (wc_ops st ++ [WJumpOp]) pads (sc_bw sc).

(** What was written to full chunks is in the output queue. *)
Definition drop_chunks (sc : scanst) : scanst :=
  mkSC (sc_w sc) (mkBW [] (bw_cur (sc_bw sc)) (bw_buf (sc_bw sc)) (bw_free (sc_bw sc)) (bw_ok (sc_bw sc))) (sc_y sc).

Definition with_scan (s : sfile) (n : nat) (pads : option (list Z)) (cur : option scanst) : sfile :=
  mkSF (sf_dht s) (sf_dqt s) (sf_app s) (sf_com s) (sf_inter s) n (sf_tabs s) (sf_dri s) (sf_prog s) pads cur.

(** jpeg_data_writer.cc:697-874, EncodeScan and DoEncodeScan: new chunks, new state, and
    whether the scan is complete ([false] is NEEDS_MORE_INPUT).  [scan_info\[scan_index\]] is
    not checked. *)
Definition encode_scan (v : view) (s : sfile) : jres (list (list Z) * (sfile * bool)) :=
  let j := v_jpeg v in
  match nth_error (j_scans j) (sf_scan s) with
  | None => JUB
  | Some si =>
      let restart := if sf_dri s then j_restart j else 0 in
      let p := scan_params (sf_prog s) si restart in
      let* (head, sc) := (match sf_cur s with
                          | Some sc => JOk ([], sc)
                          | None => let* (h, sc) := scan_head j si restart in JOk ([h], sc)
                          end) in
      let dims := write_dims j p in
      let c := comp_at (j_comps j) (match sp_cs p with x :: _ => cs_comp x | [] => 0 end) in
      let v_group := if sp_inter p then 1 else c_v c in
      let want_ac := negb (sp_ss p =? 0) || negb (sp_se p =? 0) in
      let has_ac := v_done v || v_ac v in
      if want_ac && negb has_ac then JOk (head, (with_scan s (sf_scan s) (sf_pads s) (Some sc), false))
      else
        let complete := if want_ac then v_done v else has_ac in
        let last := if complete then fst dims else v_row v * v_group in
        let* (sc, pads) := scan_rows j (sf_tabs s) (sf_prog s) p (snd dims) last (sf_pads s) sc in
        if sc_y sc <? fst dims then
          if negb (bw_ok (sc_bw sc)) then JErr
          else JOk (head ++ bw_chunks (sc_bw sc), (with_scan s (sf_scan s) pads (Some (drop_chunks sc)), false))
        else
          let* (bw, pads) := scan_end pads sc in
          if negb (bw_ok bw) then JErr
          else JOk (head ++ bw_chunks bw ++ [bw_cur bw], (with_scan s (S (sf_scan s)) pads None, true))
  end.

(** jpeg_data_writer.cc:876-943, SerializeSection on the state with indices. *)
Definition encode_section (v : view) (s : sfile) (marker : Z) : jres (list (list Z) * (sfile * bool)) :=
  if marker =? 218 then encode_scan v s
  else
    let* (out, w) := write_section (v_jpeg v) marker (wfile_of (v_jpeg v) s) in
    JOk ([out], (sfile_of (v_jpeg v) w, true)).

(** The state of the serializer of OutputModel: not started, at work, or gone: undefined
    behaviour has occurred and nothing is said about what follows. *)
Inductive sst := SFresh | SRun (s : sfile) | SUndef.

Definition real_section (v : view) (st : sst) (marker : Z) : list (list Z) * sst * sec_status :=
  match st with
  | SUndef => ([], SUndef, SecNeedInput)
  | _ =>
      let s := match st with SRun s => s | _ => sfile_init (v_jpeg v) end in
      match encode_section v s marker with
      | JOk (chunks, (s', true)) => (chunks, SRun s', SecDone)
      | JOk (chunks, (s', false)) => (chunks, SRun s', SecNeedInput)
      | JErr => ([], SRun s, SecError)
      | JUB => ([], SUndef, SecNeedInput)
      end
  end.

(** jpeg_data_writer.cc:1003-1051, the stage INIT. *)
Definition real_start (v : view) : start_result :=
  if negb (v_done v || v_dc v || v_ac v) then SrWait
  else if j_version (v_jpeg v) =? 1 then SrFallback (v_orig v)
  else if Z.land (j_version (v_jpeg v)) 1 =? 1 then SrBad
  else match j_markers (v_jpeg v) with [] => SrBad | _ => SrMarkers end.

Definition real_serializer : serializer :=
  mkSer view sst SFresh real_start (fun v => j_markers (v_jpeg v)) real_section.

(** Undefined behaviour has occurred. *)
Definition undefined (ss : sstate real_serializer) : bool :=
  match ss_stage ss with GSection _ SUndef => true | _ => false end.
