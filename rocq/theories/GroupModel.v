(** Coding in groups (c/experimental/groups.cc): the picture is cut into square groups of blocks, the DC
    and the AC coefficients of each group are coded on their own, and the groups are handled by
    independent tasks that an executor runs in any order.

    A task is taken as one step here; the interleaving of the steps of tasks is the subject of
    PoolModel.v (the executor) and StatusModel.v (the variables the tasks share). *)
From Verif Require Import Base JpegModel CodesModel HeaderModel BitProofs Stream EntropyModel CoefModel HSecModel MetaModel InternalsModel QuantModel ClusterModel
  Machine ContainerModel Decoder ProgressModel Encoder JpegSpec.

(** * Geometry *)

(** What the code reads from the JPEGData: max_h_samp_factor, max_v_samp_factor, MCU_cols, MCU_rows. *)
Record layout := mkLayout { ly_max_h : nat; ly_max_v : nat; ly_cols : nat; ly_rows : nat }.
Definition layout_of (g : grid) : layout :=
  mkLayout (Z.to_nat (g_max_h g)) (Z.to_nat (g_max_v g)) (Z.to_nat (g_mcu_cols g)) (Z.to_nat (g_mcu_rows g)).

(** groups.cc:136-143 and 419-423: the number of groups across and down. *)
Definition group_count (n dim : nat) : nat := ((n + dim - 1) / dim)%nat.
Definition across (L : layout) (dim : nat) : nat := group_count (ly_cols L * ly_max_h L) dim.
Definition down (L : layout) (dim : nat) : nat := group_count (ly_rows L * ly_max_v L) dim.
Definition groups (L : layout) (dim : nat) : nat := (across L dim * down L dim)%nat.

(** groups.cc:167-183, 192-208, 469-484 and 510-527: the window of group [idx] in a component with
    sampling factors [s].  [None]: the window would begin outside of the component (last - first would
    wrap around). *)
Record window := mkWin { wn_x : nat; wn_y : nat; wn_w : nat; wn_h : nat }.
Definition group_window (L : layout) (dim idx : nat) (s : nat * nat) : option window :=
  let x := (idx mod across L dim)%nat in
  let y := (idx / across L dim)%nat in
  let width := (ly_cols L * fst s)%nat in
  let height := (ly_rows L * snd s)%nat in
  let h_group := (fst s * dim / ly_max_h L)%nat in
  let first_x := (x * h_group)%nat in
  let last_x := Nat.min (first_x + h_group) width in
  let v_group := (snd s * dim / ly_max_v L)%nat in
  let first_y := (y * v_group)%nat in
  let last_y := Nat.min (first_y + v_group) height in
  if (last_x <? first_x)%nat || (last_y <? first_y)%nat then None
  else Some (mkWin first_x first_y (last_x - first_x) (last_y - first_y)).

(** The blocks of a window, as numbers in the component (ac_coeffs, block_state and
    dc_prediction_errors are moved to the first one, the strides stay those of the component: 177-182). *)
Definition window_cells (width : nat) (w : window) : list nat :=
  flat_map (fun r => map (fun k => ((wn_y w + r) * width + wn_x w + k)%nat) (seq 0 (wn_w w))) (seq 0 (wn_h w)).

(** Reading and writing some entries of an array; outside of the array: [None]. *)
Fixpoint gather {A} (p : list A) (cells : list nat) : option (list A) :=
  match cells with
  | [] => Some []
  | c :: r => let? a := nth_error p c in let? t := gather p r in Some (a :: t)
  end.
Fixpoint scatter {A} (p : list A) (cells : list nat) (vals : list A) : option (list A) :=
  match cells, vals with
  | [], [] => Some p
  | c :: r, v :: t => if (c <? length p)%nat then scatter (upd p c v) r t else None
  | _, _ => None
  end.

(** A group: its ComponentMeta list and the blocks of each component. *)
Definition group_part (L : layout) (dim idx : nat) (s : nat * nat) (m : cmeta) : option (cmeta * list nat) :=
  let? w := group_window L dim idx s in
  Some (mkCM (wn_w w) (wn_h w) (cm_vs m) (cm_off m) (cm_bits m) (cm_quant m), window_cells (ly_cols L * fst s) w).
Definition group_parts (L : layout) (dim : nat) (samp : list (nat * nat)) (ms : list cmeta) (idx : nat) : option (list (cmeta * list nat)) :=
  omap2 (group_part L dim idx) samp ms.

Definition gather_all {A} (arrays : list (list A)) (cells : list (list nat)) : option (list (list A)) := omap2 gather arrays cells.
Fixpoint scatter_all {A} (arrays : list (list A)) (cells : list (list nat)) (vals : list (list A)) : option (list (list A)) :=
  match arrays, cells, vals with
  | [], [], [] => Some []
  | p :: ps, c :: cs, v :: vs => let? q := scatter p c v in let? t := scatter_all ps cs vs in Some (q :: t)
  | _, _, _ => None
  end.

(** * Tasks *)

(** groups.h, Executor: every task number once, in the order [order]; [s] is what the tasks share,
    the results are kept by task number. *)
Fixpoint run_tasks {S R} (task : nat -> S -> option (R * S)) (order : list nat) (s : S) : option (list (nat * R) * S) :=
  match order with
  | [] => Some ([], s)
  | i :: r => let? x := task i s in let? t := run_tasks task r (snd x) in Some ((i, fst x) :: fst t, snd t)
  end.
Fixpoint result_of {R} (i : nat) (rs : list (nat * R)) : option R :=
  match rs with [] => None | (k, r) :: t => if (k =? i)%nat then Some r else result_of i t end.
Fixpoint results {R} (is : list nat) (rs : list (nat * R)) : option (list R) :=
  match is with [] => Some [] | i :: t => let? r := result_of i rs in let? l := results t rs in Some (r :: l) end.

(** groups.cc:265-270: PredictDCCoeffs and EncodeDC of one group; EncodeDC leaves the block states. *)
Definition enc_dc_task (L : layout) (dim : nat) (samp : list (nat * nat)) (ms : list cmeta) (planes : list plane) (idx : nat) (flags : list (list bool)) :
    option (list citem * list (list bool)) :=
  let? g := group_parts L dim samp ms idx in
  let? ps := gather_all planes (map snd g) in
  let? r := encode_dc (map fst g) ps in
  let? flags' := scatter_all flags (map snd g) (snd r) in
  Some (fst r, flags').

(** groups.cc:212-217 and 274-276: SampleNumNonZeros and EncodeAC of one group.  The coefficient orders are
    those of the group.  State::use_legacy_context_model stays false (state.h). *)
Definition enc_ac_task (L : layout) (dim : nat) (samp : list (nat * nat)) (ms : list cmeta) (planes : list plane) (flags : list (list bool)) (idx : nat) (s : unit) :
    option ((list item * list citem) * unit) :=
  let? g := group_parts L dim samp ms idx in
  let? ps := gather_all planes (map snd g) in
  let? fs := gather_all flags (map snd g) in
  let? r := encode_ac false (map fst g) (map (fun p => coeff_order (sample_zeros p)) ps) ps fs in
  Some (r, tt).

(** groups.cc:220-228: the samples of the groups of one component are added up. *)
Definition group_samples (L : layout) (dim : nat) (s : nat * nat) (p : plane) : option Z :=
  let? l := omap2 (fun idx _ => let? w := group_window L dim idx s in let? b := gather p (window_cells (ly_cols L * fst s) w) in Some (sample_nonzeros b))
    (seq 0 (groups L dim)) (seq 0 (groups L dim)) in
  Some (sumZ l).
Definition group_bits (L : layout) (dim : nat) (s : nat * nat) (p : plane) : option Z :=
  let? n := group_samples L dim s p in select_context_bits (n + 1).

(** brunsli_encode.cc:1064-1084, CalculateMeta, with the context choices of groups.cc:230-237. *)
Fixpoint group_metas (j : jpeg) (dim : nat) (off : Z) (cs : list component) : option (list cmeta) :=
  match cs with
  | [] => Some []
  | c :: r =>
      if c_quant c <? 0 then None else
      let? q := nth_error (j_quant j) (Z.to_nat (c_quant c)) in
      let w := Z.to_nat (j_mcu_cols j * c_h c) in
      let h := Z.to_nat (j_mcu_rows j * c_v c) in
      if (length (c_coeffs c) <? w * h)%nat then None else
      let? bits := group_bits (layout_of (grid_of j)) dim (Z.to_nat (c_h c), Z.to_nat (c_v c)) (c_coeffs c) in
      let? t := group_metas j dim (off + Z.of_nat (scheme_size bits)) r in
      Some (mkCM w h (Z.to_nat (c_v c)) off bits (q_values q) :: t)
  end.

(** groups.cc:123-127, 389-391 and 411-412.  A zero dimension passes the test for powers of two and is then divided by: [None]. *)
Definition power_of_two (n : nat) : bool := Z.land (Z.of_nat n) (Z.of_nat n - 1) =? 0.
Definition dims_ok (ac dc : nat) : bool :=
  negb (ac =? 0)%nat && negb (dc =? 0)%nat && power_of_two ac && power_of_two dc && (dc mod ac =? 0)%nat.
Definition sampling_fits (L : layout) (ac : nat) : bool := (ac mod ly_max_h L =? 0)%nat && (ac mod ly_max_v L =? 0)%nat.

(** brunsli_encode.cc:1359-1418 with skip_sections as in groups.cc:315-317: the common part, in a buffer of [len] bytes. *)
Definition common_part (O : oracle) (j : jpeg) (len : Z) (schemes : list Z) (cmap : list nat) (clusters : list (list Z)) : option (list (list Z) * list Z) :=
  let? header := encode_header (j_width j) (j_height j) (j_version j) (map (fun c => (c_h c, c_v c)) (j_comps j)) in
  let? s2 := encode_section 2 1 header in
  let o2 := signature ++ s2 in
  let? aux := encode_aux (j_width j) (j_height j) (internals_of j) (j_inter j) in
  let? s4 := encode_section 4 (base128_size (aux_estimate j)) aux in
  let o4 := o2 ++ s4 in
  let? md := encode_metadata (or_compress O) (j_app j) (j_com j) (j_tail j) in
  let? s3 := encode_section 3 (base128_size (len - Z.of_nat (length o4))) md in
  let o3 := o4 ++ s3 in
  let? quant := encode_quant_tables (map q_values (j_quant j)) (map c_quant (j_comps j)) in
  let? s5 := encode_section 5 2 (pack (fields_bits quant)) in
  let o5 := o3 ++ s5 in
  let? h := encode_histogram_section (or_round O) schemes cmap clusters in
  let? s6 := encode_section 6 (base128_size (len - Z.of_nat (length o5))) (pack (fields_bits (snd h))) in
  let o6 := o5 ++ s6 in
  if len <? Z.of_nat (length o6) then None else Some (fst h, o6).

(** groups.cc:302-320, 331 and 347: the buffers of the parts.  What does not fit gives [None], whether the code notices it or
    runs over the end (see DESIGN.md). *)
Definition common_size (j : jpeg) : Z :=
  20480 + sumZ (map (fun s => 5 + Z.of_nat (length s)) (j_inter j)) + sumZ (map (fun s => Z.of_nat (length s)) (j_app j)) +
  sumZ (map (fun s => Z.of_nat (length s)) (j_com j)) + Z.of_nat (length (j_tail j)).
Definition dc_part_size (n : nat) : Z := 128 * (128 + 16) * Z.of_nat n.
Definition ac_part_size (n : nat) : Z := 32 * 32 * 63 * Z.of_nat n.
Definition fitting_section (tag len : Z) (payload : list Z) : option (list Z) :=
  let? s := encode_section tag (base128_size len) payload in
  if len <? Z.of_nat (length s) then None else Some s.
Fixpoint all_some {A} (l : list (option A)) : option (list A) :=
  match l with [] => Some [] | o :: r => let? a := o in let? t := all_some r in Some (a :: t) end.

(** groups.cc:111-375, EncodeGroups; [od], [oa]: the orders in which the executor runs the DC and the AC tasks.  The tasks of 212-217 and
    323-360 only read what they share and write what is their own; the histograms of the groups are added up (281-291), which gives the
    histograms of all the items together. *)
Definition encode_groups (O : oracle) (j : jpeg) (len : Z) (ac_dim dc_dim : nat) (od oa : list nat) : option (list Z) :=
  let L := layout_of (grid_of j) in
  if negb (dims_ok ac_dim dc_dim) then None else
  if negb (sampling_fits L ac_dim) then None else
  let n := length (j_comps j) in
  if (n =? 0)%nat then None else
  let samp := map (fun c => (Z.to_nat (c_h c), Z.to_nat (c_v c))) (j_comps j) in
  let planes := map c_coeffs (j_comps j) in
  let? ms := group_metas j ac_dim (Z.of_nat n) (j_comps j) in
  let? dc := run_tasks (enc_dc_task L dc_dim samp ms planes) od (map (fun m => repeat false (cm_w m * cm_h m)) ms) in
  let? dcs := results (seq 0 (groups L dc_dim)) (fst dc) in
  let? ac := run_tasks (enc_ac_task L ac_dim samp ms planes (snd dc)) oa tt in
  let? acs := results (seq 0 (groups L ac_dim)) (fst ac) in
  let bands := contexts_of (map cm_bits ms) in
  let? ec := entropy_codes (or_costs O) (concat dcs ++ concat (map snd acs)) bands (0%nat :: map (fun m => Z.to_nat (cm_off m)) ms) in
  let? common := common_part O j (common_size j) (map cm_bits ms) (snd ec) (fst ec) in
  let? s7 := all_some (map (fun its => fitting_section 7 (dc_part_size n) (words_section (snd ec) (fst common) [] its)) dcs) in
  let? s8 := all_some (map (fun a => fitting_section 8 (ac_part_size n) (words_section (snd ec) (fst common) (fst a) (snd a))) acs) in
  let out := snd common ++ concat s7 ++ concat s8 in
  if len <? Z.of_nat (length out) then None else Some out.

(** * Decoder *)

(** groups.cc:31-45, SkipSection: the bytes of one section and the rest. *)
Definition skip_section (l : list Z) : option (list Z * list Z) :=
  match l with
  | [] => None
  | _ :: r =>
      match decode_base128 r with
      | BOk n rest =>
          if n <=? Z.of_nat (length rest)
          then let k := (length l - length rest + Z.to_nat n)%nat in Some (firstn k l, skipn k l)
          else None
      | _ => None
      end
  end.
Fixpoint skip_sections (n : nat) (l : list Z) : option (list (list Z) * list Z) :=
  match n with
  | O => Some ([], l)
  | S m => let? s := skip_section l in let? t := skip_sections m (snd s) in Some (fst s :: fst t, snd t)
  end.

(** brunsli_decode.cc:2046-2196 on the bytes of one section, from Stage::SECTION with all tags met but [tag]
    (groups.cc:455-459 and 496-500): the section must be there, be of even length and be used up; then the end of the
    input is Stage::DONE since tag 8 counts as met (2057). *)
Definition group_payload (tag : Z) (chunk : list Z) : option (list Z) :=
  match chunk with
  | [] => None
  | m :: r =>
      if negb (m =? section_marker tag) then None else
      match decode_base128 r with
      | BOk n rest => if (n =? Z.of_nat (length rest)) && Z.even n then Some rest else None
      | _ => None
      end
  end.

(** groups.cc:451-488 and 492-531.  The coefficients of a component are zero before the DC task of a group
    (WarmupMeta, 2251), which is why [decode_dc_prog] may begin with a plane of zeros. *)
Definition dec_dc_task (L : layout) (dim : nat) (samp : list (nat * nat)) (ms : list cmeta) (cmap : list Z) (codes : list (list Z)) (chunks : list (list Z))
    (idx : nat) (s : list plane * list (list bool)) : option (unit * (list plane * list (list bool))) :=
  let? g := group_parts L dim samp ms idx in
  let? chunk := nth_error chunks idx in
  let? payload := group_payload 7 chunk in
  let? r := edecode (decode_dc_prog cmap codes (map fst g)) (bytes_to_words payload) in
  let? planes := scatter_all (fst s) (map snd g) (fst r) in
  let? flags := scatter_all (snd s) (map snd g) (snd r) in
  Some (tt, (planes, flags)).
Definition dec_ac_task (L : layout) (dim : nat) (samp : list (nat * nat)) (ms : list cmeta) (cmap : list Z) (codes : list (list Z)) (chunks : list (list Z))
    (flags : list (list bool)) (idx : nat) (planes : list plane) : option (unit * list plane) :=
  let? g := group_parts L dim samp ms idx in
  let? chunk := nth_error chunks idx in
  let? payload := group_payload 8 chunk in
  let? ps := gather_all planes (map snd g) in
  let? fs := gather_all flags (map snd g) in
  let? r := edecode (decode_ac_prog cmap codes false (map fst g) fs ps) (bytes_to_words payload) in
  let? planes' := scatter_all planes (map snd g) r in
  Some (tt, planes').

(** [GUnchecked]: tables are used that the common part did not bring (WarmupMeta reads jpg->quant[...] of an empty vector, the tasks
    use entropy codes that are not there): undefined behaviour. *)
Inductive gresult := GOk (j : jpeg) | GFail | GUnchecked.
Definition from_option {A} (o : option A) (k : A -> gresult) : gresult := match o with Some a => k a | None => GFail end.

(** groups.cc:377-536, DecodeGroups. *)
Definition decode_groups (B : brotli) (data : list Z) (ac_dim dc_dim : nat) (od oa : list nat) : gresult :=
  if negb (dims_ok ac_dim dc_dim) then GFail else
  from_option (skip_sections 6 data) (fun '(common, rest) =>
  let head := concat common in
  match x_run B head (XSig 0) (length head) with
  | RMore (XTag _ _ p _) =>
      match metas_of p, pi_hist p with
      | Some ms, Some (_, cmap, codes) =>
          let L := layout_of (pi_grid p) in
          let samp := map (fun s => (Z.to_nat (fst s), Z.to_nat (snd s))) (pi_samp p) in
          if negb (sampling_fits L ac_dim) then GFail else
          from_option (skip_sections (groups L dc_dim) rest) (fun '(dcs, rest) =>
          from_option (skip_sections (groups L ac_dim) rest) (fun '(acs, rest) =>
          match rest with
          | _ :: _ => GFail
          | [] =>
              from_option (run_tasks (dec_dc_task L dc_dim samp ms cmap codes dcs) od
                (map (fun m => repeat (repeat 0 64) (cm_w m * cm_h m)) ms, map (fun m => repeat false (cm_w m * cm_h m)) ms)) (fun '(_, (planes, flags)) =>
              from_option (run_tasks (dec_ac_task L ac_dim samp ms cmap codes acs flags) oa planes) (fun '(_, planes') =>
              from_option (picture_jpeg (set_ac (set_dc p (planes, flags)) planes')) GOk))
          end))
      | _, _ => GUnchecked
      end
  | RMore _ => GUnchecked
  | _ => GFail
  end).
