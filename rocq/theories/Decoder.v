(** The decoder as a whole: the section decoders of the other files put into the stream grammar
    of ContainerModel.v (c/dec/brunsli_decode.cc). *)
From Verif Require Import Base JpegModel BitModel QuantModel InternalsModel MetaModel HeaderModel Stream Machine ContainerModel HuffModel HSecModel CoefModel WordModel.

(** The image under construction: the parts of JPEGData and State that the sections read so far
    have filled.  [None]: section not met yet. *)
Record picture := mkPic {
  pi_w : Z; pi_h : Z; pi_version : Z; pi_legacy : bool; pi_samp : samplings; pi_grid : grid;
  pi_meta : option mstate;
  pi_int : option (internals * list (list Z));
  pi_quant : option (list (list Z) * list Z);
  pi_hist : option (list Z * list Z * list (list Z));
  pi_dc : option (list plane * list (list bool));
  pi_ac : option (list plane) }.

(** brunsli_decode.cc:1171-1258: what the header leaves. *)
Definition pic_start (w h version : Z) (legacy : bool) (samp : samplings) (g : grid) : picture :=
  mkPic w h version legacy samp g None None None None None None.

Definition set_meta (p : picture) (m : mstate) : picture :=
  mkPic (pi_w p) (pi_h p) (pi_version p) (pi_legacy p) (pi_samp p) (pi_grid p) (Some m) (pi_int p) (pi_quant p) (pi_hist p) (pi_dc p) (pi_ac p).
Definition set_int (p : picture) (x : internals * list (list Z)) : picture :=
  mkPic (pi_w p) (pi_h p) (pi_version p) (pi_legacy p) (pi_samp p) (pi_grid p) (pi_meta p) (Some x) (pi_quant p) (pi_hist p) (pi_dc p) (pi_ac p).
Definition set_quant (p : picture) (x : list (list Z) * list Z) : picture :=
  mkPic (pi_w p) (pi_h p) (pi_version p) (pi_legacy p) (pi_samp p) (pi_grid p) (pi_meta p) (pi_int p) (Some x) (pi_hist p) (pi_dc p) (pi_ac p).
Definition set_hist (p : picture) (x : list Z * list Z * list (list Z)) : picture :=
  mkPic (pi_w p) (pi_h p) (pi_version p) (pi_legacy p) (pi_samp p) (pi_grid p) (pi_meta p) (pi_int p) (pi_quant p) (Some x) (pi_dc p) (pi_ac p).
Definition set_dc (p : picture) (x : list plane * list (list bool)) : picture :=
  mkPic (pi_w p) (pi_h p) (pi_version p) (pi_legacy p) (pi_samp p) (pi_grid p) (pi_meta p) (pi_int p) (pi_quant p) (pi_hist p) (Some x) (pi_ac p).
Definition set_ac (p : picture) (x : list plane) : picture :=
  mkPic (pi_w p) (pi_h p) (pi_version p) (pi_legacy p) (pi_samp p) (pi_grid p) (pi_meta p) (pi_int p) (pi_quant p) (pi_hist p) (pi_dc p) (Some x).

(** brunsli_decode.cc:2225-2269, PrepareMeta and WarmupMeta, with context_bits and context_offset
    of 1829-1846: offsets count on from the number of components.  A component whose table does
    not exist (an array overrun in the code) gives [None]. *)
Fixpoint metas_from (off : Z) (samp : samplings) (blocks : list (Z * Z)) (schemes : list Z) (tables : list (list Z)) (idx : list Z) : option (list cmeta) :=
  match samp, blocks, schemes, idx with
  | [], [], [], [] => Some []
  | s :: samp', b :: blocks', c :: schemes', q :: idx' =>
      if q <? 0 then None else
      let? t := nth_error tables (Z.to_nat q) in
      let? r := metas_from (off + Z.of_nat (scheme_size c)) samp' blocks' schemes' tables idx' in
      Some (mkCM (Z.to_nat (fst b)) (Z.to_nat (snd b)) (Z.to_nat (snd s)) off c t :: r)
  | _, _, _, _ => None
  end.
Definition metas_of (p : picture) : option (list cmeta) :=
  match pi_quant p, pi_hist p with
  | Some (tables, idx), Some (schemes, _, _) =>
      metas_from (Z.of_nat (length (pi_samp p))) (pi_samp p) (g_blocks (pi_grid p)) schemes tables idx
  | _, _ => None
  end.

(** Where a section body can be suspended. *)
Inductive bstate (B : brotli) : Type :=
| BSMeta (s : mdstate B)
| BSInt (s : jstate)
| BSQuant (p : prog (list (list Z) * list Z)) (b : breader) (pos : nat)
| BSHist (p : prog (list Z * list Z * list (list Z))) (b : breader) (pos : nat)
| BSDC (s : wstate (list plane * list (list bool)))
| BSAC (s : wstate (list plane))
| BSBad.
Arguments BSMeta {B} s. Arguments BSInt {B} s. Arguments BSQuant {B} p b pos. Arguments BSHist {B} p b pos.
Arguments BSDC {B} s. Arguments BSAC {B} s. Arguments BSBad {B}.

(** A section made of bits only (1635-1796 and 1798-1930). *)
Definition scall {T} (lenient : bool) (n : nat) (V : list Z) (s : prog T * breader * nat) (avail : nat) : res (prog T * breader * nat) T :=
  let '(p, b, pos) := s in
  match section_call lenient (firstn n V) p b pos (Nat.min avail n) with
  | SDone x c => RDone x c
  | SFail => RFail
  | SMore q b' pos' => RMore (q, b', pos')
  end.

Definition lift_res {S Y T X} (inj : S -> T) (post : Y -> X) (r : res S Y) : res T X :=
  match r with RDone y q => RDone (post y) q | RFail => RFail | RMore s => RMore (inj s) end.

(** hs.arena (1808): room for the lookup tables of the context map. *)
Definition hist_arena : list (Z * Z) := repeat (0, 0) 648.

(** brunsli_decode.cc:2126-2173: the state in which the body of a section starts.  [BSBad] where
    something it needs is missing, which [admissible] excludes. *)
Definition body_init (B : brotli) (tag : Z) (n : nat) (p : picture) : bstate B :=
  if tag =? 3 then BSMeta MDInitial
  else if tag =? 4 then BSInt (jinit n (pi_w p) (pi_h p) (length (pi_samp p)))
  else if tag =? 5 then
    match pi_int p with
    | Some (x, _) => BSQuant (read_quant_section (map snd (in_quant x)) (length (pi_samp p))) br_init 0
    | None => BSBad
    end
  else if tag =? 6 then BSHist (read_histogram_section hist_arena (length (pi_samp p))) br_init 0
  else if tag =? 7 then
    match metas_of p, pi_hist p with
    | Some ms, Some (_, cmap, codes) => BSDC (mkW (wdecode_dc cmap codes ms) None 0)
    | _, _ => BSBad
    end
  else if tag =? 8 then
    match metas_of p, pi_hist p, pi_dc p with
    | Some ms, Some (_, cmap, codes), Some (planes, flags) =>
        BSAC (mkW (wdecode_ac cmap codes (pi_legacy p) ms flags planes) None 0)
    | _, _, _ => BSBad
    end
  else BSBad.

(** One call of ProcessSection (2098-2196) inside a known section. *)
Definition body_call (B : brotli) (tag : Z) (n : nat) (p : picture) (V : list Z) (s : bstate B) (avail : nat) : res (bstate B) picture :=
  match s with
  | BSMeta s => lift_res BSMeta (set_meta p) (mdcall B V n s avail)
  | BSInt s => lift_res BSInt (set_int p) (jcall V n s avail)
  | BSQuant q b pos => lift_res (fun '(q, b, pos) => BSQuant q b pos) (set_quant p) (scall false n V (q, b, pos) avail)
  | BSHist q b pos => lift_res (fun '(q, b, pos) => BSHist q b pos) (set_hist p) (scall true n V (q, b, pos) avail)
  | BSDC s => lift_res BSDC (set_dc p) (wcall n V s avail)
  | BSAC s => lift_res BSAC (set_ac p) (wcall n V s avail)
  | BSBad => RFail
  end.

Definition md_pos {B} (s : mdstate B) : nat := match s with MDBrotli _ _ _ _ pos => pos | _ => 0%nat end.
Definition j_pos (s : jstate) : nat := match s with JBits _ _ pos => pos | JBytes _ _ pos => pos end.
Definition body_pos {B} (s : bstate B) : nat :=
  match s with
  | BSMeta s => md_pos s
  | BSInt s => j_pos s
  | BSQuant _ _ pos => pos
  | BSHist _ _ pos => pos
  | BSDC s => w_pos s
  | BSAC s => w_pos s
  | BSBad => 0%nat
  end.

Definition real_bodies (B : brotli) : bodies :=
  mkBodies picture (bstate B) pic_start (body_init B) (body_call B) body_pos.

(** * The result *)

(** The components: identifiers from the internals (1576-1595), sampling factors from the header,
    tables from the quantisation section, coefficients from the AC section. *)
Fixpoint make_comps (ids : list Z) (samp : samplings) (blocks : list (Z * Z)) (idx : list Z) (planes : list plane) : list component :=
  match ids, samp, blocks, idx, planes with
  | i :: ids', s :: samp', b :: blocks', q :: idx', p :: planes' =>
      mkComp i (fst s) (snd s) q (fst b) (snd b) p :: make_comps ids' samp' blocks' idx' planes'
  | _, _, _, _, _ => []
  end.
Fixpoint make_quant (heads : list (Z * bool * Z)) (tables : list (list Z)) : list qtable :=
  match heads, tables with
  | (ix, l, prec) :: heads', t :: tables' => mkQT t prec ix l :: make_quant heads' tables'
  | _, _ => []
  end.

(** The JPEGData a finished parse leaves; a missing metadata section leaves the lists empty. *)
Definition picture_jpeg (p : picture) : option jpeg :=
  match pi_int p, pi_quant p, pi_ac p with
  | Some (x, inter), Some (tables, idx), Some planes =>
      let m := match pi_meta p with Some m => m | None => m_init end in
      Some (mkJpeg (pi_w p) (pi_h p) (pi_version p)
        (g_max_h (pi_grid p)) (g_max_v (pi_grid p)) (g_mcu_rows (pi_grid p)) (g_mcu_cols (pi_grid p))
        (in_restart x) (m_app m) (m_com m) (make_quant (in_quant x) tables) (in_huff x)
        (make_comps (in_ids x) (pi_samp p) (g_blocks (pi_grid p)) idx planes)
        (in_scans x) (in_markers x) inter (m_tail m) (in_zero_pad x) (in_padding x))
  | _, _, _ => None
  end.

(** brunsli_decode.cc:2459-2468, BrunsliDecodeJpeg, into a parsed JPEG or the stored original. *)
Definition brunsli_decode_jpeg (B : brotli) (D : list Z) : status * option (outcome jpeg) :=
  match decode_once (decode_stream (real_bodies B)) D with
  | (st, Some (OOriginal d)) => (st, Some (OOriginal d))
  | (st, Some (OImage p)) => (st, match picture_jpeg p with Some j => Some (OImage j) | None => None end)
  | (st, None) => (st, None)
  end.
