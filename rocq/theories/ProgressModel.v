(** The parser with the state the serializer looks at between two pieces of input: tags met,
    sections finished, and how far the coefficient sections have come.  The steps are those
    of ContainerModel.v, Decoder.v and WordModel.v with the suspended programs replaced by the
    variables the code keeps (c/dec/state_internal.h, c/dec/brunsli_decode.cc); that the two
    parsers agree is proved in ProgressProofs1.v. *)
From Verif Require Import Base CodesModel JpegModel EntropyModel LehmerModel QuantModel InternalsModel MetaModel HeaderModel Stream Machine ContainerModel HSecModel CoefModel WordModel Decoder DriverModel OutputModel SerialModel.

(** A suspended word-by-word decoder: its variables instead of a program. *)
Inductive gout (T A : Type) : Type :=
| GoDone (a : A) (d : EntropyModel.dstate)
| GoBad
| GoMore (t : T) (d : EntropyModel.dstate).
Arguments GoDone {T A} a d. Arguments GoBad {T A}. Arguments GoMore {T A} t d.

(** brunsli_decode.cc:1932-1976, as [wcall]. *)
Definition gcall {T A} (run : bool -> EntropyModel.dstate -> gout T A) (t0 : T) (n : nat) (V : list Z) (sub : option EntropyModel.dstate) (pos avail : nat)
    : res (T * option EntropyModel.dstate * nat) A :=
  if Nat.odd n then RFail
  else
    let limit := (n - pos)%nat in
    let chunk := Nat.min ((avail - pos) / 2 * 2) limit in
    let last := (chunk =? limit)%nat in
    let words := bytes_to_words (slice V pos (pos + chunk)) in
    let src := mkWS words false in
    let go (d : EntropyModel.dstate) :=
      match run last d with
      | GoBad => RFail
      | GoDone a d' =>
          let q := (pos + 2 * (length words - length (ws_words (d_src d'))))%nat in
          if ws_error (d_src d') then RFail
          else if negb (d_finalize d') then RFail
          else if negb (q =? n)%nat then RFail
          else RDone a q
      | GoMore t d' =>
          let q := (pos + 2 * (length words - length (ws_words (d_src d'))))%nat in
          if ws_error (d_src d') then RFail
          else if last then RFail
          else RMore (t, Some d', q)
      end in
    match sub with
    | Some d => go (set_src d src)
    | None => if last || (5 <=? length words)%nat then go (d_init src) else RMore (t0, None, pos)
    end.

(** What the sections before have fixed. *)
Record cfg := mkCfg { cf_cmap : list Z; cf_codes : list (list Z); cf_legacy : bool; cf_ms : list cmeta }.

(** DecodeDC between two blocks (615-739): the blocks still to come (the first one is given by
    next_mcu_y, next_component, next_iy, next_x), the contexts, coefficients and block states. *)
Record dcx := mkDCX { dx_vs : list (nat * nat * nat); dx_sts : list dcst; dx_planes : list plane; dx_flags : list (list bool) }.

Fixpoint xrun_dc (c : cfg) (vs : list (nat * nat * nat)) (sts : list dcst) (planes : list plane) (flags : list (list bool))
    (opt : bool) (d : EntropyModel.dstate) : gout dcx (list plane * list (list bool)) :=
  match vs with
  | [] => GoDone (planes, flags) d
  | (i, y, x) :: rest =>
      if can_read opt 6 d then
        match nth_error (cf_ms c) i, nth_error sts i, nth_error planes i, nth_error flags i with
        | Some m, Some st, Some p, Some fl =>
            let j := (y * cm_w m + x)%nat in
            match erun (dec_dc_block (cf_cmap c) (cf_codes c) (Z.of_nat i) st (Z.of_nat x)) d with
            | Some ((is_empty, sign, absval, st'), d') =>
                match zset fl (Z.of_nat j) is_empty, nth_error p j with
                | Some fl', Some b =>
                    let v := to_i16 ((1 - 2 * sign) * absval + predict (cm_w m) p x y) in
                    xrun_dc c rest (upd sts i st') (upd planes i (upd p j (put_dc b v))) (upd flags i fl') opt d'
                | _, _ => GoBad
                end
            | None => GoBad
            end
        | _, _, _, _ => GoBad
        end
      else GoMore (mkDCX vs sts planes flags) d
  end.

(** DecodeAC between two orders or two blocks (865-976). *)
Inductive acx :=
| AOrders (n : nat) (acc : list (list Z)) (flags : list (list bool)) (planes : list plane)
| ABlocks (aks : list accst) (flags : list (list bool)) (vs : list (nat * nat * nat)) (sts : list acst) (planes : list plane).

Fixpoint xrun_ac (c : cfg) (aks : list accst) (flags : list (list bool)) (vs : list (nat * nat * nat)) (sts : list acst) (planes : list plane)
    (opt : bool) (d : EntropyModel.dstate) : gout acx (list plane) :=
  match vs with
  | [] => GoDone planes d
  | (i, y, x) :: rest =>
      match nth_error (cf_ms c) i, nth_error aks i, nth_error sts i, nth_error planes i, nth_error flags i with
      | Some m, Some ak, Some st, Some p, Some fl =>
          let j := (y * cm_w m + x)%nat in
          match nth_error p j, nth_error fl j with
          | Some b, Some e =>
              if e || can_read opt 297 d then
                match erun (dec_ac_block (cf_cmap c) (cf_codes c) (cf_legacy c) ak m (neighbours (cm_w m) p x y) e b st) d with
                | Some ((b', st'), d') => xrun_ac c aks flags rest (upd sts i st') (upd planes i (upd p j b')) opt d'
                | None => GoBad
                end
              else GoMore (ABlocks aks flags vs sts planes) d
          | _, _ => GoBad
          end
      | _, _, _, _, _ => GoBad
      end
  end.
Fixpoint xrun_orders (c : cfg) (n : nat) (acc : list (list Z)) (flags : list (list bool)) (planes : list plane)
    (opt : bool) (d : EntropyModel.dstate) : gout acx (list plane) :=
  match n with
  | O =>
      match omap2 (fun m o => Some (ac_consts m o)) (cf_ms c) (rev acc) with
      | Some aks => xrun_ac c aks flags (visits (cf_ms c)) (map (fun m => ac_init (cm_w m)) (cf_ms c)) planes opt d
      | None => GoBad
      end
  | S n' =>
      if can_read opt 121 d then
        match erun decode_coeff_order d with
        | Some (o, d') => xrun_orders c n' (o :: acc) flags planes opt d'
        | None => GoBad
        end
      else GoMore (AOrders n acc flags planes) d
  end.
Definition xrun_acx (c : cfg) (t : acx) (opt : bool) (d : EntropyModel.dstate) : gout acx (list plane) :=
  match t with
  | AOrders n acc flags planes => xrun_orders c n acc flags planes opt d
  | ABlocks aks flags vs sts planes => xrun_ac c aks flags vs sts planes opt d
  end.

(** Section bodies: the others as in Decoder.v. *)
Inductive xbody (B : brotli) : Type :=
| XPlain (s : bstate B)
| XDC (c : cfg) (t : dcx) (sub : option EntropyModel.dstate) (pos : nat)
| XAC (c : cfg) (t : acx) (sub : option EntropyModel.dstate) (pos : nat).
Arguments XPlain {B} s. Arguments XDC {B} c t sub pos. Arguments XAC {B} c t sub pos.

Definition x_init (B : brotli) (tag : Z) (n : nat) (p : picture) : xbody B :=
  if tag =? 7 then
    match metas_of p, pi_hist p with
    | Some ms, Some (_, cmap, codes) =>
        XDC (mkCfg cmap codes (pi_legacy p) ms)
          (mkDCX (visits ms) (map (fun m => dc_init (cm_w m)) ms) (map (fun m => repeat (repeat 0 64) (cm_w m * cm_h m)) ms)
             (map (fun m => repeat false (cm_w m * cm_h m)) ms)) None 0
    | _, _ => XPlain BSBad
    end
  else if tag =? 8 then
    match metas_of p, pi_hist p, pi_dc p with
    | Some ms, Some (_, cmap, codes), Some (planes, flags) =>
        XAC (mkCfg cmap codes (pi_legacy p) ms) (AOrders (length ms) [] flags planes) None 0
    | _, _, _ => XPlain BSBad
    end
  else XPlain (body_init B tag n p).

Definition x_call (B : brotli) (tag : Z) (n : nat) (p : picture) (V : list Z) (s : xbody B) (avail : nat) : res (xbody B) picture :=
  match s with
  | XPlain s => lift_res XPlain (fun x => x) (body_call B tag n p V s avail)
  | XDC c t sub pos =>
      lift_res (fun '(t, sub, pos) => XDC c t sub pos) (set_dc p)
        (gcall (xrun_dc c (dx_vs t) (dx_sts t) (dx_planes t) (dx_flags t)) t n V sub pos avail)
  | XAC c t sub pos =>
      lift_res (fun '(t, sub, pos) => XAC c t sub pos) (set_ac p) (gcall (xrun_acx c t) t n V sub pos avail)
  end.

Definition x_pos {B} (s : xbody B) : nat := match s with XPlain s => body_pos s | XDC _ _ _ pos => pos | XAC _ _ _ pos => pos end.

(** The stages (state.h:21-29) and what goes with them: SIGNATURE, HEADER, FALLBACK, SECTION
    before the tag and before the length, SECTION_BODY of a skipped and of a known section.
    [f]: rounds left (see [read_sections]). *)
Inductive xstate (B : brotli) : Type :=
| XSig (pos : nat)
| XHead (q : bprog header) (pos : nat)
| XOrig (q : bprog (list Z)) (pos : nat)
| XTag (f : nat) (met : list Z) (img : picture) (pos : nat)
| XLen (f : nat) (met : list Z) (img : picture) (tag : Z) (is_section : bool) (pos : nat)
| XSkip (f : nat) (met : list Z) (img : picture) (acc : list Z) (n : Z) (pos : nat)
| XBody (f : nat) (met : list Z) (img : picture) (tag : Z) (n start : nat) (s : xbody B)
| XDone (o : outcome picture) (pos : nat)
| XErr.
Arguments XSig {B} pos. Arguments XHead {B} q pos. Arguments XOrig {B} q pos. Arguments XTag {B} f met img pos.
Arguments XLen {B} f met img tag is_section pos. Arguments XSkip {B} f met img acc n pos. Arguments XBody {B} f met img tag n start s.
Arguments XDone {B} o pos. Arguments XErr {B}.

Section Run.
  Context (B : brotli) (D : list Z).
  Notation xres := (res (xstate B) (outcome picture)).

  (** ProcessSection 2098-2196. *)
  Definition x_body (next : list Z -> picture -> nat -> xres) (f : nat) (met : list Z) (img : picture) (tag : Z) (n start : nat) (s : xbody B) (avail : nat) : xres :=
    match x_call B tag n img (section_view D start n) s (avail - start)%nat with
    | RDone img' q => if (q =? n)%nat then if tag =? 8 then RDone (OImage img') (start + n)%nat else next met img' (start + n)%nat else RFail
    | RFail => RFail
    | RMore s' => RMore (XBody f met img tag n start s')
    end.
  Definition x_skip (next : list Z -> picture -> nat -> xres) (f : nat) (met : list Z) (img : picture) (acc : list Z) (n : Z) (pos avail : nat) : xres :=
    let piece := Z.to_nat (Z.min n (Z.of_nat (avail - pos))) in
    if n - Z.of_nat piece <=? 0 then next met img (pos + piece)%nat
    else RMore (XSkip f met img (acc ++ slice D pos (pos + piece)) (n - Z.of_nat piece) (pos + piece)%nat).
  (** ParseSection 2046-2096 after the tag. *)
  Definition x_len (next : list Z -> picture -> nat -> xres) (f : nat) (met : list Z) (img : picture) (tag : Z) (is_section : bool) (pos avail : nat) : xres :=
    match decode_base128 (slice D pos avail) with
    | BOk n rest =>
        let pos' := (avail - length rest)%nat in
        if is_section then
          if known_tag tag then
            if admissible tag n met then x_body next f met img tag (Z.to_nat n) pos' (x_init B tag (Z.to_nat n) img) avail
            else RFail
          else x_skip next f met img [] n pos' avail
        else next met img pos'
    | BBad => RFail
    | BNeed => RMore (XLen f met img tag is_section pos)
    end.
  (** ReadTag 1042-1068, then the rest. *)
  Fixpoint x_sections (f : nat) (avail : nat) (met : list Z) (img : picture) (pos : nat) : xres :=
    match f with
    | O => RFail
    | S f' =>
        if (pos <? avail)%nat then
          let marker := nth pos D 0 in
          let tag := Z.shiftr marker 3 in
          if (tag =? 0) || (15 <? tag) then RFail else
          let w := Z.land marker 7 in
          if negb ((w =? 0) || (w =? 2)) then RFail else
          if mem tag met then RFail else
          if negb (w =? 2) && known_tag tag then RFail else
          x_len (x_sections f' avail) f' (tag :: met) img tag (w =? 2) (S pos) avail
        else RMore (XTag f met img pos)
    end.

  Definition x_orig (q : bprog (list Z)) (pos avail : nat) : xres :=
    match brun D None q pos avail with
    | RDone data pos' => RDone (OOriginal data) pos'
    | RFail => RFail
    | RMore (q', pos') => RMore (XOrig q' pos')
    end.
  Definition x_head (q : bprog header) (pos avail : nat) : xres :=
    match brun D None q pos avail with
    | RDone HFallback pos' => x_orig decode_original pos' avail
    | RDone (HImage w h version legacy comps g) pos' => x_sections 16 avail [9; 2; 1] (pic_start w h version legacy comps g) pos'
    | RFail => RFail
    | RMore (q', pos') => RMore (XHead q' pos')
    end.

  (** DoProcessJpeg 2271-2312 up to DONE. *)
  Definition x_run (x : xstate B) (avail : nat) : xres :=
    match x with
    | XSig pos =>
        if (pos + 6 <=? avail)%nat then
          match verify_signature (slice D pos (pos + 6)) with
          | SigOk => x_head decode_header (pos + 6) avail
          | _ => RFail
          end
        else RMore x
    | XHead q pos => x_head q pos avail
    | XOrig q pos => x_orig q pos avail
    | XTag f met img pos => x_sections f avail met img pos
    | XLen f met img tag sec pos => x_len (x_sections f avail) f met img tag sec pos avail
    | XSkip f met img acc n pos => x_skip (x_sections f avail) f met img acc n pos avail
    | XBody f met img tag n start s => x_body (x_sections f avail) f met img tag n start s avail
    | XDone o pos => RDone o pos
    | XErr => RFail
    end.

  Definition x_at (x : xstate B) : nat :=
    match x with
    | XSig pos => pos | XHead _ pos => pos | XOrig _ pos => pos | XTag _ _ _ pos => pos | XLen _ _ _ _ _ pos => pos
    | XSkip _ _ _ _ _ pos => pos | XBody _ _ _ _ _ start s => (start + x_pos s)%nat | XDone _ pos => pos | XErr => 0%nat
    end.

  Definition x_process (x : xstate B) (avail : nat) : status * xstate B :=
    match x with
    | XErr => (StInvalid, XErr)
    | _ =>
        match x_run x avail with
        | RDone o q => if (q =? avail)%nat then (StOk, XDone o q) else (StInvalid, XErr)
        | RFail => (StInvalid, XErr)
        | RMore x' => (StNeed, x')
        end
    end.

  Definition x_parser : parser := {|
    pa_state := xstate B;
    pa_run := fun x w =>
      if list_eqb w (slice D (x_at x) (x_at x + length w)) then
        let '(r, x') := x_process x (x_at x + length w) in
        (r, (x_at x' - x_at x)%nat, x')
      else (StInvalid, 0%nat, XErr);
    pa_failed := fun x => match x with XErr => true | _ => false end |}.
End Run.

(** * What the serializer sees *)

(** jpeg_data.h: the JPEGData as filled in by the sections read so far; [planes]: the coefficients.
    Defaults are those of the constructors.  A section that is only partly read is left out here,
    except for metadata and coefficients: the serializer does not look before the tags 7 or 8
    have been met, and the other sections are complete then. *)
Definition view_jpeg (p : picture) (m : mstate) (planes : list plane) : jpeg :=
  let n := length (pi_samp p) in
  let x := pi_int p in
  mkJpeg (pi_w p) (pi_h p) (pi_version p)
    (g_max_h (pi_grid p)) (g_max_v (pi_grid p)) (g_mcu_rows (pi_grid p)) (g_mcu_cols (pi_grid p))
    (match x with Some (x, _) => in_restart x | None => 0 end) (m_app m) (m_com m)
    (match x with
     | Some (x, _) => make_quant (in_quant x) (match pi_quant p with Some (t, _) => t | None => repeat (repeat 0 64) (length (in_quant x)) end)
     | None => [] end)
    (match x with Some (x, _) => in_huff x | None => [] end)
    (make_comps (match x with Some (x, _) => in_ids x | None => repeat 0 n end) (pi_samp p) (g_blocks (pi_grid p))
       (match pi_quant p with Some (_, idx) => idx | None => repeat 0 n end) planes)
    (match x with Some (x, _) => in_scans x | None => [] end)
    (match x with Some (x, _) => in_markers x | None => [] end)
    (match x with Some (_, inter) => inter | None => [] end)
    (m_tail m)
    (match x with Some (x, _) => in_zero_pad x | None => false end)
    (match x with Some (x, _) => in_padding x | None => [] end).

Definition pic_meta (p : picture) : mstate := match pi_meta p with Some m => m | None => m_init end.
(** WarmupMeta 2243-2256 allocates the coefficients when the DC section starts. *)
Definition pic_planes (p : picture) : list plane :=
  match pi_ac p with
  | Some planes => planes
  | None => match pi_dc p with Some (planes, _) => planes | None => map (fun _ => []) (pi_samp p) end
  end.

(** next_mcu_y (state_internal.h:44), set where a block loop is left (662, 942). *)
Definition row_of (ms : list cmeta) (vs : list (nat * nat * nat)) : Z :=
  match vs with
  | (i, y, _) :: _ => match nth_error ms i with Some m => Z.of_nat (y / cm_vs m) | None => 0 end
  | [] => 0
  end.

Definition body_meta {B} (p : picture) (s : xbody B) : mstate :=
  match s with XPlain (BSMeta (MDBrotli _ _ _ ms _)) => ms | _ => pic_meta p end.
Definition body_planes {B} (p : picture) (s : xbody B) : list plane :=
  match s with
  | XDC _ t _ _ => dx_planes t
  | XAC _ (AOrders _ _ _ planes) _ _ => planes
  | XAC _ (ABlocks _ _ _ _ planes) _ _ => planes
  | _ => pic_planes p
  end.
Definition body_row {B} (s : xbody B) : Z :=
  match s with
  | XDC c t _ _ => row_of (cf_ms c) (dx_vs t)
  | XAC c (ABlocks _ _ vs _ _) _ _ => row_of (cf_ms c) vs
  | _ => 0
  end.

Definition blank (version : Z) : jpeg := mkJpeg 0 0 version 1 1 0 0 0 [] [] [] [] [] [] [] [] [] false [].

Definition look {B} (x : xstate B) : view :=
  let pic met p m planes row := mkView false (mem 7 met) (mem 8 met) row (view_jpeg p m planes) None in
  match x with
  | XTag _ met img _ => pic met img (pic_meta img) (pic_planes img) 0
  | XLen _ met img _ _ _ => pic met img (pic_meta img) (pic_planes img) 0
  | XSkip _ met img _ _ _ => pic met img (pic_meta img) (pic_planes img) 0
  | XBody _ met img _ _ _ s => pic met img (body_meta img s) (body_planes img s) (body_row s)
  | XDone (OImage img) _ => mkView true true true 0 (view_jpeg img (pic_meta img) (pic_planes img)) None
  | XDone (OOriginal data) _ => mkView true false false 0 (blank 1) (match data with [] => None | _ => Some data end)
  | _ => mkView false false false 0 (blank 0) None
  end.

(** brunsli_decode.cc:2509-2565, BrunsliDecoder::Decode, as [decode_call]. *)
Section Api.
  Context (B : brotli) (D : list Z).
  Definition xdecoder : Type := dstate (x_parser B D) * sstate real_serializer.
  Definition xdecode (d : xdecoder) (ext : list Z) (cap : nat) : option (sstatus * nat * list Z * xdecoder) :=
    let? r := drive (x_parser B D) (fst d) ext in
    let '(st, c, d1) := r in
    match st with
    | StInvalid => Some (Err, c, [], (d1, snd d))
    | _ =>
        let '(s, o, ss) := serialize real_serializer (look (d_st d1)) (snd d) cap in
        Some (s, c, o, (d1, ss))
    end.
  Definition xdecoder_start : xdecoder := (@mkD (x_parser B D) [] (XSig 0), mkSS GInit []).

  (** A caller: at every call the next [k] bytes of [D] that were not taken yet (or what is left)
      and a buffer of [cap] bytes.  Last status, bytes taken, bytes delivered. *)
  Fixpoint xdecode_calls (d : xdecoder) (T : nat) (st : sstatus) (calls : list (nat * nat)) : option (sstatus * nat * list Z * xdecoder) :=
    match calls with
    | [] => Some (st, T, [], d)
    | (k, cap) :: r =>
        let? a := xdecode d (firstn k (skipn T D)) cap in
        let '(s, c, o, d1) := a in
        let? b := xdecode_calls d1 (T + c) s r in
        let '(s2, T2, o2, d2) := b in Some (s2, T2, o ++ o2, d2)
    end.
End Api.
