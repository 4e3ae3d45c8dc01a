(** Entropy-coded data of JPEG scans: what the reader does with every block
    (c/enc/jpeg_data_reader.cc:574-978) and what the writer emits for it
    (c/dec/jpeg_data_writer.cc:185-263, 506-874).

    A component's coefficients are a list of 64-entry blocks, natural order.  An access
    outside of an array is [JUB]. *)
From Verif Require Import Base JpegModel LehmerModel CoefModel JBitModel JHuffModel.

(** jpeg_data_reader.cc:62, DivCeil. *)
Definition div_ceil (a b : Z) : Z := (a + b - 1) / b.

(** [coeffs\[kJPEGNaturalOrder\[k\]\]], read and written. *)
Definition zz_get (b : list Z) (k : Z) : jres Z :=
  let* i := aget kNaturalOrder k in aget b i.
Definition zz_set (b : list Z) (k v : Z) : jres (list Z) :=
  let* i := aget kNaturalOrder k in aset b i v.

(** * Reader *)

(** jpeg_data_reader.cc:574-583, HuffExtend. *)
Definition huff_extend (x s : Z) : Z := if 2 ^ (s - 1) <=? x then x else x - 2 ^ s + 1.

(** The variables a block decoder changes: bit source, [*eobrun], [*reset_state],
    [*num_zero_runs], [coeffs]. *)
Record rblk := mkRB { rb_s : bitr; rb_eob : Z; rb_reset : bool; rb_nzr : Z; rb_c : list Z }.

(** An end-of-block symbol with run category [rr] (660-675, 718-736). *)
Definition read_eob (data : list Z) (allowed at_start : bool) (rr : Z) (s : bitr) (r : rblk) : jres rblk :=
  let reset := if allowed && at_start && (rb_eob r =? 0) then true else rb_reset r in
  if 0 <? rr then
    if allowed then
      let* (x, s) := br_read data rr s in
      JOk (mkRB s (2 ^ rr + x) reset (rb_nzr r) (rb_c r))
    else JErr
  else JOk (mkRB s 1 reset (rb_nzr r) (rb_c r)).

(** jpeg_data_reader.cc:628-677, the loop over the band.  [k] grows in every round, 64
    rounds are enough. *)
Fixpoint dec_ac (fuel : nat) (data : list Z) (lut : list (Z * Z)) (ss se al : Z) (allowed : bool)
    (k : Z) (r : rblk) : jres rblk :=
  match fuel with
  | O => JUB
  | S f =>
      if se <? k then JOk r
      else
        let* (sr, s) := read_symbol data lut (rb_s r) in
        if 256 <=? sr then JErr
        else
          let rr := Z.shiftr sr 4 in
          let sz := Z.land sr 15 in
          if 0 <? sz then
            let k := k + rr in
            if se <? k then JErr
            else if 12 <=? sz + al then JErr
            else
              let* (bits, s) := br_read data sz s in
              let* c := zz_set (rb_c r) k (to_i16 (huff_extend bits sz * 2 ^ al)) in
              dec_ac f data lut ss se al allowed (k + 1) (mkRB s (rb_eob r) (rb_reset r) 0 c)
          else if rr =? 15 then
            dec_ac f data lut ss se al allowed (k + 16)
              (mkRB s (rb_eob r) (rb_reset r) (rb_nzr r + 1) (rb_c r))
          else read_eob data allowed (k =? ss) rr s r
  end.

(** jpeg_data_reader.cc:594-619, the DC coefficient of a first scan. *)
Definition dec_dc (data : list Z) (lut : list (Z * Z)) (al : Z) (last : Z) (r : rblk) : jres (rblk * Z) :=
  let* (sz, s) := read_symbol data lut (rb_s r) in
  if 12 <=? sz then JErr
  else
    let* (diff, s) :=
      (if 0 <? sz then let* (bits, s) := br_read data sz s in JOk (huff_extend bits sz, s)
       else JOk (0, s)) in
    let coeff := diff + last in
    let dc := coeff * 2 ^ al in
    if negb (dc =? to_i16 dc) then JErr
    else
      let* c := aset (rb_c r) 0 dc in
      JOk (mkRB s (rb_eob r) (rb_reset r) (rb_nzr r) c, to_i16 coeff).

(** jpeg_data_reader.cc:586-680, DecodeDCTBlock. *)
Definition decode_block (data : list Z) (dc_lut ac_lut : list (Z * Z)) (ss se al last : Z) (r : rblk)
  : jres (rblk * Z) :=
  let allowed := 0 <? ss in
  let* (r, last) := (if ss =? 0 then dec_dc data dc_lut al last r else JOk (r, last)) in
  let ss := if ss =? 0 then 1 else ss in
  if se <? ss then JOk (r, last)
  else if 0 <? rb_eob r then JOk (mkRB (rb_s r) (rb_eob r - 1) (rb_reset r) (rb_nzr r) (rb_c r), last)
  else
    let* r := dec_ac 64 data ac_lut ss se al allowed ss (mkRB (rb_s r) (rb_eob r) (rb_reset r) 0 (rb_c r)) in
    JOk (mkRB (rb_s r) (rb_eob r - 1) (rb_reset r) (rb_nzr r) (rb_c r), last).

(** One more bit of a coefficient that is already non-zero (744-753, 787-796). *)
Definition ref_coef (data : list Z) (al t : Z) (s : bitr) : jres (Z * bitr) :=
  let* (b, s) := br_read data 1 s in
  JOk ((if negb (b =? 0) && (Z.land t (2 ^ al) =? 0)
        then to_i16 (if 0 <=? t then t + 2 ^ al else t - 2 ^ al) else t), s).

(** jpeg_data_reader.cc:741-761, the inner loop; the result is [k] with the state behind
    the loop. *)
Fixpoint ref_skip (fuel : nat) (data : list Z) (se al k rr : Z) (s : bitr) (c : list Z)
  : jres (Z * (bitr * list Z)) :=
  match fuel with
  | O => JUB
  | S f =>
      let* t := zz_get c k in
      if t =? 0 then
        if rr - 1 <? 0 then JOk (k, (s, c))
        else if k + 1 <=? se then ref_skip f data se al (k + 1) (rr - 1) s c
        else JOk (k + 1, (s, c))
      else
        let* (t, s) := ref_coef data al t s in
        let* c := zz_set c k t in
        if k + 1 <=? se then ref_skip f data se al (k + 1) rr s c
        else JOk (k + 1, (s, c))
  end.

(** jpeg_data_reader.cc:702-774, the loop over the band; also returned: [k] and
    [in_zero_run]. *)
Fixpoint ref_ac (fuel : nat) (data : list Z) (lut : list (Z * Z)) (ss se al : Z) (allowed : bool)
    (k : Z) (zr : bool) (r : rblk) : jres (Z * (bool * rblk)) :=
  match fuel with
  | O => JUB
  | S f =>
      if se <? k then JOk (k, (zr, r))
      else
        let* (sr, s) := read_symbol data lut (rb_s r) in
        if 256 <=? sr then JErr
        else
          let rr := Z.shiftr sr 4 in
          let sz := Z.land sr 15 in
          if sz =? 0 then
            if rr =? 15 then
              let* (k, (s, c)) := ref_skip 64 data se al k rr s (rb_c r) in
              ref_ac f data lut ss se al allowed (k + 1) true
                (mkRB s (rb_eob r) (rb_reset r) (rb_nzr r) c)
            else
              let* r := read_eob data allowed (k =? ss) rr s r in JOk (k, (zr, r))
          else if sz =? 1 then
            let* (b, s) := br_read data 1 s in
            let v := if b =? 0 then - 2 ^ al else 2 ^ al in
            let* (k, (s, c)) := ref_skip 64 data se al k rr s (rb_c r) in
            if se <? k then JErr
            else
              let* c := zz_set c k (to_i16 v) in
              ref_ac f data lut ss se al allowed (k + 1) false
                (mkRB s (rb_eob r) (rb_reset r) (rb_nzr r) c)
          else JErr
  end.

(** jpeg_data_reader.cc:782-798, the rest of a block inside an end-of-block run. *)
Fixpoint ref_tail (fuel : nat) (data : list Z) (se al k : Z) (s : bitr) (c : list Z) : jres (bitr * list Z) :=
  match fuel with
  | O => JUB
  | S f =>
      if se <? k then JOk (s, c)
      else
        let* t := zz_get c k in
        if t =? 0 then ref_tail f data se al (k + 1) s c
        else
          let* (t, s) := ref_coef data al t s in
          let* c := zz_set c k t in
          ref_tail f data se al (k + 1) s c
  end.

(** jpeg_data_reader.cc:682-801, RefineDCTBlock. *)
Definition refine_block (data : list Z) (ac_lut : list (Z * Z)) (ss se al : Z) (r : rblk) : jres rblk :=
  let allowed := 0 <? ss in
  let* r :=
    (if ss =? 0 then
       let* (b, s) := br_read data 1 (rb_s r) in
       let* dc := aget (rb_c r) 0 in
       let* c := aset (rb_c r) 0 (to_i16 (Z.lor dc (b * 2 ^ al))) in
       JOk (mkRB s (rb_eob r) (rb_reset r) (rb_nzr r) c)
     else JOk r) in
  let ss := if ss =? 0 then 1 else ss in
  if se <? ss then JOk r
  else
    let* (k, (zr, r)) :=
      (if rb_eob r <=? 0 then ref_ac 64 data ac_lut ss se al allowed ss false r
       else JOk (ss, (false, r))) in
    if zr then JErr
    else
      let* (s, c) :=
        (if 0 <? rb_eob r then ref_tail 65 data se al k (rb_s r) (rb_c r) else JOk (rb_s r, rb_c r)) in
      JOk (mkRB s (rb_eob r - 1) (rb_reset r) (rb_nzr r) c).

(** * Blocks in the order of a scan (reader 890-906, writer 771-785) *)

(** The MCUs, row by row. *)
Definition iotaZ (n : Z) : list Z := map Z.of_nat (seq 0 (Z.to_nat n)).
Definition mcus (rows cols : Z) : list (Z * Z) :=
  flat_map (fun y => map (fun x => (y, x)) (iotaZ cols)) (iotaZ rows).

Definition no_comp : component := mkComp 0 0 0 0 0 0 [].
Definition comp_at (comps : list component) (i : Z) : component := nth (Z.to_nat i) comps no_comp.

(** Blocks of one MCU: position in the scan header, block number in the component. *)
Definition mcu_visits (comps : list component) (cs : list compscan) (interleaved : bool) (yx : Z * Z)
  : list (compscan * Z) :=
  flat_map (fun si =>
    let c := comp_at comps (cs_comp si) in
    let nby := if interleaved then c_v c else 1 in
    let nbx := if interleaved then c_h c else 1 in
    flat_map (fun iy =>
      map (fun ix => (si, (fst yx * nby + iy) * c_wb c + (snd yx * nbx + ix))) (iotaZ nbx)) (iotaZ nby)) cs.

(** * Reader, scan level *)

(** Variables of ProcessScan and the parts of JPEGData it changes. *)
Record rscan := mkRS {
  rs_s : bitr; rs_eob : Z; rs_last : list Z; rs_bsi : Z; rs_togo : Z; rs_next : Z;
  rs_comps : list component; rs_resets : list Z; rs_zruns : list (Z * Z);
  rs_zero_pad : bool; rs_padding : list Z }.

(** Values that stay the same during a scan. *)
Record scanpar := mkSP {
  sp_ss : Z; sp_se : Z; sp_ah : Z; sp_al : Z; sp_inter : bool; sp_restart : Z; sp_cs : list compscan }.

Definition set_coeffs (c : component) (l : list (list Z)) : component :=
  mkComp (c_id c) (c_h c) (c_v c) (c_quant c) (c_wb c) (c_hb c) l.

(** jpeg_data_reader.cc:907-934, one block. *)
Definition read_visit (data : list Z) (dc_luts ac_luts : list (list (Z * Z))) (p : scanpar) (v : compscan * Z)
    (r : rscan) : jres rscan :=
  let ci := cs_comp (fst v) in
  let* c := aget (rs_comps r) ci in
  let* b := aget (c_coeffs c) (snd v) in
  let* dcl := aget dc_luts (cs_dc (fst v)) in
  let* acl := aget ac_luts (cs_ac (fst v)) in
  let* last := aget (rs_last r) ci in
  let rb := mkRB (rs_s r) (rs_eob r) false 0 b in
  let* (rb, last) :=
    (if sp_ah p =? 0 then decode_block data dcl acl (sp_ss p) (sp_se p) (sp_al p) last rb
     else let* rb := refine_block data acl (sp_ss p) (sp_se p) (sp_al p) rb in JOk (rb, last)) in
  let* lasts := aset (rs_last r) ci last in
  let* blocks := aset (c_coeffs c) (snd v) (rb_c rb) in
  let* comps := aset (rs_comps r) ci (set_coeffs c blocks) in
  JOk (mkRS (rb_s rb) (rb_eob rb) lasts (rs_bsi r + 1) (rs_togo r) (rs_next r) comps
        (if rb_reset rb then rs_resets r ++ [rs_bsi r] else rs_resets r)
        (if 0 <? rb_nzr rb then rs_zruns r ++ [(rs_bsi r, rb_nzr rb)] else rs_zruns r)
        (rs_zero_pad r) (rs_padding r)).

Fixpoint read_visits (data : list Z) (dc_luts ac_luts : list (list (Z * Z))) (p : scanpar)
    (vs : list (compscan * Z)) (r : rscan) : jres rscan :=
  match vs with
  | [] => JOk r
  | v :: vs' => let* r := read_visit data dc_luts ac_luts p v r in read_visits data dc_luts ac_luts p vs' r
  end.

(** jpeg_data_reader.cc:803-825, ProcessRestart, with the checks at 882-893. *)
Definition read_restart (data : list Z) (p : scanpar) (r : rscan) : jres rscan :=
  if (0 <? sp_restart p) && (rs_togo r =? 0) then
    let* (zp, pos) := br_finish data (rs_s r) in
    let len := Z.of_nat (length data) in
    if len <? pos + 2 then JErr
    else
      let* a := aget data pos in
      if negb (a =? 255) then JErr
      else
        let* m := aget data (pos + 1) in
        if negb (m =? 208 + rs_next r) then JErr
        else
          let* s := br_reset data (pos + 2) in
          if 0 <? rs_eob r then JErr
          else JOk (mkRS s (-1) (repeat 0 4) (rs_bsi r) (sp_restart p) (Z.land (rs_next r + 1) 7)
                      (rs_comps r) (rs_resets r) (rs_zruns r)
                      (rs_zero_pad r || fst zp) (rs_padding r ++ snd zp))
  else JOk r.

(** jpeg_data_reader.cc:878-941, one MCU. *)
Definition read_mcu (data : list Z) (dc_luts ac_luts : list (list (Z * Z))) (p : scanpar) (yx : Z * Z)
    (r : rscan) : jres rscan :=
  let* r := read_restart data p r in
  let r := if 0 <? sp_restart p
           then mkRS (rs_s r) (rs_eob r) (rs_last r) (rs_bsi r) (rs_togo r - 1) (rs_next r) (rs_comps r)
                  (rs_resets r) (rs_zruns r) (rs_zero_pad r) (rs_padding r) else r in
  if br_unhealthy (rs_s r) then JErr
  else read_visits data dc_luts ac_luts p (mcu_visits (rs_comps r) (sp_cs p) (sp_inter p) yx) r.

Fixpoint read_mcus (data : list Z) (dc_luts ac_luts : list (list (Z * Z))) (p : scanpar)
    (ms : list (Z * Z)) (r : rscan) : jres rscan :=
  match ms with
  | [] => JOk r
  | m :: ms' => let* r := read_mcu data dc_luts ac_luts p m r in read_mcus data dc_luts ac_luts p ms' r
  end.

(** Scan parameters: jpeg_data_reader.cc:846-853 and jpeg_data_writer.cc:750-755, 856-865. *)
Definition scan_params (progressive : bool) (si : scaninfo) (restart : Z) : scanpar :=
  mkSP (if progressive then si_ss si else 0) (if progressive then si_se si else 63)
       (if progressive then si_ah si else 0) (if progressive then si_al si else 0)
       (1 <? Z.of_nat (length (si_comps si))) restart (si_comps si).

(** jpeg_data_reader.cc:836-852: MCU rows and columns. *)
Definition read_dims (j : jpeg) (p : scanpar) : Z * Z :=
  if sp_inter p then (j_mcu_rows j, j_mcu_cols j)
  else
    let c := comp_at (j_comps j) (match sp_cs p with s :: _ => cs_comp s | [] => 0 end) in
    (div_ceil (j_height j * c_v c) (8 * j_max_v j), div_ceil (j_width j * c_h c) (8 * j_max_h j)).

(** jpeg_data_reader.cc:834-835, 853-860, 878-978: the entropy-coded part of ProcessScan, from
    the position behind the scan header.  The result has the new position. *)
Definition read_scan_data (data : list Z) (dc_luts ac_luts : list (list (Z * Z))) (j : jpeg) (p : scanpar)
    (pos : Z) : jres (rscan * Z) :=
  let* s := br_reset data pos in
  let dims := read_dims j p in
  let* r := read_mcus data dc_luts ac_luts p (mcus (fst dims) (snd dims))
      (mkRS s (-1) (repeat 0 4) 0 (sp_restart p) 0 (j_comps j) [] [] (j_zero_pad j) (j_padding j)) in
  if 0 <? rs_eob r then JErr
  else
    let* (zp, pos) := br_finish data (rs_s r) in
    if Z.of_nat (length data) <? pos then JErr
    else JOk (mkRS (rs_s r) (rs_eob r) (rs_last r) (rs_bsi r) (rs_togo r) (rs_next r) (rs_comps r)
                (rs_resets r) (rs_zruns r) (rs_zero_pad r || fst zp) (rs_padding r ++ snd zp), pos).

(** jpeg_data_reader.cc:856-877: [scan_progression] (one list of 64 16-bit masks per
    component) is checked and updated; the check of [Al] comes last. *)
Definition prog_mark (ah al : Z) (m : Z) : jres Z :=
  let scan_bits := if ah =? 0 then Z.shiftl 65535 al mod 65536 else 2 ^ al mod 65536 in
  if negb (Z.land m scan_bits =? 0) then JErr
  else if negb (Z.land m ((2 ^ al - 1) mod 65536) =? 0) then JErr
  else JOk (Z.lor m scan_bits).

Fixpoint prog_band (fuel : nat) (ah al k se : Z) (l : list Z) : jres (list Z) :=
  match fuel with
  | O => JUB
  | S f =>
      if se <? k then JOk l
      else
        let* m := aget l k in
        let* m' := prog_mark ah al m in
        let* l' := aset l k m' in
        prog_band f ah al (k + 1) se l'
  end.

Fixpoint prog_check (p : scanpar) (cs : list compscan) (prog : list (list Z)) : jres (list (list Z)) :=
  match cs with
  | [] => if 10 <? sp_al p then JErr else JOk prog
  | si :: cs' =>
      let* l := aget prog (cs_comp si) in
      let* l' := prog_band 65 (sp_ah p) (sp_al p) (sp_ss p) (sp_se p) l in
      let* prog' := aset prog (cs_comp si) l' in
      prog_check p cs' prog'
  end.

(** * Writer *)

(** DCTCodingState (serialization_state.h:37-48) together with the calls made on the bit
    writer so far. *)
Record wcs := mkWC { wc_ops : list wop; wc_eob : Z; wc_tab : codetab; wc_rb : list Z; wc_rbn : Z }.

Definition put (o : wop) (st : wcs) : wcs :=
  mkWC (wc_ops st ++ [o]) (wc_eob st) (wc_tab st) (wc_rb st) (wc_rbn st).

(** [WriteBits(bw, huff.depth\[v\], huff.code\[v\])]. *)
Definition put_sym (tab : codetab) (v : Z) (st : wcs) : jres wcs :=
  let* n := aget (fst tab) v in
  let* c := aget (snd tab) v in
  JOk (put (WBitsOp n c) st).

(** Log2FloorNonZero; its argument is positive wherever the model succeeds. *)
Definition log2nz (x : Z) : jres Z := if x <=? 0 then JUB else JOk (Z.log2 x).

(** [for i < n: WriteBits(bw, 16, refinement_bits_\[i\])]. *)
Fixpoint put_words (n : nat) (i : Z) (st : wcs) : jres wcs :=
  match n with
  | O => JOk st
  | S n' => let* w := aget (wc_rb st) i in put_words n' (i + 1) (put (WBitsOp 16 w) st)
  end.

(** jpeg_data_writer.cc:195-216, Flush. *)
Definition flush (st : wcs) : jres wcs :=
  let* st :=
    (if 0 <? wc_eob st then
       let nbits := Z.log2 (wc_eob st) in
       let* st := put_sym (wc_tab st) (Z.shiftl nbits 4) st in
       let st := if 0 <? nbits then put (WBitsOp nbits (Z.land (wc_eob st) (2 ^ nbits - 1))) st else st in
       JOk (mkWC (wc_ops st) 0 (wc_tab st) (wc_rb st) (wc_rbn st))
     else JOk st) in
  let* st := put_words (Z.to_nat (Z.shiftr (wc_rbn st) 4)) 0 st in
  let tail := Z.land (wc_rbn st) 15 in
  let* st :=
    (if negb (tail =? 0) then
       let* w := aget (wc_rb st) (Z.of_nat (length (wc_rb st)) - 1) in JOk (put (WBitsOp tail w) st)
     else JOk st) in
  JOk (mkWC (wc_ops st) (wc_eob st) (wc_tab st) [] 0).

(** jpeg_data_writer.cc:229-232. *)
Definition join_bits (l : list Z) : Z := fold_left (fun x b => Z.lor (Z.shiftl x 1 mod 2 ^ 64) b) l 0.

(** jpeg_data_writer.cc:244-252. *)
Fixpoint push_words (fuel : nat) (x n : Z) (rb : list Z) (cnt : Z) : list Z * Z :=
  match fuel with
  | O => (rb, cnt)
  | S f =>
      if 16 <=? n then push_words f x (n - 16) (rb ++ [Z.shiftr x (n - 16) mod 2 ^ 16]) (cnt + 16)
      else if negb (n =? 0) then (rb ++ [Z.land x (2 ^ n - 1) mod 2 ^ 16], cnt + n)
      else (rb, cnt)
  end.

(** jpeg_data_writer.cc:220-263, BufferEndOfBand; [JErr] is the false result. *)
Definition buffer_eob (tab : codetab) (bits : list Z) (st : wcs) : jres wcs :=
  let tab' := if wc_eob st =? 0 then tab else wc_tab st in
  let eob := wc_eob st + 1 in
  let n := Z.of_nat (length bits) in
  let* (rb, cnt) :=
    (if negb (n =? 0) then
       let x := join_bits bits in
       let tail := Z.land (wc_rbn st) 15 in
       if negb (tail =? 0) then
         let sn := Z.min (16 - tail) n in
         let sb := Z.land (Z.shiftr x (n - sn) mod 2 ^ 16) (2 ^ sn - 1) in
         let at_ := Z.of_nat (length (wc_rb st)) - 1 in
         let* w := aget (wc_rb st) at_ in
         let* rb := aset (wc_rb st) at_ (Z.lor (Z.shiftl w sn) sb mod 2 ^ 16) in
         JOk (push_words 5 x (n - sn) rb (wc_rbn st + sn))
       else JOk (push_words 5 x n (wc_rb st) (wc_rbn st))
     else JOk (wc_rb st, wc_rbn st)) in
  if 32767 * 63 <? cnt then JErr
  else
    let st := mkWC (wc_ops st) eob tab' rb cnt in
    if eob =? 32767 then flush st else JOk st.

(** The DC coefficient (512-525 and 566-581); [t] is the coefficient shifted by [Al]. *)
Definition put_dc (tab : codetab) (t last : Z) (st : wcs) : jres (Z * wcs) :=
  let d := to_i16 (t - last) in
  let '(a, v) := if d <? 0 then (to_i16 (- d), to_i16 (d - 1)) else (d, d) in
  let* nbits := (if a =? 0 then JOk 0 else let* l := log2nz a in JOk (l + 1)) in
  let* st := put_sym tab nbits st in
  JOk (t, if 0 <? nbits then put (WBitsOp nbits (Z.land v (2 ^ nbits - 1))) st else st).

(** [while (r > 15) { WriteBits(ZRL); r -= 16; }]; [r] is below 64. *)
Fixpoint put_zrl (fuel : nat) (tab : codetab) (r : Z) (st : wcs) : jres (Z * wcs) :=
  match fuel with
  | O => JUB
  | S f => if 15 <? r then let* st := put_sym tab 240 st in put_zrl f tab (r - 16) st else JOk (r, st)
  end.

(** [for i < n: WriteBits(ZRL)]. *)
Fixpoint put_extra (n : nat) (tab : codetab) (st : wcs) : jres wcs :=
  match n with O => JOk st | S n' => let* st := put_sym tab 240 st in put_extra n' tab st end.

(** A non-zero coefficient: run/size symbol and the value bits (534-548, 592-615).  [a] is
    the shifted absolute value. *)
Definition put_coef (tab : codetab) (neg : bool) (a r : Z) (st : wcs) : jres wcs :=
  let* (r, st) := put_zrl 5 tab r st in
  let* l := log2nz a in
  let nbits := l + 1 in
  let* st := put_sym tab (Z.shiftl r 4 + nbits) st in
  JOk (put (WBitsOp nbits (Z.land (if neg then - a - 1 else a) (2 ^ nbits - 1))) st).

(** jpeg_data_writer.cc:526-548, AC loop of a sequential scan; the result has [r]. *)
Fixpoint seq_ac (fuel : nat) (b : list Z) (tab : codetab) (k r : Z) (st : wcs) : jres (Z * wcs) :=
  match fuel with
  | O => JUB
  | S f =>
      if 64 <=? k then JOk (r, st)
      else
        let* t := zz_get b k in
        if t =? 0 then seq_ac f b tab (k + 1) (r + 1) st
        else
          let* st := put_coef tab (t <? 0) (if t <? 0 then to_i16 (- t) else t) r st in
          seq_ac f b tab (k + 1) 0 st
  end.

(** jpeg_data_writer.cc:506-556, EncodeDCTBlockSequential. *)
Definition encode_seq (b : list Z) (dct act : codetab) (nzr last : Z) (st : wcs) : jres (Z * wcs) :=
  let* t := aget b 0 in
  let* (last, st) := put_dc dct t last st in
  let* (r, st) := seq_ac 64 b act 1 0 st in
  let* st := put_extra (Z.to_nat nzr) act st in
  let r := r - 16 * Z.max 0 nzr in
  if 0 <? r then let* st := put_sym act 0 st in JOk (last, st) else JOk (last, st).

(** jpeg_data_writer.cc:586-615, AC loop of a first progressive scan. *)
Fixpoint prog_ac (fuel : nat) (b : list Z) (tab : codetab) (se al k r : Z) (st : wcs) : jres (Z * wcs) :=
  match fuel with
  | O => JUB
  | S f =>
      if se <? k then JOk (r, st)
      else
        let* t := zz_get b k in
        if t =? 0 then prog_ac f b tab se al (k + 1) (r + 1) st
        else
          let a := Z.shiftr (if t <? 0 then to_i16 (- t) else t) al in
          if a =? 0 then prog_ac f b tab se al (k + 1) (r + 1) st
          else
            let* st := flush st in
            let* st := put_coef tab (t <? 0) a r st in
            prog_ac f b tab se al (k + 1) 0 st
  end.

(** jpeg_data_writer.cc:558-630, EncodeDCTBlockProgressive. *)
Definition encode_prog (b : list Z) (dct act : codetab) (ss se al nzr last : Z) (st : wcs) : jres (Z * wcs) :=
  let allowed := 0 <? ss in
  let* (last, st) :=
    (if ss =? 0 then let* t := aget b 0 in put_dc dct (Z.shiftr t al) last st else JOk (last, st)) in
  let ss := if ss =? 0 then 1 else ss in
  if se <? ss then JOk (last, st)
  else
    let* (r, st) := prog_ac 64 b act se al ss 0 st in
    let* st := (if 0 <? nzr then let* st := flush st in put_extra (Z.to_nat nzr) act st else JOk st) in
    let r := if 0 <? nzr then r - 16 * nzr else r in
    if 0 <? r then
      let* st := buffer_eob act [] st in
      let* st := (if allowed then JOk st else flush st) in
      JOk (last, st)
    else JOk (last, st).

(** [abs_values\[k\]] (647-648). *)
Definition abs_at (b : list Z) (al k : Z) : jres Z :=
  let* t := zz_get b k in JOk (Z.shiftr (to_i16 (Z.abs t)) al).

(** jpeg_data_writer.cc:645-652: the last newly non-zero coefficient. *)
Fixpoint last_new (fuel : nat) (b : list Z) (al k se eob : Z) : jres Z :=
  match fuel with
  | O => JUB
  | S f =>
      if se <? k then JOk eob
      else let* a := abs_at b al k in last_new f b al (k + 1) se (if a =? 1 then k else eob)
  end.

Definition put_each (bits : list Z) (st : wcs) : wcs := fold_left (fun st b => put (WBitsOp 1 b) st) bits st.

(** jpeg_data_writer.cc:661-669. *)
Fixpoint ref_zrl (fuel : nat) (tab : codetab) (k eob r : Z) (bits : list Z) (st : wcs)
  : jres (Z * (list Z * wcs)) :=
  match fuel with
  | O => JUB
  | S f =>
      if (15 <? r) && (k <=? eob) then
        let* st := flush st in
        let* st := put_sym tab 240 st in
        ref_zrl f tab k eob (r - 16) [] (put_each bits st)
      else JOk (r, (bits, st))
  end.

(** jpeg_data_writer.cc:656-684, the loop over the band. *)
Fixpoint refw_ac (fuel : nat) (b : list Z) (tab : codetab) (se al eob k r : Z) (bits : list Z) (st : wcs)
  : jres (Z * (list Z * wcs)) :=
  match fuel with
  | O => JUB
  | S f =>
      if se <? k then JOk (r, (bits, st))
      else
        let* a := abs_at b al k in
        if a =? 0 then refw_ac f b tab se al eob (k + 1) (r + 1) bits st
        else
          let* (r, (bits, st)) := ref_zrl 5 tab k eob r bits st in
          if 1 <? a then refw_ac f b tab se al eob (k + 1) r (bits ++ [Z.land a 1]) st
          else
            let* st := flush st in
            let* t := zz_get b k in
            let* st := put_sym tab (Z.shiftl r 4 + 1) st in
            let st := put (WBitsOp 1 (if t <? 0 then 0 else 1)) st in
            refw_ac f b tab se al eob (k + 1) 0 [] (put_each bits st)
  end.

(** jpeg_data_writer.cc:632-695, EncodeRefinementBits. *)
Definition encode_refine (b : list Z) (act : codetab) (ss se al : Z) (st : wcs) : jres wcs :=
  let allowed := 0 <? ss in
  let* st :=
    (if ss =? 0 then let* t := aget b 0 in JOk (put (WBitsOp 1 (Z.land (Z.shiftr t al) 1)) st) else JOk st) in
  let ss := if ss =? 0 then 1 else ss in
  if se <? ss then JOk st
  else
    let* eob := last_new 64 b al ss se 0 in
    let* (r, (bits, st)) := refw_ac 64 b act se al eob ss 0 [] st in
    if (0 <? r) || negb (Z.of_nat (length bits) =? 0) then
      let* st := buffer_eob act bits st in
      if allowed then JOk st else flush st
    else JOk st.

(** * Writer, scan level *)

(** EncodeScanState (serialization_state.h:50-70): reset points and extra zero runs still
    to come are lists, [ws_nr] is [next_reset_point]. *)
Record wscan := mkWS {
  ws_c : wcs; ws_last : list Z; ws_bsi : Z; ws_togo : Z; ws_next : Z;
  ws_nr : Z; ws_resets : list Z; ws_zruns : list (Z * Z) }.

(** get_next_reset_point (726-732) and get_next_extra_zero_run_index (718-724). *)
Definition pop_reset (l : list Z) : Z * list Z := match l with i :: r => (i, r) | [] => (-1, []) end.
Definition next_zrun (l : list (Z * Z)) : Z := match l with (i, _) :: _ => i | [] => -1 end.

(** jpeg_data_writer.cc:786-829, one block; the mode is 0, 1 or 2. *)
Definition write_visit (comps : list component) (dc_tabs ac_tabs : list codetab) (mode : Z) (p : scanpar)
    (v : compscan * Z) (w : wscan) : jres wscan :=
  let ci := cs_comp (fst v) in
  let* c := aget comps ci in
  let* dct := aget dc_tabs (cs_dc (fst v)) in
  let* act := aget ac_tabs (cs_ac (fst v)) in
  let* (st, (nr, resets)) :=
    (if ws_bsi w =? ws_nr w then let* st := flush (ws_c w) in JOk (st, pop_reset (ws_resets w))
     else JOk (ws_c w, (ws_nr w, ws_resets w))) in
  let '(nzr, zruns) :=
    if ws_bsi w =? next_zrun (ws_zruns w) then
      match ws_zruns w with (_, n) :: l => (n, l) | [] => (0, []) end
    else (0, ws_zruns w) in
  let* b := aget (c_coeffs c) (snd v) in
  let* last := aget (ws_last w) ci in
  let* (last, st) :=
    (if mode =? 0 then encode_seq b dct act nzr last st
     else if mode =? 1 then encode_prog b dct act (sp_ss p) (sp_se p) (sp_al p) nzr last st
     else let* st := encode_refine b act (sp_ss p) (sp_se p) (sp_al p) st in JOk (last, st)) in
  let* lasts := aset (ws_last w) ci last in
  JOk (mkWS st lasts (ws_bsi w + 1) (ws_togo w) (ws_next w) nr resets zruns).

Fixpoint write_visits (comps : list component) (dc_tabs ac_tabs : list codetab) (mode : Z) (p : scanpar)
    (vs : list (compscan * Z)) (w : wscan) : jres wscan :=
  match vs with
  | [] => JOk w
  | v :: vs' => let* w := write_visit comps dc_tabs ac_tabs mode p v w in
                write_visits comps dc_tabs ac_tabs mode p vs' w
  end.

(** jpeg_data_writer.cc:762-773, the restart marker. *)
Definition write_restart (p : scanpar) (w : wscan) : jres wscan :=
  if (0 <? sp_restart p) && (ws_togo w =? 0) then
    let* st := flush (ws_c w) in
    let st := put (WMarkerOp (208 + ws_next w)) (put WJumpOp st) in
    JOk (mkWS st (repeat 0 4) (ws_bsi w) (sp_restart p) (Z.land (ws_next w + 1) 7)
           (ws_nr w) (ws_resets w) (ws_zruns w))
  else JOk w.

(** jpeg_data_writer.cc:761-832, one MCU. *)
Definition write_mcu (comps : list component) (dc_tabs ac_tabs : list codetab) (mode : Z) (p : scanpar)
    (yx : Z * Z) (w : wscan) : jres wscan :=
  let* w := write_restart p w in
  let* w := write_visits comps dc_tabs ac_tabs mode p (mcu_visits comps (sp_cs p) (sp_inter p) yx) w in
  JOk (mkWS (ws_c w) (ws_last w) (ws_bsi w) (ws_togo w - 1) (ws_next w) (ws_nr w) (ws_resets w) (ws_zruns w)).

Fixpoint write_mcus (comps : list component) (dc_tabs ac_tabs : list codetab) (mode : Z) (p : scanpar)
    (ms : list (Z * Z)) (w : wscan) : jres wscan :=
  match ms with
  | [] => JOk w
  | m :: ms' => let* w := write_mcu comps dc_tabs ac_tabs mode p m w in
                write_mcus comps dc_tabs ac_tabs mode p ms' w
  end.

(** jpeg_data_writer.cc:739-749: MCU rows and columns. *)
Definition write_dims (j : jpeg) (p : scanpar) : Z * Z :=
  let c := comp_at (j_comps j) (match sp_cs p with s :: _ => cs_comp s | [] => 0 end) in
  let hg := if sp_inter p then 1 else c_h c in
  let vg := if sp_inter p then 1 else c_v c in
  (div_ceil (j_height j * vg) (8 * j_max_v j), div_ceil (j_width j * hg) (8 * j_max_h j)).

(** jpeg_data_writer.cc:856-874, EncodeScan: the choice of the mode. *)
Definition scan_mode (progressive : bool) (p : scanpar) : Z :=
  if negb progressive || ((sp_ah p =? 0) && (sp_al p =? 0) && (sp_ss p =? 0) && (sp_se p =? 63)) then 0
  else if sp_ah p =? 0 then 1 else 2.

(** jpeg_data_writer.cc:697-854, DoEncodeScan behind the scan header: the calls on the bit
    writer, with all coefficients available ([complete]).  [cur_ac_huff_] is null at first: any
    use of the empty table is undefined. *)
Definition write_scan_ops (j : jpeg) (dc_tabs ac_tabs : list codetab) (progressive : bool) (si : scaninfo)
    (restart : Z) : jres (list wop) :=
  let p := scan_params progressive si restart in
  let dims := write_dims j p in
  let '(nr, resets) := pop_reset (si_resets si) in
  let* w := write_mcus (j_comps j) dc_tabs ac_tabs (scan_mode progressive p) p (mcus (fst dims) (snd dims))
      (mkWS (mkWC [] 0 ([], []) [] 0) (repeat 0 4) 0 restart 0 nr resets (si_zero_runs si)) in
  let* st := flush (ws_c w) in
  JOk (wc_ops st ++ [WJumpOp]).

(** The bytes of the scan and the remaining padding bits; [JErr] when the bit writer is
    not healthy. *)
Definition write_scan_data (j : jpeg) (dc_tabs ac_tabs : list codetab) (progressive : bool) (si : scaninfo)
    (restart : Z) (pads : option (list Z)) : jres (list Z * option (list Z)) :=
  let* ops := write_scan_ops j dc_tabs ac_tabs progressive si restart in
  match bw_run ops pads bw_init with
  | WOk (s, pads') => if bw_ok s then JOk (bw_finish s, pads') else JErr
  | WFail => JErr
  | WUB => JUB
  end.
