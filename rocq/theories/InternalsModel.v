(** The JPEGInternals section: marker order, restart interval, Huffman codes, scan
    script, quantisation table headers, component ids, padding bits and the bytes
    found between markers. *)
From Verif Require Import Base BitModel BitProofs CodesModel LehmerModel Tables JpegModel.

(** What the section transmits. *)
Record internals := mkInt {
  in_markers : list Z; in_restart : Z; in_huff : list huffcode; in_scans : list scaninfo;
  in_quant : list (Z * bool * Z);      (** index, is_last, precision *)
  in_ids : list Z; in_zero_pad : bool; in_padding : list Z }.

Definition count_marker (m : Z) (l : list Z) : nat := length (filter (Z.eqb m) l).

(** c/include/brunsli/jpeg_data.h:279-285, PaddingBitsLimit:
    7 bits for every 8x8 block of every component and some slack. *)
Definition padding_bits_limit (w h : Z) (ncomp : nat) : Z :=
  7 * Z.shiftr (w + 15) 3 * Z.shiftr (h + 15) 3 * Z.of_nat ncomp + 256.

(** * Encoder *)

(** c/enc/brunsli_encode.cc:305-330: comparison with the stock codes; DC codes
    compare 13 values and AC codes 163. *)
Definition huff_is_stock (counts values scounts svalues : list Z) : bool :=
  list_eqb (firstn 16 (skipn 1 counts)) scounts && list_eqb (firstn (length svalues) values) svalues.
Definition find_stock (is_dc : bool) (counts values : list Z) : option Z :=
  let cs := if is_dc then kStockDCCounts else kStockACCounts in
  let vs := if is_dc then kStockDCValues else kStockACValues in
  if huff_is_stock counts values (nth 0 cs []) (nth 0 vs []) then Some 0
  else if huff_is_stock counts values (nth 1 cs []) (nth 1 vs []) then Some 1
  else None.

(** brunsli_encode.cc:336: highest length with a non-zero count. *)
Fixpoint huff_max_len (n : nat) (counts : list Z) : nat :=
  match n with O => O | S m => if nth n counts 0 =? 0 then huff_max_len m counts else n end.

(** brunsli_encode.cc:342-361; [cs]: counts of lengths i..max_len, the last one
    already reduced by the sentinel.  Returns the fields and the number of values. *)
Fixpoint encode_counts (i : nat) (cs : list Z) (total space max_count : Z) : option (list (nat * Z) * Z) :=
  match cs with
  | [] => Some ([], total)
  | c :: r =>
      let shift := 16 - Z.of_nat i in
      let limit := Z.min (max_count - total) (Z.shiftr space shift) in
      if limit <? c then None
      else if 0 <? limit then
        let? x := encode_counts (S i) r (total + c) (space - c * 2 ^ shift) max_count in
        Some ((Z.to_nat (Z.log2 limit) + 1, c)%nat :: fst x, snd x)
      else encode_counts (S i) r total space max_count
  end.

(** brunsli_encode.cc:366-376. *)
Fixpoint encode_perm (vs values : list Z) : option (list (nat * Z)) :=
  match vs with
  | [] => Some []
  | v :: r =>
      match pc_remove_value v values with
      | None => None
      | Some (code, nbits, values') =>
          let? x := encode_perm r values' in
          Some (encode_limited_varint code 2 (Nat.div2 (nbits + 1)) ++ x)
      end
  end.

Definition default_values (is_dc : bool) : list Z := if is_dc then kDefaultDCValues else kDefaultACValues.
Definition max_values (is_dc : bool) : Z := if is_dc then 12 else 256.

(** brunsli_encode.cc:295-378, EncodeHuffmanCode. *)
Definition encode_huff (h : huffcode) (known_last : bool) : option (list (nat * Z)) :=
  let counts := hc_counts h in
  let values := hc_values h in
  let head := [(2%nat, Z.land (hc_slot h) 15); (1%nat, Z.shiftr (hc_slot h) 4)]
              ++ (if known_last then [] else [(1%nat, b2z (hc_last h))]) in
  if known_last && negb (hc_last h) then None
  else
    let is_dc := Z.shiftr (hc_slot h) 4 =? 0 in
    match find_stock is_dc counts values with
    | Some idx => Some (head ++ [(1%nat, 1); (1%nat, idx)])
    | None =>
        let ml := huff_max_len 16 counts in
        if negb (nth 0 counts 0 =? 0) || (ml =? 0)%nat then None
        else
          let cs := upd (firstn ml (skipn 1 counts)) (ml - 1) (nth ml counts 0 - 1) in
          let? x := encode_counts 1 cs 0 (2 ^ 16 - 2 ^ (16 - Z.of_nat ml)) (max_values is_dc) in
          let '(fs, total) := x in
          if negb (nth (Z.to_nat total) values 0 =? 256) then None
          else
            let? p := encode_perm (firstn (Z.to_nat total) values) (default_values is_dc) in
            Some (head ++ (1%nat, 0) :: (4%nat, Z.of_nat ml - 1) :: fs ++ p)
    end.

(** brunsli_encode.cc:459-466. *)
Fixpoint encode_huffs (l : list huffcode) : option (list (nat * Z)) :=
  match l with
  | [] => Some []
  | h :: r =>
      let known := match r with [] => true | _ => false end in
      let? a := encode_huff h known in
      let? b := encode_huffs r in
      Some ((1%nat, b2z known) :: a ++ b)
  end.

(** brunsli_encode.cc:380-415, EncodeScanInfo. *)
Fixpoint encode_resets (l : list Z) (last : Z) : list (nat * Z) :=
  match l with
  | [] => [(1%nat, 0)]
  | b :: r => (1%nat, 1) :: encode_varint (b - last - 1) 28 ++ encode_resets r b
  end.
Fixpoint encode_run (n : nat) (block last : Z) : list (nat * Z) :=
  match n with
  | O => []
  | S m => (1%nat, 1) :: encode_varint (block - last) 28 ++ encode_run m block block
  end.
Fixpoint encode_runs (l : list (Z * Z)) (last : Z) : list (nat * Z) :=
  match l with
  | [] => [(1%nat, 0)]
  | (b, n) :: r => encode_run (Z.to_nat n) b last ++ encode_runs r (if 0 <? n then b else last)
  end.
Definition encode_scan (s : scaninfo) : list (nat * Z) :=
  [(6%nat, si_ss s); (6%nat, si_se s); (4%nat, si_ah s); (4%nat, si_al s); (2%nat, Z.of_nat (length (si_comps s)) - 1)]
  ++ flat_map (fun c => [(2%nat, cs_comp c); (2%nat, cs_dc c); (2%nat, cs_ac c)]) (si_comps s)
  ++ encode_resets (si_resets s) (-1) ++ encode_runs (si_zero_runs s) 0.

(** brunsli_encode.cc:477-486. *)
Fixpoint encode_quant_heads (l : list (Z * bool * Z)) : option (list (nat * Z)) :=
  match l with
  | [] => Some []
  | (ix, last, prec) :: r =>
      match r with
      | [] => if last then Some [(2%nat, ix); (4%nat, prec)] else None
      | _ => let? b := encode_quant_heads r in Some ((2%nat, ix) :: (1%nat, b2z last) :: (4%nat, prec) :: b)
      end
  end.

(** brunsli_encode.cc:417-429, MatchComponentIds. *)
Definition match_ids (ids : list Z) : Z :=
  if list_eqb ids [1] then 1
  else if list_eqb ids [1; 2; 3] then 0
  else if list_eqb ids [82; 71; 66] then 2
  else 3.

(** brunsli_encode.cc:438-501: the bit-level part of EncodeAuxData. *)
Definition encode_internals (w h : Z) (x : internals) : option (list (nat * Z)) :=
  let m := in_markers x in
  if negb (last m 0 =? 217) || negb (forallb (fun y => 192 <=? y) m) then None
  else
    let? hs := encode_huffs (in_huff x) in
    if negb (count_marker 218 m =? length (in_scans x))%nat then None
    else
      let? qs := encode_quant_heads (in_quant x) in
      let ids := in_ids x in
      let pad := if in_zero_pad x then in_padding x else [] in
      if padding_bits_limit w h (length ids) <? Z.of_nat (length pad) then None
      else Some (map (fun y => (6%nat, y - 192)) m
                 ++ (if (0 <? count_marker 221 m)%nat then [(16%nat, in_restart x)] else [])
                 ++ hs ++ flat_map encode_scan (in_scans x)
                 ++ (2%nat, Z.of_nat (length (in_quant x)) - 1) :: qs
                 ++ (2%nat, match_ids ids) :: (if match_ids ids =? 3 then map (fun y => (8%nat, y)) ids else [])
                 ++ encode_limited_varint (Z.of_nat (length pad)) 8 4
                 ++ map (fun y => (1%nat, y)) pad).

(** brunsli_encode.cc:502-508: the bytes after the bits (JumpToByteBoundary is the
    padding done by [pack]). *)
Definition encode_inter (l : list (list Z)) : list Z :=
  flat_map (fun s => encode_base128 (Z.of_nat (length s)) ++ s) l.
Definition encode_aux (w h : Z) (x : internals) (inter : list (list Z)) : option (list Z) :=
  let? fs := encode_internals w h x in Some (pack (fields_bits fs) ++ encode_inter inter).

(** * Decoder *)

(** c/dec/brunsli_decode.cc:1423-1436.  The loop is bounded by the number of bits of
    the section; [fuel] is that number plus one, so it never runs out before
    the reader does. *)
Fixpoint read_markers (fuel : nat) : prog (list Z) :=
  match fuel with
  | O => Fail
  | S f => Need 6 (Read 6 (fun v =>
             let m := 192 + v in
             if m =? 217 then Ret [m] else let! r := read_markers f in Ret (m :: r)))
  end.

(** brunsli_decode.cc:363-388, the counts i..i+n-1. *)
Fixpoint read_counts (n i : nat) (total space max_count : Z) : prog (list Z * Z) :=
  match n with
  | O => Ret ([], total)
  | S m =>
      let shift := 16 - Z.of_nat i in
      let limit := Z.min (max_count - total) (Z.shiftr space shift) in
      if 0 <? limit then
        let nbits := (Z.to_nat (Z.log2 limit) + 1)%nat in
        Need nbits (Read nbits (fun c =>
          if limit <? c then Fail
          else let! r := read_counts m (S i) (total + c) (space - c * 2 ^ shift) max_count in
               Ret (c :: fst r, snd r)))
      else let! r := read_counts m (S i) total space max_count in Ret (0 :: fst r, snd r)
  end.

(** brunsli_decode.cc:394-411. *)
Fixpoint read_perm (n : nat) (values : list Z) : prog (list Z) :=
  match n with
  | O => Ret []
  | S m =>
      let! c := decode_limited_varint 2 (Nat.div2 (pc_num_bits values + 1)) in
      match pc_remove c values with
      | None => Fail
      | Some (v, values') => let! r := read_perm m values' in Ret (v :: r)
      end
  end.

Definition pad_to (n : nat) (l : list Z) : list Z := l ++ repeat 0 (n - length l).

(** brunsli_decode.cc:350-411: a code that is not one of the stock codes. *)
Definition read_complex_huff (is_dc : bool) : prog (list Z * list Z) :=
  Need 4 (Read 4 (fun v =>
    let ml := (Z.to_nat v + 1)%nat in
    let! r := read_counts ml 1 0 (2 ^ 16 - 2 ^ (16 - Z.of_nat ml)) (max_values is_dc) in
    let '(cs, total) := r in
    let! vs := read_perm (Z.to_nat total) (default_values is_dc) in
    let counts := pad_to 17 (0 :: upd cs (ml - 1) (nth (ml - 1) cs 0 + 1)) in
    Ret (counts, pad_to 257 (vs ++ [256])))).

(** brunsli_decode.cc:310-348; counts and values not written stay zero. *)
Definition read_huff (known_last : bool) : prog huffcode :=
  Need (if known_last then 5 else 6) (Read 2 (fun slot => Read 1 (fun ac =>
    let is_dc := ac =? 0 in
    let slot_id := slot + (if is_dc then 0 else 16) in
    let rest (is_last : bool) : prog huffcode :=
      Read 1 (fun found =>
        if negb (found =? 0) then
          Read 1 (fun idx =>
            let i := Z.to_nat idx in
            Ret (if is_dc
                 then mkHC (pad_to 17 (0 :: nth i kStockDCCounts [])) (pad_to 257 (nth i kStockDCValues [])) slot_id is_last
                 else mkHC (pad_to 17 (0 :: nth i kStockACCounts [])) (pad_to 257 (nth i kStockACValues [])) slot_id is_last))
        else let! cv := read_complex_huff is_dc in Ret (mkHC (fst cv) (snd cv) slot_id is_last)) in
    if known_last then rest true else Read 1 (fun l => rest (negb (l =? 0)))))).

(** brunsli_decode.cc:304-309 and 412-430; [room] = kMaxDHTMarkers (512) minus the
    number of codes already present. *)
Fixpoint read_huffs (room : nat) : prog (list huffcode) :=
  match room with
  | O => Fail
  | S m =>
      Need 1 (Read 1 (fun k =>
        let known := negb (k =? 0) in
        let! h := read_huff known in
        if known then Ret [h]
        else match m with O => Fail | S _ => let! r := read_huffs m in Ret (h :: r) end))
  end.

(** brunsli_decode.cc:466-477. *)
Fixpoint read_scan_comps (n : nat) : prog (list compscan) :=
  match n with
  | O => Ret []
  | S m => Need 6 (Read 2 (fun a => Read 2 (fun b => Read 2 (fun c =>
             let! r := read_scan_comps m in Ret (mkCS a b c :: r)))))
  end.

(** brunsli_decode.cc:478-505. *)
Fixpoint read_resets (fuel : nat) (last : Z) : prog (list Z) :=
  match fuel with
  | O => Fail
  | S f =>
      Need 1 (Read 1 (fun c =>
        if c =? 0 then Ret []
        else
          let! v := decode_varint 28 in
          let block := last + v + 1 in
          if 2 ^ 30 <? block then Fail
          else let! r := read_resets f block in Ret (block :: r)))
  end.

(** brunsli_decode.cc:441-449, 506-536; [last], [num]: the run being collected. *)
Fixpoint read_runs (fuel : nat) (last num : Z) : prog (list (Z * Z)) :=
  match fuel with
  | O => Fail
  | S f =>
      Need 1 (Read 1 (fun c =>
        if c =? 0 then Ret (if 0 <? num then [(last, num)] else [])
        else
          let! v := decode_varint 28 in
          let block := last + v in
          let flush := (last <? block) && (0 <? num) in
          if 2 ^ 30 <? block then Fail
          else let! r := read_runs f block ((if flush then 0 else num) + 1) in
               Ret ((if flush then [(last, num)] else []) ++ r)))
  end.

(** brunsli_decode.cc:436-541, DecodeScanInfo, one scan. *)
Definition read_scan (fuel : nat) : prog scaninfo :=
  Need 22 (Read 6 (fun ss => Read 6 (fun se => Read 4 (fun ah => Read 4 (fun al => Read 2 (fun nc =>
    let! comps := read_scan_comps (Z.to_nat nc + 1) in
    let! resets := read_resets fuel (-1) in
    let! runs := read_runs fuel 0 0 in
    Ret (mkSI ss se ah al comps resets runs))))))).
Fixpoint read_scans (n fuel : nat) : prog (list scaninfo) :=
  match n with
  | O => Ret []
  | S m => let! s := read_scan fuel in let! r := read_scans m fuel in Ret (s :: r)
  end.

(** brunsli_decode.cc:1482-1503. *)
Fixpoint read_quant_heads (n : nat) : prog (list (Z * bool * Z)) :=
  match n with
  | O => Ret []
  | S m =>
      Need 7 (Read 2 (fun ix =>
        let rest (is_last : bool) : prog (list (Z * bool * Z)) :=
          Read 4 (fun prec => if 1 <? prec then Fail
                              else let! r := read_quant_heads m in Ret ((ix, is_last, prec) :: r)) in
        match m with O => rest true | S _ => Read 1 (fun l => rest (negb (l =? 0))) end))
  end.

Fixpoint read_n (n bits : nat) : prog (list Z) :=
  match n with
  | O => Ret []
  | S m => Need bits (Read bits (fun v => let! r := read_n m bits in Ret (v :: r)))
  end.

(** brunsli_decode.cc:1505-1546; the ids of components beyond those set keep
    their initial value 0. *)
Definition read_ids (ncomp : nat) : prog (list Z) :=
  Need 2 (Read 2 (fun scheme =>
    if scheme =? 0 then (if (ncomp <? 3)%nat then Fail else Ret (pad_to ncomp [1; 2; 3]))
    else if scheme =? 1 then (if (ncomp <? 1)%nat then Fail else Ret (pad_to ncomp [1]))
    else if scheme =? 2 then (if (ncomp <? 3)%nat then Fail else Ret (pad_to ncomp [82; 71; 66]))
    else read_n ncomp 8)).

(** brunsli_decode.cc:1548-1576. *)
Definition read_padding (limit : Z) : prog (list Z) :=
  let! n := decode_limited_varint 8 4 in
  if limit <? n then Fail else read_n (Z.to_nat n) 1.

(** brunsli_decode.cc:1408-1576: the bit-level part of DecodeJPEGInternalsSection. *)
Definition read_internals (fuel : nat) (w h : Z) (ncomp : nat) : prog internals :=
  let! m := read_markers fuel in
  let! restart := (if (0 <? count_marker 221 m)%nat then Need 16 (Read 16 (fun v => Ret v)) else Ret 0) in
  let! hs := read_huffs 512 in
  if negb (count_marker 196 m =? length (filter hc_last hs))%nat then Fail
  else
    let! scans := read_scans (count_marker 218 m) fuel in
    let! qs := Need 2 (Read 2 (fun n => read_quant_heads (Z.to_nat n + 1))) in
    let! ids := read_ids ncomp in
    let! pad := read_padding (padding_bits_limit w h ncomp) in
    Ret (mkInt m restart hs scans qs ids (0 <? length pad)%nat pad).

(** * The byte-level part and the whole section *)
From Verif Require Import Stream.

(** c/dec/brunsli_decode.cc:1586-1628: one length and one blob for each 0xFF in the
    marker order.  [e] is the section end; nat subtraction gives 0 past the
    end, as RemainingSectionLength does (1088-1092). *)
Fixpoint read_inter (markers : list Z) (e : nat) : bprog (list (list Z)) :=
  match markers with
  | [] => BRet []
  | m :: r =>
      if m =? 255 then
        BBase128 (fun len => BPos (fun pos =>
          if Z.of_nat (e - pos) <? len then BFail
          else BBytes [] len (fun d => bbind (read_inter r e) (fun ds => BRet (d :: ds)))))
      else read_inter r e
  end.

(** State between calls: in the bit-level part, or past it (after
    ITERATE_MARKERS resuming the finished bit reader has no effect). *)
Inductive jstate :=
| JBits (p : prog internals) (b : breader) (pos : nat)
| JBytes (x : internals) (p : bprog (list (list Z))) (pos : nat).

(** brunsli_decode.cc:1408-1633, DecodeJPEGInternalsSection.  [D]: input from the
    start of the section on, [n]: section length. *)
Definition jbytes (D : list Z) (n : nat) (x : internals) (p : bprog (list (list Z))) (pos avail : nat)
  : res jstate (internals * list (list Z)) :=
  match brun D (Some n) p pos avail with
  | RDone ds q => if (q =? n)%nat then RDone (x, ds) q else RFail
  | RFail => RFail
  | RMore (p', pos') => RMore (JBytes x p' pos')
  end.
Definition jcall (D : list Z) (n : nat) (s : jstate) (avail : nat) : res jstate (internals * list (list Z)) :=
  match s with
  | JBits p b pos =>
      match section_call false (firstn n D) p b pos (Nat.min avail n) with
      | SDone x c => jbytes D n x (read_inter (in_markers x) n) c avail
      | SFail => RFail
      | SMore p' b' pos' => RMore (JBits p' b' pos')
      end
  | JBytes x p pos => jbytes D n x p pos avail
  end.
Definition jinit (n : nat) (w h : Z) (ncomp : nat) : jstate := JBits (read_internals (8 * n + 1) w h ncomp) br_init 0.
