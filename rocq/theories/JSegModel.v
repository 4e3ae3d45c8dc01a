(** Marker segments of a JPEG file: the reader (c/enc/jpeg_data_reader.cc) and the writer
    (c/dec/jpeg_data_writer.cc).  Positions are [size_t] in the code; they never exceed the
    length of the data by more than 65537, so additions do not wrap. *)
From Verif Require Import Base JpegModel LehmerModel JBitModel JHuffModel JScanModel.

(** * Reader *)

(** BRUNSLI_VERIFY_LEN (24-31) and BRUNSLI_VERIFY_MARKER_END (40-48): an error when the test fails. *)
Definition guard {A} (b : bool) (k : jres A) : jres A := if b then k else JErr.
Definition has_len (data : list Z) (pos n : Z) : bool := pos + n <=? Z.of_nat (length data).
Definition between (v lo hi : Z) : bool := (lo <=? v) && (v <=? hi).

(** jpeg_data_reader.cc:66-70, ReadUint16; ReadUint8 is [aget]. *)
Definition u16 (data : list Z) (pos : Z) : jres Z :=
  let* a := aget data pos in
  let* b := aget data (pos + 1) in
  JOk (a * 256 + b).

Definition memZ (x : Z) (l : list Z) : bool := existsb (Z.eqb x) l.

(** jpeg_data_reader.cc:98-120: the components; [seen] are the ids so far. *)
Fixpoint sof_comps (n : nat) (data : list Z) (pos : Z) (seen : list Z) (mh mv : Z)
  : jres (list component * (Z * Z)) :=
  match n with
  | O => JOk ([], (mh, mv))
  | S n' =>
      let* id := aget data pos in
      guard (negb (memZ id seen)) (
      let* f := aget data (pos + 1) in
      let h := Z.shiftr f 4 in
      let v := Z.land f 15 in
      guard (between h 1 15 && between v 1 15) (
      let* q := aget data (pos + 2) in
      let* (l, m) := sof_comps n' data (pos + 3) (id :: seen) (Z.max mh h) (Z.max mv v) in
      JOk (mkComp id h v q 0 0 [] :: l, m)))
  end.

(** jpeg_data_reader.cc:127-148: block dimensions; [full] is JPEG_READ_ALL. *)
Fixpoint sof_blocks (full : bool) (mh mv rows cols : Z) (l : list component) : jres (list component) :=
  match l with
  | [] => JOk []
  | c :: l' =>
      guard ((mh mod c_h c =? 0) && (mv mod c_v c =? 0)) (
      let wb := cols * c_h c in
      let hb := rows * c_v c in
      guard (wb * hb <=? 2 ^ 21) (
      let* r := sof_blocks full mh mv rows cols l' in
      JOk (mkComp (c_id c) (c_h c) (c_v c) (c_quant c) wb hb
             (if full then repeat (repeat 0 64) (Z.to_nat (wb * hb)) else []) :: r)))
  end.

Definition with_frame (j : jpeg) (w h mh mv rows cols : Z) (comps : list component) : jpeg :=
  mkJpeg w h (j_version j) mh mv rows cols (j_restart j) (j_app j) (j_com j) (j_quant j) (j_huff j)
    comps (j_scans j) (j_markers j) (j_inter j) (j_tail j) (j_zero_pad j) (j_padding j).

(** jpeg_data_reader.cc:74-151, ProcessSOF.  [components.resize] at 97 keeps nothing: there were
    none before, as the width was 0. *)
Definition read_sof (full : bool) (data : list Z) (pos : Z) (j : jpeg) : jres (jpeg * Z) :=
  guard (j_width j =? 0) (
  guard (has_len data pos 8) (
  let* mlen := u16 data pos in
  let* prec := aget data (pos + 2) in
  let* h := u16 data (pos + 3) in
  let* w := u16 data (pos + 5) in
  let* n := aget data (pos + 7) in
  guard (between prec 8 8) (
  guard (between h 1 65535) (
  guard (between w 1 65535) (
  guard (between n 1 4) (
  guard (has_len data (pos + 8) (3 * n)) (
  let* (l, m) := sof_comps (Z.to_nat n) data (pos + 8) [] (j_max_h j) (j_max_v j) in
  let rows := div_ceil h (snd m * 8) in
  let cols := div_ceil w (fst m * 8) in
  let* comps := sof_blocks full (fst m) (snd m) rows cols l in
  let pos' := pos + 8 + 3 * n in
  guard (pos + mlen =? pos') (JOk (with_frame j w h (fst m) (snd m) rows cols comps, pos'))))))))).

(** jpeg_data_reader.cc:175-181: the last component with this id. *)
Fixpoint find_comp (id i : Z) (l : list component) (found : option Z) : option Z :=
  match l with
  | [] => found
  | c :: l' => find_comp id (i + 1) l' (if c_id c =? id then Some i else found)
  end.

(** jpeg_data_reader.cc:166-195. *)
Fixpoint sos_comps (n : nat) (data : list Z) (pos : Z) (seen : list Z) (comps : list component) : jres (list compscan) :=
  match n with
  | O => JOk []
  | S n' =>
      let* id := aget data pos in
      guard (negb (memZ id seen)) (
      match find_comp id 0 comps None with
      | None => JErr
      | Some ci =>
          let* c := aget data (pos + 1) in
          let dc := Z.shiftr c 4 in
          let ac := Z.land c 15 in
          guard (between dc 0 3 && between ac 0 3) (
          let* l := sos_comps n' data (pos + 2) (id :: seen) comps in
          JOk (mkCS ci dc ac :: l))
      end)
  end.

(** jpeg_data_reader.cc:212-239: the tables of one component are defined. *)
Definition has_tables (huff : list huffcode) (ss se : Z) (c : compscan) : bool :=
  let dc := existsb (fun h => hc_slot h =? cs_dc c) huff in
  let ac := existsb (fun h => negb (hc_slot h =? cs_dc c) && (hc_slot h =? cs_ac c + 16)) huff in
  negb ((ss =? 0) && negb dc) && negb ((0 <? se) && negb ac).

(** jpeg_data_reader.cc:155-244, ProcessSOS; the warning at 204-211 has no effect. *)
Definition read_sos (data : list Z) (pos : Z) (j : jpeg) : jres (scaninfo * Z) :=
  guard (has_len data pos 3) (
  let* mlen := u16 data pos in
  let* n := aget data (pos + 2) in
  guard (between n 1 (Z.of_nat (length (j_comps j)))) (
  guard (has_len data (pos + 3) (2 * n)) (
  let* cs := sos_comps (Z.to_nat n) data (pos + 3) [] (j_comps j) in
  let p := pos + 3 + 2 * n in
  guard (has_len data p 3) (
  let* ss := aget data p in
  let* se := aget data (p + 1) in
  guard (between ss 0 63) (
  guard (between se ss 63) (
  let* c := aget data (p + 2) in
  guard (forallb (has_tables (j_huff j) ss se) cs) (
  guard (pos + mlen =? p + 3) (
  JOk (mkSI ss se (Z.shiftr c 4) (Z.land c 15) cs [] [], p + 3))))))))).

(** jpeg_data_reader.cc:283-292: the sixteen counts with the total, the longest length and
    the remaining space. *)
Fixpoint dht_counts (n : nat) (data : list Z) (pos i total depth space : Z)
  : jres (list Z * (Z * (Z * Z))) :=
  match n with
  | O => JOk ([], (total, (depth, space)))
  | S n' =>
      let* c := aget data pos in
      let* (l, r) := dht_counts n' data (pos + 1) (i + 1) (total + c) (if c =? 0 then depth else i)
                       (space - c * 2 ^ (16 - i)) in
      JOk (c :: l, r)
  end.

(** jpeg_data_reader.cc:300-313. *)
Fixpoint dht_values (n : nat) (data : list Z) (pos : Z) (is_ac : bool) (seen : list Z) : jres (list Z) :=
  match n with
  | O => JOk []
  | S n' =>
      let* v := aget data pos in
      guard (is_ac || between v 0 11) (
      guard (negb (memZ v seen)) (
      let* l := dht_values n' data (pos + 1) is_ac (v :: seen) in
      JOk (v :: l)))
  end.

(** The lookup tables and codes that DHT segments change. *)
Record tables := mkTB { tb_dc : list (list (Z * Z)); tb_ac : list (list (Z * Z)); tb_huff : list huffcode }.

(** jpeg_data_reader.cc:263-332, one table; the end of the segment is [fin]. *)
Definition dht_table (full : bool) (data : list Z) (fin pos : Z) (t : tables) : jres (tables * Z) :=
  guard (has_len data pos 17) (
  let* slot := aget data pos in
  let is_ac := negb (Z.land slot 16 =? 0) in
  let idx := if is_ac then slot - 16 else slot in
  guard (between idx 0 3) (
  let* lut := aget (if is_ac then tb_ac t else tb_dc t) idx in
  let* (cl, r) := dht_counts 16 data (pos + 1) 1 0 1 65536 in
  let '(total, (depth, space)) := r in
  guard (between total 0 (if is_ac then 256 else 12)) (
  guard (has_len data (pos + 17) total) (
  let* vl := dht_values (Z.to_nat total) data (pos + 17) is_ac [] in
  let counts0 := 0 :: cl in
  let* cd := aget counts0 depth in
  let* counts := aset counts0 depth (cd + 1) in
  let* values := aset (vl ++ repeat 0 (257 - length vl)) total 256 in
  let space := space - 2 ^ (16 - depth) in
  guard (0 <=? space) (
  let pos' := pos + 17 + total in
  let lut := prepare_lut space lut in
  let* lut := (if full then build_lut counts values lut else JOk lut) in
  let* luts := aset (if is_ac then tb_ac t else tb_dc t) idx lut in
  JOk (mkTB (if is_ac then tb_dc t else luts) (if is_ac then luts else tb_ac t)
        (tb_huff t ++ [mkHC counts values slot (pos' =? fin)]), pos')))))).

(** jpeg_data_reader.cc:262-334. *)
Fixpoint dht_loop (fuel : nat) (full : bool) (data : list Z) (fin pos : Z) (t : tables) : jres (tables * Z) :=
  match fuel with
  | O => JUB
  | S f =>
      if pos <? fin then let* (t, pos) := dht_table full data fin pos t in dht_loop f full data fin pos t
      else JOk (t, pos)
  end.

(** jpeg_data_reader.cc:249-336, ProcessDHT. *)
Definition read_dht (full : bool) (data : list Z) (pos : Z) (t : tables) : jres (tables * Z) :=
  guard (has_len data pos 2) (
  let* mlen := u16 data pos in
  guard (negb (mlen =? 2)) (
  let* (t, pos') := dht_loop (S (length data)) full data (pos + mlen) (pos + 2) t in
  guard (pos + mlen =? pos') (JOk (t, pos')))).

(** jpeg_data_reader.cc:363-368: [values] in natural order. *)
Fixpoint dqt_values (n : nat) (data : list Z) (prec pos i : Z) (values : list Z) : jres (list Z) :=
  match n with
  | O => JOk values
  | S n' =>
      let* v := (if prec =? 0 then aget data pos else u16 data pos) in
      guard (between v 1 65535) (
      let* at_ := aget kNaturalOrder i in
      let* values := aset values at_ v in
      dqt_values n' data prec (pos + (if prec =? 0 then 1 else 2)) (i + 1) values)
  end.

(** jpeg_data_reader.cc:351-370. *)
Fixpoint dqt_loop (fuel : nat) (data : list Z) (fin pos : Z) (q : list qtable) : jres (list qtable * Z) :=
  match fuel with
  | O => JUB
  | S f =>
      if (pos <? fin) && (Z.of_nat (length q) <? 4) then
        guard (has_len data pos 1) (
        let* b := aget data pos in
        let prec := Z.shiftr b 4 in
        guard (between prec 0 1) (
        let idx := Z.land b 15 in
        guard (between idx 0 3) (
        guard (has_len data (pos + 1) ((prec + 1) * 64)) (
        let* values := dqt_values 64 data prec (pos + 1) 0 (repeat 0 64) in
        let pos' := pos + 1 + (prec + 1) * 64 in
        dqt_loop f data fin pos' (q ++ [mkQT values prec idx (pos' =? fin)])))))
      else JOk (q, pos)
  end.

(** jpeg_data_reader.cc:340-373, ProcessDQT. *)
Definition read_dqt (data : list Z) (pos : Z) (q : list qtable) : jres (list qtable * Z) :=
  guard (has_len data pos 2) (
  let* mlen := u16 data pos in
  guard (negb (mlen =? 2)) (
  let* (q, pos') := dqt_loop 5 data (pos + mlen) (pos + 2) q in
  guard (pos + mlen =? pos') (JOk (q, pos')))).

(** jpeg_data_reader.cc:376-392, ProcessDRI: the restart interval. *)
Definition read_dri (data : list Z) (pos : Z) (found : bool) : jres (Z * Z) :=
  guard (negb found) (
  guard (has_len data pos 4) (
  let* mlen := u16 data pos in
  let* r := u16 data (pos + 2) in
  guard (pos + mlen =? pos + 4) (JOk (r, pos + 4)))).

(** A range of the input; outside of it is undefined. *)
Definition slice (data : list Z) (a n : Z) : jres (list Z) :=
  if (0 <=? a) && (0 <=? n) && (a + n <=? Z.of_nat (length data))
  then JOk (firstn (Z.to_nat n) (skipn (Z.to_nat a) data)) else JUB.

(** jpeg_data_reader.cc:394-420, ProcessAPP and ProcessCOM: the stored string starts with the
    marker byte. *)
Definition read_blob (data : list Z) (pos : Z) : jres (list Z * Z) :=
  guard (has_len data pos 2) (
  let* mlen := u16 data pos in
  guard (between mlen 2 65535) (
  guard (has_len data (pos + 2) (mlen - 2)) (
  let* s := slice data (pos + 2 - 3) (mlen + 1) in
  JOk (s, pos + mlen)))).

(** * Writer *)

(** [output_queue.emplace_back(n)] and stores [data\[pos++\]]: the zero-initialised buffer of
    [n] bytes; storing more is undefined. *)
Definition buffer (n : Z) (l : list Z) : jres (list Z) :=
  if Z.of_nat (length l) <=? n then JOk (l ++ repeat 0 (Z.to_nat n - length l)) else JUB.

(** Narrowing to uint8_t. *)
Definition byte (v : Z) : Z := v mod 256.

(** jpeg_data_writer.cc:334-342. *)
Fixpoint sof_entries (quant : list qtable) (l : list component) : jres (list Z) :=
  match l with
  | [] => JOk []
  | c :: l' =>
      if Z.of_nat (length quant) <=? c_quant c then JErr
      else
        let* q := aget quant (c_quant c) in
        let* r := sof_entries quant l' in
        JOk (byte (c_id c) :: byte (Z.lor (Z.shiftl (c_h c) 4) (c_v c)) :: byte (q_index q) :: r)
  end.

(** jpeg_data_writer.cc:317-344, EncodeSOF. *)
Definition write_sof (j : jpeg) (marker : Z) : jres (list Z) :=
  let n := Z.of_nat (length (j_comps j)) in
  let mlen := 8 + 3 * n in
  let* l := sof_entries (j_quant j) (j_comps j) in
  buffer (mlen + 2) ([255; marker; byte (Z.shiftr mlen 8); byte mlen; 8;
    byte (Z.shiftr (j_height j) 8); Z.land (j_height j) 255; byte (Z.shiftr (j_width j) 8); Z.land (j_width j) 255; byte n] ++ l).

(** jpeg_data_writer.cc:359-364. *)
Fixpoint sos_entries (comps : list component) (l : list compscan) : jres (list Z) :=
  match l with
  | [] => JOk []
  | s :: l' =>
      if Z.of_nat (length comps) <=? cs_comp s then JErr
      else
        let* c := aget comps (cs_comp s) in
        let* r := sos_entries comps l' in
        JOk (byte (c_id c) :: byte (Z.shiftl (cs_dc s) 4 + cs_ac s) :: r)
  end.

(** jpeg_data_writer.cc:346-368, EncodeSOS. *)
Definition write_sos (j : jpeg) (si : scaninfo) : jres (list Z) :=
  let n := Z.of_nat (length (si_comps si)) in
  let mlen := 6 + 2 * n in
  let* l := sos_entries (j_comps j) (si_comps si) in
  buffer (mlen + 2) ([255; 218; byte (Z.shiftr mlen 8); byte mlen; byte n] ++ l
    ++ [byte (si_ss si); byte (si_se si); byte (Z.lor (Z.shiftl (si_ah si) 4) (si_al si))]).

(** jpeg_data_writer.cc:373-381: the tables up to the last one of the segment. *)
Fixpoint dht_len (l : list huffcode) : Z :=
  match l with
  | [] => 0
  | h :: l' => 16 + sumZ (hc_counts h) + (if hc_last h then 0 else dht_len l')
  end.

(** jpeg_data_writer.cc:406-414: [max_length]. *)
Fixpoint max_len (i : Z) (l : list Z) (m : Z) : Z :=
  match l with [] => m | c :: l' => max_len (i + 1) l' (if c =? 0 then m else i) end.

Record wtables := mkWT { wt_dc : list codetab; wt_ac : list codetab }.

(** jpeg_data_writer.cc:394-420: one table.  [total_count] is unsigned: without any code
    it wraps around and the loop over [values] runs out of the array. *)
Definition dht_entry (h : huffcode) (t : wtables) : jres (list Z * wtables) :=
  let is_ac := negb (Z.land (hc_slot h) 16 =? 0) in
  let idx := if is_ac then hc_slot h - 16 else hc_slot h in
  let* tab := aget (if is_ac then wt_ac t else wt_dc t) idx in
  let* tab := build_codes h tab in
  let* tabs := aset (if is_ac then wt_ac t else wt_dc t) idx tab in
  let total := sumZ (hc_counts h) - 1 in
  let m := max_len 0 (hc_counts h) 0 in
  let* vl := slice (hc_values h) 0 total in
  let cl := map (fun i => let c := nth i (hc_counts h) 0 in byte (if Z.of_nat i =? m then c - 1 else c)) (seq 1 16) in
  JOk (byte (hc_slot h) :: cl ++ map byte vl,
       mkWT (if is_ac then wt_dc t else tabs) (if is_ac then tabs else wt_ac t)).

(** jpeg_data_writer.cc:388-423: the bytes, the remaining codes and the tables. *)
Fixpoint dht_entries (l : list huffcode) (t : wtables) : jres (list Z * (list huffcode * wtables)) :=
  match l with
  | [] => JErr
  | h :: l' =>
      let* (b, t) := dht_entry h t in
      if hc_last h then JOk (b, (l', t))
      else let* (r, s) := dht_entries l' t in JOk (b ++ r, s)
  end.

(** jpeg_data_writer.cc:370-425, EncodeDHT; [l] are the codes from [dht_index] on. *)
Definition write_dht (l : list huffcode) (t : wtables) : jres (list Z * (list huffcode * wtables)) :=
  let mlen := 2 + dht_len l in
  let* (b, s) := dht_entries l t in
  let* out := buffer (mlen + 2) ([255; 196; byte (Z.shiftr mlen 8); byte mlen] ++ b) in
  JOk (out, s).

(** jpeg_data_writer.cc:429-433. *)
Fixpoint dqt_len (l : list qtable) : Z :=
  match l with
  | [] => 0
  | q :: l' => 1 + (if q_precision q =? 0 then 1 else 2) * 64 + (if q_last q then 0 else dqt_len l')
  end.

(** jpeg_data_writer.cc:448-455. *)
Fixpoint dqt_bytes (n : nat) (q : qtable) (i : Z) : jres (list Z) :=
  match n with
  | O => JOk []
  | S n' =>
      let* at_ := aget kNaturalOrder i in
      let* v := aget (q_values q) at_ in
      let* r := dqt_bytes n' q (i + 1) in
      JOk ((if q_precision q =? 0 then [] else [byte (Z.shiftr v 8)]) ++ Z.land v 255 :: r)
  end.

(** jpeg_data_writer.cc:440-458. *)
Fixpoint dqt_entries (l : list qtable) : jres (list Z * list qtable) :=
  match l with
  | [] => JErr
  | q :: l' =>
      let* b := dqt_bytes 64 q 0 in
      let b := byte (Z.shiftl (q_precision q) 4 + q_index q) :: b in
      if q_last q then JOk (b, l')
      else let* (r, s) := dqt_entries l' in JOk (b ++ r, s)
  end.

(** jpeg_data_writer.cc:427-460, EncodeDQT; [l] are the tables from [dqt_index] on. *)
Definition write_dqt (l : list qtable) : jres (list Z * list qtable) :=
  let mlen := 2 + dqt_len l in
  let* (b, s) := dqt_entries l in
  let* out := buffer (mlen + 2) ([255; 219; byte (Z.shiftr mlen 8); Z.land mlen 255] ++ b) in
  JOk (out, s).

(** jpeg_data_writer.cc:462-472, EncodeDRI. *)
Definition write_dri (j : jpeg) : list Z :=
  [255; 221; 0; 4; byte (Z.shiftr (j_restart j) 8); byte (Z.land (j_restart j) 255)].
