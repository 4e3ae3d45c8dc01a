(** Quantisation tables: the QuantData section, encoder and decoder. *)
From Verif Require Import Base BitModel CodesModel LehmerModel Tables JpegModel.

(** c/common/quant_matrix.cc:16-26, FillQuantMatrix. *)
Definition fill_quant (sel : nat) (q : Z) : list Z :=
  map (fun x => let v := Z.shiftr (x * q + 32) 6 in if v <? 1 then 1 else if 255 <? v then 255 else v)
      (nth sel kDefaultQuantMatrix []).

Definition nat_at (l : list Z) (j : Z) : Z := nth (Z.to_nat j) l 0.

(** quant_matrix.cc:37-60: the cost estimate for one quality; [None] is the early
    exit with kWorstLen. *)
Fixpoint quant_len (order : list Z) (src dst : list Z) (last : Z) (len : Z) : option Z :=
  match order with
  | [] => Some len
  | j :: r =>
      let nd := nat_at src j - nat_at dst j in
      let diff := nd - last in
      if diff =? 0 then quant_len r src dst nd len
      else
        let d := Z.abs diff - 1 in
        if d =? 0 then quant_len r src dst nd (len + 2)
        else if 65535 <? d then None
        else
          let l0 := Z.log2 d + 1 in
          let l1 := if l0 =? 16 then 15 else l0 in
          quant_len r src dst nd (len + 1 + (2 * l1 + 1))
  end.
Definition kWorstLen : Z := 65 * 34.

(** quant_matrix.cc:29-66, FindBestMatrix: the chosen quality (the predictor is
    [fill_quant] of it). *)
Fixpoint find_best (sel : nat) (src : list Z) (qs : list nat) (best_q : nat) (best_len : Z) : nat :=
  match qs with
  | [] => best_q
  | q :: r =>
      let len := match quant_len kNaturalOrder src (fill_quant sel (Z.of_nat q)) 0 0 with
                 | Some l => l | None => kWorstLen end in
      if len <? best_len then find_best sel src r q len else find_best sel src r best_q best_len
  end.
Definition find_best_matrix (sel : nat) (src : list Z) : nat := find_best sel src (seq 0 64) 0 kWorstLen.

(** c/enc/brunsli_encode.cc:201-212: index of the first stock table equal to the
    values. *)
Fixpoint stock_match (j : nat) (tables : list (list Z)) (values : list Z) : option nat :=
  match tables with
  | [] => None
  | t :: r => if list_eqb t values then Some j else stock_match (S j) r values
  end.

(** brunsli_encode.cc:271-286: coefficients of one table against the predictor. *)
Fixpoint encode_quant_diffs (order : list Z) (values pred : list Z) (last : Z) : option (list (nat * Z)) :=
  match order with
  | [] => Some []
  | j :: r =>
      let nd := nat_at values j - nat_at pred j in
      let diff := nd - last in
      if diff =? 0 then
        let? t := encode_quant_diffs r values pred nd in Some ((1%nat, 0) :: t)
      else
        let d := Z.abs diff - 1 in
        if 65535 <? d then None
        else
          let? t := encode_quant_diffs r values pred nd in
          Some ((1%nat, 1) :: (1%nat, if diff <? 0 then 1 else 0) :: encode_varint d 16 ++ t)
  end.

(** brunsli_encode.cc:252-288, one table; [None] = returns false. *)
Definition encode_quant_table (i : nat) (values : list Z) : option (list (nat * Z)) :=
  if forallb (fun j => negb (nat_at values j =? 0)) kNaturalOrder then
    let sel := Nat.min i 1 in
    match stock_match 0 (nth sel kStockQuant []) values with
    | Some code => Some [(1%nat, 0); (3%nat, Z.of_nat code)]
    | None =>
        let q := find_best_matrix sel values in
        let? t := encode_quant_diffs kNaturalOrder values (fill_quant sel (Z.of_nat q)) 0 in
        Some ((1%nat, 1) :: (6%nat, Z.of_nat q) :: t)
    end
  else None.

Fixpoint encode_quant_list (i : nat) (qs : list (list Z)) : option (list (nat * Z)) :=
  match qs with
  | [] => Some []
  | q :: r =>
      let? a := encode_quant_table i q in
      let? b := encode_quant_list (S i) r in
      Some (a ++ b)
  end.

(** brunsli_encode.cc:245-293, EncodeQuantTables: WriteBits calls. *)
Definition encode_quant_tables (tables : list (list Z)) (quant_idx : list Z) : option (list (nat * Z)) :=
  match tables with
  | [] => None
  | _ =>
      if (4 <? length tables)%nat then None
      else
        let? t := encode_quant_list 0 tables in
        Some ((2%nat, Z.of_nat (length tables) - 1) :: t ++ map (fun x => (2%nat, x)) quant_idx)
  end.

(** c/dec/brunsli_decode.cc:1705-1738: read one difference. *)
Definition read_quant_delta (delta : Z) : prog Z :=
  Need 1 (Read 1 (fun nz =>
    if nz =? 0 then Ret delta
    else Need 1 (Read 1 (fun sg =>
      let! v := decode_varint 16 in
      Ret (delta + (if sg =? 0 then 1 else -1) * (v + 1)))))).

(** brunsli_decode.cc:1705-1756: differences in natural order; returns the values
    and data_precision. *)
Fixpoint read_quant_diffs (order : list Z) (pred : list Z) (delta : Z) (vals : list Z) (dp : Z) : prog (list Z * Z) :=
  match order with
  | [] => Ret (vals, dp)
  | k :: r =>
      let! delta' := read_quant_delta delta in
      let v := nat_at pred k + delta' in
      if v <=? 0 then Fail
      else if 65536 <=? v then Fail
      else read_quant_diffs r pred delta' (upd vals (Z.to_nat k) v) (if 256 <=? v then 1 else dp)
  end.

(** brunsli_decode.cc:1665-1767: one table, given its declared precision. *)
Definition read_quant_table (i : nat) (precision : Z) : prog (list Z) :=
  let sel := Nat.min i 1 in
  let! r := Need 4 (Read 1 (fun b =>
    if b =? 0 then Read 3 (fun code => Ret (nth (Z.to_nat code) (nth sel kStockQuant []) [], 0))
    else Need 6 (Read 6 (fun q => read_quant_diffs kNaturalOrder (fill_quant sel q) 0 (repeat 0 64) 0)))) in
  let '(vals, dp) := r in
  if precision <? dp then Fail else Ret vals.

Fixpoint read_quant_list (i : nat) (precs : list Z) : prog (list (list Z)) :=
  match precs with
  | [] => Ret []
  | p :: r => let! t := read_quant_table i p in let! ts := read_quant_list (S i) r in Ret (t :: ts)
  end.

(** brunsli_decode.cc:1774-1788. *)
Fixpoint read_quant_idx (n : nat) (num : Z) : prog (list Z) :=
  match n with
  | O => Ret []
  | S m => Need 2 (Read 2 (fun x => if num <=? x then Fail else
             let! r := read_quant_idx m num in Ret (x :: r)))
  end.

(** brunsli_decode.cc:1635-1796, DecodeQuantDataSection; [precs]: precisions of
    the tables announced by the JPEGInternals section, [ncomp]: components. *)
Definition read_quant_section (precs : list Z) (ncomp : nat) : prog (list (list Z) * list Z) :=
  Need 2 (Read 2 (fun n =>
    if negb (n + 1 =? Z.of_nat (length precs)) then Fail
    else
      let! ts := read_quant_list 0 precs in
      let! idx := read_quant_idx ncomp (Z.of_nat (length precs)) in
      Ret (ts, idx))).
