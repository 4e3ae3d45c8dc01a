(** DC and AC coefficients: prediction, contexts, and the two coded sections
    (c/common/predict.cc, c/common/context.{h,cc}, c/enc/brunsli_encode.cc:722-1346,
    c/dec/brunsli_decode.cc:579-976).

    Arrays are lists; an access outside of an array is [None] in the encoder and
    [EFail] in the decoder, so that it cannot go unnoticed.  A component's
    coefficients are a list of 64-entry blocks in raster order (the code has one flat
    array, block j at 64*j). *)
From Verif Require Import Base Prob EntropyModel LehmerModel CtxTables.
Arguments obind {A B} o f : simpl never.

Definition zget {A} (l : list A) (i : Z) : option A := if i <? 0 then None else nth_error l (Z.to_nat i).
Definition zset {A} (l : list A) (i : Z) (v : A) : option (list A) :=
  if (0 <=? i) && (i <? Z.of_nat (length l)) then Some (upd l (Z.to_nat i) v) else None.

(** In the decoder an access outside of an array ends in [EFail]. *)
Definition eget {A B} (o : option A) (k : A -> eprog B) : eprog B := match o with Some a => k a | None => EFail end.

(** Conversion to coeff_t (int16_t, jpeg_data.h:24). *)
Definition to_i16 (v : Z) : Z := (v + 32768) mod 65536 - 32768.

(** * What the encoder emits before the entropy codes are known *)

(** DataStream::AddBit, AddCode and AddBits calls (brunsli_encode.cc:627-697); a code
    carries the number of its histogram, band * kNumAvrgContexts + context. *)
Inductive citem := CBit (prob : Z) (bit : bool) | CSym (histo code : Z) | CBits (n : nat) (v : Z).

(** brunsli_encode.cc:598-601, GetANSTable, and the decoder's lookup (686-687, 833-834). *)
Definition table_of (cmap : list Z) (codes : list (list Z)) (histo : Z) : option (list Z) :=
  let? e := zget cmap histo in zget codes e.
Definition resolve (cmap : list Z) (codes : list (list Z)) (c : citem) : item :=
  match c with
  | CBit p b => IBit p b
  | CSym h s => ISym (match table_of cmap codes h with Some t => t | None => [] end) s
  | CBits n v => IBits n v
  end.

(** One adaptive bit: brunsli_encode.cc:676-678 and e.g. brunsli_decode.cc:587-588. *)
Definition enc_bit (ps : list prob) (i : Z) (b : bool) : option (list citem * list prob) :=
  let? p := zget ps i in
  let? ps' := zset ps i (prob_add p b) in Some ([CBit (p_prob8 p) b], ps').
Definition dec_bit (ps : list prob) (i : Z) : eprog (bool * list prob) :=
  eget (zget ps i) (fun p =>
  EBit (p_prob8 p) (fun b => eget (zset ps i (prob_add p b)) (fun ps' => ERet (b, ps')))).

Definition b2 (b : bool) : Z := if b then 1 else 0.

(** * Absolute values: direct codes 0..7, then 8 + nbits with nbits + 1 extra bits *)

(** brunsli_encode.cc:1151-1168 (DC) and 1306-1327 (AC); kNumDirectCodes = 8.  [idx]
    selects the probability of the first extra bit. *)
Definition enc_abs (histo : Z) (absval : Z) (ps : list prob) (idx : Z -> Z) : option (list citem * list prob) :=
  if absval <=? 8 then Some ([CSym histo (absval - 1)], ps)
  else
    let nbits := Z.log2 (absval - 8 + 1) - 1 in
    let extra := absval - (8 - 1 + Z.shiftl 2 nbits) in
    let first := negb (Z.land (Z.shiftr extra nbits) 1 =? 0) in
    let? r := enc_bit ps (idx nbits) first in
    Some (CSym histo (8 + nbits) :: fst r
            ++ (if 0 <? nbits then [CBits (Z.to_nat nbits) (Z.land extra (Z.shiftl 1 nbits - 1))] else []), snd r).

(** brunsli_decode.cc:686-704 (DC) and 833-851 (AC). *)
Definition dec_abs (cmap : list Z) (codes : list (list Z)) (histo : Z) (ps : list prob) (idx : Z -> Z) : eprog (Z * list prob) :=
  eget (table_of cmap codes histo) (fun counts =>
  ESym counts (fun code =>
    if code <? 8 then ERet (code + 1, ps)
    else
      let nbits := code - 8 in
      ebind (dec_bit ps (idx nbits)) (fun '(first, ps') =>
      let hi := Z.shiftl (b2 first) nbits in
      if 0 <? nbits
      then EBits (Z.to_nat nbits) (fun v => ERet (8 - 1 + Z.shiftl 2 nbits + Z.lor hi v, ps'))
      else ERet (8 - 1 + Z.shiftl 2 nbits + hi, ps')))).

(** * Components *)

Record cmeta := mkCM {
  cm_w : nat; cm_h : nat;           (* width_in_blocks, height_in_blocks *)
  cm_vs : nat;                       (* v_samp *)
  cm_off : Z; cm_bits : Z;           (* context_offset, context_bits *)
  cm_quant : list Z }.
Definition block := list Z.
Definition plane := list block.

(** brunsli_encode.cc:1120-1132 / brunsli_decode.cc:648-664 and 929-958: the order in which
    blocks are visited, as a list of (component, y, x).  The loops of the code run over
    this list; a suspended decoder remembers its position in it. *)
Definition comp_rows (r : nat) (i : nat) (m : cmeta) : list (nat * nat * nat) :=
  flat_map (fun iy => map (fun x => (i, r * cm_vs m + iy, x)%nat) (seq 0 (cm_w m))) (seq 0 (cm_vs m)).
Fixpoint mcu_row (r : nat) (i : nat) (ms : list cmeta) : list (nat * nat * nat) :=
  match ms with [] => [] | m :: rest => comp_rows r i m ++ mcu_row r (S i) rest end.
Definition mcu_rows (ms : list cmeta) : nat := match ms with [] => O | m :: _ => (cm_h m / cm_vs m)%nat end.
Definition visits (ms : list cmeta) : list (nat * nat * nat) := flat_map (fun r => mcu_row r 0 ms) (seq 0 (mcu_rows ms)).

(** * DC prediction *)

(** predict.cc:15-26, AdaptiveMedian. *)
Definition adaptive_median (w n nw : Z) : Z :=
  let mx := if n <? w then w else n in
  let mn := w + n - mx in
  if mx <? nw then mn else if nw <? mn then mx else n + w - nw.

(** predict.cc:30-44, PredictWithAdaptiveMedian at block [y*w+x].  The reads stay inside the
    plane because of the tests on x and y. *)
Definition dc_at (p : plane) (j : nat) : Z := nth 0 (nth j p []) 0.
Definition predict (w : nat) (p : plane) (x y : nat) : Z :=
  let j := (y * w + x)%nat in
  if negb (y =? 0)%nat then
    if negb (x =? 0)%nat then adaptive_median (dc_at p (j - 1)) (dc_at p (j - w)) (dc_at p (j - w - 1))
    else dc_at p (j - w)
  else if negb (x =? 0)%nat then dc_at p (j - 1) else 0.

(** brunsli_encode.cc:1037-1062, PredictDCCoeffs for one component, in raster order; [None]:
    an error above kBrunsliMaxDCAbsVal = 2054. *)
Fixpoint dc_errors_from (w : nat) (p : plane) (js : list nat) : option (list Z) :=
  match js with
  | [] => Some []
  | j :: r =>
      let err := dc_at p j - predict w p (j mod w) (j / w) in
      if 2054 <? Z.abs err then None
      else let? t := dc_errors_from w p r in Some (err :: t)
  end.
Definition dc_errors (m : cmeta) (p : plane) : option (list Z) := dc_errors_from (cm_w m) p (seq 0 (cm_w m * cm_h m)).

(** * DC section *)

(** context.h:301-335, ComponentStateDC; [dc_zero] has the one entry is_zero_prob. *)
Record dcst := mkDC {
  dc_zero : list prob; dc_empty : list prob; dc_sign : list prob; dc_extra : list prob;
  dc_ne : list Z; dc_abs : list Z; dc_sgn : list Z }.
(** context.cc:30-42 and context.h:311-317. *)
Definition dc_init (w : nat) : dcst :=
  mkDC [prob_init 135] (repeat (prob_init 74) 3) (repeat (prob_init 128) 9) (repeat (prob_init 150) 10)
       (repeat 1 (w + 1)) (repeat 0 (w + 3)) (repeat 0 (w + 1)).

(** context.h:168-176, WeightedAverageContextDC with vals = &prev_abs_coeff[2]. *)
Definition dc_avg_ctx (vals : list Z) (x : Z) : option Z :=
  let? a := zget vals (x + 2 - 2) in
  let? b := zget vals (x + 2 - 1) in
  let? c := zget vals (x + 2) in
  let? d := zget vals (x + 2 + 1) in
  let sum := 1 + a + b + c + d in
  Some (if negb (Z.shiftr sum 8 =? 0) then 8 else Z.log2 sum).
(** context.h:295-299, IsEmptyBlockContext with prev = &prev_is_nonempty[1]. *)
Definition dc_empty_ctx (ne : list Z) (x : Z) : option Z :=
  let? a := zget ne (x + 1 - 1) in let? b := zget ne (x + 1) in Some (a + b).
(** prev_sgn[x] * 3 + prev_sgn[x - 1] with prev_sgn = &prev_sign[1]. *)
Definition dc_sign_ctx (sg : list Z) (x : Z) : option Z :=
  let? a := zget sg (x + 1) in let? b := zget sg (x + 1 - 1) in Some (a * 3 + b).

(** brunsli_encode.cc:1133-1174: one block; [err] is its prediction error, [ac] tells
    whether it has a non-zero AC coefficient.  Also returns is_empty_block. *)
Definition enc_dc_block (band : Z) (st : dcst) (x : Z) (err : Z) (ac : bool) : option (list citem * bool * dcst) :=
  let sign := if 0 <? err then 1 else if err <? 0 then 2 else 0 in
  let absval := if sign =? 2 then - err else err in
  let is_empty := (err =? 0) && negb ac in
  let? ctx := dc_empty_ctx (dc_ne st) x in
  let? r1 := enc_bit (dc_empty st) ctx (negb is_empty) in
  let? ne := zset (dc_ne st) (x + 1) (b2 (negb is_empty)) in
  let? r := (if is_empty then Some ([], dc_zero st, dc_sign st, dc_extra st) else
    let? r2 := enc_bit (dc_zero st) 0 (err =? 0) in
    if err =? 0 then Some (fst r2, snd r2, dc_sign st, dc_extra st) else
    let? avg := dc_avg_ctx (dc_abs st) x in
    let? sctx := dc_sign_ctx (dc_sgn st) x in
    let? r3 := enc_bit (dc_sign st) sctx (negb (sign - 1 =? 0)) in
    let? r4 := enc_abs (band * 9 + avg) absval (dc_extra st) (fun n => n) in
    Some (fst r2 ++ fst r3 ++ fst r4, snd r2, snd r3, snd r4)) in
  let '(items, zero', sign', extra') := r in
  let? sg := zset (dc_sgn st) (x + 1) sign in
  let? ab := zset (dc_abs st) (x + 2) absval in
  Some (fst r1 ++ items, is_empty, mkDC zero' (snd r1) sign' extra' ne ab sg).

(** brunsli_decode.cc:665-709: one block; is_empty_block, sign, abs_val and the new state. *)
Definition dec_dc_block (cmap : list Z) (codes : list (list Z)) (band : Z) (st : dcst) (x : Z) : eprog (bool * Z * Z * dcst) :=
  eget (dc_empty_ctx (dc_ne st) x) (fun ctx =>
  ebind (dec_bit (dc_empty st) ctx) (fun '(nonempty, empty') =>
  eget (zset (dc_ne st) (x + 1) (b2 nonempty)) (fun ne =>
  ebind (if negb nonempty then ERet (0, 0, dc_zero st, dc_sign st, dc_extra st) else
    ebind (dec_bit (dc_zero st) 0) (fun '(is_zero, zero') =>
    if (is_zero : bool) then ERet (0, 0, zero', dc_sign st, dc_extra st) else
    eget (dc_avg_ctx (dc_abs st) x) (fun avg =>
    eget (dc_sign_ctx (dc_sgn st) x) (fun sctx =>
    ebind (dec_bit (dc_sign st) sctx) (fun '(sb, sign') =>
    ebind (dec_abs cmap codes (band * 9 + avg) (dc_extra st) (fun n => n)) (fun '(absval, extra') =>
    ERet (b2 sb, absval, zero', sign', extra'))))))) (fun '(sign, absval, zero', sign', extra') =>
  eget (zset (dc_abs st) (x + 2) absval) (fun ab =>
  eget (zset (dc_sgn st) (x + 1) (if absval =? 0 then 0 else sign + 1)) (fun sg =>
  ERet (negb nonempty, sign, absval, mkDC zero' empty' sign' extra' ne ab sg))))))).

(** brunsli_encode.cc:736-743, CollectAllCoeffs <> 0. *)
Definition has_ac (b : block) : bool := negb (forallb (fun v => v =? 0) (tl b)).

(** brunsli_encode.cc:1086-1178, EncodeDC over the visits: items and block states.
    [errs], [planes]: per component. *)
Fixpoint enc_dc (ms : list cmeta) (errs : list (list Z)) (planes : list plane) (vs : list (nat * nat * nat))
    (sts : list dcst) (flags : list (list bool)) : option (list citem * list (list bool)) :=
  match vs with
  | [] => Some ([], flags)
  | (i, y, x) :: rest =>
      let? m := nth_error ms i in
      let? st := nth_error sts i in
      let? es := nth_error errs i in
      let? p := nth_error planes i in
      let? fl := nth_error flags i in
      let j := (y * cm_w m + x)%nat in
      let? e := nth_error es j in
      let? b := nth_error p j in
      let? r := enc_dc_block (Z.of_nat i) st (Z.of_nat x) e (has_ac b) in
      let '(items, is_empty, st') := r in
      let? fl' := zset fl (Z.of_nat j) is_empty in
      let? t := enc_dc ms errs planes rest (upd sts i st') (upd flags i fl') in
      Some (items ++ fst t, snd t)
  end.

(** brunsli_decode.cc:615-739, DecodeDC over the visits: planes and block states. *)
Definition put_dc (b : block) (v : Z) : block := upd b 0 v.
Fixpoint dec_dc (cmap : list Z) (codes : list (list Z)) (ms : list cmeta) (vs : list (nat * nat * nat))
    (sts : list dcst) (planes : list plane) (flags : list (list bool)) : eprog (list plane * list (list bool)) :=
  match vs with
  | [] => ERet (planes, flags)
  | (i, y, x) :: rest =>
      eget (nth_error ms i) (fun m =>
      eget (nth_error sts i) (fun st =>
      eget (nth_error planes i) (fun p =>
      eget (nth_error flags i) (fun fl =>
      let j := (y * cm_w m + x)%nat in
      ebind (dec_dc_block cmap codes (Z.of_nat i) st (Z.of_nat x)) (fun '(is_empty, sign, absval, st') =>
      eget (zset fl (Z.of_nat j) is_empty) (fun fl' =>
      eget (nth_error p j) (fun b =>
      let v := to_i16 ((1 - 2 * sign) * absval + predict (cm_w m) p x y) in
      dec_dc cmap codes ms rest (upd sts i st') (upd planes i (upd p j (put_dc b v))) (upd flags i fl'))))))))
  end.

(** * AC section *)

(** context.cc:19-28, ComputeACPredictMultipliers: kSqrt2FixedPoint = 11585 (the integer
    part of 1.414213562 * 8192); the divisors are table entries, never zero. *)
Definition quant_at (q : list Z) (i : nat) : Z := nth i q 0.
Definition mult_row (q : list Z) : list Z :=
  map (fun i => Z.quot (quant_at q i * 11585) (quant_at q (i / 8 * 8))) (seq 0 64).
Definition mult_col (q : list Z) : list Z :=
  map (fun i => let x := (i / 8)%nat in let y := (i mod 8)%nat in Z.quot (quant_at q (x + 8 * y) * 11585) (quant_at q x)) (seq 0 64).

(** What is fixed for a component during the section. *)
Record accst := mkAK { ak_order : list Z; ak_mrow : list Z; ak_mcol : list Z }.

(** context.h:337-391, ComponentState. *)
Record acst := mkAC {
  ac_zero : list prob; ac_sign : list prob; ac_nnz : list prob; ac_extra : list prob;
  ac_pnnz : list Z; ac_abs : list Z; ac_sgn : list Z }.
(** context.cc:223-250, InitAll, and context.h:347-353. *)
Definition ac_init (w : nat) : acst :=
  mkAC (flat_map (fun i => map (fun p => prob_init (p + 9 * (Z.of_nat i - 7))) kInitProb) (seq 0 11))
       (repeat (prob_init 108) (8 * 64) ++ repeat (prob_init 128) 64 ++ repeat (prob_init 148) (8 * 64))
       (flat_map (map prob_init) kInitProbNonzero)
       (repeat (prob_init 158) 640)
       (repeat 0 w) (repeat 0 (64 * 2 * (w + 3))) (repeat 0 (64 * (w + 1))).

(** context.h:262-289, NumNonzerosContext. *)
Definition nnz_ctx (prev : list Z) (x y : Z) : option Z :=
  let? p := (if y =? 0 then (if x =? 0 then Some 0 else zget prev (x - 1))
             else if x =? 0 then zget prev x
             else let? a := zget prev (x - 1) in let? b := zget prev x in Some ((a + b + 1) / 2)) in
  Some (p / 2).

(** brunsli_encode.cc:722-734, EncodeNumNonzeros: [n] bits of [val] left, [ctx] is the
    1-based node, the tree starts at [base]. *)
Fixpoint enc_nnz (n : nat) (val ctx base : Z) (ps : list prob) : option (list citem * list prob) :=
  match n with
  | O => Some ([], ps)
  | S n' =>
      let bit := Z.testbit val (Z.of_nat n') in
      let? r := enc_bit ps (base + (ctx - 1)) bit in
      let? t := enc_nnz n' val (2 * ctx + b2 bit) base (snd r) in
      Some (fst r ++ fst t, snd t)
  end.
(** brunsli_decode.cc:579-595, DecodeNumNonzeros. *)
Fixpoint dec_nnz (n : nat) (ctx base : Z) (ps : list prob) : eprog (Z * list prob) :=
  match n with
  | O => ERet (ctx - 64, ps)
  | S n' => ebind (dec_bit ps (base + (ctx - 1))) (fun '(bit, ps') => dec_nnz n' (2 * ctx + b2 bit) base ps')
  end.

(** context.h:204-224, ACPredictContext. *)
Definition ac_predict_ctx (p : Z) : Z * Z :=
  let a := Z.abs p in
  let ctx := if 256 <=? a then 8 else Z.log2 (2 * a + 1) in
  (ctx, 8 + (if 0 <=? p then ctx else - ctx)).
(** context.h:226-260, ACPredictContextCol (step 1) and ACPredictContextRow (step 8):
    [prev] and [cur] are read at [off + step * j], [mult] at [moff + j]; the term of j = 0
    is zero.  The differences are stored in a coeff_t. *)
Definition ac_predict (prev cur mult : list Z) (off step moff : Z) : option (Z * Z) :=
  let? ts := fold_right (fun (j : Z) acc =>
      let? s := acc in
      let? c := zget cur (off + step * j) in
      let? p := zget prev (off + step * j) in
      let? m := zget mult (moff + j) in
      Some (to_i16 (if Z.odd j then c + p else c - p) * m + s)) (Some 0) [1; 2; 3; 4; 5; 6; 7] in
  let? p0 := zget prev off in
  Some (ac_predict_ctx (p0 - Z.quot ts 8192)).

(** context.h:191-200, WeightedAverageContext with vals at [i]. *)
Definition ac_avg_ctx (vals : list Z) (i delta : Z) : option Z :=
  let? a := zget vals i in
  let? b := zget vals (i - 64) in
  let? c := zget vals (i + delta) in
  let? d := zget vals (i - 128) in
  let? e := zget vals (i + delta - 64) in
  let? f := zget vals (i + delta + 64) in
  let sum := 4 + a + (b + c) * 2 + d + e + f in
  Some (if negb (Z.shiftr sum 10 =? 0) then 8 else Z.log2 sum - 2).

(** Position of a block: coordinates, width, neighbours above and to the left. *)
Record bpos := mkBP { bp_x : Z; bp_y : Z; bp_w : Z; bp_up : block; bp_left : block }.
(** prev_abs and prev_sgn of the block: brunsli_encode.cc:1236-1239, brunsli_decode.cc:936-941.
    prev_row_delta changes its sign with every row, starting from the parity of y
    (1228, 929, 955). *)
Definition abs_base (bp : bpos) : Z := ((bp_y bp mod 2) * (bp_w bp + 3) + 2 + bp_x bp) * 64.
Definition row_delta (bp : bpos) : Z := (1 - 2 * (bp_y bp mod 2)) * (bp_w bp + 3) * 64.
Definition sgn_base (bp : bpos) : Z := 64 + 64 * bp_x bp.

(** brunsli_encode.cc:1276-1302 and brunsli_decode.cc:806-825: average and sign contexts of
    the coefficient with position [k] in coding order and [kn] in the block. *)
Definition ac_ctx (legacy : bool) (ak : accst) (st : acst) (bp : bpos) (cur : block) (k kn : Z) : option (Z * Z) :=
  let? ct := zget kContextAlgorithm (kn + (if legacy then 64 else 0)) in
  if negb (Z.land ct 1 =? 0) && (0 <? bp_y bp) then
    ac_predict (bp_up bp) cur (ak_mcol ak) (Z.land kn 7) 8 (Z.land kn 7 * 8)
  else if negb (Z.land ct 2 =? 0) && (0 <? bp_x bp) then
    ac_predict (bp_left bp) cur (ak_mrow ak) (kn - Z.land kn 7) 1 (kn - Z.land kn 7)
  else if ct =? 0 then
    let? a := ac_avg_ctx (ac_abs st) (abs_base bp + k) (row_delta bp) in
    let? s0 := zget (ac_sgn st) (sgn_base bp + k) in
    let? s1 := zget (ac_sgn st) (sgn_base bp + k - 64) in
    Some (a, s0 * 3 + s1)
  else Some (0, 8).

(** context.h:161-163, ZeroDensityContext. *)
Definition zero_density (nz k bits : Z) : option Z :=
  let? r := zget kNumNonzeroContext bits in
  let? a := zget r nz in
  let? s := zget kFreqContext bits in
  let? b := zget s k in Some (a + b).

(** prev_sgn[k] and prev_abs[k] are stored. *)
Definition put_prev (st : acst) (bp : bpos) (k sgn ab : Z) : option acst :=
  let? sg := zset (ac_sgn st) (sgn_base bp + k) sgn in
  let? a := zset (ac_abs st) (abs_base bp + k) ab in
  Some (mkAC (ac_zero st) (ac_sign st) (ac_nnz st) (ac_extra st) (ac_pnnz st) a sg).

(** prev_sgn[k] = prev_abs[k] = 0 for k in [ks]: brunsli_encode.cc:1259-1262,
    brunsli_decode.cc:741-747 and 790-793. *)
Fixpoint clear_prev (ks : list Z) (bp : bpos) (st : acst) : option acst :=
  match ks with [] => Some st | k :: r => let? st' := put_prev st bp k 0 0 in clear_prev r bp st' end.
Definition above (k : nat) : list Z := map Z.of_nat (seq (S k) (63 - k)).

(** brunsli_encode.cc:1263-1336, the loop from k = last_nz down to 1: [cur] is
    encoded_coeffs. *)
Fixpoint enc_ac_loop (legacy : bool) (ak : accst) (m : cmeta) (bp : bpos) (b : block) (last : nat) (k : nat)
    (nz : Z) (cur : block) (st : acst) : option (list citem * Z * acst) :=
  match k with
  | O => Some ([], nz, st)
  | S k' =>
      let kz := Z.of_nat k in
      let? kn := zget (ak_order ak) kz in
      let? coeff := zget b kn in
      let is_zero := coeff =? 0 in
      let? r1 := (if (k <? last)%nat then
        let? bucket := zget kNonzeroBuckets (nz - 1) in
        enc_bit (ac_zero st) (bucket * 64 + kz) is_zero
      else Some ([], ac_zero st)) in
      let st1 := mkAC (snd r1) (ac_sign st) (ac_nnz st) (ac_extra st) (ac_pnnz st) (ac_abs st) (ac_sgn st) in
      if is_zero then
        let? st2 := put_prev st1 bp kz 0 0 in
        let? t := enc_ac_loop legacy ak m bp b last k' nz cur st2 in
        let '(items, nz', st') := t in Some (fst r1 ++ items, nz', st')
      else
        let sign := negb (0 <? coeff) in
        let absval := if sign then - coeff else coeff in
        let? c := ac_ctx legacy ak st1 bp cur kz kn in
        let? r2 := enc_bit (ac_sign st1) (snd c * 64 + kz) sign in
        let? zd := zero_density nz kz (cm_bits m) in
        let? r3 := enc_abs ((cm_off m + zd) * 9 + fst c) absval (ac_extra st1) (fun n => kz * 10 + n) in
        let? cur' := zset cur kn coeff in
        let st2 := mkAC (ac_zero st1) (snd r2) (ac_nnz st1) (snd r3) (ac_pnnz st1) (ac_abs st1) (ac_sgn st1) in
        let? st3 := put_prev st2 bp kz (b2 sign + 1) absval in
        let? t := enc_ac_loop legacy ak m bp b last k' (nz + 1) cur' st3 in
        let '(items, nz', st') := t in Some (fst r1 ++ fst r2 ++ fst r3 ++ items, nz', st')
  end.

(** brunsli_encode.cc:1247-1251: the last position with a non-zero coefficient. *)
Fixpoint last_nonzero (order : list Z) (b : block) (k : nat) : option nat :=
  match k with
  | O => Some O
  | S k' =>
      let? kn := zget order (Z.of_nat k) in
      let? c := zget b kn in
      if c =? 0 then last_nonzero order b k' else Some k
  end.

Definition set_pnnz (st : acst) (x v : Z) : option acst :=
  let? p := zset (ac_pnnz st) x v in
  Some (mkAC (ac_zero st) (ac_sign st) (ac_nnz st) (ac_extra st) p (ac_abs st) (ac_sgn st)).

(** brunsli_encode.cc:1240-1340: one block. *)
Definition enc_ac_block (legacy : bool) (ak : accst) (m : cmeta) (bp : bpos) (empty : bool) (b : block) (st : acst)
  : option (list citem * acst) :=
  let? last := (if empty then Some O else last_nonzero (ak_order ak) b 63) in
  let? r0 := (if empty then Some ([], ac_nnz st) else
    let? c := nnz_ctx (ac_pnnz st) (bp_x bp) (bp_y bp) in
    enc_nnz 6 (Z.of_nat last) 1 (63 * c) (ac_nnz st)) in
  let st0 := mkAC (ac_zero st) (ac_sign st) (snd r0) (ac_extra st) (ac_pnnz st) (ac_abs st) (ac_sgn st) in
  let? st1 := clear_prev (above last) bp st0 in
  let? r := enc_ac_loop legacy ak m bp b last last 0 (repeat 0 64) st1 in
  let '(items, nz, st2) := r in
  let? st3 := set_pnnz st2 (bp_x bp) nz in
  Some (fst r0 ++ items, st3).

(** brunsli_decode.cc:794-855, the loop of DecodeAcBlock; [cur] is the block under
    construction (already holding its DC coefficient). *)
Fixpoint dec_ac_loop (cmap : list Z) (codes : list (list Z)) (legacy : bool) (ak : accst) (m : cmeta) (bp : bpos) (last : nat) (k : nat)
    (nz : Z) (cur : block) (st : acst) : eprog (block * Z * acst) :=
  match k with
  | O => ERet (cur, nz, st)
  | S k' =>
      let kz := Z.of_nat k in
      ebind (if (k <? last)%nat then
        eget (zget kNonzeroBuckets (nz - 1)) (fun bucket => dec_bit (ac_zero st) (bucket * 64 + kz))
      else ERet (false, ac_zero st)) (fun '(is_zero, zero') =>
      let st1 := mkAC zero' (ac_sign st) (ac_nnz st) (ac_extra st) (ac_pnnz st) (ac_abs st) (ac_sgn st) in
      eget (zget (ak_order ak) kz) (fun kn =>
      if (is_zero : bool) then
        eget (zset cur kn 0) (fun cur' =>
        eget (put_prev st1 bp kz 0 0) (fun st2 => dec_ac_loop cmap codes legacy ak m bp last k' nz cur' st2))
      else
        eget (ac_ctx legacy ak st1 bp cur kz kn) (fun c =>
        ebind (dec_bit (ac_sign st1) (snd c * 64 + kz)) (fun '(sb, sign') =>
        eget (zero_density nz kz (cm_bits m)) (fun zd =>
        ebind (dec_abs cmap codes ((cm_off m + zd) * 9 + fst c) (ac_extra st1) (fun n => kz * 10 + n)) (fun '(absval, extra') =>
        eget (zset cur kn (to_i16 ((1 - 2 * b2 sb) * absval))) (fun cur' =>
        let st2 := mkAC (ac_zero st1) sign' (ac_nnz st1) extra' (ac_pnnz st1) (ac_abs st1) (ac_sgn st1) in
        eget (put_prev st2 bp kz (b2 sb + 1) absval) (fun st3 =>
        dec_ac_loop cmap codes legacy ak m bp last k' (nz + 1) cur' st3))))))))
  end.

(** brunsli_decode.cc:779-863, DecodeAcBlock, and 942-954. *)
Definition dec_ac_block (cmap : list Z) (codes : list (list Z)) (legacy : bool) (ak : accst) (m : cmeta) (bp : bpos) (empty : bool) (b : block) (st : acst)
  : eprog (block * acst) :=
  if empty then
    eget (clear_prev (above 0) bp st) (fun st1 =>
    eget (set_pnnz st1 (bp_x bp) 0) (fun st2 => ERet (b, st2)))
  else
    eget (nnz_ctx (ac_pnnz st) (bp_x bp) (bp_y bp)) (fun c =>
    ebind (dec_nnz 6 1 (63 * c) (ac_nnz st)) (fun '(last, nnz') =>
    let st0 := mkAC (ac_zero st) (ac_sign st) nnz' (ac_extra st) (ac_pnnz st) (ac_abs st) (ac_sgn st) in
    eget (clear_prev (above (Z.to_nat last)) bp st0) (fun st1 =>
    ebind (dec_ac_loop cmap codes legacy ak m bp (Z.to_nat last) (Z.to_nat last) 0 b st1) (fun '(b', nz, st2) =>
    eget (set_pnnz st2 (bp_x bp) nz) (fun st3 => ERet (b', st3)))))).

(** Neighbours of a block; at the border the pointers are not followed (the contexts test
    x and y first), an empty block stands for them. *)
Definition neighbours (w : nat) (p : plane) (x y : nat) : bpos :=
  let j := (y * w + x)%nat in
  mkBP (Z.of_nat x) (Z.of_nat y) (Z.of_nat w)
       (if (y =? 0)%nat then [] else nth (j - w) p []) (if (x =? 0)%nat then [] else nth (j - 1) p []).

(** brunsli_encode.cc:1219-1345 over the visits. *)
Fixpoint enc_ac (legacy : bool) (ms : list cmeta) (aks : list accst) (planes : list plane) (flags : list (list bool)) (vs : list (nat * nat * nat))
    (sts : list acst) : option (list citem) :=
  match vs with
  | [] => Some []
  | (i, y, x) :: rest =>
      let? m := nth_error ms i in
      let? ak := nth_error aks i in
      let? st := nth_error sts i in
      let? p := nth_error planes i in
      let? fl := nth_error flags i in
      let j := (y * cm_w m + x)%nat in
      let? b := nth_error p j in
      let? e := nth_error fl j in
      let? r := enc_ac_block legacy ak m (neighbours (cm_w m) p x y) e b st in
      let? t := enc_ac legacy ms aks planes flags rest (upd sts i (snd r)) in
      Some (fst r ++ t)
  end.

(** brunsli_decode.cc:903-968 over the visits. *)
Fixpoint dec_ac (cmap : list Z) (codes : list (list Z)) (legacy : bool) (ms : list cmeta) (aks : list accst) (flags : list (list bool)) (vs : list (nat * nat * nat))
    (sts : list acst) (planes : list plane) : eprog (list plane) :=
  match vs with
  | [] => ERet planes
  | (i, y, x) :: rest =>
      eget (nth_error ms i) (fun m =>
      eget (nth_error aks i) (fun ak =>
      eget (nth_error sts i) (fun st =>
      eget (nth_error planes i) (fun p =>
      eget (nth_error flags i) (fun fl =>
      let j := (y * cm_w m + x)%nat in
      eget (nth_error p j) (fun b =>
      eget (nth_error fl j) (fun e =>
      ebind (dec_ac_block cmap codes legacy ak m (neighbours (cm_w m) p x y) e b st) (fun '(b', st') =>
      dec_ac cmap codes legacy ms aks flags rest (upd sts i st') (upd planes i (upd p j b')))))))))) 
  end.

(** * Whole sections *)

Fixpoint omap2 {A B C} (f : A -> B -> option C) (l1 : list A) (l2 : list B) : option (list C) :=
  match l1, l2 with
  | [], [] => Some []
  | a :: r1, b :: r2 => let? c := f a b in let? t := omap2 f r1 r2 in Some (c :: t)
  | _, _ => None
  end.

(** PredictDCCoeffs for all components and EncodeDC (brunsli_encode.cc:1037-1062, 1086-1178):
    [None] when a DC prediction error is too large (or on a memory error).  The block
    states start zeroed. *)
Definition encode_dc (ms : list cmeta) (planes : list plane) : option (list citem * list (list bool)) :=
  let? errs := omap2 dc_errors ms planes in
  enc_dc ms errs planes (visits ms) (map (fun m => dc_init (cm_w m)) ms) (map (fun m => repeat false (cm_w m * cm_h m)) ms).

(** DecodeDC on a whole section payload, from the zeroed storage allocated by WarmupMeta
    (brunsli_decode.cc:615-739, 1932-1953, 2243-2255). *)
Definition decode_dc_prog (cmap : list Z) (codes : list (list Z)) (ms : list cmeta) : eprog (list plane * list (list bool)) :=
  dec_dc cmap codes ms (visits ms) (map (fun m => dc_init (cm_w m)) ms)
    (map (fun m => repeat (repeat 0 64) (cm_w m * cm_h m)) ms) (map (fun m => repeat false (cm_w m * cm_h m)) ms).

(** brunsli_encode.cc:1203 and 895: multipliers and order of a component. *)
Definition ac_consts (m : cmeta) (order : list Z) : accst := mkAK order (mult_row (cm_quant m)) (mult_col (cm_quant m)).

(** brunsli_encode.cc:1209-1211: the orders of all components come first (raw bits only, no
    histogram). *)
Fixpoint encode_orders (orders : list (list Z)) : option (list item) :=
  match orders with
  | [] => Some []
  | o :: r => let? a := encode_coeff_order o in let? t := encode_orders r in Some (a ++ t)
  end.
(** brunsli_decode.cc:884-896. *)
Fixpoint decode_orders (n : nat) : eprog (list (list Z)) :=
  match n with
  | O => ERet []
  | S n' => ebind decode_coeff_order (fun o => ebind (decode_orders n') (fun t => ERet (o :: t)))
  end.

(** EncodeAC (brunsli_encode.cc:1180-1346) with the orders chosen by ComputeCoeffOrder as a
    parameter: raw items of the orders, then the items of the blocks. *)
Definition encode_ac (legacy : bool) (ms : list cmeta) (orders : list (list Z)) (planes : list plane) (flags : list (list bool)) : option (list item * list citem) :=
  let? a := encode_orders orders in
  let? aks := omap2 (fun m o => Some (ac_consts m o)) ms orders in
  let? t := enc_ac legacy ms aks planes flags (visits ms) (map (fun m => ac_init (cm_w m)) ms) in
  Some (a, t).

(** DecodeAC (brunsli_decode.cc:865-976) on the planes and block states left by DecodeDC. *)
Definition decode_ac_prog (cmap : list Z) (codes : list (list Z)) (legacy : bool) (ms : list cmeta) (flags : list (list bool)) (planes : list plane) : eprog (list plane) :=
  ebind (decode_orders (length ms)) (fun orders =>
  eget (omap2 (fun m o => Some (ac_consts m o)) ms orders) (fun aks =>
  dec_ac cmap codes legacy ms aks flags (visits ms) (map (fun m => ac_init (cm_w m)) ms) planes)).
