(** Histograms of ANS symbols: normalisation and storage by the encoder
    (c/enc/histogram_encode.cc), reading by the decoder
    (c/dec/histogram_decode.cc). *)
From Verif Require Import Base BitModel.

(** c/common/ans_params.h: BRUNSLI_ANS_MAX_SYMBOLS (= kCoeffAlphabetSize),
    BRUNSLI_ANS_LOG_TAB_SIZE, BRUNSLI_ANS_TAB_SIZE. *)
Definition kAnsSymbols : nat := 18.
Definition kAnsTab : Z := 1024.

(** c/common/histogram.h:16-18, GetPopulationCountPrecision. *)
Definition pop_precision (logcount : Z) : Z := (logcount + 1) / 2.

(** * Decoder *)

(** histogram_decode.cc:21-27: kLengthTree, kLogCountTree. *)
Definition kLengthTree : list Z :=
  [1; 2; 3; 4; 5; 6; 7; -10; -11; -12; -13; -14; -15; 2; 3; -9; -16; 2; 3; -8; -17; 2; 3; -5; -6; -7; 1; -18; 1; -3; -4].
Definition kLogCountTree : list Z :=
  [1; 2; 3; -6; 3; 4; 5; -4; -5; -7; -8; 2; 3; -1; -2; -3; 1; 0; 1; -9; -10].

(** histogram_decode.cc:29-37, ReadShortHuffmanCode; [Fail] also stands for a
    read outside of the tree (shown not to happen). *)
Fixpoint read_short (fuel : nat) (tree : list Z) (pos delta : Z) : prog Z :=
  match fuel with
  | O => Fail
  | S f =>
      Read 1 (fun b =>
        let pos := pos + delta + b in
        match nth_error tree (Z.to_nat pos) with
        | None => Fail
        | Some d => if 0 <? d then read_short f tree pos d else Ret (- d)
        end)
  end.
Definition read_length : prog Z := read_short 8 kLengthTree 0 1.
Definition read_logcount : prog Z := read_short 6 kLogCountTree 0 1.

(** histogram_decode.cc:78-82: read [n] log counts. *)
Fixpoint read_logs (n : nat) : prog (list Z) :=
  match n with
  | O => Ret []
  | S m => bind read_logcount (fun v => bind (read_logs m) (fun l => Ret (v :: l)))
  end.

(** histogram_decode.cc:81: [if (log_counts[i] > log_counts[omit_pos]) omit_pos = i]. *)
Fixpoint first_max_from (i pos : nat) (best : Z) (l : list Z) : nat :=
  match l with
  | [] => pos
  | v :: r => if best <? v then first_max_from (S i) i v r else first_max_from (S i) pos best r
  end.
Definition first_max (l : list Z) : nat :=
  match l with [] => 0%nat | v :: r => first_max_from 1 0 v r end.

(** histogram_decode.cc:84-97: counts of the symbols other than omit_pos. *)
Fixpoint read_counts (i omit : nat) (logs : list Z) : prog (list Z) :=
  match logs with
  | [] => Ret []
  | code :: r =>
      let rest v := bind (read_counts (S i) omit r) (fun l => Ret (v :: l)) in
      if Nat.eqb i omit then rest 0
      else if code =? 0 then rest 0
      else if code =? 1 then rest 1
      else
        let bc := pop_precision (code - 1) in
        Read (Z.to_nat bc) (fun b => rest (Z.shiftl 1 (code - 1) + Z.shiftl b (code - 1 - bc)))
  end.

(** histogram_decode.cc:41-107, ReadHistogram with precision_bits = 10 and
    counts->size() = 18 (its only use, brunsli_decode.cc:1911); max_bits = 5. *)
Definition read_histogram : prog (list Z) :=
  let zeros := repeat 0 kAnsSymbols in
  Read 1 (fun simple =>
    if simple =? 1 then
      Read 1 (fun ns =>
        Read 5 (fun r0 =>
          let s0 := Z.to_nat (r0 mod Z.of_nat kAnsSymbols) in
          if ns =? 0 then Chk (Ret (upd zeros s0 kAnsTab))
          else
            Read 5 (fun r1 =>
              let s1 := Z.to_nat (r1 mod Z.of_nat kAnsSymbols) in
              if Nat.eqb s0 s1 then Fail
              else Read 10 (fun v => Chk (Ret (upd (upd zeros s0 v) s1 (kAnsTab - v)))))))
    else
      bind read_length (fun n =>
      bind (read_logs (Z.to_nat n)) (fun logs =>
      let omit := first_max logs in
      bind (read_counts 0 omit logs) (fun cs =>
      let total := sumZ cs in
      if kAnsTab <=? total then Fail
      else Chk (Ret (upd cs omit (kAnsTab - total) ++ repeat 0 (kAnsSymbols - length cs))))))).

(** * Encoder *)

(** histogram_encode.cc:21-38. *)
Definition kLenBits : list nat := [8; 8; 6; 6; 6; 5; 4; 3; 3; 3; 3; 3; 3; 4; 5; 7]%nat.
Definition kLenSyms : list Z := [127; 255; 15; 47; 31; 7; 3; 0; 4; 2; 6; 1; 5; 11; 23; 63].
Definition kLogBits : list nat := [5; 4; 4; 4; 3; 3; 2; 3; 3; 6; 6]%nat.
Definition kLogSyms : list Z := [15; 3; 11; 7; 2; 6; 0; 1; 5; 31; 63].

(** histogram_encode.cc:40-46, SmallestIncrement. *)
Definition smallest_increment (count : Z) : Z :=
  let bits := Z.log2 count in Z.shiftl 1 (bits - pop_precision bits).

(** histogram_encode.cc:48-85, RebalanceHistogram for symbol [n].  The
    floating-point parts are left open: [rnd n] is the value of
    [static_cast<uint32_t>(targets[n] + .5)] and [up n] the outcome of
    [target > counts[n] + inc / 2]; [targets[n] > 0] is [counts[n] > 0]. *)
Definition rebalance_one (r : Z) (up : bool) : Z :=
  let c := if r =? 0 then 1 else r in
  let c := if c =? kAnsTab then kAnsTab - 1 else c in
  let inc := smallest_increment c in
  let c := c - Z.land c (inc - 1) in
  if (c =? 0) || (up && (c + inc <? kAnsTab)) then c + inc else c.

(** The loop: new counts, their sum, remainder_pos and remainder_log. *)
Fixpoint rebalance_loop (rnd : nat -> Z) (up : nat -> bool) (n : nat) (counts : list Z)
  (sum : Z) (rpos : option nat) (rlog : Z) : list Z * Z * option nat :=
  match counts with
  | [] => ([], sum, rpos)
  | c :: r =>
      if 0 <? c then
        let c' := rebalance_one (rnd n) (up n) in
        let l := Z.log2 c' in
        let '(rpos, rlog) := if rlog <? l then (Some n, l) else (rpos, rlog) in
        let '(cs, s, p) := rebalance_loop rnd up (S n) r (sum + c') rpos rlog in (c' :: cs, s, p)
      else
        let '(cs, s, p) := rebalance_loop rnd up (S n) r sum rpos rlog in (c :: cs, s, p)
  end.

(** Result: counts, omit_pos, and the boolean returned. *)
Definition rebalance (rnd : nat -> Z) (up : nat -> bool) (counts : list Z) : option (list Z * nat * bool) :=
  let '(cs, sum, rpos) := rebalance_loop rnd up 0 counts 0 None (-1) in
  match rpos with
  | None => None
  | Some p => let v := nth p cs 0 - (sum - kAnsTab) in Some (upd cs p v, p, 0 <? v)
  end.

Fixpoint used_from (i : nat) (counts : list Z) : list nat :=
  match counts with
  | [] => []
  | c :: r => if 0 <? c then i :: used_from (S i) r else used_from (S i) r
  end.
Definition used (counts : list Z) : list nat := used_from 0 counts.

(** histogram_encode.cc:87-128, NormalizeCounts: (counts, omit_pos), [None] if
    the final BRUNSLI_CHECK aborts.  [rnd2]/[up2] are the floating-point
    outcomes of the second attempt, which starts from the counts left by the
    first one but rewrites each of them from the targets. *)
Definition normalize_counts (rnd : nat -> Z) (up1 up2 : nat -> bool) (counts : list Z) : option (list Z * nat) :=
  match used counts with
  | [] => Some (counts, 0%nat)
  | [s] => Some (upd counts s kAnsTab, 0%nat)
  | _ =>
      match rebalance rnd up1 counts with
      | None => None
      | Some (cs, p, true) => Some (cs, p)
      | Some (_, _, false) =>
          match rebalance rnd up2 counts with
          | Some (cs, p, true) => Some (cs, p)
          | _ => None
          end
      end
  end.

Definition log_count (c : Z) : Z := if 0 <? c then Z.log2 c + 1 else 0.

(** histogram_encode.cc:151-170: length and omit_log. *)
Fixpoint enc_scan (i omit : nat) (counts : list Z) (len : nat) (omit_log : Z) : nat * Z :=
  match counts with
  | [] => (len, omit_log)
  | c :: r =>
      if Nat.eqb i omit then enc_scan (S i) omit r (S i) omit_log
      else if 0 <? c then
        let l := log_count c in
        enc_scan (S i) omit r (S i) (Z.max omit_log (if (i <? omit)%nat then l + 1 else l))
      else enc_scan (S i) omit r len omit_log
  end.

(** histogram_encode.cc:181-189: mantissas; [None] if the BRUNSLI_CHECK fails. *)
Fixpoint enc_mantissas (i omit : nat) (counts logs : list Z) : option (list (nat * Z)) :=
  match counts, logs with
  | c :: cr, l :: lr =>
      let? rest := enc_mantissas (S i) omit cr lr in
      if (1 <? l) && negb (Nat.eqb i omit) then
        let bc := pop_precision (l - 1) in
        let drop := l - 1 - bc in
        if Z.land c (Z.shiftl 1 drop - 1) =? 0
        then Some ((Z.to_nat bc, Z.shiftr c drop - Z.shiftl 1 bc) :: rest) else None
      else Some rest
  | _, _ => Some []
  end.

(** Table lookups; [None] = out of bounds. *)
Definition len_field (len : nat) : option (nat * Z) :=
  match nth_error kLenBits (len - 3), nth_error kLenSyms (len - 3) with
  | Some n, Some v => if (len <? 3)%nat then None else Some (n, v)
  | _, _ => None end.
Definition log_field (l : Z) : option (nat * Z) :=
  match nth_error kLogBits (Z.to_nat l), nth_error kLogSyms (Z.to_nat l) with
  | Some n, Some v => Some (n, v)
  | _, _ => None end.
Fixpoint log_fields (ls : list Z) : option (list (nat * Z)) :=
  match ls with
  | [] => Some []
  | l :: r => let? f := log_field l in let? fs := log_fields r in Some (f :: fs)
  end.

(** histogram_encode.cc:130-190, EncodeCounts. [syms] are the used symbols. *)
Definition encode_counts (counts : list Z) (omit : nat) (syms : list nat) : option (list (nat * Z)) :=
  match syms with
  | [] => Some [(1%nat, 1); (6%nat, 0)]
  | [s] => Some [(1%nat, 1); (1%nat, 0); (5%nat, Z.of_nat s)]
  | [s; t] => Some [(1%nat, 1); (1%nat, 1); (5%nat, Z.of_nat s); (5%nat, Z.of_nat t); (10%nat, nth s counts 0)]
  | _ =>
      let '(len, omit_log) := enc_scan 0 omit counts 0 0 in
      let logs := firstn len (upd (map log_count counts) omit omit_log) in
      let? lf := len_field len in
      let? lgs := log_fields logs in
      let? ms := enc_mantissas 0 omit (firstn len counts) logs in
      Some ((1%nat, 0) :: lf :: lgs ++ ms)
  end.

(** c/enc/ans_encode.cc:44-55, BuildAndStoreANSEncodingData: normalised counts
    used for coding and the fields written. *)
Definition store_histogram (rnd : nat -> Z) (up1 up2 : nat -> bool) (histogram : list Z)
  : option (list Z * list (nat * Z)) :=
  let? (cs, omit) := normalize_counts rnd up1 up2 histogram in
  let? fs := encode_counts cs omit (used histogram) in
  Some (cs, fs).

(** ans_decode.cc:15-26, ANSDecodingData::Init, writing into the 1024-entry
    array map_; [None] = a write outside of it. *)
Definition ans_entry : Type := Z * Z * Z.
Fixpoint ans_fill (i c : Z) (j : nat) (n : nat) (pos : nat) (tab : list ans_entry) : option (nat * list ans_entry) :=
  match n with
  | O => Some (pos, tab)
  | S m => if (pos <? length tab)%nat then ans_fill i c (S j) m (S pos) (upd tab pos (i, c, Z.of_nat j)) else None
  end.
Fixpoint ans_fill_all (i : Z) (counts : list Z) (pos : nat) (tab : list ans_entry) : option (nat * list ans_entry) :=
  match counts with
  | [] => Some (pos, tab)
  | c :: r => let? (pos, tab) := ans_fill i c 0 (Z.to_nat c) pos tab in ans_fill_all (i + 1) r pos tab
  end.
Definition ans_init (counts : list Z) (tab : list ans_entry) : option (list ans_entry * bool) :=
  let? (pos, tab) := ans_fill_all 0 counts 0 tab in Some (tab, Z.of_nat pos =? kAnsTab).
