(** Prefix codes of the histogram section: the decoder's lookup tables
    (c/dec/huffman_table.cc, c/dec/huffman_decode.cc). *)
From Verif Require Import Base BitModel JBitModel JHuffModel.

(** c/common/constants.h:30-31, kHuffmanTableBits and kMaxHuffmanBits. *)
Definition kRootBits : Z := 8.
Definition kMaxBits : Z := 15.

(** huffman_table.cc:20-26, GetNextKey; [step] runs over 2^(len-1), ..., 1, 0. *)
Fixpoint next_key_loop (n : nat) (key : Z) : Z :=
  let step := match n with O => 0 | S m => 2 ^ Z.of_nat m end in
  match n with
  | O => Z.land key (step - 1) + step
  | S m => if Z.land key step =? 0 then Z.land key (step - 1) + step else next_key_loop m key
  end.
Definition next_key (key len : Z) : Z := next_key_loop (Z.to_nat len) key.

(** huffman_table.cc:30-36, ReplicateValue: stores at [base + end], from the last multiple
    of [step] below [end] down to 0; [n] is the number of stores, [end / step]. *)
Fixpoint bh_replicate (n : nat) (base step : Z) (e : Z * Z) (lut : list (Z * Z)) : jres (list (Z * Z)) :=
  match n with
  | O => JOk lut
  | S m => let* lut' := aset lut (base + step * Z.of_nat m) e in bh_replicate m base step e lut'
  end.

(** huffman_table.cc:41-51, NextTableBitSize. *)
Fixpoint bh_next_loop (fuel : nat) (count : list Z) (left len root : Z) : Z :=
  match fuel with
  | O => len - root
  | S f =>
      if len <? kMaxBits then
        let c := nth (Z.to_nat len) count 0 in
        if left <=? c then len - root else bh_next_loop f count ((left - c) * 2) (len + 1) root
      else len - root
  end.
Definition bh_next_bits (count : list Z) (len root : Z) : Z :=
  bh_next_loop 15 count (2 ^ (len - root)) len root.

(** Local variables of BuildHuffmanTable; [b_table] is the offset [table - root_table]. *)
Record bst := mkB { b_cnt : list Z; b_key : Z; b_sym : Z; b_lut : list (Z * Z);
                    b_table : Z; b_tbits : Z; b_tsize : Z; b_total : Z; b_low : Z }.

(** huffman_table.cc:77-87: offsets into the sorted symbols (uint16_t sums), for lengths
    [len], [len + 1], ...; entry 0 of the result is the offset of length [len]. *)
Fixpoint bh_offsets (counts : list Z) (sum : Z) : list Z :=
  match counts with
  | [] => []
  | c :: r => sum :: bh_offsets r (if c =? 0 then sum else (sum + c) mod 2 ^ 16)
  end.

(** 77-87: max_length. *)
Fixpoint bh_max_length (len : Z) (counts : list Z) (best : Z) : Z :=
  match counts with
  | [] => best
  | c :: r => bh_max_length (len + 1) r (if c =? 0 then best else len)
  end.

(** 90-94: counting sort. *)
Fixpoint bh_sort (symbol : Z) (lens : list Z) (offset sorted : list Z) : jres (list Z * list Z) :=
  match lens with
  | [] => JOk (offset, sorted)
  | l :: r =>
      if l =? 0 then bh_sort (symbol + 1) r offset sorted
      else
        let* o := aget offset l in
        let* sorted' := aset sorted o symbol in
        let* offset' := aset offset l (o + 1) in
        bh_sort (symbol + 1) r offset' sorted'
  end.

(** 121-125: one round of the loop filling the root table. *)
Definition bh_root_step (sorted : list Z) (len : Z) (st : bst) : jres bst :=
  let* v := aget sorted (b_sym st) in
  let step := 2 ^ len in
  let* lut := bh_replicate (Z.to_nat (b_tsize st / step)) (b_key st) step (len, v) (b_lut st) in
  JOk (mkB (dec_count (b_cnt st) len) (next_key (b_key st) len) (b_sym st + 1) lut
           (b_table st) (b_tbits st) (b_tsize st) (b_total st) (b_low st)).

(** memcpy(&table[size], &table[0], size). *)
Definition bh_double (size : Z) (lut : list (Z * Z)) : jres (list (Z * Z)) :=
  let n := Z.to_nat size in
  if (n + n <=? length lut)%nat then JOk (firstn n lut ++ firstn n lut ++ skipn (n + n) lut) else JUB.

(** 131-134: repeats the root table until it has [total] entries. *)
Fixpoint bh_fill (fuel : nat) (size total : Z) (lut : list (Z * Z)) : jres (list (Z * Z)) :=
  match fuel with
  | O => JUB
  | S f => if size =? total then JOk lut
           else let* lut' := bh_double size lut in bh_fill f (size * 2) total lut'
  end.

(** 140-150: starts a sub-table when the low bits of the key change. *)
Definition bh_new_table (root len : Z) (st : bst) : jres bst :=
  let low := b_key st mod 2 ^ root in
  if low =? b_low st then JOk st
  else
    let table := b_table st + b_tsize st in
    let tbits := bh_next_bits (b_cnt st) len root in
    let* lut := aset (b_lut st) low ((tbits + root) mod 2 ^ 8, (table - low) mod 2 ^ 16) in
    JOk (mkB (b_cnt st) (b_key st) (b_sym st) lut table tbits (2 ^ tbits) (b_total st + 2 ^ tbits) low).

(** 139-155: one round of the loop filling the sub-tables. *)
Definition bh_sub_step (sorted : list Z) (root len : Z) (st : bst) : jres bst :=
  let* st := bh_new_table root len st in
  let* v := aget sorted (b_sym st) in
  let step := 2 ^ (len - root) in
  let* lut := bh_replicate (Z.to_nat (b_tsize st / step)) (b_table st + b_key st / 2 ^ root) step
                (len - root, v) (b_lut st) in
  JOk (mkB (dec_count (b_cnt st) len) (next_key (b_key st) len) (b_sym st + 1) lut
           (b_table st) (b_tbits st) (b_tsize st) (b_total st) (b_low st)).

(** [for (; count[len] != 0; --count[len])] for each length in turn. *)
Fixpoint bh_len_loop (step : Z -> bst -> jres bst) (lens : list Z) (st : bst) : jres bst :=
  match lens with
  | [] => JOk st
  | l :: r =>
      let* st' := times (Z.to_nat (nth (Z.to_nat l) (b_cnt st) 0)) (step l) st in
      bh_len_loop step r st'
  end.

(** [lo, lo + 1, ..., hi]. *)
Definition zspan (lo hi : Z) : list Z := map (fun i => lo + Z.of_nat i) (seq 0 (Z.to_nat (hi - lo + 1))).

(** huffman_table.cc:53-161, BuildHuffmanTable: the table written over [lut] and the size
    returned; [JErr] is the result 0.  [count] has 16 entries, which the function
    decrements as it goes. *)
Definition build_table (lut : list (Z * Z)) (root : Z) (lens count : list Z) : jres (list (Z * Z) * Z) :=
  if 2 ^ kMaxBits <? Z.of_nat (length lens) then JErr
  else
    let maxlen := bh_max_length 1 (skipn 1 count) 1 in
    let* so := bh_sort 0 lens (0 :: bh_offsets (skipn 1 count) 0) (repeat 0 (length lens)) in
    let sorted := snd so in
    let total := 2 ^ root in
    if nth 15 (fst so) 0 =? 1 then
      let* v := aget sorted 0 in
      let* lut' := bh_replicate (Z.to_nat total) 0 1 (0, v) lut in
      JOk (lut', total)
    else
      let tbits := if maxlen <? root then maxlen else root in
      let* st := bh_len_loop (bh_root_step sorted) (zspan 1 tbits)
                   (mkB count 0 0 lut 0 tbits (2 ^ tbits) total (-1)) in
      let* lut' := bh_fill 16 (b_tsize st) total (b_lut st) in
      let* st := bh_len_loop (bh_sub_step sorted root) (zspan (root + 1) maxlen)
                   (mkB (b_cnt st) (b_key st) (b_sym st) lut' 0 (b_tbits st) total total (-1)) in
      JOk (b_lut st, b_total st).

(** [++counts[code_lengths[i]]] over 16 zeros (huffman_decode.cc:39-42, 235-238). *)
Fixpoint count_lens (lens : list Z) (counts : list Z) : jres (list Z) :=
  match lens with
  | [] => JOk counts
  | l :: r => let* c := aget counts l in let* counts' := aset counts l ((c + 1) mod 2 ^ 16) in count_lens r counts'
  end.

(** huffman_decode.cc:20-25. *)
Definition kCodeOrder : list nat := [1; 2; 3; 4; 0; 5; 17; 6; 16; 7; 8; 9; 10; 11; 12; 13; 14; 15]%nat.

(** huffman_decode.cc:211-214: the static code (bits, value), by the next four bits. *)
Definition kStaticCode : list (Z * Z) :=
  [(2, 0); (2, 4); (2, 3); (3, 2); (2, 0); (2, 4); (2, 3); (4, 1);
   (2, 0); (2, 4); (2, 3); (3, 2); (2, 0); (2, 4); (2, 3); (4, 5)].

(** Looking up the next [n] bits in [table + base] and dropping the bits of the entry.  A
    read outside of the table fails (shown not to happen). *)
Definition look {A} (n : nat) (table : list (Z * Z)) (base : Z) (k : Z -> prog A) : prog A :=
  Take n (fun v => match aget table (base + v) with JOk e => Z.to_nat (fst e) | _ => 0%nat end)
    (fun v => match aget table (base + v) with JOk e => k (snd e) | _ => Fail end).

(** huffman_decode.cc:215-226: lengths of the codes of the code lengths, starting at
    position [i] of the order; result: lengths, space, num_codes. *)
Fixpoint read_clcl (order : list nat) (cl : list Z) (space num : Z) : prog (list Z * Z * Z) :=
  match order with
  | [] => Ret (cl, space, num)
  | i :: r =>
      if 0 <? space then
        look 4 kStaticCode 0 (fun v =>
          if v =? 0 then read_clcl r (upd cl i v) space num
          else read_clcl r (upd cl i v) (space - 2 ^ 5 / 2 ^ v) (num + 1))
      else Ret (cl, space, num)
  end.

(** huffman_decode.cc:27-94, the loop of ReadHuffmanCodeLengths with table [t]: [acc] are
    the lengths stored so far, [n] is num_symbols.  Every round stores at least one length,
    so [n] rounds are enough. *)
Fixpoint read_lens_loop (fuel : nat) (t : list (Z * Z)) (n : nat) (acc : list Z) (prev repeat_ rlen space : Z)
  : prog (list Z) :=
  if ((length acc <? n)%nat && (0 <? space))%bool then
    match fuel with
    | O => Fail
    | S f =>
        look 5 t 0 (fun cl =>
          if cl <? 16 then
            if cl =? 0 then read_lens_loop f t n (acc ++ [cl]) prev 0 rlen space
            else read_lens_loop f t n (acc ++ [cl]) cl 0 rlen (space - 2 ^ 15 / 2 ^ cl)
          else
            let extra := cl - 14 in
            let new_len := if cl =? 16 then prev else 0 in
            let old := if rlen =? new_len then repeat_ else 0 in
            let base := if 0 <? old then (old - 2) * 2 ^ extra else old in
            Read (Z.to_nat extra) (fun x =>
              let rep := base + x + 3 in
              let delta := rep - old in
              if Z.of_nat n <? Z.of_nat (length acc) + delta then Fail
              else
                read_lens_loop f t n (acc ++ repeat new_len (Z.to_nat delta)) prev rep new_len
                  (if new_len =? 0 then space else space - (delta * 2 ^ 15) / 2 ^ new_len)))
    end
  else if space =? 0 then Chk (Ret (acc ++ repeat 0 (n - length acc))) else Fail.

(** huffman_decode.cc:27-94, ReadHuffmanCodeLengths; the local table starts with
    unspecified contents, here zeros. *)
Definition read_lens (cl : list Z) (n : nat) : prog (list Z) :=
  match (let* counts := count_lens cl (repeat 0 16) in build_table (repeat (0, 0) 32) 5 cl counts) with
  | JOk (t, _) => read_lens_loop n t n [] 8 0 0 (2 ^ 15)
  | _ => Fail
  end.

(** [if (symbols[i] > symbols[j]) swap_symbols(i, j)]. *)
Definition swap_if (i j : nat) (s : list Z) : list Z :=
  let a := nth i s 0 in let b := nth j s 0 in
  if b <? a then upd (upd s j a) i b else s.

(** huffman_decode.cc:129-174: the first entries of the table of a simple code. *)
Definition simple_entries (kind : Z) (s : list Z) : option (list (Z * Z)) :=
  let at_ s i := nth i s 0 in
  if kind =? 1 then Some [(0, at_ s 0%nat)]
  else if kind =? 2 then
    let s := swap_if 0 1 s in Some [(1, at_ s 0%nat); (1, at_ s 1%nat)]
  else if kind =? 3 then
    let s := swap_if 1 2 s in
    Some [(1, at_ s 0%nat); (2, at_ s 1%nat); (1, at_ s 0%nat); (2, at_ s 2%nat)]
  else if kind =? 4 then
    let s := swap_if 0 1 s in let s := swap_if 0 2 s in let s := swap_if 0 3 s in
    let s := swap_if 1 2 s in let s := swap_if 1 3 s in let s := swap_if 2 3 s in
    Some [(2, at_ s 0%nat); (2, at_ s 2%nat); (2, at_ s 1%nat); (2, at_ s 3%nat)]
  else if kind =? 5 then
    let s := swap_if 2 3 s in
    Some [(1, at_ s 0%nat); (2, at_ s 1%nat); (1, at_ s 0%nat); (3, at_ s 2%nat);
          (1, at_ s 0%nat); (2, at_ s 1%nat); (1, at_ s 0%nat); (3, at_ s 3%nat)]
  else None.

(** huffman_decode.cc:179-184: repeated up to 256 entries (the number of entries is a power
    of two). *)
Definition tile (n : nat) (l : list (Z * Z)) : list (Z * Z) :=
  concat (repeat l (n / length l)).

(** huffman_decode.cc:105-112: [n] symbols of [bits] bits each, stored as uint16_t. *)
Fixpoint read_syms (n : nat) (bits : nat) (alphabet : Z) : prog (list Z) :=
  match n with
  | O => Ret []
  | S m =>
      Read bits (fun s =>
        if alphabet <=? s mod 2 ^ 16 then Fail
        else bind (read_syms m bits alphabet) (fun l => Ret (s mod 2 ^ 16 :: l)))
  end.

(** huffman_decode.cc:114-118. *)
Fixpoint distinct (l : list Z) : bool :=
  match l with
  | [] => true
  | a :: r => negb (existsb (Z.eqb a) r) && distinct r
  end.

(** Log2FloorNonZero(alphabet - 1) + 1, or 0 (huffman_decode.cc:99-100). *)
Definition sym_bits (alphabet : Z) : nat :=
  if 1 <? alphabet then S (Z.to_nat (Z.log2 (alphabet - 1))) else 0%nat.

(** huffman_decode.cc:96-187, ReadSimpleCode. *)
Definition read_simple (alphabet : Z) : prog (list (Z * Z)) :=
  Read 2 (fun ns =>
    bind (read_syms (Z.to_nat (ns + 1)) (sym_bits alphabet) alphabet) (fun syms =>
      if distinct syms then
        let finish kind := match simple_entries kind syms with
                           | Some e => Chk (Ret (tile 256 e))
                           | None => Fail
                           end in
        if ns =? 3 then Read 1 (fun sel => finish (4 + sel)) else finish (ns + 1)
      else Fail)).

(** huffman_decode.cc:189-244, ReadFromBitStream: the table_ member.  The arena has at least
    [alphabet + 376] entries, with unspecified contents [fill]. *)
Definition read_code (arena : list (Z * Z)) (alphabet : nat) : prog (list (Z * Z)) :=
  if 2 ^ kMaxBits <? Z.of_nat alphabet then Fail
  else
    Read 2 (fun kind =>
      if kind =? 1 then read_simple (Z.of_nat alphabet mod 2 ^ 16)
      else
        bind (read_clcl (skipn (Z.to_nat kind) kCodeOrder) (repeat 0 18) 32 0) (fun c =>
          let '(cl, space, num) := c in
          if (num =? 1) || (space =? 0) then
            bind (read_lens cl alphabet) (fun lens =>
              Chk (match (let* counts := count_lens lens (repeat 0 16) in build_table arena kRootBits lens counts) with
                   | JOk (t, size) => Ret (firstn (Z.to_nat size) t)
                   | _ => Fail
                   end))
          else Fail)).

(** huffman_decode.cc:247-261, ReadSymbol. *)
Definition read_sym (table : list (Z * Z)) : prog Z :=
  Take 8 (fun v => match aget table v with
                   | JOk e => if kRootBits <? fst e then 8%nat else Z.to_nat (fst e)
                   | _ => 0%nat
                   end)
    (fun v => match aget table v with
              | JOk e =>
                  if kRootBits <? fst e then
                    look (Z.to_nat (fst e - kRootBits)) table (v + snd e) Ret
                  else Ret (snd e)
              | _ => Fail
              end).
