(** JPEG Huffman codes: the reader's lookup tables (c/enc/jpeg_huffman_decode.cc,
    c/enc/jpeg_data_reader.cc) and the writer's code tables (c/dec/jpeg_data_writer.cc). *)
From Verif Require Import Base JpegModel JBitModel.

(** * Reader *)

(** Checked store: outside the array is undefined behaviour. *)
Definition aset {A} (l : list A) (i : Z) (v : A) : jres (list A) :=
  if (0 <=? i) && (i <? Z.of_nat (length l)) then JOk (upd l (Z.to_nat i) v) else JUB.

(** HuffmanTableEntry (jpeg_huffman_decode.h:31-38): (bits, value); the default entry. *)
Definition lut_none : Z * Z := (0, 65535).
Definition lut_size : nat := Z.to_nat 1024.
Definition lut_init : list (Z * Z) := repeat lut_none lut_size.

(** jpeg_huffman_decode.cc:16-25, NextTableBitSize. *)
Fixpoint next_table_loop (fuel : nat) (count : list Z) (left len : Z) : Z :=
  match fuel with
  | O => len - 8
  | S f =>
      if len <? 16 then
        let left := left - nth (Z.to_nat len) count 0 in
        if left <=? 0 then len - 8 else next_table_loop f count (left * 2) (len + 1)
      else len - 8
  end.
Definition next_table_bits (count : list Z) (len : Z) : Z :=
  next_table_loop 16 count (2 ^ (len - 8)) len.

(** Local variables of BuildJpegHuffmanTable; [h_table] is the offset [table - lut]. *)
Record hst := mkHS { h_tmp : list Z; h_key : Z; h_idx : Z; h_lut : list (Z * Z);
                     h_table : Z; h_tbits : Z; h_tsize : Z; h_low : Z }.

(** [while (reps--) table[key++] = code] (69-71, 95-97). *)
Fixpoint put_reps (n : nat) (at_ : Z) (e : Z * Z) (lut : list (Z * Z)) : jres (list (Z * Z)) :=
  match n with
  | O => JOk lut
  | S n' => let* lut' := aset lut at_ e in put_reps n' (at_ + 1) e lut'
  end.

Definition dec_count (tmp : list Z) (len : Z) : list Z :=
  upd tmp (Z.to_nat len) (nth (Z.to_nat len) tmp 0 - 1).

(** One round of the loop at 65-72. *)
Definition root_step (symbols : list Z) (len : Z) (st : hst) : jres hst :=
  let* sym := aget symbols (h_idx st) in
  let* lut := put_reps (Z.to_nat (2 ^ (8 - len))) (h_key st) (len, sym) (h_lut st) in
  JOk (mkHS (dec_count (h_tmp st) len) (h_key st + 2 ^ (8 - len)) (h_idx st + 1) lut
            (h_table st) (h_tbits st) (h_tsize st) (h_low st)).

(** Starting a new sub-table (83-91). *)
Definition new_table (len : Z) (st : hst) : jres hst :=
  if h_tsize st <=? h_low st then
    let table := h_table st + h_tsize st in
    let tbits := next_table_bits (h_tmp st) len in
    let* lut := aset (h_lut st) (h_key st) (tbits + 8, (table - h_key st) mod 2 ^ 16) in
    JOk (mkHS (h_tmp st) (h_key st + 1) (h_idx st) lut table tbits (2 ^ tbits) 0)
  else JOk st.

(** One round of the loop at 81-98; a negative shift amount at 94 is undefined. *)
Definition sub_step (symbols : list Z) (len : Z) (st : hst) : jres hst :=
  let* st := new_table len st in
  let bits := len - 8 in
  let* sym := aget symbols (h_idx st) in
  if h_tbits st <? bits then JUB
  else
    let reps := 2 ^ (h_tbits st - bits) in
    let* lut := put_reps (Z.to_nat reps) (h_table st + h_low st) (bits, sym) (h_lut st) in
    JOk (mkHS (dec_count (h_tmp st) len) (h_key st) (h_idx st + 1) lut
              (h_table st) (h_tbits st) (h_tsize st) (h_low st + reps)).

Fixpoint times {S} (n : nat) (f : S -> jres S) (s : S) : jres S :=
  match n with O => JOk s | S n' => let* s' := f s in times n' f s' end.

(** [for (; tmp_count[len] > 0; --tmp_count[len])] for each length in turn. *)
Fixpoint len_loop (step : Z -> hst -> jres hst) (lens : list Z) (st : hst) : jres hst :=
  match lens with
  | [] => JOk st
  | l :: r =>
      let* st' := times (Z.to_nat (nth (Z.to_nat l) (h_tmp st) 0)) (step l) st in
      len_loop step r st'
  end.

Definition lens_1_8 : list Z := [1; 2; 3; 4; 5; 6; 7; 8].
Definition lens_9_16 : list Z := [9; 10; 11; 12; 13; 14; 15; 16].

(** jpeg_huffman_decode.cc:27-100, BuildJpegHuffmanTable.  [count] has 17 entries; the local
    copy drops entry 0. *)
Definition build_lut (count symbols : list Z) (lut : list (Z * Z)) : jres (list (Z * Z)) :=
  let tmp := 0 :: skipn 1 count in
  let total := sumZ tmp in
  if total =? 1 then
    let* sym := aget symbols 0 in
    put_reps 256 0 (0, sym) lut
  else
    let* st := len_loop (root_step symbols) lens_1_8 (mkHS tmp 0 0 lut 0 8 256 0) in
    let st := mkHS (h_tmp st) (h_key st) (h_idx st) (h_lut st) 256 (h_tbits st) 0 0 in
    let* st := len_loop (sub_step symbols) lens_9_16 st in
    JOk (h_lut st).

(** jpeg_data_reader.cc:309-321: a code with unused space starts from a clean table. *)
Definition prepare_lut (space : Z) (lut : list (Z * Z)) : list (Z * Z) :=
  if (0 <? space) && negb (snd (nth 0 lut lut_none) =? 65535) then lut_init else lut.

(** jpeg_data_reader.cc:528-542, ReadSymbol. *)
Definition read_symbol (data : list Z) (lut : list (Z * Z)) (s : bitr) : jres (Z * bitr) :=
  let* s := fill data s in
  let* val := br_field s 8 in
  let* e := aget lut val in
  let nbits := fst e - 8 in
  let* r :=
    (if 0 <? nbits then
       let s1 := mkBR (br_pos s) (br_val s) (br_left s - 8) (br_next s) in
       let* v2 := br_field s1 nbits in
       let* e2 := aget lut (val + snd e + v2) in
       JOk (e2, s1)
     else JOk (e, s)) in
  let e := fst r in
  let s := snd r in
  JOk (snd e, mkBR (br_pos s) (br_val s) (br_left s - fst e) (br_next s)).

(** * Writer *)

(** serialization_state.h:19-22, HuffmanCodeTable: depth and code of each symbol. *)
Definition codetab := (list Z * list Z)%type.

(** The huff_size array without its last element (jpeg_data_writer.cc:269-283). *)
Definition code_lens (counts : list Z) : list Z :=
  flat_map (fun l => repeat (Z.of_nat l) (Z.to_nat (nth l counts 0))) (seq 1 16).

(** 287-295: consecutive codes, shifted when the length grows. *)
Fixpoint gen_codes (fuel : nat) (sizes : list Z) (code si : Z) : list Z :=
  match fuel with
  | O => []
  | S f =>
      match sizes with
      | [] => []
      | l :: r => if l =? si then code :: gen_codes f r (code + 1) si
                  else gen_codes f sizes (code * 2) (si + 1)
      end
  end.

(** 296-300: fills in the table. *)
Fixpoint put_codes (values sizes codes : list Z) (t : codetab) : jres codetab :=
  match sizes, codes with
  | l :: sizes', c :: codes' =>
      match values with
      | v :: values' =>
          let* d := aset (fst t) v l in
          let* k := aset (snd t) v c in
          put_codes values' sizes' codes' (d, k)
      | [] => JUB
      end
  | _, _ => JOk t
  end.

(** jpeg_data_writer.cc:265-302, BuildHuffmanCodeTable; [JErr] is the false result.  The
    running check of [p + i] is equivalent to a check of the total as counts are not
    negative. *)
Definition build_codes (h : huffcode) (t : codetab) : jres codetab :=
  let lens := code_lens (hc_counts h) in
  if 257 <? Z.of_nat (length lens) then JErr
  else
    match lens with
    | [] => JOk t
    | _ =>
        let sizes := removelast lens in
        let si := nth 0 sizes 0 in
        put_codes (hc_values h) sizes (gen_codes (length sizes + 17) sizes 0 si) t
    end.
