(** Prefix codes of the histogram section: how the encoder describes a code
    (c/enc/huffman_tree.cc, c/enc/huffman_encode.cc).  Writes are fields (number of bits,
    value) given to WriteBits in this order. *)
From Verif Require Import Base JBitModel JHuffModel HuffModel HTreeModel.

(** * Run lengths of code lengths.  An entry is a code and its extra bits. *)

(** huffman_tree.cc:169-181, 205-217: the digits of a repetition, base 4 or 8, before Reverse
    (133-142).  The fuel is the width of size_t. *)
Fixpoint rep_digits (fuel : nat) (base r : Z) : list Z :=
  match fuel with
  | O => []
  | S f => let q := r / base in
           (r mod base) :: (if q =? 0 then [] else rep_digits f base (q - 1))
  end.

(** huffman_tree.cc:144-186, WriteHuffmanTreeRepetitions. *)
Definition write_reps (prev value reps : Z) : list (Z * Z) :=
  let '(a, reps) := if prev =? value then ([], reps) else ([(value, 0)], reps - 1) in
  let '(b, reps) := if reps =? 7 then ([(value, 0)], reps - 1) else ([], reps) in
  a ++ b ++ (if reps <? 3 then repeat (value, 0) (Z.to_nat reps)
             else map (fun x => (16, x)) (rev (rep_digits 64 4 (reps - 3)))).

(** huffman_tree.cc:188-222, WriteHuffmanTreeRepetitionsZeros. *)
Definition write_zeros (reps : Z) : list (Z * Z) :=
  let '(b, reps) := if reps =? 11 then ([(0, 0)], reps - 1) else ([], reps) in
  b ++ (if reps <? 3 then repeat (0, 0) (Z.to_nat reps)
        else map (fun x => (17, x)) (rev (rep_digits 64 8 (reps - 3)))).

(** The inner loops at 236-238 and 281-283: how often [v] comes again. *)
Fixpoint run_len (v : Z) (l : list Z) : nat :=
  match l with
  | x :: r => if x =? v then S (run_len v r) else O
  | [] => O
  end.

(** huffman_tree.cc:224-251, DecideOverRleUse: (use_rle_for_non_zero, use_rle_for_zero). *)
Fixpoint decide_rle (fuel : nat) (l : list Z) (tz tn cz cn : Z) : bool * bool :=
  match fuel, l with
  | S f, v :: r =>
      let k := run_len v r in
      let reps := Z.of_nat k + 1 in
      let '(tz, cz) := if (3 <=? reps) && (v =? 0) then (tz + reps, cz + 1) else (tz, cz) in
      let '(tn, cn) := if (4 <=? reps) && negb (v =? 0) then (tn + reps, cn + 1) else (tn, cn) in
      decide_rle f (skipn k r) tz tn cz cn
  | _, _ => (cn * 2 <? tn, cz * 2 <? tz)
  end.

(** huffman_tree.cc:259-267: without the trailing zeros. *)
Fixpoint drop_zeros (l : list Z) : list Z :=
  match l with
  | x :: r => if x =? 0 then drop_zeros r else l
  | [] => []
  end.
Definition trim_zeros (l : list Z) : list Z := rev (drop_zeros (rev l)).

(** huffman_tree.cc:278-296. *)
Fixpoint write_lens (fuel : nat) (rle_nz rle_z : bool) (prev : Z) (l : list Z) : list (Z * Z) :=
  match fuel, l with
  | S f, v :: r =>
      let k := if (negb (v =? 0) && rle_nz) || ((v =? 0) && rle_z) then run_len v r else 0%nat in
      let reps := Z.of_nat k + 1 in
      if v =? 0 then write_zeros reps ++ write_lens f rle_nz rle_z prev (skipn k r)
      else write_reps prev v reps ++ write_lens f rle_nz rle_z v (skipn k r)
  | _, _ => []
  end.

(** huffman_tree.cc:253-297, WriteHuffmanTree: the entries (tree, extra_bits_data). *)
Definition write_tree (depth : list Z) : list (Z * Z) :=
  let l := trim_zeros depth in
  let '(rle_nz, rle_z) := if 50 <? Z.of_nat (length depth) then decide_rle (length l) l 0 0 1 1 else (false, false) in
  write_lens (length l) rle_nz rle_z 8 l.

(** * The description *)

(** huffman_encode.cc:40-43: the static code of the lengths 0..5 (bits, value). *)
Definition kStaticEnc : list (nat * Z) := [(2%nat, 0); (4%nat, 7); (3%nat, 3); (2%nat, 2); (2%nat, 1); (4%nat, 15)].

(** huffman_encode.cc:64-68. *)
Fixpoint static_fields (l : list Z) : jres (list (nat * Z)) :=
  match l with
  | [] => JOk []
  | v :: r => let* f := aget kStaticEnc v in let* fs := static_fields r in JOk (f :: fs)
  end.
(** huffman_encode.cc:26-69, StoreHuffmanTreeOfHuffmanTreeToBitMask; the order at 29-30 is the one of
    the decoder. *)
Definition store_clcl (num_codes : Z) (cl : list Z) : jres (list (nat * Z)) :=
  let vals := map (fun i => nth i cl 0) kCodeOrder in
  let kept := if 1 <? num_codes then trim_zeros vals else vals in
  let skip := if (nth 0 vals 0 =? 0) && (nth 1 vals 0 =? 0)
              then (if nth 2 vals 0 =? 0 then 3 else 2) else 0 in
  let* fs := static_fields (skipn (Z.to_nat skip) kept) in
  JOk ((2%nat, skip) :: fs).

(** huffman_encode.cc:71-91, StoreHuffmanTreeToBitMask. *)
Fixpoint store_entries (ents : list (Z * Z)) (cl syms : list Z) : jres (list (nat * Z)) :=
  match ents with
  | [] => JOk []
  | (c, x) :: r =>
      let* n := aget cl c in
      let* s := aget syms c in
      let* fs := store_entries r cl syms in
      JOk ((Z.to_nat n, s) :: (if c =? 16 then [(2%nat, x)] else if c =? 17 then [(3%nat, x)] else []) ++ fs)
  end.

(** [++huffman_tree_histogram[...]] (huffman_encode.cc:138-141). *)
Fixpoint count_codes (cs : list Z) (hist : list Z) : jres (list Z) :=
  match cs with
  | [] => JOk hist
  | c :: r => let* n := aget hist c in let* hist := aset hist c ((n + 1) mod 2 ^ 32) in count_codes r hist
  end.

(** huffman_encode.cc:143-155: num_codes (0, 1 or 2 for "more") and the first used code. *)
Definition first_code (hist : list Z) : Z * nat :=
  match filter (fun i => negb (nth i hist 0 =? 0)) (seq 0 (length hist)) with
  | [] => (0, 0%nat)
  | [i] => (1, i)
  | i :: _ => (2, i)
  end.

(** huffman_encode.cc:128-178, StoreHuffmanTree.  The arrays tree and extra_bits_data have as
    many places as there are symbols: more entries are out of bounds. *)
Definition store_tree (depths : list Z) : jres (list (nat * Z)) :=
  let ents := write_tree depths in
  if Z.of_nat (length depths) <? Z.of_nat (length ents) then JUB
  else
    let* hist := count_codes (map fst ents) (repeat 0 18) in
    let '(num, code) := first_code hist in
    let* cl := create_tree hist 5 (repeat 0 18) in
    let* syms := depths_to_codes cl (repeat 0 18) in
    let* f1 := store_clcl num cl in
    let cl := if num =? 1 then upd cl code 0 else cl in
    let* f2 := store_entries ents cl syms in
    JOk (f1 ++ f2).

(** One round of the inner loop of the sort, huffman_encode.cc:103-105. *)
Definition sort_swap (depths : list Z) (i j : nat) (s : list Z) : list Z :=
  let a := nth i s 0 in let b := nth j s 0 in
  if nth (Z.to_nat b) depths 0 <? nth (Z.to_nat a) depths 0 then upd (upd s j a) i b else s.
(** 101-107. *)
Definition sort_syms (depths : list Z) (n : nat) (s : list Z) : list Z :=
  fold_left (fun s ij => sort_swap depths (fst ij) (snd ij) s)
    (flat_map (fun i => map (fun j => (i, j)) (seq (S i) (n - S i))) (seq 0 n)) s.

(** huffman_encode.cc:93-124, StoreSimpleHuffmanTree for 2, 3 or 4 symbols. *)
Definition store_simple (depths : list Z) (s4 : list Z) (n : nat) (max_bits : nat) : list (nat * Z) :=
  let s := sort_syms depths n s4 in
  [(2%nat, 1); (2%nat, Z.of_nat n - 1)] ++ map (fun i => (max_bits, nth i s 0)) (seq 0 n)
  ++ (if (n =? 4)%nat then [(1%nat, if nth (Z.to_nat (nth 0 s 0)) depths 0 =? 1 then 1 else 0)] else []).

(** huffman_encode.cc:198-203. *)
Fixpoint count_bits (fuel : nat) (x : Z) : nat :=
  match fuel with
  | O => O
  | S f => if x =? 0 then O else S (count_bits f (x / 2))
  end.

(** huffman_encode.cc:182-220, BuildAndStoreHuffmanTree: fields, depth and bits, both of
    which start as zeros.  Loop 185-196: count is not counted beyond 5, s4 are the first
    four used symbols. *)
Definition build_and_store (hist : list Z) : jres (list (nat * Z) * list Z * list Z) :=
  let n := length hist in
  let us := filter (fun i => negb (nth i hist 0 =? 0)) (seq 0 n) in
  let count := Nat.min 5 (length us) in
  let s4 := firstn 4 (map Z.of_nat us ++ [0; 0; 0; 0]) in
  let max_bits := count_bits 64 (Z.of_nat n - 1) in
  let zeros := repeat 0 n in
  if (count <=? 1)%nat then JOk ([(4%nat, 1); (max_bits, nth 0 s4 0)], zeros, zeros)
  else
    let* depth := create_tree hist 15 zeros in
    let* bits := depths_to_codes depth zeros in
    if (count <=? 4)%nat then JOk (store_simple depth s4 count max_bits, depth, bits)
    else let* fs := store_tree depth in JOk (fs, depth, bits).
