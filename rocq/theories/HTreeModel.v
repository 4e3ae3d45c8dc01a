(** Prefix codes of the histogram section: the encoder's code lengths and codes
    (c/enc/huffman_tree.cc). *)
From Verif Require Import Base JBitModel JHuffModel.

(** static_cast<int16_t>. *)
Definition i16 (v : Z) : Z := (v + 2 ^ 15) mod 2 ^ 16 - 2 ^ 15.

(** c/enc/huffman_tree.h:17-26, HuffmanTree: total_count, index_left, index_right_or_value. *)
Definition hnode : Type := (Z * (Z * Z))%type.
Definition h_count (h : hnode) : Z := fst h.

(** huffman_tree.cc:88. *)
Definition sentinel : hnode := (2 ^ 32 - 1, (-1, -1)).

(** huffman_tree.cc:18-29, SetDepth of [pool[p]]; [fuel] bounds the depth of the recursion and is the size of
    the pool. *)
Fixpoint set_depth (fuel : nat) (pool : list hnode) (p : Z) (depth : list Z) (level : Z) : jres (list Z) :=
  match fuel with
  | O => JUB
  | S f =>
      let* h := aget pool p in
      let '(lf, rt) := snd h in
      if 0 <=? lf then
        let level := (level + 1) mod 2 ^ 8 in
        let* depth := set_depth f pool lf depth level in
        set_depth f pool rt depth level
      else aset depth rt level
  end.

(** std::stable_sort by total_count (huffman_tree.cc:32-35, 79). *)
Fixpoint insert_node (x : hnode) (l : list hnode) : list hnode :=
  match l with
  | [] => [x]
  | y :: r => if h_count x <=? h_count y then x :: y :: r else y :: insert_node x r
  end.
Definition sort_nodes (l : list hnode) : list hnode := fold_right insert_node [] l.

(** huffman_tree.cc:64-70: leaves for the used symbols in descending order. *)
Definition leaf_nodes (limit : Z) (data : list Z) : list hnode :=
  flat_map (fun i => let c := nth i data 0 in
                     if c =? 0 then [] else [(Z.max c (limit - 1), (-1, i16 (Z.of_nat i)))])
           (rev (seq 0 (length data))).

(** huffman_tree.cc:96-102 and 103-109: the smaller one of the two heads. *)
Definition pick_node (pool : list hnode) (i j : Z) : jres (Z * (Z * Z)) :=
  let* a := aget pool i in
  let* b := aget pool j in
  if h_count a <=? h_count b then JOk (i, (i + 1, j)) else JOk (j, (i, j + 1)).

(** huffman_tree.cc:94-120. *)
Fixpoint merge_nodes (k : nat) (pool : list hnode) (i j : Z) : jres (list hnode) :=
  match k with
  | O => JOk pool
  | S k' =>
      let* (lf, ij) := pick_node pool i j in
      let* (rt, ij) := pick_node pool (fst ij) (snd ij) in
      let* l := aget pool lf in
      let* r := aget pool rt in
      let* pool := aset pool (Z.of_nat (length pool) - 1)
                     ((h_count l + h_count r) mod 2 ^ 32, (i16 lf, i16 rt)) in
      merge_nodes k' (pool ++ [sentinel]) (fst ij) (snd ij)
  end.

(** std::max_element. *)
Definition max_elem (l : list Z) : Z := fold_right Z.max 0 l.

(** huffman_tree.cc:52-131, CreateHuffmanTree; [depth] is written over.  Without any used symbol the loop at 94 would not
    end; 2^32 doublings of count_limit are not reached. *)
Fixpoint create_loop (fuel : nat) (data : list Z) (tree_limit : Z) (depth : list Z) (limit : Z) : jres (list Z) :=
  match fuel with
  | O => JUB
  | S f =>
      let leaves := leaf_nodes limit data in
      match leaves with
      | [] => JUB
      | [x] => aset depth (snd (snd x)) 1
      | _ =>
          let n := length leaves in
          let* pool := merge_nodes (n - 1) (sort_nodes leaves ++ [sentinel; sentinel]) 0 (Z.of_nat n + 1) in
          let* depth := set_depth (length pool) pool (2 * Z.of_nat n - 1) depth 0 in
          if max_elem depth <=? tree_limit then JOk depth
          else create_loop f data tree_limit depth ((limit * 2) mod 2 ^ 32)
      end
  end.
Definition create_tree (data : list Z) (tree_limit : Z) (depth : list Z) : jres (list Z) :=
  create_loop 33 data tree_limit depth 1.

(** huffman_tree.cc:301-314, ReverseBits. *)
Definition kRevLut : list Z := [0; 8; 4; 12; 2; 10; 6; 14; 1; 9; 5; 13; 3; 11; 7; 15].
Fixpoint rev_loop (n : nat) (retval bits : Z) : Z :=
  match n with
  | O => retval
  | S n' => let bits := bits / 16 in
            rev_loop n' (Z.lor (retval * 16) (nth (Z.to_nat (bits mod 16)) kRevLut 0)) bits
  end.
(** The loop runs for i = 4, 8, ... below num_bits; [-num_bits & 3] is [(-num_bits) mod 4]. *)
Definition reverse_bits (num_bits bits : Z) : Z :=
  (rev_loop (Z.to_nat ((num_bits - 1) / 4)) (nth (Z.to_nat (bits mod 16)) kRevLut 0) bits / 2 ^ ((- num_bits) mod 4)) mod 2 ^ 16.

(** huffman_tree.cc:324-339: bl_count and next_code, for lengths 1, 2, ... *)
Fixpoint next_codes (code : Z) (counts : list Z) : list Z :=
  match counts with
  | [] => []
  | c :: r => let code := (code + c) * 2 in (code mod 2 ^ 16) :: next_codes code r
  end.
Fixpoint bl_count (depth : list Z) (counts : list Z) : jres (list Z) :=
  match depth with
  | [] => JOk counts
  | d :: r => let* c := aget counts d in let* counts := aset counts d ((c + 1) mod 2 ^ 16) in bl_count r counts
  end.
(** 340-344; [bits] already has values for unused symbols. *)
Fixpoint assign_codes (depth bits next : list Z) : jres (list Z) :=
  match depth, bits with
  | d :: dr, b :: br =>
      if d =? 0 then let* r := assign_codes dr br next in JOk (b :: r)
      else
        let* c := aget next d in
        let* next := aset next d ((c + 1) mod 2 ^ 16) in
        let* r := assign_codes dr br next in
        JOk (reverse_bits d c :: r)
  | _, _ => JOk bits
  end.
(** huffman_tree.cc:318-345, ConvertBitDepthsToSymbols. *)
Definition depths_to_codes (depth bits : list Z) : jres (list Z) :=
  let* counts := bl_count depth (repeat 0 16) in
  assign_codes depth bits (0 :: next_codes 0 (firstn 15 (upd counts 0 0))).
