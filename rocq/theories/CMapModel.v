(** The context map: how the encoder stores which histogram every context uses
    (c/enc/context_map_encode.cc) and how the decoder reads it
    (c/dec/context_map_decode.cc, c/dec/brunsli_decode.cc:1866-1896). *)
From Verif Require Import Base BitModel CodesModel JBitModel JHuffModel HuffModel HTreeModel HStoreModel.

(** * Move to front *)

(** context_map_encode.cc:36-42, IndexOf. *)
Fixpoint index_of (l : list Z) (x : Z) : nat :=
  match l with
  | [] => O
  | y :: r => if y =? x then O else S (index_of r x)
  end.

(** MoveToFront (context_map_encode.cc:44-50 and context_map_decode.cc:20-25): the entries
    before [i] move up by one place. *)
Definition move_to_front (l : list Z) (i : nat) : list Z := nth i l 0 :: firstn i l ++ skipn (S i) l.

(** context_map_encode.cc:57-63, the loop of MoveToFrontTransform. *)
Fixpoint mtf_loop (mtf : list Z) (v : list Z) : list Z :=
  match v with
  | [] => []
  | x :: r => let i := index_of mtf x in Z.of_nat i :: mtf_loop (move_to_front mtf i) r
  end.
(** 52-64, MoveToFrontTransform. *)
Definition mtf_transform (v : list Z) : list Z :=
  match v with
  | [] => []
  | _ => mtf_loop (map Z.of_nat (seq 0 (Z.to_nat (max_elem v + 1)))) v
  end.

(** context_map_decode.cc:32-36, the loop of InverseMoveToFrontTransform: [v] are bytes, the
    list has 256 entries. *)
Fixpoint imtf_loop (mtf : list Z) (v : list Z) : list Z :=
  match v with
  | [] => []
  | x :: r =>
      let i := Z.to_nat x in
      nth i mtf 0 :: imtf_loop (if x =? 0 then mtf else move_to_front mtf i) r
  end.
(** 27-37, InverseMoveToFrontTransform. *)
Definition imtf (v : list Z) : list Z := imtf_loop (map Z.of_nat (seq 0 256)) v.

(** * Runs of zeros *)

(** context_map_encode.cc:76-82: the longest run of zeros. *)
Fixpoint max_reps (cur : Z) (v : list Z) : Z :=
  match v with
  | [] => cur
  | x :: r => if x =? 0 then max_reps (cur + 1) r else Z.max cur (max_reps 0 r)
  end.
(** 83-86: max_run_length_prefix, with 6 as its initial value. *)
Definition max_prefix (v : list Z) : Z :=
  let m := max_reps 0 v in Z.min (if 0 <? m then Z.log2 m else 0) 6.

(** 98-109: the codes (symbol, extra bits) of a run of [reps] zeros. *)
Fixpoint zero_run (fuel : nat) (mp reps : Z) : list (Z * Z) :=
  match fuel with
  | O => []
  | S f =>
      if reps =? 0 then []
      else if reps <? 2 * 2 ^ mp then [(Z.log2 reps, reps - 2 ^ Z.log2 reps)]
      else (mp, 2 ^ mp - 1) :: zero_run f mp (reps - (2 * 2 ^ mp - 1))
  end.

(** 87-111: v_out and extra_bits of RunLengthCodeZeros.  Every round takes at least one value. *)
Fixpoint rle_zeros (fuel : nat) (mp : Z) (v : list Z) : list (Z * Z) :=
  match fuel, v with
  | S f, x :: r =>
      if x =? 0 then
        let k := run_len 0 r in zero_run (S k) mp (Z.of_nat k + 1) ++ rle_zeros f mp (skipn k r)
      else (x + mp, 0) :: rle_zeros f mp r
  | _, _ => []
  end.

(** * Encoder *)

(** c/enc/context_map_encode.h / brunsli constants: kMaxContextMapAlphabetSize. *)
Definition kMaxCMapAlphabet : nat := 272.

(** context_map_encode.cc:147-152: the codes of the symbols, each with its extra bits.  The
    arrays have 272 entries, of which the first [length depth] are given; a symbol beyond them
    (which would have depth and code 0) counts as out of bounds. *)
Fixpoint store_cmap_syms (mp : Z) (depth bits : list Z) (l : list (Z * Z)) : jres (list (nat * Z)) :=
  match l with
  | [] => JOk []
  | (s, x) :: r =>
      let* d := aget depth s in
      let* b := aget bits s in
      let* fs := store_cmap_syms mp depth bits r in
      JOk ((Z.to_nat d, b) :: (if (0 <? s) && (s <=? mp) then [(Z.to_nat s, x)] else []) ++ fs)
  end.

(** context_map_encode.cc:117-154, EncodeContextMap. *)
Definition encode_cmap (cmap : list Z) (num_clusters : Z) : jres (list (nat * Z)) :=
  let f0 := encode_var_len_uint8 (num_clusters - 1) in
  if num_clusters =? 1 then JOk f0
  else
    let t := mtf_transform cmap in
    let mp := max_prefix t in
    let rle := rle_zeros (length t) mp t in
    let* hist := count_codes (map fst rle) (repeat 0 kMaxCMapAlphabet) in
    if Z.of_nat kMaxCMapAlphabet <? num_clusters + mp then JUB
    else
      let* c := build_and_store (firstn (Z.to_nat (num_clusters + mp)) hist) in
      let '(fc, depth, bits) := c in
      let* fs := store_cmap_syms mp depth bits rle in
      JOk (f0 ++ (if 0 <? mp then [(1%nat, 1); (4%nat, mp - 1)] else [(1%nat, 0)]) ++ fc ++ fs ++ [(1%nat, 1)]).

(** * Decoder *)

(** brunsli_decode.cc:1866-1884, READ_CONTEXT_MAP_CODE: max_run_length_prefix and the table. *)
Definition read_cmap_code (arena : list (Z * Z)) (num_histograms : nat) : prog (Z * list (Z * Z)) :=
  let go (mp : Z) := bind (read_code arena (num_histograms + Z.to_nat mp)) (fun t => Ret (mp, t)) in
  Need (207 + num_histograms * 8)
    (Read 1 (fun u => if u =? 0 then go 0 else Read 4 (fun m => go (m + 1)))).

(** context_map_decode.cc:41-70, DecodeContextMap: [acc] is the part of the map read so far,
    [n] its full length.  Every round stores at least one entry. *)
Fixpoint read_cmap (fuel : nat) (table : list (Z * Z)) (mp : Z) (n : nat) (acc : list Z) : prog (list Z) :=
  if (length acc <? n)%nat then
    match fuel with
    | O => Fail
    | S f =>
        Need (15 + Z.to_nat mp + 1)
          (bind (read_sym table) (fun code =>
             if code =? 0 then read_cmap f table mp n (acc ++ [0])
             else if code <=? mp then
               Read (Z.to_nat code) (fun x =>
                 let reps := 2 ^ code + x in
                 if Z.of_nat n <? Z.of_nat (length acc) + reps then Fail
                 else read_cmap f table mp n (acc ++ repeat 0 (Z.to_nat reps)))
             else read_cmap f table mp n (acc ++ [(code - mp) mod 256])))
    end
  else Read 1 (fun b => Chk (Ret (if b =? 0 then acc else imtf acc))).

(** The code and the map together: READ_CONTEXT_MAP_CODE and READ_CONTEXT_MAP. *)
Definition read_context_map (arena : list (Z * Z)) (num_histograms n : nat) : prog (list Z) :=
  bind (read_cmap_code arena num_histograms) (fun c => read_cmap n (snd c) (fst c) n []).
