(** Lehmer codes (c/common/lehmer_code.{h,cc}), the index coder of Huffman
    symbol lists, and the coefficient order coder. *)
From Verif Require Import Base EntropyModel.

(** std::find + erase: position of the first [x] in [l] and [l] without it. *)
Fixpoint find_erase (x : Z) (l : list Z) : option (nat * list Z) :=
  match l with
  | [] => None
  | y :: r => if y =? x then Some (0%nat, r)
              else match find_erase x r with Some (i, r') => Some (S i, y :: r') | None => None end
  end.

(** [items[index]] + erase; [None] when [index >= items.size()]. *)
Fixpoint take_at (i : nat) (l : list Z) : option (Z * list Z) :=
  match l, i with
  | [], _ => None
  | x :: r, O => Some (x, r)
  | x :: r, S i' => match take_at i' r with Some (v, r') => Some (v, x :: r') | None => None end
  end.

(** items[i] = i for i < len. *)
Definition iota (n : nat) : list Z := map Z.of_nat (seq 0 n).

(** lehmer_code.cc:14-25, ComputeLehmerCode; [None]: an element is not found
    (only a debug check in the code; erase(end()) is undefined behaviour). *)
Fixpoint lehmer_loop (sigma items : list Z) : option (list Z) :=
  match sigma with
  | [] => Some []
  | s :: r =>
      match find_erase s items with
      | None => None
      | Some (i, items') =>
          match lehmer_loop r items' with Some c => Some (Z.of_nat i :: c) | None => None end
      end
  end.
Definition compute_lehmer (sigma : list Z) : option (list Z) := lehmer_loop sigma (iota (length sigma)).

(** lehmer_code.cc:27-38, DecodeLehmerCode; [None] = returns false. *)
Fixpoint unlehmer_loop (code items : list Z) : option (list Z) :=
  match code with
  | [] => Some []
  | c :: r =>
      match take_at (Z.to_nat c) items with
      | None => None
      | Some (v, items') =>
          match unlehmer_loop r items' with Some s => Some (v :: s) | None => None end
      end
  end.
Definition decode_lehmer (code : list Z) : option (list Z) := unlehmer_loop code (iota (length code)).

(** lehmer_code.h:46-51, PermutationCoder::num_bits (Log2FloorNonZero(n-1)+1). *)
Definition pc_num_bits (values : list Z) : nat :=
  let n := Z.of_nat (length values) in
  if n <=? 1 then 0%nat else (Z.to_nat (Z.log2 (n - 1)) + 1)%nat.

(** lehmer_code.h:55-62 Remove and 66-76 RemoveValue. *)
Definition pc_remove (code : Z) (values : list Z) : option (Z * list Z) := take_at (Z.to_nat code) values.
Definition pc_remove_value (v : Z) (values : list Z) : option (Z * nat * list Z) :=
  match find_erase v values with
  | None => None
  | Some (i, r) => Some (Z.of_nat i, pc_num_bits values, r)
  end.

(** Coding a list of values: codes with their bit widths. *)
Fixpoint pc_encode (vs values : list Z) : option (list (Z * nat)) :=
  match vs with
  | [] => Some []
  | v :: r =>
      match pc_remove_value v values with
      | None => None
      | Some (c, nb, values') =>
          match pc_encode r values' with Some l => Some ((c, nb) :: l) | None => None end
      end
  end.
Fixpoint pc_decode (cs values : list Z) : option (list Z) :=
  match cs with
  | [] => Some []
  | c :: r =>
      match pc_remove c values with
      | None => None
      | Some (v, values') =>
          match pc_decode r values' with Some l => Some (v :: l) | None => None end
      end
  end.

(** c/include/brunsli/jpeg_data.h:64-87. *)
Definition kNaturalOrder : list Z :=
  [0; 1; 8; 16; 9; 2; 3; 10; 17; 24; 32; 25; 18; 11; 4; 5; 12; 19; 26; 33; 40; 48; 41; 34; 27; 20; 13; 6;
   7; 14; 21; 28; 35; 42; 49; 56; 57; 50; 43; 36; 29; 22; 15; 23; 30; 37; 44; 51; 58; 59; 52; 45; 38; 31;
   39; 46; 53; 60; 61; 54; 47; 55; 62; 63].
Definition kZigZagOrder : list Z :=
  [0; 1; 5; 6; 14; 15; 27; 28; 2; 4; 7; 13; 16; 26; 29; 42; 3; 8; 12; 17; 25; 30; 41; 43; 9; 11; 18; 24;
   31; 40; 44; 53; 10; 19; 23; 32; 39; 45; 52; 54; 20; 22; 33; 38; 46; 51; 55; 60; 21; 34; 37; 47; 50; 56;
   59; 61; 35; 36; 48; 49; 57; 58; 62; 63].

(** c/enc/brunsli_encode.cc:753-760: tail is the last index >= 1 with a
    non-zero code (0 if none), codes 1..tail are incremented. [l] holds the codes
    from index 1 on. *)
Fixpoint bump_tail (l : list Z) : list Z :=
  match l with
  | [] => []
  | x :: r => if (x =? 0) && forallb (fun y => y =? 0) r then l else (x + 1) :: bump_tail r
  end.

(** brunsli_encode.cc:773-777: unary groups of 7 (fuel 10 covers values <= 64). *)
Fixpoint coeff_order_value (fuel : nat) (v : Z) : list item :=
  match fuel with
  | O => []
  | S f => if 7 <=? v then IBits 3 7 :: coeff_order_value f (v - 7) else [IBits 3 v]
  end.
Definition kFuelOrder : nat := 10.

(** brunsli_encode.cc:761-779: one span. *)
Definition coeff_order_span (span : list Z) : list item :=
  if forallb (fun y => y =? 0) span then [IBits 1 0]
  else IBits 1 1 :: flat_map (coeff_order_value kFuelOrder) span.

(** brunsli_encode.cc:745-780, EncodeCoeffOrder. *)
Definition encode_coeff_order (order : list Z) : option (list item) :=
  let zz := map (fun o => nth (Z.to_nat o) kZigZagOrder 0) order in
  match compute_lehmer zz with
  | None => None
  | Some [] => None
  | Some (_ :: l) =>
      let l := bump_tail l in
      Some (coeff_order_span (firstn 15 l) ++ coeff_order_span (firstn 16 (skipn 15 l)) ++
            coeff_order_span (firstn 16 (skipn 31 l)) ++ coeff_order_span (firstn 16 (skipn 47 l)))
  end.

(** c/dec/brunsli_decode.cc:552-560: [while (v <= 64) { bits = ReadBits(3); ...}];
    at most 10 iterations. *)
Fixpoint decode_order_value (fuel : nat) (v : Z) : eprog Z :=
  match fuel with
  | O => EFail
  | S f =>
      if 64 <? v then EFail
      else EBits 3 (fun b => if b <? 7 then (if 64 <? v + b then EFail else ERet (v + b))
                             else decode_order_value f (v + b))
  end.
Fixpoint decode_order_values (n : nat) : eprog (list Z) :=
  match n with
  | O => ERet []
  | S m => ebind (decode_order_value 11 0) (fun v => ebind (decode_order_values m) (fun l => ERet (v :: l)))
  end.
(** brunsli_decode.cc:548-561: one span of [n] codes. *)
Definition decode_order_span (n : nat) : eprog (list Z) :=
  EBits 1 (fun b => if b =? 0 then ERet (repeat 0 n) else decode_order_values n).

(** brunsli_decode.cc:562-570 on the codes from index 1 on: find the last
    non-zero; it must not be 1; all up to it must be non-zero and are
    decremented. *)
Fixpoint unbump_tail (l : list Z) : option (list Z) :=
  match l with
  | [] => Some []
  | x :: r =>
      if forallb (fun y => y =? 0) r then
        (if x =? 0 then Some l else if x =? 1 then None else Some ((x - 1) :: r))
      else if x =? 0 then None
      else match unbump_tail r with Some r' => Some ((x - 1) :: r') | None => None end
  end.

(** brunsli_decode.cc:543-576, DecodeCoeffOrder. *)
Definition finish_coeff_order (l : list Z) : option (list Z) :=
  match unbump_tail l with
  | None => None
  | Some l' =>
      match decode_lehmer (0 :: l') with
      | None => None
      | Some s => Some (map (fun k => nth (Z.to_nat k) kNaturalOrder 0) s)
      end
  end.
Definition decode_coeff_order : eprog (list Z) :=
  ebind (decode_order_span 15) (fun a =>
  ebind (decode_order_span 16) (fun b =>
  ebind (decode_order_span 16) (fun c =>
  ebind (decode_order_span 16) (fun d =>
  match finish_coeff_order (a ++ b ++ c ++ d) with Some o => ERet o | None => EFail end)))).
