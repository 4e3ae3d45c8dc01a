(** C18: the prefix codes the encoder builds. *)
From Verif Require Import Base JBitModel JHuffModel HuffModel HuffProofs3 HTreeModel HTreeProofs1 HTreeProofs3 HTreeProofs4.

(** For every histogram with two or more used symbols, the encoder finds code lengths: a symbol has a
    code exactly if it occurs, no code is longer than the limit (15 for the symbols, 5 for
    the code lengths) and the code is complete.  The counts are such that twice the
    largest one times the number of used symbols stays below 2^32 - 1.
    [create_tree] ending in [JOk] also says that the loop over count_limit ends and that no
    index leaves its array. *)
Theorem C18_code_lengths data limit :
  Forall (fun c => 0 <= c) data -> Z.of_nat (length data) < 2 ^ 14 -> 2 <= used_count data ->
  used_count data * (2 * max_elem data) < 2 ^ 32 - 1 ->
  limit = 15 /\ used_count data < 2584 \/ limit = 5 /\ used_count data < 21 ->
  exists depth, create_tree data limit (repeat 0 (length data)) = JOk depth
    /\ length depth = length data
    /\ (forall s, (s < length data)%nat -> (nth s depth 0 = 0 <-> nth s data 0 = 0))
    /\ Forall (fun d => 0 <= d <= limit) depth
    /\ complete depth.
Proof.
  intros F HL HU HB HT. rewrite <- used_count_len in *.
  apply create_tree_ok; try assumption; [lia|destruct HT; lia|].
  destruct HT as [[-> H]|[-> H]]; [change (fa (Z.to_nat (15 + 1))) with 2584|change (fa (Z.to_nat (5 + 1))) with 21]; exact H.
Qed.
Print Assumptions C18_code_lengths.

(** The codes the encoder writes for the lengths are the canonical ones, each of its own
    length; places of symbols without a code keep their value. *)
Theorem C18_codes_canonical depth bits : complete depth -> length bits = length depth -> Z.of_nat (length depth) < 2 ^ 16 ->
  exists codes, depths_to_codes depth bits = JOk codes /\ length codes = length depth
    /\ forall s, (s < length depth)%nat ->
         if nth s depth 0 =? 0 then nth s codes 0 = nth s bits 0
         else bits_of (Z.to_nat (nth s depth 0)) (nth s codes 0) = code_bits depth s
              /\ 0 <= nth s codes 0 < 2 ^ nth s depth 0.
Proof. apply depths_to_codes_ok. Qed.
Print Assumptions C18_codes_canonical.

(** A Fibonacci histogram: the unlimited code would need nine bits; with the limit 5 the counts are raised
    until it fits. *)
Example C18_case :
  let data := [1; 1; 2; 3; 5; 8; 0; 13; 21; 34; 55] in
  2 <= used_count data /\ used_count data < 21 /\ used_count data * (2 * max_elem data) < 2 ^ 32 - 1
  /\ create_tree data 15 (repeat 0 11) = JOk [9; 9; 8; 7; 6; 5; 0; 4; 3; 2; 1]
  /\ create_tree data 5 (repeat 0 11) = JOk [5; 5; 5; 5; 4; 4; 0; 3; 3; 2; 2]
  /\ depths_to_codes [5; 5; 5; 5; 4; 4; 0; 3; 3; 2; 2] (repeat 0 11) = JOk [7; 23; 15; 31; 3; 11; 0; 1; 5; 0; 2].
Proof. vm_compute. repeat split; discriminate. Qed.
