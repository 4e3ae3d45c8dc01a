(** Properties of the prefix codes (C17 and following). *)
From Verif Require Import Base BitModel BitProofs JBitModel JHuffModel HuffModel HuffProofs3 HuffProofs4 HuffProofs5 HuffProofs6.

(** C17: for every complete set of code lengths (at most 15 bits) the lookup table is built
    inside an allocation of [alphabet size + 376] entries, whatever it contained, and
    reading a symbol from the bits of its canonical code gives the symbol and consumes
    exactly the code. *)
Theorem C17_tables_decode_canonical_code lens (arena : list (Z * Z)) strict :
  complete lens -> Z.of_nat (length lens) <= 2 ^ 15 ->
  Z.of_nat (length lens) + 376 <= Z.of_nat (length arena) <= 65535 ->
  exists counts table size,
    count_lens lens (repeat 0 16) = JOk counts
    /\ build_table arena kRootBits lens counts = JOk (table, size)
    /\ size <= Z.of_nat (length lens) + 376 /\ length table = length arena
    /\ forall s rest, (s < length lens)%nat -> 0 < nth s lens 0 ->
         arun strict (read_sym (firstn (Z.to_nat size) table)) (code_bits lens s ++ rest) = Some (Z.of_nat s, rest).
Proof.
  intros CO Hn HA. change (2 ^ 15) with 32768 in Hn. pose proof CO as [F _].
  destruct (count_lens_ok lens (repeat 0 16) F eq_refl) as (counts & EC & LC & HC).
  { intros l Hl. rewrite nth_repeat. lia. }
  exists counts. destruct (build_main arena 8 lens counts CO ltac:(lia)) as (table & size & EB & LB & SB & TB).
  - split; [exact LC|]. intros l Hl. rewrite HC, nth_repeat by lia. lia.
  - lia.
  - change (2 ^ 8) with 256. change (2 ^ (15 - 8)) with 128. lia.
  - exists table, size. change (2 ^ 8) with 256 in SB. change (2 ^ (15 - 8)) with 128 in SB.
    split; [exact EC|]. split; [exact EB|]. split; [lia|]. split; [exact LB|].
    intros s rest Hs Hl. apply (read_sym_ok strict lens table size s rest TB Hs).
    rewrite Forall_forall in F. pose proof (F _ (nth_In lens 0 Hs)). lia.
Qed.
Print Assumptions C17_tables_decode_canonical_code.

(** Every bit string starts with the code of a symbol, so reading always gives the symbol
    whose code is the prefix. *)
Theorem C17_every_string_has_a_symbol lens str : complete lens -> (15 <= length str)%nat ->
  exists s rest, (s < length lens)%nat /\ 0 < nth s lens 0 /\ str = code_bits lens s ++ rest.
Proof. apply code_prefix. Qed.
Print Assumptions C17_every_string_has_a_symbol.

(** Lengths up to 10 bits: sub-tables are used. *)
Example C17_case :
  let lens := [1; 2; 3; 0; 4; 5; 6; 7; 8; 9; 10; 10]%Z in
  complete lens /\ code_bits lens 11 = repeat true 10 /\ code_bits lens 10 = repeat true 9 ++ [false]
  /\ code_bits lens 2 = [true; true; false].
Proof. split; [split; [repeat constructor; lia|vm_compute; reflexivity]|]. vm_compute. auto. Qed.

(** The same for the five-bit table of the code lengths, with all lengths up to 5. *)
Theorem C17_code_length_table lens (arena : list (Z * Z)) strict :
  complete lens -> Forall (fun l => l <= 5) lens -> Z.of_nat (length lens) <= 2 ^ 15 -> 32 <= Z.of_nat (length arena) ->
  exists counts table,
    count_lens lens (repeat 0 16) = JOk counts
    /\ build_table arena 5 lens counts = JOk (table, 32) /\ length table = length arena
    /\ forall s rest, (s < length lens)%nat -> 0 < nth s lens 0 ->
         arun strict (look 5 table 0 Ret) (code_bits lens s ++ rest) = Some (Z.of_nat s, rest).
Proof.
  intros CO F5 Hn HA. change (2 ^ 15) with 32768 in Hn. pose proof CO as [F _].
  destruct (count_lens_ok lens (repeat 0 16) F eq_refl) as (counts & EC & LC & HC).
  { intros l Hl. rewrite nth_repeat. lia. }
  exists counts. destruct (build_small arena 5 lens counts CO ltac:(lia)) as (table & EB & LB & TB).
  - split; [exact LC|]. intros l Hl. rewrite HC, nth_repeat by lia. lia.
  - lia.
  - change (2 ^ 5) with 32. lia.
  - exact F5.
  - exists table. change (2 ^ 5) with 32 in *. split; [exact EC|]. split; [exact EB|]. split; [exact LB|].
    intros s rest Hs Hl. rewrite Forall_forall in F5. pose proof (F5 _ (nth_In lens 0 Hs)).
    rewrite (look_ok strict lens 5 table 32 s rest Ret TB) by (try lia). reflexivity.
Qed.
Print Assumptions C17_code_length_table.

Example C17_case_five : complete [2; 3; 3; 0; 4; 4; 3; 2; 0; 0; 0; 0; 0; 0; 0; 0; 0; 0]%Z.
Proof. split; [repeat constructor; lia|vm_compute; reflexivity]. Qed.
