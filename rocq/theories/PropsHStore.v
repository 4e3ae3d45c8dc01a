(** C19: the description of a prefix code is read back. *)
From Verif Require Import Base BitModel BitProofs CodesProofs JBitModel HuffModel HTreeModel HTreeProofs1 HTreeProofs3 HTreeProofs4 HStoreModel HStoreProofs5 HStoreProofs6.

(** For every histogram over an alphabet of 1 to 2^14 - 1 symbols (the counts limited as in C18): the encoder finds a code and a
    description, all of whose fields fit their widths.  The decoder reads exactly the bits of the description and gets a table with
    which every symbol that occurs, written with the encoder's code, is read back, with nothing of what follows consumed.
    [JOk] also says that no index leaves its array while the description is written; [strict] as in C05: the
    reader may or may not see the end of its section.  The arena is the decoder's scratch memory, with any contents. *)
Theorem C19_code_description_round_trip hist :
  Forall (fun c => 0 <= c) hist -> 1 <= Z.of_nat (length hist) < 2 ^ 14 ->
  used_count hist * (2 * max_elem hist) < 2 ^ 32 - 1 -> used_count hist < 2584 ->
  exists fs depth bits, build_and_store hist = JOk (fs, depth, bits) /\ fields_ok fs
    /\ (forall s, (s < length hist)%nat -> 0 <= nth s depth 0 <= 15 /\ 0 <= nth s bits 0 < 2 ^ nth s depth 0)
    /\ forall strict arena rest, Z.of_nat (length hist) + 376 <= Z.of_nat (length arena) <= 65535 ->
       exists table, arun strict (read_code arena (length hist)) (fields_bits fs ++ rest) = Some (table, rest)
         /\ forall strict2 s rest2, (s < length hist)%nat -> nth s hist 0 <> 0 ->
              arun strict2 (read_sym table) (bits_of (Z.to_nat (nth s depth 0)) (nth s bits 0) ++ rest2) = Some (Z.of_nat s, rest2).
Proof.
  intros F HL HB HU. rewrite <- used_count_len in *.
  destruct (build_and_store_ok hist F HL HB HU) as (fs & depth & bits & E & FO & LD & LB & FD & BR & R).
  exists fs, depth, bits. split; [exact E|]. split; [exact FO|]. split; [|exact R].
  intros s Hs. split; [|apply BR, Hs]. rewrite Forall_forall in FD. apply FD, nth_In. rewrite LD. exact Hs.
Qed.
Print Assumptions C19_code_description_round_trip.

(** A histogram with a full description and one with a simple one. *)
Example C19_case :
  let h1 := [40; 0; 0; 0; 0; 7; 3; 3; 3; 3; 0; 1; 1; 9] in
  let h2 := [0; 5; 0; 1; 1] in
  used_count h1 * (2 * max_elem h1) < 2 ^ 32 - 1 /\ used_count h1 < 2584
  /\ build_and_store h2 = JOk ([(2%nat, 1); (2%nat, 2); (3%nat, 1); (3%nat, 3); (3%nat, 4)], [0; 1; 0; 2; 2], [0; 0; 0; 1; 3])
  /\ match build_and_store h1 with
     | JOk (fs, depth, bits) => (10 <? Z.of_nat (length fs)) && (nth 0 depth 0 =? 1) && (nth 11 depth 0 =? 6)
         && match arun true (read_code (repeat (7, 7) 400) 14) (fields_bits fs ++ bits_of 6 (nth 11 bits 0)) with
            | Some (t, r) => match arun true (read_sym t) r with Some (11, []) => true | _ => false end
            | None => false
            end
     | _ => false
     end = true.
Proof. vm_compute. repeat split; discriminate. Qed.
