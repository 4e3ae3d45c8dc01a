(** Both halves of a prefix code together. *)
From Verif Require Import Base BitModel BitProofs CodesProofs JBitModel JReadProofs JHuffModel JHuffProofs HistProofs HuffModel HuffProofs1 HuffProofs3 HuffProofs4 HuffProofs5 HuffProofs6
  HTreeModel HTreeProofs1 HTreeProofs3 HTreeProofs4 HStoreModel HStoreProofs1 HStoreProofs2 HStoreProofs3 HStoreProofs4 HStoreProofs5.

Lemma used_filter_len data : length (used data) = length (filter (fun i => negb (nth i data 0 =? 0)) (seq 0 (length data))).
Proof.
  unfold used. set (f := fun i => negb (nth i data 0 =? 0)). generalize (seq 0 (length data)). induction l as [|x l IH]; [reflexivity|].
  cbn [rev filter]. rewrite filter_app, app_length, IH. cbn [filter]. destruct (f x); cbn [length]; lia.
Qed.

Lemma one_entry s : tile 256 [(0, s)] = repeat (0, s) 256.
Proof.
  unfold tile. assert (G : forall n : nat, concat (repeat [(0, s)] n) = repeat (0, s) n).
  { induction n as [|n IH]; [reflexivity|]. cbn [repeat concat app]. rewrite IH. reflexivity. }
  rewrite G. reflexivity.
Qed.
Lemma read_sym_one strict s rest : arun strict (read_sym (repeat (0, s) 256)) rest = Some (s, rest).
Proof.
  unfold read_sym. cbn [arun]. pose proof (peek_range 8 rest) as P. change (2 ^ Z.of_nat 8) with 256 in P.
  assert (E : aget (repeat (0, s) 256) (peek 8 rest) = JOk (0, s)).
  { apply aget_Some. split; [lia|]. apply nth_error_repeat. lia. }
  rewrite E. cbn [fst snd]. change (kRootBits <? 0) with false. cbv iota. reflexivity.
Qed.

Lemma build_and_store_ok hist :
  Forall (fun c => 0 <= c) hist -> 1 <= Z.of_nat (length hist) < 2 ^ 14 ->
  Z.of_nat (length (used hist)) * (2 * max_elem hist) < 2 ^ 32 - 1 -> Z.of_nat (length (used hist)) < 2584 ->
  exists fs depth bits, build_and_store hist = JOk (fs, depth, bits) /\ fields_ok fs /\ length depth = length hist /\ length bits = length hist
    /\ Forall (fun d => 0 <= d <= 15) depth
    /\ (forall s, (s < length hist)%nat -> 0 <= nth s bits 0 < 2 ^ nth s depth 0)
    /\ forall strict arena rest, Z.of_nat (length hist) + 376 <= Z.of_nat (length arena) <= 65535 ->
       exists table, arun strict (read_code arena (length hist)) (fields_bits fs ++ rest) = Some (table, rest)
         /\ forall strict2 s rest2, (s < length hist)%nat -> nth s hist 0 <> 0 ->
              arun strict2 (read_sym table) (bits_of (Z.to_nat (nth s depth 0)) (nth s bits 0) ++ rest2) = Some (Z.of_nat s, rest2).
Proof.
  intros F HL HB HU. unfold build_and_store. set (n := length hist) in *.
  set (us := filter (fun i => negb (nth i hist 0 =? 0)) (seq 0 n)).
  pose proof (used_filter_len hist) as LU. fold n us in LU. rewrite LU in *.
  destruct (max_bits_ok (Z.of_nat n) ltac:(lia)) as (MB1 & MB2 & MB3).
  assert (INU : forall u, In u us <-> (u < n)%nat /\ nth u hist 0 <> 0).
  { intros u. unfold us. rewrite filter_In, in_seq, negb_true_iff, Z.eqb_neq. intuition lia. }
  destruct (Nat.leb_spec (Nat.min 5 (length us)) 1) as [H1|H1].
  - set (s0 := nth 0 (firstn 4 (map Z.of_nat us ++ [0; 0; 0; 0])) 0).
    assert (HS : 0 <= s0 < Z.of_nat n /\ forall u, In u us -> s0 = Z.of_nat u).
    { unfold s0. destruct us as [|u [|v us']]; [cbn; split; [lia|contradiction]| |cbn [length] in H1; lia].
      cbn [map app firstn nth]. split; [|intros w [->|[]]; reflexivity]. pose proof (proj1 (INU u) (or_introl eq_refl)). lia. }
    destruct HS as [HS ONE]. eexists _, _, _. split; [reflexivity|]. rewrite MB1.
    split; [apply fields_ok_cons; split; [split; [lia|cbn; lia]|apply fields_ok_cons; split; [split; [lia|lia]|constructor]]|].
    split; [apply repeat_length|]. split; [apply repeat_length|]. split; [apply Forall_forall; intros x Hx; apply repeat_spec in Hx; lia|].
    split; [intros s _; rewrite !nth_repeat; cbn; lia|]. intros strict arena rest HA. exists (repeat (0, s0) 256). split.
    + cbn [fields_bits]. rewrite app_nil_r. change (bits_of 4 1) with (bits_of 2 1 ++ bits_of 2 0). rewrite <- !app_assoc.
      unfold read_code. change (2 ^ kMaxBits) with (2 ^ 15). destruct (Z.ltb_spec (2 ^ 15) (Z.of_nat n)); [lia|].
      rewrite arun_Read by (cbn; lia). change (1 =? 1) with true. cbv iota. unfold read_simple. rewrite arun_Read by (cbn; lia). rewrite arun_bind.
      rewrite Z.mod_small by lia. change (Z.to_nat (0 + 1)) with (length [s0]).
      pose proof (read_syms_ok strict (sym_bits (Z.of_nat n)) (Z.of_nat n) MB2 ltac:(lia) [s0] rest) as RS. cbn [map fields_bits] in RS. rewrite app_nil_r in RS.
      rewrite RS by (constructor; [lia|constructor]). cbn [distinct existsb negb andb]. change (0 =? 3) with false. change (0 + 1) with 1. cbv iota beta zeta.
      change (simple_entries 1 [s0]) with (Some [(0, s0)]). cbn [arun]. rewrite one_entry. reflexivity.
    + intros strict2 s rest2 Hs Hn. rewrite !nth_repeat. cbn [Z.to_nat bits_of app]. rewrite read_sym_one. rewrite (ONE s) by (apply INU; split; assumption). reflexivity.
  - destruct (create_tree_ok hist 15 F ltac:(lia) ltac:(lia) ltac:(rewrite LU; lia) ltac:(lia)) as (depth & EC & (LD & UD & FD & CD)).
    { change (fa (Z.to_nat (15 + 1))) with 2584. lia. }
    fold n in EC, LD, UD. rewrite EC. cbn [jbind].
    destruct (depths_to_codes_ok depth (repeat 0 n) CD) as (bits & EB & LB & HBi); [rewrite repeat_length; lia|lia|]. rewrite EB. cbn [jbind].
    assert (EUS : us = filter (fun i => negb (nth i depth 0 =? 0)) (seq 0 (length depth))).
    { rewrite LD. unfold us. apply filter_ext_in. intros i Hi. apply in_seq in Hi. pose proof (UD i ltac:(lia)) as X. f_equal.
      destruct (Z.eqb_spec (nth i hist 0) 0), (Z.eqb_spec (nth i depth 0) 0); tauto. }
    assert (BR : forall s, (s < n)%nat -> 0 <= nth s bits 0 < 2 ^ nth s depth 0).
    { intros s Hs. specialize (HBi s ltac:(lia)). destruct (Z.eqb_spec (nth s depth 0) 0) as [E|E]; [|apply HBi]. rewrite HBi, nth_repeat, E. cbn. lia. }
    assert (DEC : forall lut total, table_ok depth 8 lut total -> forall strict2 s rest2, (s < n)%nat -> nth s hist 0 <> 0 ->
        arun strict2 (read_sym (firstn (Z.to_nat total) lut)) (bits_of (Z.to_nat (nth s depth 0)) (nth s bits 0) ++ rest2) = Some (Z.of_nat s, rest2)).
    { intros lut total TO strict2 s rest2 Hs Hn. specialize (HBi s ltac:(lia)). assert (ND : nth s depth 0 <> 0) by (rewrite UD by exact Hs; exact Hn).
      destruct (Z.eqb_spec (nth s depth 0) 0); [contradiction|]. destruct HBi as [-> _]. apply read_sym_ok; [exact TO|lia|].
      rewrite Forall_forall in FD. pose proof (FD _ (nth_In depth 0 (ltac:(lia) : (s < length depth)%nat))). cbv beta in *. lia. }
    destruct (Nat.leb_spec (Nat.min 5 (length us)) 4) as [H4|H4].
    + rewrite Nat.min_r by lia. destruct (store_simple_ok depth us CD ltac:(lia) EUS ltac:(lia)) as [FO RD]. cbv zeta in FO, RD. rewrite LD in FO, RD.
      eexists _, depth, bits. split; [reflexivity|]. split; [exact FO|]. split; [exact LD|]. split; [lia|]. split; [exact FD|]. split; [exact BR|].
      intros strict arena rest HA. destruct (RD strict arena) as (lut & R & TO & LL). exists lut. split; [apply R|].
      intros. replace lut with (firstn (Z.to_nat 256) lut) by (apply firstn_all2; rewrite LL; reflexivity). apply DEC; assumption.
    + destruct (store_tree_ok depth CD ltac:(lia)) as (fs & ES & FO & RD). rewrite ES. cbn [jbind]. rewrite LD in RD.
      exists fs, depth, bits. split; [reflexivity|]. split; [exact FO|]. split; [exact LD|]. split; [lia|]. split; [exact FD|]. split; [exact BR|].
      intros strict arena rest HA. destruct (RD strict arena rest HA) as (lut & total & R & TO & LL). exists (firstn (Z.to_nat total) lut). split; [exact R|].
      intros. apply DEC; assumption.
Qed.
