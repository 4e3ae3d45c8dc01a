(** C35: Huffman codes of a JPEG file, reader table against writer table. *)
From Verif Require Import Base JpegModel JBitModel JWriteProofs JReadProofs JHuffModel JHuffProofs JHuffPair.

(** A table slot: any sequence of codes was loaded into it before. *)
Inductive slot_history : list (Z * Z) -> Prop :=
| slot_fresh : slot_history lut_init
| slot_loaded counts values lut0 lut :
    slot_history lut0 -> huff_valid counts values ->
    build_lut counts values (prepare_lut (65536 - kraft (code_lens counts)) lut0) = JOk lut ->
    slot_history lut.

Lemma history_sane lut : slot_history lut -> lut_sane lut.
Proof.
  intros H. induction H as [|counts values lut0 lut H IH V B]; [split; [apply repeat_length|reflexivity]|].
  destruct (huff_pair counts values 0 false lut0 (repeat 0 256) (repeat 0 256) V IH (repeat_length _ _) (repeat_length _ _)) as (lut' & d & k & B' & _ & _ & _ & [S _] & _).
  rewrite B in B'. injection B' as ->. exact S.
Qed.

(** Codes: symbol [j] of length [l] has the number that makes all 16-bit windows starting
    with it begin right after those of the symbols before it. *)
Definition canonical (counts values : list Z) (tab : codetab) : Prop :=
  forall j, (j < length (code_lens counts) - 1)%nat ->
    let l := nth j (code_lens counts) 0 in let v := nth j values 0 in
    aget (fst tab) v = JOk l /\ exists c, aget (snd tab) v = JOk c /\ 0 <= c < 2 ^ l
      /\ c * 2 ^ (16 - l) = sumZ (map (fun l' => 2 ^ (16 - l')) (firstn j (code_lens counts))).

(** Both tables are built without leaving their arrays, whatever was loaded before, the
    writer's codes are the canonical ones. *)
Theorem C35_tables_built counts values slot last lut0 d k :
  huff_valid counts values -> slot_history lut0 -> length d = 256%nat -> length k = 256%nat ->
  exists lut tab, build_lut counts values (prepare_lut (65536 - kraft (code_lens counts)) lut0) = JOk lut
    /\ length lut = Z.to_nat 1024
    /\ build_codes (mkHC counts values slot last) (d, k) = JOk tab /\ canonical counts values tab.
Proof.
  intros V H Ld Lk. destruct (huff_pair counts values slot last lut0 d k V (history_sane _ H) Ld Lk) as (lut & d' & k' & B & C & _ & _ & [[S _] _] & CC).
  exists lut, (d', k'). split; [exact B|]. split; [exact S|]. split; [exact C|].
  intros j Hj. cbv zeta. destruct (build_codes_ok counts values slot last d k V Ld Lk) as (d2 & k2 & C2 & _ & _ & C3).
  rewrite C in C2. injection C2 as <- <-. destruct (C3 j Hj) as [A1 (c & A2 & A3 & A4)].
  destruct (CC j Hj) as (n & c2 & B1 & B2 & B3 & B4 & _). cbn [fst snd]. split; [exact A1|]. exists c. split; [exact A2|].
  rewrite A1 in B1. injection B1 as <-. rewrite A2 in B2. injection B2 as <-. split; [exact B4|]. exact A4.
Qed.
Print Assumptions C35_tables_built.

Fixpoint read_symbols (data : list Z) (lut : list (Z * Z)) (k : nat) (s : bitr) : jres (list Z * bitr) :=
  match k with
  | O => JOk ([], s)
  | S k' => let* vs := read_symbol data lut s in let* ws := read_symbols data lut k' (snd vs) in JOk (fst vs :: fst ws, snd ws)
  end.

Definition codes (tab : codetab) (syms : list Z) : list bool := flat_map (code_of tab) syms.

(** Symbols written with the writer's codes are read back by the reader's table. *)
Theorem C35_written_symbols_are_read counts values slot last lut0 d k lut tab pre bs m rest syms tail :
  huff_valid counts values -> slot_history lut0 -> length d = 256%nat -> length k = 256%nat ->
  build_lut counts values (prepare_lut (65536 - kraft (code_lens counts)) lut0) = JOk lut ->
  build_codes (mkHC counts values slot last) (d, k) = JOk tab ->
  Forall (fun v => In v (firstn (length (code_lens counts) - 1) values)) syms ->
  bytes (pre ++ stuff bs ++ [255; m] ++ rest) -> pre <> [] -> m <> 0 ->
  byte_bits bs = codes tab syms ++ tail ->
  exists s0 s, br_reset (pre ++ stuff bs ++ [255; m] ++ rest) (Z.of_nat (length pre)) = JOk s0
    /\ read_symbols (pre ++ stuff bs ++ [255; m] ++ rest) lut (length syms) s0 = JOk (syms, s).
Proof.
  set (data := pre ++ stuff bs ++ [255; m] ++ rest). intros V H Ld Lk B C FS Y Np Hm EB.
  destruct (huff_pair counts values slot last lut0 d k V (history_sane _ H) Ld Lk) as (lut' & d' & k' & B' & C' & _ & _ & SO & CC).
  rewrite B in B'. injection B' as <-. rewrite C in C'. injection C' as ->.
  assert (Lp : (0 < length pre)%nat) by (destruct pre; [congruence|cbn [length]; lia]).
  assert (SG : segment data (Z.of_nat (length pre)) bs m).
  { split; [exact Hm|]. exists pre, rest. split; [|reflexivity]. unfold data. rewrite <- !app_assoc. reflexivity. }
  destruct (reset_ok data (Z.of_nat (length pre)) Y) as [s0 [R0 I0]]; [unfold data; rewrite app_length; lia|].
  exists s0.
  assert (X : forall syms U s, Forall (fun v => In v (firstn (length (code_lens counts) - 1) values)) syms ->
     bri data (Z.of_nat (length pre)) U s -> (exists tl, byte_bits bs = U ++ codes (d', k') syms ++ tl) ->
     exists s', read_symbols data lut (length syms) s = JOk (syms, s')).
  { clear syms FS EB. intros syms; induction syms as [|v syms IH]; intros U s FS I [tl EB]; [exists s; reflexivity|].
    inversion FS as [|? ? Fv FS']; subst.
    cbn [length read_symbols].
    apply In_nth with (d := 0) in Fv as [j [Hj Ev]]. rewrite firstn_length in Hj.
    assert (Ev2 : nth j values 0 = v).
    { rewrite <- Ev. rewrite <- (firstn_skipn (length (code_lens counts) - 1) values) at 1. rewrite app_nth1 by (rewrite firstn_length; lia). reflexivity. }
    destruct (CC j ltac:(lia)) as (n & c & A1 & A2 & Hn & Hc & FD). rewrite Ev2 in *.
    unfold codes in EB. cbn [flat_map] in EB. fold (codes (d', k') syms) in EB.
    assert (EC : code_of (d', k') v = mbits (Z.to_nat n) c) by (unfold code_of; cbn [fst snd]; rewrite A1, A2; reflexivity).
    destruct (read_symbol_ok data _ U s lut Y I ltac:(apply SO)) as (L & E & V2 & [ps [nx SRC]] & EV & LV & RW & RS).
    assert (PV : firstn (Z.to_nat n) V2 = mbits (Z.to_nat n) c).
    { destruct (source_segment _ _ _ _ _ _ _ _ SG SRC) as [[L2 EL] [ED _]].
      assert (PX : exists t1 t2, V2 ++ t1 = mbits (Z.to_nat n) c ++ t2).
      { rewrite EC in EB. destruct E as [|e E].
        - rewrite app_nil_r in EV. rewrite EL, byte_bits_app, EV, <- !app_assoc in EB. apply app_inv_head in EB.
          exists (byte_bits L2), (codes (d', k') syms ++ tl). exact EB.
        - rewrite (ED ltac:(discriminate)), byte_bits_app, EB, <- !app_assoc in EV. apply app_inv_head in EV.
          exists [], (codes (d', k') syms ++ tl ++ byte_bits (e :: E)). rewrite app_nil_r. symmetry. exact EV. }
      destruct PX as (t1 & t2 & PX). apply (f_equal (firstn (Z.to_nat n))) in PX.
      rewrite !firstn_app in PX. rewrite mbits_length in PX.
      replace (Z.to_nat n - length V2)%nat with 0%nat in PX by lia. rewrite Nat.sub_diag in PX. cbn [firstn] in PX. rewrite !app_nil_r in PX.
      rewrite PX. apply firstn_all2. rewrite mbits_length. lia. }
    assert (Ew : mval (firstn 16 V2) / 2 ^ (16 - n) = c).
    { assert (L16 : length (firstn 16 V2) = 16%nat) by (rewrite firstn_length; lia).
      transitivity (mval (firstn (Z.to_nat n) V2)).
      - replace (firstn (Z.to_nat n) V2) with (firstn (Z.to_nat n) (firstn 16 V2)) by (rewrite firstn_firstn; f_equal; lia).
        rewrite (mval_firstn_div (firstn 16 V2) (Z.to_nat n)) by lia. rewrite L16. f_equal. f_equal. lia.
      - rewrite PV. apply mval_mbits_small. rewrite Z2Nat.id by lia. exact Hc. }
    destruct (RS n v (FD _ RW Ew) ltac:(lia)) as [s1 [R1 I1]]. rewrite R1. cbn [jbind fst snd].
    rewrite PV, <- EC in I1.
    destruct (IH _ s1 FS' I1) as [s2 R2]; [exists tl; rewrite EB, <- !app_assoc; reflexivity|].
    rewrite R2. cbn [jbind fst snd]. exists s2. reflexivity. }
  destruct (X syms [] s0 FS I0) as [s R]; [exists tail; exact EB|]. exists s. auto.
Qed.
Print Assumptions C35_written_symbols_are_read.

(** Conversely, reading never leaves the tables, and symbols that come out as proper symbol
    values were coded by exactly the writer's codes. *)
Theorem C35_read_symbols_are_coded counts values slot last lut0 d k lut tab pre bs m rest n :
  huff_valid counts values -> slot_history lut0 -> length d = 256%nat -> length k = 256%nat ->
  build_lut counts values (prepare_lut (65536 - kraft (code_lens counts)) lut0) = JOk lut ->
  build_codes (mkHC counts values slot last) (d, k) = JOk tab ->
  bytes (pre ++ stuff bs ++ [255; m] ++ rest) -> pre <> [] -> m <> 0 ->
  exists s0 syms s, br_reset (pre ++ stuff bs ++ [255; m] ++ rest) (Z.of_nat (length pre)) = JOk s0
    /\ read_symbols (pre ++ stuff bs ++ [255; m] ++ rest) lut n s0 = JOk (syms, s) /\ length syms = n
    /\ (Forall (fun v => v < 256) syms -> (length (codes tab syms) <= 8 * length bs)%nat ->
        codes tab syms = firstn (length (codes tab syms)) (byte_bits bs)).
Proof.
  set (data := pre ++ stuff bs ++ [255; m] ++ rest). intros V H Ld Lk B C Y Np Hm.
  destruct (huff_pair counts values slot last lut0 d k V (history_sane _ H) Ld Lk) as (lut' & d' & k' & B' & C' & _ & _ & SO & CC).
  rewrite B in B'. injection B' as <-. rewrite C in C'. injection C' as ->.
  assert (Lp : (0 < length pre)%nat) by (destruct pre; [congruence|cbn [length]; lia]).
  assert (SG : segment data (Z.of_nat (length pre)) bs m).
  { split; [exact Hm|]. exists pre, rest. split; [|reflexivity]. unfold data. rewrite <- !app_assoc. reflexivity. }
  destruct (reset_ok data (Z.of_nat (length pre)) Y) as [s0 [R0 I0]]; [unfold data; rewrite app_length; lia|].
  exists s0.
  assert (X : forall n U s, bri data (Z.of_nat (length pre)) U s ->
     exists syms s', read_symbols data lut n s = JOk (syms, s') /\ length syms = n
       /\ (Forall (fun v => v < 256) syms -> bri data (Z.of_nat (length pre)) (U ++ codes (d', k') syms) s')).
  { clear n. induction n as [|n IH]; intros U s I.
    - exists [], s. split; [reflexivity|]. split; [reflexivity|]. intros _. cbn [codes flat_map]. rewrite app_nil_r. exact I.
    - destruct (read_symbol_slot data _ U s lut (d', k') Y I SO) as (v & s1 & R1 & Hv & [c I1] & K).
      destruct (Z_lt_ge_dec v 256) as [Hlt|Hge].
      + destruct (K Hlt) as [I2 _]. destruct (IH _ s1 I2) as (syms & s2 & R2 & L2 & I3).
        exists (v :: syms), s2. cbn [read_symbols]. rewrite R1. cbn [jbind fst snd]. rewrite R2. cbn [jbind fst snd].
        split; [reflexivity|]. split; [cbn [length]; congruence|]. intros F. inversion F; subst.
        unfold codes. cbn [flat_map]. rewrite app_assoc. apply I3. assumption.
      + destruct (IH _ s1 I1) as (syms & s2 & R2 & L2 & I3).
        exists (v :: syms), s2. cbn [read_symbols]. rewrite R1. cbn [jbind fst snd]. rewrite R2. cbn [jbind fst snd].
        split; [reflexivity|]. split; [cbn [length]; congruence|]. intros F. inversion F; subst. lia. }
  destruct (X n [] s0 I0) as (syms & s & R & L & I). exists syms, s. split; [exact R0|]. split; [exact R|]. split; [exact L|].
  intros F LB. apply (bri_segment data _ _ s bs m SG); [exact (I F)|exact LB].
Qed.
Print Assumptions C35_read_symbols_are_coded.

(** * Non-vacuity: a code with lengths up to 16, unused code space and two sub-tables *)

Definition ex_counts : list Z := [0; 0; 1; 2; 0; 0; 0; 0; 0; 3; 2; 0; 0; 0; 0; 0; 4].
Definition ex_values : list Z := [5; 0; 255; 17; 1; 2; 3; 4; 6; 7; 8; 256] ++ repeat 0 245.

Example C35_case_valid : huff_valid ex_counts ex_values /\ kraft (code_lens ex_counts) < 65536.
Proof.
  split; [constructor|vm_compute; reflexivity].
  - reflexivity.
  - repeat constructor; lia.
  - vm_compute. lia.
  - reflexivity.
  - vm_compute. discriminate.
  - repeat (constructor; [vm_compute; split; [discriminate|reflexivity]|]). constructor.
  - change (firstn _ _) with [5; 0; 255; 17; 1; 2; 3; 4; 6; 7; 8]. repeat constructor; cbn [In]; lia.
  - reflexivity.
Qed.

Example C35_case_codes :
  match build_lut ex_counts ex_values lut_init, build_codes (mkHC ex_counts ex_values 0 true) (repeat 0 256, repeat 0 256) with
  | JOk lut, JOk tab => (code_of tab 5, code_of tab 255, code_of tab 8,
       match br_reset ([1] ++ stuff [28; 16; 23] ++ [255; 217]) 1 with
       | JOk s => match read_symbols ([1] ++ stuff [28; 16; 23] ++ [255; 217]) lut 4 s with JOk (v, _) => v | _ => [] end
       | _ => [] end)
  | _, _ => ([], [], [], []) end
  = ([false; false], [false; true; true],
     [true; false; false; false; false; false; true; false; false; false; false; false; false; false; true; false], [5; 255; 8; 65535]).
Proof. vm_compute. reflexivity. Qed.
