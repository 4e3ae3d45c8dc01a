(** C36 and C37: the coded data of sequential and progressive scans. *)
From Coq Require Import ZArith List Bool Lia.
From Verif Require Import Base JpegModel LehmerModel CoefModel JBitModel JWriteProofs JReadProofs JHuffModel JHuffProofs JHuffPair
  JScanModel JScanProofs1 JScanProofs2 JScanProofs3 JScanProofs4 JScanProofs5 JScanProofs6 JScanProofs7 JScanProofs8 JScanProofs9 JScanProofs10.
Import ListNotations.
Local Open Scope Z_scope.

(** * Specification *)

(** A Huffman slot: the reader's table and the writer's codes after the same definitions. *)
Inductive slot_pair : list (Z * Z) -> codetab -> Prop :=
| pair_fresh d k : length d = 256%nat -> length k = 256%nat -> slot_pair lut_init (d, k)
| pair_loaded counts values slot last lut0 tab0 lut tab :
    slot_pair lut0 tab0 -> huff_valid counts values ->
    build_lut counts values (prepare_lut (65536 - kraft (code_lens counts)) lut0) = JOk lut ->
    build_codes (mkHC counts values slot last) tab0 = JOk tab -> slot_pair lut tab.

(** A scan: its header, the restart interval and the tables in force, and where its coded
    data begin. *)
Record scan := mkScan {
  sc_si : scaninfo; sc_restart : Z; sc_pos : Z;
  sc_dcl : list (list (Z * Z)); sc_acl : list (list (Z * Z)); sc_dct : list codetab; sc_act : list codetab }.

(** What the header parser guarantees about a scan (four slots of each kind). *)
Record scan_ok (data : list Z) (progressive : bool) (comps : list component) (s : scan) : Prop := {
  so_pos : 1 <= sc_pos s <= Z.of_nat (length data);
  so_comps : scan_comps_ok comps (si_comps (sc_si s));
  so_slots : Forall (fun c => 0 <= cs_dc c <= 3 /\ 0 <= cs_ac c <= 3) (si_comps (sc_si s));
  so_band : progressive = true -> 0 <= si_ss (sc_si s) <= si_se (sc_si s) /\ si_se (sc_si s) <= 63;
  so_bits : progressive = true -> 0 <= si_ah (sc_si s) <= 15 /\ 0 <= si_al (sc_si s) <= 15;
  so_four : length (sc_dcl s) = 4%nat /\ length (sc_acl s) = 4%nat;
  so_dc : Forall2 slot_pair (sc_dcl s) (sc_dct s);
  so_ac : Forall2 slot_pair (sc_acl s) (sc_act s) }.

Definition with_scan (j : jpeg) (r : rscan) : jpeg :=
  mkJpeg (j_width j) (j_height j) (j_version j) (j_max_h j) (j_max_v j) (j_mcu_rows j) (j_mcu_cols j) (j_restart j)
    (j_app j) (j_com j) (j_quant j) (j_huff j) (rs_comps r) (j_scans j) (j_markers j) (j_inter j) (j_tail j)
    (rs_zero_pad r) (rs_padding r).
Definition recorded_scan (si : scaninfo) (r : rscan) : scaninfo :=
  mkSI (si_ss si) (si_se si) (si_ah si) (si_al si) (si_comps si) (rs_resets r) (rs_zruns r).

(** The reader on the scans of a file, one after the other; [prog] are the bits of each
    coefficient that were delivered before.  The result lists, for every scan, the header with what was recorded,
    and the position behind its coded data. *)
Fixpoint read_script (data : list Z) (progressive : bool) (j : jpeg) (prog : list (list Z)) (l : list scan)
  : jres (jpeg * list (scaninfo * Z)) :=
  match l with
  | [] => JOk (j, [])
  | s :: l' =>
      let p := scan_params progressive (sc_si s) (sc_restart s) in
      let* prog' := prog_check p (si_comps (sc_si s)) prog in
      let* (r, pos') := read_scan_data data (sc_dcl s) (sc_acl s) j p (sc_pos s) in
      let* (jF, recs) := read_script data progressive (with_scan j r) prog' l' in
      JOk (jF, (recorded_scan (sc_si s) r, pos') :: recs)
  end.

(** The writer on the same scans. *)
Fixpoint write_script (jF : jpeg) (progressive : bool) (l : list scan) (recs : list (scaninfo * Z)) (pads : option (list Z))
  : jres (list (list Z) * option (list Z)) :=
  match l, recs with
  | s :: l', (si, _) :: recs' =>
      let* (out, pads) := write_scan_data jF (sc_dct s) (sc_act s) progressive si (sc_restart s) pads in
      let* (outs, pads) := write_script jF progressive l' recs' pads in
      JOk (out :: outs, pads)
  | _, _ => JOk ([], pads)
  end.

Definition piece (data : list Z) (a b : Z) : list Z := firstn (Z.to_nat (b - a)) (skipn (Z.to_nat a) data).

(** Some marker follows position [a]. *)
Definition marker_behind (data : list Z) (a : Z) : Prop :=
  exists i m, a <= i /\ aget data i = JOk 255 /\ aget data (i + 1) = JOk m /\ m <> 0.

Definition blank (j : jpeg) : Prop :=
  j_padding j = [] /\ j_zero_pad j = false
  /\ Forall (fun c => Forall (fun b => b = repeat 0 64) (c_coeffs c)) (j_comps j).
Definition nothing_read : list (list Z) := repeat (repeat 0 64) 4.

(** * Proofs *)

Lemma slot_pair_ok lut tab : slot_pair lut tab -> slot_ok lut tab /\ length (fst tab) = 256%nat /\ length (snd tab) = 256%nat.
Proof.
  intros H. induction H as [d k Ld Lk|counts values slot last lut0 tab0 lut tab H IH V B C].
  - split; [apply slot_init|auto].
  - destruct IH as ([S0 _] & L1 & L2). destruct tab0 as [d0 k0].
    destruct (huff_pair counts values slot last lut0 d0 k0 V S0 L1 L2) as (lut' & d' & k' & B' & C' & Ld & Lk & SO & _).
    rewrite B in B'. injection B' as <-. rewrite C in C'. injection C' as ->. auto.
Qed.

Lemma slots_at luts tabs i : Forall2 slot_pair luts tabs -> length luts = 4%nat -> 0 <= i <= 3 ->
  exists lut tab, aget luts i = JOk lut /\ aget tabs i = JOk tab /\ slot_ok lut tab.
Proof.
  intros F L Hi. assert (L2 : length luts = length tabs) by (clear - F; induction F; cbn [length]; congruence).
  assert (X : (Z.to_nat i < length luts)%nat) by lia.
  exists (nth (Z.to_nat i) luts []), (nth (Z.to_nat i) tabs ([], [])).
  split; [apply aget_Some; split; [lia|]; apply nth_error_nth'; lia|].
  split; [apply aget_Some; split; [lia|]; apply nth_error_nth'; lia|].
  apply slot_pair_ok. revert X. generalize (Z.to_nat i). clear - F. induction F as [|a b la lb Hab F IH]; intros n X; [cbn [length] in X; lia|].
  destruct n; cbn [nth]; [exact Hab|]. apply IH. cbn [length] in X. lia.
Qed.

Lemma scan_tabs data progressive comps s : scan_ok data progressive comps s ->
  Forall (tabs_ok (sc_dcl s) (sc_acl s) (sc_dct s) (sc_act s) (scan_params progressive (sc_si s) (sc_restart s))) (si_comps (sc_si s)).
Proof.
  intros [_ _ SL _ _ [L1 L2] D A]. eapply Forall_impl; [|exact SL]. intros c [H1 H2].
  destruct (slots_at _ _ _ D L1 H1) as (l1 & t1 & A1 & A2 & A3). destruct (slots_at _ _ _ A L2 H2) as (l2 & t2 & B1 & B2 & B3).
  exists l1, l2, t1, t2. auto 10.
Qed.

Lemma comp_shape a b c : same_shape a b -> In c b -> exists c', In c' a /\ geo c' = geo c /\ length (c_coeffs c') = length (c_coeffs c).
Proof.
  intros [G L] H. apply In_nth with (d := no_comp) in H as (n & Hn & E).
  assert (LL : length a = length b) by (apply (f_equal (@length _)) in G; rewrite !map_length in G; exact G).
  exists (nth n a no_comp). split; [apply nth_In; lia|]. split.
  - rewrite <- E. change geo with geo. rewrite <- !(map_nth geo). rewrite G. reflexivity.
  - specialize (L (Z.of_nat n)). unfold comp_at in L. rewrite Nat2Z.id in L. rewrite <- E. exact L.
Qed.

Lemma frame_shape j j' : frame_ok j -> same_shape (j_comps j) (j_comps j') -> j_width j' = j_width j -> j_height j' = j_height j ->
  j_max_h j' = j_max_h j -> j_max_v j' = j_max_v j -> j_mcu_rows j' = j_mcu_rows j -> j_mcu_cols j' = j_mcu_cols j -> frame_ok j'.
Proof.
  intros [W H N MH MV R C F] SH E1 E2 E3 E4 E5 E6. constructor; rewrite ?E1, ?E2, ?E3, ?E4, ?E5, ?E6; auto.
  - destruct SH as [G _]. apply (f_equal (@length _)) in G. rewrite !map_length in G. lia.
  - intros c HIn. destruct (comp_shape _ _ _ SH HIn) as (c' & H' & G & LC). specialize (F c' H').
    apply (f_equal c_h) in G as G1. apply (f_equal c_v) in G as G2. apply (f_equal c_wb) in G as G3. apply (f_equal c_hb) in G as G4.
    cbn [geo set_coeffs c_h c_v c_wb c_hb] in G1, G2, G3, G4. rewrite <- G1, <- G2, <- G3, <- G4, <- LC. exact F.
Qed.

Lemma scan_comps_shape a b cs : same_shape a b -> scan_comps_ok a cs -> scan_comps_ok b cs.
Proof.
  intros [G _] (H1 & H2 & H3). apply (f_equal (@length _)) in G. rewrite !map_length in G.
  split; [exact H1|]. split; [exact H2|]. rewrite <- G. exact H3.
Qed.

Lemma marker_not_none data a : marker_behind data a -> no_marker data a -> False.
Proof. intros (i & m & H1 & H2 & H3 & H4) N. apply H4. exact (N i m H1 H2 H3). Qed.

Lemma piece_sl data a out : sl data a out -> piece data a (a + Z.of_nat (length out)) = out.
Proof.
  intros (pre & rest & -> & ->). unfold piece. rewrite Nat2Z.id, skipn_app_exact.
  replace (Z.to_nat _) with (length out) by lia. apply firstn_app_exact.
Qed.

Lemma read_script_ok data progressive : bytes data -> forall l j M,
  frame_ok j -> masks_ok M -> coefs_inv M (j_comps j) -> Forall (scan_ok data progressive (j_comps j)) l ->
  match read_script data progressive j M l with
  | JUB => False
  | JErr => True
  | JOk (jF, recs) =>
      length recs = length l /\ same_image j jF /\ same_shape (j_comps j) (j_comps jF)
      /\ agreeM M (j_comps j) (j_comps jF) /\ (exists MF, coefs_inv MF (j_comps jF))
      /\ exists pb, j_padding jF = j_padding j ++ map b2z pb
         /\ j_zero_pad jF = (j_zero_pad j || negb (forallb (fun b => b) pb))%bool
         /\ (Forall (fun e => marker_behind data (snd e)) recs -> forall zp tail,
             (zp = false -> forallb (fun b => b) pb = true) ->
             exists outs, write_script jF progressive l recs (padsof zp (map b2z pb ++ tail)) = JOk (outs, padsof zp tail)
               /\ outs = map (fun e => piece data (sc_pos (fst e)) (snd (snd e))) (combine l recs))
  end.
Proof.
  intros Y l. induction l as [|s l IH]; intros j M FR HM CI FS.
  - cbn [read_script]. split; [reflexivity|]. split; [repeat split|]. split; [apply same_shape_refl|]. split; [apply agreeM_refl|].
    split; [exists M; exact CI|]. exists []. cbn [map forallb negb]. rewrite app_nil_r, orb_false_r. split; [reflexivity|]. split; [reflexivity|].
    intros _ zp tail _. exists []. split; reflexivity.
  - cbn [read_script]. cbv zeta. pose proof (Forall_inv FS) as SO. pose proof (Forall_inv_tail FS) as FS'.
    pose proof (scan_tabs _ _ _ _ SO) as TA. destruct SO as [HP SC SLO BND BTS FOUR SD SA].
    set (p := scan_params progressive (sc_si s) (sc_restart s)) in *.
    assert (Hs : 0 <= sp_ss p <= sp_se p /\ sp_se p <= 63).
    { destruct progressive; cbn [p scan_params sp_ss sp_se]; [apply BND; reflexivity|lia]. }
    assert (Hal : 0 <= sp_al p <= 15).
    { destruct progressive; cbn [p scan_params sp_al]; [apply BTS; reflexivity|lia]. }
    assert (CB4 : Forall (fun s => 0 <= cs_comp s < 4) (si_comps (sc_si s))).
    { eapply Forall_impl; [|exact (proj2 (proj2 SC))]. intros c H. cbv beta in H. pose proof (fr_n _ FR). lia. }
    pose proof (prog_check_ok p Hal (proj1 Hs) (proj2 Hs) (si_comps (sc_si s)) M HM (proj1 (proj2 SC)) CB4) as PK.
    destruct (prog_check p (si_comps (sc_si s)) M) as [M'| |] eqn:PC; cbn [jbind]; [|exact Logic.I|exact PK]. clear PK.
    pose proof (read_scan_ok data (sc_dcl s) (sc_acl s) (sc_dct s) (sc_act s) progressive (sc_si s) (sc_restart s) j (sc_pos s) M M'
      Y HP FR SC (proj1 Hs) (proj2 Hs) Hal HM CI PC TA) as RK. fold p in RK.
    destruct (read_scan_data data (sc_dcl s) (sc_acl s) j p (sc_pos s)) as [[r pos']| |]; cbn [jbind]; [|exact Logic.I|exact RK].
    destruct RK as (pb & EP & EZ & Hpos & SH & HM' & CI' & BACK & WR).
    assert (FR' : frame_ok (with_scan j r)) by (apply (frame_shape j); auto).
    assert (FS2 : Forall (scan_ok data progressive (j_comps (with_scan j r))) l).
    { eapply Forall_impl; [|exact FS']. intros s' [Q1 Q2 Q3 Q4 Q5 Q6 Q7 Q8]. constructor; auto. apply (scan_comps_shape (j_comps j)); auto. }
    specialize (IH (with_scan j r) M' FR' HM' CI' FS2).
    destruct (read_script data progressive (with_scan j r) M' l) as [[jF recs]| |]; cbn [jbind]; [|exact Logic.I|exact IH].
    destruct IH as (LR & SIM & SHF & AG & [MF CIF] & pb2 & EP2 & EZ2 & W2).
    cbn [with_scan j_comps j_padding j_zero_pad] in *.
    split; [cbn [length]; congruence|]. split; [exact SIM|]. split; [exact (same_shape_trans _ _ _ SH SHF)|].
    split; [apply BACK; exact AG|]. split; [exists MF; exact CIF|]. exists (pb ++ pb2).
    split; [rewrite EP2, EP, map_app, app_assoc; reflexivity|].
    split; [rewrite EZ2, EZ, forallb_app; destruct (j_zero_pad j), (forallb _ pb), (forallb _ pb2); reflexivity|].
    intros FM zp tail HZ. rewrite forallb_app in HZ. pose proof (Forall_inv FM) as M1. pose proof (Forall_inv_tail FM) as FM'. cbn [snd] in M1.
    destruct WR as [NM|WR]; [exfalso; exact (marker_not_none _ _ M1 NM)|].
    destruct (WR jF MF zp (map b2z pb2 ++ tail) (recorded_scan (sc_si s) r)) as (out & EW & SLO2 & EPos); auto.
    { intros Ez. specialize (HZ Ez). apply andb_true_iff in HZ. tauto. }
    destruct (W2 FM' zp tail) as (outs & EW2 & EO); [intros Ez; specialize (HZ Ez); apply andb_true_iff in HZ; tauto|].
    exists (out :: outs). cbn [write_script]. rewrite map_app, <- app_assoc, EW. cbn [jbind]. rewrite EW2. cbn [jbind].
    split; [reflexivity|]. cbn [combine map fst snd]. rewrite EO. f_equal. rewrite EPos. symmetry. apply piece_sl. exact SLO2.
Qed.

Lemma mask_nothing ci k : maskat nothing_read ci k = 0.
Proof.
  unfold maskat, nothing_read. destruct (nth_in_or_default (Z.to_nat ci) (repeat (repeat 0 64) 4) []) as [H|H].
  - apply repeat_spec in H. rewrite H. destruct (nth_in_or_default (Z.to_nat k) (repeat 0 64) 0) as [H2|H2]; [apply repeat_spec in H2; exact H2|exact H2].
  - rewrite H. destruct (Z.to_nat k); reflexivity.
Qed.

Lemma zat_zero k : zat (repeat 0 64) k = 0.
Proof. unfold zat. destruct (nth_in_or_default (Z.to_nat (nat_at k)) (repeat 0 64) 0) as [H|H]; [apply repeat_spec in H; exact H|exact H]. Qed.

Lemma blank_inv j : blank j -> coefs_inv nothing_read (j_comps j).
Proof.
  intros (_ & _ & F) cb [H1 H2].
  assert (E : blk (j_comps j) cb = repeat 0 64).
  { rewrite Forall_forall in F. assert (HI : In (comp_at (j_comps j) (fst cb)) (j_comps j)) by (apply nth_In; lia).
    specialize (F _ HI). rewrite Forall_forall in F. apply F. apply nth_In. lia. }
  rewrite E. split; [reflexivity|]. intros k Hk. rewrite mask_nothing, zat_zero. split; [reflexivity|]. split; [intros; apply Z.divide_0_r|].
  unfold i16. split; lia.
Qed.

Lemma masks_nothing : masks_ok nothing_read.
Proof. split; [reflexivity|]. unfold nothing_read. apply Forall_forall. intros l H. apply repeat_spec in H. subst l. split; [reflexivity|].
  apply Forall_forall. intros m H. apply repeat_spec in H. lia. Qed.

Lemma scripts data progressive l j : bytes data -> frame_ok j -> blank j -> Forall (scan_ok data progressive (j_comps j)) l ->
  read_script data progressive j nothing_read l <> JUB
  /\ forall jF recs, read_script data progressive j nothing_read l = JOk (jF, recs) ->
     Forall (fun e => marker_behind data (snd e)) recs ->
     length recs = length l
     /\ write_script jF progressive l recs (if j_zero_pad jF then Some (j_padding jF) else None)
        = JOk (map (fun e => piece data (sc_pos (fst e)) (snd (snd e))) (combine l recs),
               if j_zero_pad jF then Some [] else None).
Proof.
  intros Y FR BL FS. pose proof (read_script_ok data progressive Y l j nothing_read FR masks_nothing (blank_inv j BL) FS) as H.
  destruct (read_script data progressive j nothing_read l) as [[jF0 recs0]| |].
  - split; [discriminate|]. intros jF recs E FM. injection E as <- <-.
    destruct H as (LR & _ & _ & _ & _ & pb & EP & EZ & W). split; [exact LR|].
    destruct BL as (B1 & B2 & _). rewrite B1 in EP. rewrite B2 in EZ. cbn [app orb] in EP, EZ.
    destruct (W FM (j_zero_pad jF0) []) as (outs & EW & EO).
    + intros Hz. rewrite Hz in EZ. destruct (forallb _ pb); [reflexivity|discriminate].
    + rewrite app_nil_r, <- EP in EW. unfold padsof in EW. rewrite EW, EO. reflexivity.
  - split; [discriminate|]. intros; discriminate.
  - contradiction.
Qed.

(** * Theorems *)

(** Sequential scans: reading never leaves an array, and whatever coded data were read, the
    writer, given the decoded coefficients and what was recorded, produces exactly the same bytes for every scan. *)
Theorem C36_sequential_scans data l j : bytes data -> frame_ok j -> blank j -> Forall (scan_ok data false (j_comps j)) l ->
  read_script data false j nothing_read l <> JUB
  /\ forall jF recs, read_script data false j nothing_read l = JOk (jF, recs) ->
     Forall (fun e => marker_behind data (snd e)) recs ->
     length recs = length l
     /\ write_script jF false l recs (if j_zero_pad jF then Some (j_padding jF) else None)
        = JOk (map (fun e => piece data (sc_pos (fst e)) (snd (snd e))) (combine l recs),
               if j_zero_pad jF then Some [] else None).
Proof. exact (scripts data false l j). Qed.
Print Assumptions C36_sequential_scans.

(** Progressive scans: the same for every scan script the reader accepts; the writer only has
    the final coefficients. *)
Theorem C37_progressive_scans data l j : bytes data -> frame_ok j -> blank j -> Forall (scan_ok data true (j_comps j)) l ->
  read_script data true j nothing_read l <> JUB
  /\ forall jF recs, read_script data true j nothing_read l = JOk (jF, recs) ->
     Forall (fun e => marker_behind data (snd e)) recs ->
     length recs = length l
     /\ write_script jF true l recs (if j_zero_pad jF then Some (j_padding jF) else None)
        = JOk (map (fun e => piece data (sc_pos (fst e)) (snd (snd e))) (combine l recs),
               if j_zero_pad jF then Some [] else None).
Proof. exact (scripts data true l j). Qed.
Print Assumptions C37_progressive_scans.

(** * Non-vacuity: a 16x16 image of four blocks *)

Definition ex_dc_counts : list Z := [0; 0; 0; 0; 13; 0; 0; 0; 0; 0; 0; 0; 0; 0; 0; 0; 0].
Definition ex_dc_values : list Z := [0; 1; 2; 3; 4; 5; 6; 7; 8; 9; 10; 11; 256] ++ repeat 0 244.
Definition ex_ac_counts : list Z := [0; 0; 0; 0; 8; 9; 0; 0; 0; 0; 0; 0; 0; 0; 0; 0; 0].
Definition ex_ac_values : list Z := [0; 1; 2; 3; 17; 33; 240; 16; 32; 4; 5; 49; 65; 18; 50; 209; 256] ++ repeat 0 240.

Definition lut_of (counts values : list Z) : list (Z * Z) :=
  match build_lut counts values (prepare_lut (65536 - kraft (code_lens counts)) lut_init) with JOk l => l | _ => [] end.
Definition tab_of (counts values : list Z) (slot : Z) : codetab :=
  match build_codes (mkHC counts values slot true) (repeat 0 256, repeat 0 256) with JOk t => t | _ => ([], []) end.

Definition ex_slots (counts values : list Z) := lut_of counts values :: repeat lut_init 3.
Definition ex_tabs (counts values : list Z) (slot : Z) := tab_of counts values slot :: repeat (repeat 0 256, repeat 0 256) 3.

Definition ex_scan (ss se ah al pos : Z) : scan :=
  mkScan (mkSI ss se ah al [mkCS 0 0 0] [] []) 0 pos (ex_slots ex_dc_counts ex_dc_values) (ex_slots ex_ac_counts ex_ac_values)
    (ex_tabs ex_dc_counts ex_dc_values 0) (ex_tabs ex_ac_counts ex_ac_values 16).

Definition ex_frame : jpeg :=
  mkJpeg 16 16 0 1 1 2 2 0 [] [] [] [] [mkComp 1 1 1 0 2 2 (repeat (repeat 0 64) 4)] [] [] [] [] false [].

(** Extra zero runs in the third block, padding bits not all ones. *)
Definition ex_seq_data : list Z := [0] ++ [110; 72; 102; 107; 221; 146; 138; 0; 102; 0; 5] ++ [255; 217].
(** DC, AC with an end-of-band run that is split, DC refinement, AC refinement. *)
Definition ex_prog_data : list Z :=
  [0] ++ [94; 51; 32; 31] ++ [255; 218] ++ [16; 78; 224] ++ [255; 218] ++ [143] ++ [255; 218] ++ [107; 53; 234; 112; 63] ++ [255; 217].

Definition ex_seq : list scan := [ex_scan 0 63 0 0 1].
Definition ex_prog : list scan := [ex_scan 0 0 0 1 1; ex_scan 1 63 0 1 7; ex_scan 0 0 1 0 12; ex_scan 1 63 1 0 15].

Lemma ex_valid : huff_valid ex_dc_counts ex_dc_values /\ huff_valid ex_ac_counts ex_ac_values.
Proof.
  split; constructor.
  - reflexivity.
  - repeat constructor; lia.
  - vm_compute. lia.
  - reflexivity.
  - vm_compute. discriminate.
  - repeat (constructor; [vm_compute; split; [discriminate|reflexivity]|]). constructor.
  - change (firstn _ _) with [0; 1; 2; 3; 4; 5; 6; 7; 8; 9; 10; 11]. repeat constructor; cbn [In]; lia.
  - reflexivity.
  - reflexivity.
  - repeat constructor; lia.
  - vm_compute. lia.
  - reflexivity.
  - vm_compute. discriminate.
  - repeat (constructor; [vm_compute; split; [discriminate|reflexivity]|]). constructor.
  - change (firstn _ _) with [0; 1; 2; 3; 17; 33; 240; 16; 32; 4; 5; 49; 65; 18; 50; 209]. repeat constructor; cbn [In]; lia.
  - reflexivity.
Qed.

Lemma ex_pairs counts values slot : huff_valid counts values -> Forall2 slot_pair (ex_slots counts values) (ex_tabs counts values slot).
Proof.
  intros V. unfold ex_slots, ex_tabs.
  assert (P0 : slot_pair lut_init (repeat 0 256, repeat 0 256)) by (constructor; apply repeat_length).
  constructor; [|repeat (constructor; [exact P0|]); constructor].
  assert (S0 : lut_sane lut_init) by (split; [apply repeat_length|reflexivity]).
  destruct (huff_pair counts values slot true lut_init (repeat 0 256) (repeat 0 256) V S0 (repeat_length _ _) (repeat_length _ _)) as (lut & d & k & B & C & _).
  unfold lut_of, tab_of. rewrite B, C. exact (pair_loaded counts values slot true lut_init _ lut (d, k) P0 V B C).
Qed.

Lemma ex_scan_ok data progressive ss se ah al pos : 1 <= pos <= Z.of_nat (length data) -> 0 <= ss <= se -> se <= 63 ->
  0 <= ah <= 15 -> 0 <= al <= 15 -> scan_ok data progressive (j_comps ex_frame) (ex_scan ss se ah al pos).
Proof.
  intros H1 H2 H3 H4 H5. destruct ex_valid as [V1 V2]. constructor.
  - exact H1.
  - split; [discriminate|]. split; [repeat constructor; intros []|]. repeat constructor; cbn; lia.
  - repeat constructor; cbn; lia.
  - intros _. split; [exact H2|exact H3].
  - intros _. split; [exact H4|exact H5].
  - split; reflexivity.
  - apply ex_pairs. exact V1.
  - apply ex_pairs. exact V2.
Qed.

Example ex_hypotheses : bytes ex_seq_data /\ bytes ex_prog_data /\ frame_ok ex_frame /\ blank ex_frame
  /\ Forall (scan_ok ex_seq_data false (j_comps ex_frame)) ex_seq /\ Forall (scan_ok ex_prog_data true (j_comps ex_frame)) ex_prog.
Proof.
  split; [repeat constructor; lia|]. split; [repeat constructor; lia|]. split.
  { constructor; try reflexivity; try (cbn; lia). intros c [<-|[]]. cbn. lia. }
  split; [split; [reflexivity|]; split; [reflexivity|]; repeat constructor|].
  split; repeat (constructor; [apply ex_scan_ok; cbn; lia|]); constructor.
Qed.

Definition summary (r : jres (jpeg * list (scaninfo * Z))) :=
  match r with
  | JOk (jF, recs) => (flat_map c_coeffs (j_comps jF), j_zero_pad jF, j_padding jF, map (fun e => (si_resets (fst e), si_zero_runs (fst e), snd e)) recs)
  | _ => ([], false, [], [])
  end.

Definition ex_blocks : list (list Z) :=
  let z := repeat 0 64 in
  [upd (upd (upd z 0 57) 1 (-3)) 63 1; upd (upd (upd z 0 (-20)) 9 2) 16 (-1); upd z 0 (-20); upd z 0 (-20)].

Example C36_case : summary (read_script ex_seq_data false ex_frame nothing_read ex_seq)
  = (ex_blocks, true, [0; 1; 0; 1], [([], [(2, 2)], 12)]).
Proof. vm_compute. reflexivity. Qed.

Example C37_case : summary (read_script ex_prog_data true ex_frame nothing_read ex_prog)
  = (ex_blocks, false, repeat 1 15, [([], [], 5); ([3], [], 10); ([], [], 13); ([3], [], 20)]).
Proof. vm_compute. reflexivity. Qed.
